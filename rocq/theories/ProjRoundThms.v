(** Theorems about the rounding errors of Response.project (response.py:314-411). *)
From Coq Require Import List Arith Lia Bool ZArith QArith Qreals Reals Lra Sorting.Sorted Sorting.Permutation.
From Flocq Require Import Core.
From Verif Require Import Base BaseLemmas Num Toy Interp InterpReal Spec Utils Sed Response ResponseProofs
  ResponseObj ResponseFwhm LinInterp ResponseEx RoundSpec ProjRoundSpec.
Import ListNotations.
Local Open Scope R_scope.
(* STATEMENTS *)
From Verif Require Import ResponseThms RoundProofs RoundThms PipeEx.

Lemma insert_std u N (x : R) l : std_model u N -> @insert R N R (fun x => x) x l = @insert R Num_R R (fun x => x) x l.
Proof. intro HN. induction l as [|y l IH]; cbn [insert]; auto. rewrite (std_lt _ _ HN), IH. reflexivity. Qed.
Lemma isort_std u N l : std_model u N -> @isort R N R (fun x => x) l = @isort R Num_R R (fun x => x) l.
Proof. intro HN. induction l as [|y l IH]; cbn [isort]; auto. rewrite IH. eapply insert_std; eauto. Qed.
Lemma dedup_std u N l : std_model u N -> @dedup R N l = @dedup R Num_R l.
Proof.
  intro HN. induction l as [|x [|y l] IH]; cbn [dedup] in *; auto. unfold same in *. rewrite !(std_lt _ _ HN). rewrite IH. reflexivity.
Qed.
Lemma grid_std u N rw sw : std_model u N -> @grid_of R N rw sw = @grid_of R Num_R rw sw.
Proof.
  intro HN. unfold grid_of, unique, in_band, geb. rewrite (isort_std u N) by auto. rewrite (dedup_std u N) by auto. rewrite (std_0 _ _ HN).
  do 4 f_equal. f_equal. apply map_ext. intro w. rewrite !(std_le _ _ HN). reflexivity.
Qed.
Lemma band_std u N rw sw : std_model u N -> @in_band R N rw sw = @in_band R Num_R rw sw.
Proof. intro HN. unfold in_band, geb. rewrite (std_0 _ _ HN). apply map_ext. intro w. rewrite !(std_le _ _ HN). reflexivity. Qed.
Lemma ieval1_std u N cub xs ys t : std_model u N -> @ieval1 R N cub xs ys t = @ieval1 R Num_R cub xs ys t.
Proof. intro HN. unfold ieval1. rewrite (out_of_std u N) by auto. rewrite (std_0 _ _ HN). reflexivity. Qed.
Lemma zip_map {A B C D} (f : B -> C -> D) (p : A -> B) (q : A -> C) l : zip f (map p l) (map q l) = map (fun t => f (p t) (q t)) l.
Proof. induction l; cbn; f_equal; auto. Qed.
Lemma integrand_map N (p q : R -> R) g : @integrand R N (map p g) (map q g) g = map (fun t => @nmul R N (@nmul R N (p t) (q t)) t) g.
Proof. unfold integrand. rewrite zip_map. rewrite <- (map_id g) at 2. apply zip_map. Qed.

Section Sum.
  Variables (u : R) (N : Num R).
  Hypotheses (Hu : 0 <= u < 1) (HN : std_model u N) (HA : std_ab u N).

  (** The computed sum with one factor per term. *)
  Fixpoint factored (h : R -> R) (g ts : list R) : R :=
    match g, ts with
    | a :: ((b :: _) as r), t :: ts => (h b - h a) * (a + b) / 2 * t + factored h r ts
    | _, _ => 0
    end.
  Lemma swapped_factored h g : exists ts, length ts = (length g - 1)%nat /\ Forall (fac u (length g + 3)) ts /\
    @swapped R N g (map h g) = factored h g ts.
  Proof.
    unfold swapped, trapz, nsum. rewrite (std_0 _ _ HN).
    destruct (sum_fac u Hu N HN (@trapz_terms R N g (map h g)) 0) as (t0 & ts & _ & Fs & L & ->). rewrite Rmult_0_l, Rplus_0_l.
    assert (Lt : length (@trapz_terms R N g (map h g)) = (length g - 1)%nat).
    { clear. induction g as [|a [|b g] IH]; cbn in *; auto. rewrite IH. lia. }
    rewrite Lt in *.
    assert (G : forall m, Forall (fac u m) ts -> exists ts', length ts' = (length g - 1)%nat /\ Forall (fac u (m + 4)) ts' /\
      fold_right Rplus 0 (zip Rmult (@trapz_terms R N g (map h g)) ts) = factored h g ts').
    { clear Fs Lt. intro m. revert ts L. induction g as [|a g IH]; intros ts L Fs; [exists []; repeat split; auto|].
      destruct g as [|b g]; [exists []; repeat split; auto|].
      destruct ts as [|t ts]; [discriminate|]. inversion Fs as [|? ? Ft Fs']; subst. cbn [length Nat.sub] in L.
      destruct (IH ts) as (ts' & L' & F' & E'); [cbn in *; lia|auto|].
      cbn [map trapz_terms zip fold_right] in E' |- *. rewrite E'. rewrite (std_lit2 _ _ HA).
      destruct (rel_fac _ Hu _ _ (std_sub _ _ HN (h b) (h a))) as (t1 & F1 & ->).
      destruct (rel_fac _ Hu _ _ (std_add _ _ HN b a)) as (t2 & F2 & ->).
      destruct (rel_fac _ Hu _ _ (std_mul _ _ HN ((h b - h a) * t1) ((b + a) * t2))) as (t3 & F3 & ->).
      destruct (rel_fac _ Hu _ _ (std_div _ _ HN ((h b - h a) * t1 * ((b + a) * t2) * t3) 2 ltac:(lra))) as (t4 & F4 & ->).
      exists (t * (t1 * (t2 * (t3 * t4))) :: ts'). split; [cbn in *; lia|]. split.
      - constructor; auto. apply fac_mul; auto. change 4%nat with (1 + (1 + (1 + 1)))%nat. repeat apply fac_mul; auto.
      - cbn [factored]. f_equal. field. }
    destruct (G _ Fs) as (ts' & L' & F' & E'). exists ts'. split; auto. split; auto.
    destruct g as [|a g]; [destruct ts'; [constructor|discriminate]|].
    replace (length (a :: g) + 3)%nat with (length (a :: g) - 1 + 4)%nat by (cbn; lia). exact F'.
  Qed.

  Lemma boundary_factored h g : g <> [] -> boundary_minus h g = factored h g (repeat 1 (length g)).
  Proof.
    clear. unfold boundary_minus. induction g as [|a g IH]; [congruence|intros _]. destruct g as [|b g]; [cbn; lra|].
    specialize (IH ltac:(discriminate)). cbn [trapezoid length repeat factored hd] in *. change (last (a :: b :: g) 0) with (last (b :: g) 0).
    rewrite <- IH. field.
  Qed.
  Lemma factored_err h h' k g ts m : StronglySorted Rlt g -> Forall (fun t => 0 < t) g -> (length g <= S (length ts))%nat -> Forall (fac u m) ts ->
    (forall t, In t g -> Rabs (h' t - h t) <= k * Rabs (h t)) ->
    Rabs (factored h' g ts - factored h' g (repeat 1 (length g))) <= growth u m * (swing h g + k * spread h g).
  Proof.
    clear HN HA N. revert ts. induction g as [|a g IH]; intros ts Hs Hp L Fs Hk; [cbn; rewrite Rminus_0_r, Rabs_R0; lra|].
    destruct g as [|b g]; [destruct ts; cbn; rewrite Rminus_0_r, Rabs_R0; lra|].
    destruct ts as [|t ts]; [cbn in L; lia|]. inversion Fs as [|? ? Ft Fs']; subst. inversion Hs as [|? ? Hs' Hf]; subst.
    inversion Hp as [|? ? Pa Hp']; subst. inversion Hp' as [|? ? Pb _]; subst.
    specialize (IH ts Hs' Hp' ltac:(cbn in *; lia) Fs' ltac:(intros x Hx; apply Hk; right; auto)).
    change (length (a :: b :: g)) with (S (length (b :: g))). cbn [repeat].
    change (factored h' (a :: b :: g) (t :: ts)) with ((h' b - h' a) * (a + b) / 2 * t + factored h' (b :: g) ts).
    change (factored h' (a :: b :: g) (1 :: repeat 1 (length (b :: g)))) with
      ((h' b - h' a) * (a + b) / 2 * 1 + factored h' (b :: g) (repeat 1 (length (b :: g)))).
    change (swing h (a :: b :: g)) with (Rabs (h b - h a) * (a + b) / 2 + swing h (b :: g)).
    change (spread h (a :: b :: g)) with ((Rabs (h b) + Rabs (h a)) * (a + b) / 2 + spread h (b :: g)).
    set (X := factored h' (b :: g) ts) in *. set (Y := factored h' (b :: g) (repeat 1 (length (b :: g)))) in *.
    set (Z := swing h (b :: g)) in *. set (V := spread h (b :: g)) in *. clearbody X Y Z V.
    replace ((h' b - h' a) * (a + b) / 2 * t + X - ((h' b - h' a) * (a + b) / 2 * 1 + Y)) with
      ((h' b - h' a) * ((a + b) / 2) * (t - 1) + (X - Y)) by field.
    eapply Rle_trans; [apply Rabs_triang|]. set (c := (a + b) / 2). assert (Pc : 0 < c) by (unfold c; lra).
    rewrite (Rabs_mult (_ * c) (t - 1)), (Rabs_mult _ c), (Rabs_pos_eq c) by lra. unfold c. clear c Pc.
    pose proof (fac_err _ Hu _ _ Ft) as Et. rewrite <- growth_pow in Et. pose proof (growth_pos u Hu m) as Gm.
    pose proof (Hk a ltac:(cbn; auto)) as Ka. pose proof (Hk b ltac:(cbn; auto)) as Kb.
    assert (D : Rabs (h' b - h' a) <= Rabs (h b - h a) + k * (Rabs (h b) + Rabs (h a))).
    { replace (h' b - h' a) with ((h b - h a) + ((h' b - h b) + - (h' a - h a))) by ring.
      eapply Rle_trans; [apply Rabs_triang|]. pose proof (Rabs_triang (h' b - h b) (- (h' a - h a))). rewrite Rabs_Ropp in *. lra. }
    assert (P : Rabs (h' b - h' a) * ((a + b) / 2) * Rabs (t - 1) <= (Rabs (h b - h a) + k * (Rabs (h b) + Rabs (h a))) * ((a + b) / 2) * growth u m).
    { apply Rmult_le_compat; auto using Rabs_pos.
      - apply Rmult_le_pos; [apply Rabs_pos|lra].
      - apply Rmult_le_compat_r; [lra|auto]. }
    lra.
  Qed.
  Lemma trapezoid_le h1 h2 g : StronglySorted Rlt g -> (forall t, In t g -> Rabs (h1 t) <= h2 t) -> Rabs (trapezoid h1 g) <= trapezoid h2 g.
  Proof.
    clear. induction g as [|a g IH]; intros Hs Hk; [cbn; rewrite Rabs_R0; lra|]. destruct g as [|b g]; [cbn; rewrite Rabs_R0; lra|].
    inversion Hs as [|? ? Hs' Hf]; subst. inversion Hf as [|? ? Hab _]; subst. specialize (IH Hs' ltac:(intros x Hx; apply Hk; right; auto)).
    cbn [trapezoid] in *. eapply Rle_trans; [apply Rabs_triang|]. apply Rplus_le_compat; auto.
    unfold Rdiv. rewrite !Rabs_mult, (Rabs_pos_eq (b - a)), (Rabs_pos_eq (/ 2)) by lra.
    apply Rmult_le_compat_r; [lra|]. apply Rmult_le_compat_l; [lra|]. pose proof (Hk a ltac:(cbn; auto)). pose proof (Hk b ltac:(cbn; auto)).
    eapply Rle_trans; [apply Rabs_triang|]. lra.
  Qed.
  Lemma trapezoid_scale h c g : trapezoid (fun t => c * h t) g = c * trapezoid h g.
  Proof. clear. induction g as [|a [|b g] IH]; cbn in *; try lra. Qed.
  Lemma trapezoid_sub h1 h2 g : trapezoid (fun t => h1 t - h2 t) g = trapezoid h1 g - trapezoid h2 g.
  Proof. clear. induction g as [|a [|b g] IH]; cbn in *; try lra. Qed.
  Lemma bulk_err h h' k g : g <> [] -> StronglySorted Rlt g -> Forall (fun t => 0 < t) g -> 
    (forall t, In t g -> Rabs (h' t - h t) <= k * Rabs (h t)) -> Rabs (boundary_minus h' g - boundary_minus h g) <= k * bulk h g.
  Proof.
    clear. intros Hg Hs Hp Hk. unfold boundary_minus, bulk.
    pose proof (trapezoid_le (fun t => h' t - h t) (fun t => k * Rabs (h t)) g Hs Hk) as T. rewrite trapezoid_sub, trapezoid_scale in T.
    assert (I1 : In (last g 0) g) by (destruct (exists_last Hg) as (l & x & ->); rewrite last_last; apply in_or_app; right; left; auto).
    assert (I2 : In (hd 0 g) g) by (destruct g; [congruence|left; auto]).
    rewrite Forall_forall in Hp. pose proof (Hk _ I1) as K1. pose proof (Hk _ I2) as K2. pose proof (Hp _ I1) as P1. pose proof (Hp _ I2) as P2.
    set (x := last g 0) in *. set (y := hd 0 g) in *. clearbody x y.
    set (A := trapezoid h' g) in *. set (B := trapezoid h g) in *. set (C := trapezoid _ g) in *. clearbody A B C.
    replace (x * h' x - y * h' y - A - (x * h x - y * h y - B)) with (x * (h' x - h x) + (- (y * (h' y - h y)) + - (A - B))) by ring.
    eapply Rle_trans; [apply Rabs_triang|]. pose proof (Rabs_triang (- (y * (h' y - h y))) (- (A - B))) as Q. rewrite !Rabs_Ropp in Q.
    rewrite Rabs_mult. rewrite Rabs_mult in Q. rewrite (Rabs_pos_eq x) by lra. rewrite (Rabs_pos_eq y) in Q by lra.
    apply (Rmult_le_compat_l x) in K1; [|lra]. apply (Rmult_le_compat_l y) in K2; [|lra]. lra.
  Qed.
  Lemma swapped_err h h' g : g <> [] -> StronglySorted Rlt g -> Forall (fun t => 0 < t) g -> 
    (forall t, In t g -> exists f, fac u 7 f /\ h' t = h t * f) -> Rabs (@swapped R N g (map h' g) - boundary_minus h g) <= sum_error u h g.
  Proof.
    intros Hg Hs Hp Hf. assert (Hk : forall t, In t g -> Rabs (h' t - h t) <= growth u 7 * Rabs (h t)).
    { intros t Ht. destruct (Hf t Ht) as (f & F & ->). replace (h t * f - h t) with (h t * (f - 1)) by ring. rewrite Rabs_mult, Rmult_comm.
      apply Rmult_le_compat_r; [apply Rabs_pos|]. apply fac_err; auto. }
    destruct (swapped_factored h' g) as (ts & L & F & ->).
    pose proof (factored_err h h' (growth u 7) g ts _ Hs Hp ltac:(lia) F Hk) as E1. rewrite <- boundary_factored in E1 by auto.
    pose proof (bulk_err h h' (growth u 7) g Hg Hs Hp Hk) as E2. unfold sum_error.
    set (a := factored _ _ _) in *. set (b := boundary_minus h' g) in *. set (c := boundary_minus h g) in *.
    replace (a - c) with ((a - b) + (b - c)) by ring. eapply Rle_trans; [apply Rabs_triang|]. lra.
  Qed.
  Lemma ab_std t : 0 < t -> exists f, fac u 5 f /\ @sed_ab1 R N t = ab_flux t * f.
  Proof.
    intro Ht. unfold sed_ab1, nsq.
    destruct (rel_fac _ Hu _ _ (std_jy _ _ HA)) as (t1 & F1 & ->). destruct (rel_fac _ Hu _ _ (std_c _ _ HA)) as (t2 & F2 & ->).
    destruct (rel_fac _ Hu _ _ (std_mul _ _ HN t t)) as (t3 & F3 & ->). pose proof (fac_pos _ Hu _ _ F3) as P3.
    assert (Pd : t * t * t3 <> 0) by (apply Rmult_integral_contrapositive_currified; [apply Rmult_integral_contrapositive_currified|]; lra).
    match goal with |- context [@ndiv R N ?a ?b] => destruct (rel_fac _ Hu _ _ (std_div _ _ HN a b Pd)) as (t4 & F4 & ->) end.
    match goal with |- context [@nmul R N ?a ?b] => destruct (rel_fac _ Hu _ _ (std_mul _ _ HN a b)) as (t5 & F5 & ->) end.
    exists (t1 * (t2 * (/ t3 * (t4 * t5)))). split.
    - change 5%nat with (1 + (1 + (1 + (1 + 1))))%nat. repeat apply fac_mul; auto. apply fac_inv; auto.
    - unfold ab_flux, Q2R. cbn [Qnum Qden]. field. split; lra.
  Qed.
End Sum.

Lemma quotient_err u n d n' d' en ed f : 0 <= u < 1 -> fac u 2 f -> Rabs (n' - n) <= en -> Rabs (d' - d) <= ed -> ed < Rabs d ->
  Rabs (n' / d' * f - n / d) <= (1 + growth u 2) * (en + Rabs (n / d) * ed) / (Rabs d - ed) + growth u 2 * Rabs (n / d).
Proof.
  intros Hu F En Ed Hd. pose proof (fac_err _ Hu _ _ F) as E. rewrite <- growth_pow in E. pose proof (growth_pos u Hu 2) as G.
  assert (D' : Rabs d - ed <= Rabs d'). { pose proof (Rabs_triang_inv d d'). rewrite Rabs_minus_sym in H. lra. }
  assert (Hn : d' <> 0) by (intro Z; rewrite Z, Rabs_R0 in D'; lra). 
  assert (Hd0 : d <> 0) by (intro Z; rewrite Z, Rabs_R0 in Hd; pose proof (Rabs_pos (d' - d)); lra).
  set (m := n / d) in *. assert (Q : Rabs (n' / d' - m) <= (en + Rabs m * ed) / (Rabs d - ed)).
  { replace (n' / d' - m) with ((n' - n + - (m * (d' - d))) / d') by (unfold m; field; auto).
    unfold Rdiv at 1. rewrite Rabs_mult, Rabs_inv. apply Rmult_le_compat; auto using Rabs_pos.
    - left. apply Rinv_0_lt_compat. lra.
    - eapply Rle_trans; [apply Rabs_triang|]. rewrite Rabs_Ropp, Rabs_mult.
      pose proof (Rmult_le_compat_l _ _ _ (Rabs_pos m) Ed). lra.
    - apply Rinv_le_contravar; lra. }
  set (q := (en + Rabs m * ed) / (Rabs d - ed)) in *. replace ((1 + growth u 2) * (en + Rabs m * ed) / (Rabs d - ed)) with ((1 + growth u 2) * q) by (unfold q; field; lra).
  replace (n' / d' * f - m) with ((n' / d' - m) * f + m * (f - 1)) by ring. eapply Rle_trans; [apply Rabs_triang|]. rewrite !Rabs_mult.
  pose proof (fac_abs _ Hu _ _ F) as Ef. rewrite (Rmult_comm (growth u 2)). apply Rplus_le_compat.
  - rewrite Rmult_comm. apply Rmult_le_compat; auto using Rabs_pos. unfold growth. lra.
  - apply Rmult_le_compat_l; auto using Rabs_pos.
Qed.

(** Arithmetic with 24-bit significands meets the condition on the literals. *)
Lemma L_C105_model : std_ab (bpow radix2 (-24)) Num_24.
Proof.
  split.
  - change (rnd24 (Q2R (2 # 1)) = 2). replace (Q2R (2 # 1)) with (IZR 1 * bpow radix2 1) by (unfold Q2R; cbn; lra). rewrite rnd24_int by lia. cbn. lra.
  - apply rnd24_rel.
  - apply rnd24_rel.
Qed.
Lemma E_C105_model : 0 <= bpow radix2 (-24) < 1 /\ @nlit R Num_24 (2 # 1) = 2.
Proof. split; [cbn; lra|apply L_C105_model]. Qed.

(** C105.  Maggies computed with rounding against the maggies of exact arithmetic, for the same samples and interpolated values.
    The error of each of the two sums ([sum_error]) has a part proportional to the size of the integrand, and one proportional to its
    changes between neighbouring samples times the wavelength, the price of calling trapezoid(grid, integrand). *)
Lemma L_C105_project :
  forall u (N : Num R) cub (r : resp R) (s : sed R) w yy sw rows g,
    0 <= u < 1 -> std_model u N -> std_ab u N ->
    p_wave r = Some w -> p_interp r = Some {| ix := w; iys := [yy] |} ->
    s_wave s = sw -> s_interp s = Some {| ix := sw; iys := rows |} -> s_nsed s = length rows ->
    w <> [] -> Forall (fun t => 0 < t) w -> StronglySorted Rlt sw -> Forall (fun t => 0 < t) sw -> overlaps w sw -> is_grid w sw g ->
    let light row t := spline cub sw row t * spline cub w yy t * t in
    let ab t := ab_flux t * spline cub w yy t * t in
    let den := boundary_minus ab g in
    sum_error u ab g < Rabs den ->
    exists v v', @project_sed R Num_R cub r s = Ok v /\ @project_sed R N cub r s = Ok v' /\ shp v' = shp v /\
      forall k row, nth_error rows k = Some row ->
        let m := nth k (dat v) 0 in
        m = boundary_minus (light row) g / den /\
        Rabs (nth k (dat v') 0 - m) <=
          (1 + growth u 2) * (sum_error u (light row) g + Rabs m * sum_error u ab g) / (Rabs den - sum_error u ab g) + growth u 2 * Rabs m.
Proof.
  intros u N cub r s w yy sw rows g Hu HN HA Hw Hi Hsw Hsi Hns Hwn Pw Ssw Psw Ho Hg light ab den Hd.
  assert (Pg := grid_pos w sw g Pw Psw Hg). assert (Ng := grid_nonempty w sw g Hwn Hg).
  assert (Pg' : Forall (fun t => 0 < t) g) by (apply Forall_forall; exact Pg).
  assert (Sg := proj1 Hg).
  assert (EB : forall h, @swapped R Num_R g (map h g) = boundary_minus h g) by (intro h; apply boundary_eq; auto).
  assert (EG : @grid_of R N w sw = g) by (rewrite (grid_std u N) by auto; eapply is_grid_unique; [apply grid_spec; auto|auto]).
  assert (EG0 : @grid_of R Num_R w sw = g) by (eapply is_grid_unique; [apply grid_spec; auto|auto]).
  assert (Hin : where_ (@in_band R Num_R w sw) <> []).
  { destruct Ho as (t & Ht & Hb). intro E. apply in_split in Ht as (l1 & l2 & ->).
    assert (I : In (length l1) (where_ (@in_band R Num_R w (l1 ++ t :: l2)))).
    { unfold where_. apply filter_In. split.
      - apply in_seq. unfold in_band. rewrite map_length, app_length. cbn. lia.
      - unfold in_band. rewrite map_app. cbn [map]. rewrite app_nth2; rewrite map_length; [|lia]. rewrite Nat.sub_diag. cbn [nth].
        unfold geb. change (@nleb R Num_R) with Rleb. change (@n0 R Num_R) with 0. rewrite !Rleb_true by lra. reflexivity. }
    rewrite E in I. destruct I. }
  assert (ES : forall N' xs ys t, N' = N \/ N' = Num_R -> @ieval1 R N' cub xs ys t = spline cub xs ys t).
  { intros N' xs ys t [->| ->]; [rewrite (ieval1_std u N) by auto|]; apply spline_eval. }
  set (DN := @swapped R N g (map (fun t => @nmul R N (@nmul R N (@sed_ab1 R N t) (spline cub w yy t)) t) g)).
  set (NN := fun row => @swapped R N g (map (fun t => @nmul R N (@nmul R N (spline cub sw row t) (spline cub w yy t)) t) g)).
  set (rowsN := if Nat.eqb (length rows) 1 then [@ndiv R N (NN (hd [] rows)) DN] else map (fun row => @ndiv R N (@cst R N (NN row)) DN) rows).
  set (rowsR := map (fun row => boundary_minus (light row) g / den) rows).
  assert (PN : @project_sed R N cub r s = Ok (mk (if Nat.eqb (length rows) 1 then [] else [length rows]) rowsN)).
  { unfold project_sed, project_core. rewrite Hw, Hi, Hsw, Hsi, (band_std u N) by auto. destruct (where_ _) eqn:E; [congruence|]. rewrite EG, Hns.
    unfold ieval, reval. cbn [ix iys hd].
    assert (E1 : map (fun ys => map (@ieval1 R N cub sw ys) g) rows = map (fun ys => map (spline cub sw ys) g) rows).
    { apply map_ext. intro ys. apply map_ext. intro t. apply ES; auto. }
    assert (E2 : map (fun t => @ieval1 R N cub w yy t) g = map (spline cub w yy) g) by (apply map_ext; intro t; apply ES; auto).
    rewrite E1, E2. unfold sed_ab. rewrite integrand_map. fold DN. unfold rowsN.
    destruct (Nat.eqb_spec (length rows) 1) as [L|L].
    - destruct rows as [|row rows']; [discriminate|]. cbn [map hd]. rewrite integrand_map. reflexivity.
    - rewrite map_map. do 2 f_equal. apply map_ext. intro row. rewrite integrand_map. reflexivity. }
  assert (PR : @project_sed R Num_R cub r s = Ok (mk (if Nat.eqb (length rows) 1 then [] else [length rows]) rowsR)).
  { unfold project_sed. rewrite Hw, Hi, Hsw, Hsi. rewrite (project_core_real cub w _ sw _ (s_nsed s) Ho Ssw g Hg) by (intros t Ht; specialize (Pg t Ht); lra).
    rewrite Hns. unfold reval. cbn [ix iys hd].
    assert (E2 : forall f : R -> R, map (fun t => f t * @ieval1 R Num_R cub w yy t * t) g = map (fun t => f t * spline cub w yy t * t) g).
    { intro f. apply map_ext. intro t. rewrite ES by auto. reflexivity. }
    rewrite (E2 ab_flux), (EB (fun t => ab_flux t * spline cub w yy t * t)). fold ab den.
    assert (E3 : forall row, @swapped R Num_R g (map (fun t => @ieval1 R Num_R cub sw row t * @ieval1 R Num_R cub w yy t * t) g) = boundary_minus (light row) g).
    { intro row. rewrite <- EB. f_equal. apply map_ext. intro t. rewrite !ES by auto. reflexivity. }
    unfold rowsR. destruct (Nat.eqb_spec (length rows) 1) as [L|L].
    - destruct rows as [|row [|]]; try discriminate. cbn [hd map]. rewrite E3. reflexivity.
    - do 2 f_equal. apply map_ext. intro row. rewrite E3. reflexivity. }
  eexists. eexists. split; [exact PR|]. split; [exact PN|]. split; [reflexivity|]. cbn [dat].
  assert (ED : Rabs (DN - den) <= sum_error u ab g).
  { unfold DN, den. apply (swapped_err u N Hu HN HA ab); auto. intros t Ht.
    destruct (ab_std u N Hu HN HA t (Pg t Ht)) as (f & F & ->).
    match goal with |- context [@nmul R N (ab_flux t * f) ?b] => destruct (rel_fac _ Hu _ _ (std_mul _ _ HN (ab_flux t * f) b)) as (t1 & F1 & ->) end.
    match goal with |- context [@nmul R N ?a ?b] => destruct (rel_fac _ Hu _ _ (std_mul _ _ HN a b)) as (t2 & F2 & ->) end.
    exists (f * (t1 * t2)). split; [change 7%nat with (5 + (1 + 1))%nat; repeat apply fac_mul; auto|unfold ab; ring]. }
  assert (EN : forall row, Rabs (NN row - boundary_minus (light row) g) <= sum_error u (light row) g).
  { intro row. unfold NN. apply (swapped_err u N Hu HN HA (light row)); auto. intros t Ht.
    match goal with |- context [@nmul R N (spline ?a ?b ?c ?d) ?e] => destruct (rel_fac _ Hu _ _ (std_mul _ _ HN (spline a b c d) e)) as (t1 & F1 & ->) end.
    match goal with |- context [@nmul R N ?a ?b] => destruct (rel_fac _ Hu _ _ (std_mul _ _ HN a b)) as (t2 & F2 & ->) end.
    exists (t1 * t2). split; [apply (fac_weak _ Hu 2); [lia|]; change 2%nat with (1 + 1)%nat; apply fac_mul; auto|unfold light; ring]. }
  assert (D0 : DN <> 0).
  { intro Z. rewrite Z in ED. pose proof (Rabs_triang_inv den 0). rewrite Rminus_0_r, Rabs_R0 in *. replace (0 - den) with (- den) in ED by ring. rewrite Rabs_Ropp in ED. lra. }
  intros k row Hk. set (m := nth k rowsR 0).
  assert (Em : m = boundary_minus (light row) g / den).
  { unfold m, rowsR. apply nth_error_nth. rewrite nth_error_map, Hk. reflexivity. }
  split; auto. rewrite Em.
  assert (EX : exists f, fac u 2 f /\ nth k rowsN 0 = NN row / DN * f).
  { unfold rowsN. destruct (Nat.eqb_spec (length rows) 1) as [L|L].
    - destruct rows as [|row' [|]]; try discriminate. destruct k as [|k]; [|destruct k; discriminate]. injection Hk as ->. cbn [nth hd].
      destruct (rel_fac _ Hu _ _ (std_div _ _ HN (NN row) DN D0)) as (t & F & ->). exists t. split; auto. apply (fac_weak _ Hu 1); auto.
    - rewrite (nth_error_nth (map (fun row => @ndiv R N (@cst R N (NN row)) DN) rows) k 0 (x := @ndiv R N (@cst R N (NN row)) DN))
        by (rewrite nth_error_map, Hk; reflexivity).
      destruct (rel_fac _ Hu _ _ (std_cst _ _ HN (NN row))) as (t & F & ->).
      destruct (rel_fac _ Hu _ _ (std_div _ _ HN (NN row * t) DN D0)) as (t' & F' & ->). exists (t * t'). split; [apply (fac_mul _ Hu 1 1); auto|field; auto]. }
  destruct EX as (f & F & ->). apply quotient_err; auto.
Qed.

Lemma last_ge b g : StronglySorted Rlt (b :: g) -> b <= last (b :: g) 0.
Proof.
  intro Hs. inversion Hs as [|? ? _ Hl]; subst. destruct g as [|c g]; [cbn; lra|]. rewrite Forall_forall in Hl.
  assert (I : In (last (b :: c :: g) 0) (c :: g)).
  { change (last (b :: c :: g) 0) with (last (c :: g) 0). destruct (@exists_last _ (c :: g) ltac:(discriminate)) as (l & x & ->). rewrite last_last. apply in_or_app; right; left; auto. }
  specialize (Hl _ I). lra.
Qed.
Lemma bulk_inside h g : g <> [] -> h (hd 0 g) = 0 -> h (last g 0) = 0 -> StronglySorted Rlt g -> (forall t, In t g -> 0 <= h t) ->
  bulk h g = trapezoid h g /\ boundary_minus h g = - trapezoid h g /\ 0 <= trapezoid h g.
Proof.
  intros Hg H0 H1 Hs Hn. unfold bulk, boundary_minus. rewrite H0, H1, Rabs_R0.
  assert (E : forall l, (forall t, In t l -> 0 <= h t) -> trapezoid (fun t => Rabs (h t)) l = trapezoid h l).
  { clear. induction l as [|a l IH]; intro Hn; auto. destruct l as [|b l]; auto. specialize (IH ltac:(intros t Ht; apply Hn; right; auto)).
    change (trapezoid (fun t => Rabs (h t)) (a :: b :: l)) with ((b - a) * (Rabs (h a) + Rabs (h b)) / 2 + trapezoid (fun t => Rabs (h t)) (b :: l)).
    change (trapezoid h (a :: b :: l)) with ((b - a) * (h a + h b) / 2 + trapezoid h (b :: l)).
    rewrite IH, !Rabs_pos_eq by (apply Hn; cbn; auto). reflexivity. }
  rewrite E by auto. pose proof (trapezoid_le (fun _ => 0) h g Hs ltac:(intros t Ht; cbv beta; rewrite Rabs_R0; auto)) as P.
  pose proof (Rabs_pos (trapezoid (fun _ => 0) g)). repeat split; lra.
Qed.
(** For nonnegative integrands and a spectrum sampled beyond both ends of the band, [bulk] is the integral itself, so the error is
    relative: 7 roundings, and n + 3 roundings amplified by the ratio S of [swing] (and the small [spread] term) to the integral. *)
Lemma L_C105_relative :
  forall u (N : Num R) cub (r : resp R) (s : sed R) w yy sw rows g S,
    0 <= u < 1 -> std_model u N -> std_ab u N ->
    p_wave r = Some w -> p_interp r = Some {| ix := w; iys := [yy] |} ->
    s_wave s = sw -> s_interp s = Some {| ix := sw; iys := rows |} -> s_nsed s = length rows ->
    w <> [] -> Forall (fun t => 0 < t) w -> StronglySorted Rlt sw -> Forall (fun t => 0 < t) sw -> overlaps w sw -> brackets w sw -> is_grid w sw g ->
    let light row t := spline cub sw row t * spline cub w yy t * t in
    let ab t := ab_flux t * spline cub w yy t * t in
    let measured h := (forall t, In t g -> 0 <= h t) /\ swing h g + growth u 7 * spread h g <= S * trapezoid h g in
    let eta := growth u 7 + growth u (length g + 3) * S in
    measured ab -> 0 < trapezoid ab g -> 0 <= eta < 1 ->
    exists v v', @project_sed R Num_R cub r s = Ok v /\ @project_sed R N cub r s = Ok v' /\ shp v' = shp v /\
      forall k row, nth_error rows k = Some row -> measured (light row) ->
        nth k (dat v) 0 = trapezoid (light row) g / trapezoid ab g /\
        rel ((1 + growth u 2) * (2 * eta / (1 - eta)) + growth u 2) (nth k (dat v') 0) (nth k (dat v) 0).
Proof.
  intros u N cub r s w yy sw rows g S Hu HN HA Hw Hi Hsw Hsi Hns Hwn Pw Ssw Psw Ho Hb Hg light ab measured eta Hab Pab He.
  assert (Ng := grid_nonempty w sw g Hwn Hg). assert (Sg := proj1 Hg).
  pose proof (growth_pos u Hu 7) as G7. pose proof (growth_pos u Hu (length g + 3)) as Gn. pose proof (growth_pos u Hu 2) as G2.
  assert (Ends : forall f : R -> R, f (hd 0 g) * spline cub w yy (hd 0 g) * hd 0 g = 0 /\ f (last g 0) * spline cub w yy (last g 0) * last g 0 = 0).
  { intro f. destruct Hb as [B1 B2]. destruct (grid_ends cub w sw g yy Hg B1 B2) as (_ & _ & E0 & E1).
    rewrite !spline_eval in E0, E1. split; [rewrite E0|rewrite E1]; ring. }
  assert (SE : forall h, h (hd 0 g) = 0 -> h (last g 0) = 0 -> measured h -> sum_error u h g <= eta * trapezoid h g /\ boundary_minus h g = - trapezoid h g /\ 0 <= trapezoid h g).
  { intros h H0 H1 [Hn HS]. destruct (bulk_inside h g Ng H0 H1 Sg Hn) as (E1 & E2 & E3). split; auto. unfold sum_error, eta. rewrite E1.
    pose proof (Rmult_le_compat_l _ _ _ Gn HS). lra. }
  destruct (SE ab (proj1 (Ends ab_flux)) (proj2 (Ends ab_flux)) Hab) as (A1 & A2 & _).
  destruct (L_C105_project u N cub r s w yy sw rows g Hu HN HA Hw Hi Hsw Hsi Hns Hwn Pw Ssw Psw Ho Hg) as (v & v' & V & V' & Es & Hk).
  { fold ab. rewrite A2, Rabs_Ropp, Rabs_pos_eq by lra. nra. }
  exists v, v'. do 3 (split; auto). intros k row Hr Hl.
  destruct (SE (light row) (proj1 (Ends _)) (proj2 (Ends _)) Hl) as (B1 & B2 & B3).
  specialize (Hk k row Hr). cbv zeta in Hk. fold ab in Hk. fold (light row) in Hk. destruct Hk as [Em Hm].
  rewrite A2, B2 in Em. assert (Em' : nth k (dat v) 0 = trapezoid (light row) g / trapezoid ab g) by (rewrite Em; field; lra).
  split; auto. unfold rel. eapply Rle_trans; [exact Hm|]. rewrite A2, Rabs_Ropp, (Rabs_pos_eq (trapezoid ab g)) by lra.
  set (m := nth k (dat v) 0) in *. set (a := trapezoid ab g) in *. set (b := trapezoid (light row) g) in *.
  assert (Pm : 0 <= m) by (rewrite Em'; apply Rmult_le_pos; [auto|left; apply Rinv_0_lt_compat; auto]).
  rewrite (Rabs_pos_eq m) by auto. assert (Eb : b = m * a) by (rewrite Em'; field; lra).
  assert (X : (sum_error u (light row) g + m * sum_error u ab g) / (a - sum_error u ab g) <= 2 * eta / (1 - eta) * m).
  { assert (P : 0 < a - sum_error u ab g) by nra. apply Rmult_le_reg_r with (a - sum_error u ab g); auto. unfold Rdiv at 1. rewrite Rmult_assoc, Rinv_l, Rmult_1_r by lra.
    apply Rle_trans with (2 * eta * (m * a)).
    - pose proof (Rmult_le_compat_l _ _ _ Pm A1). rewrite Eb in B1. lra.
    - replace (2 * eta / (1 - eta) * m * (a - sum_error u ab g)) with (2 * eta * m * ((a - sum_error u ab g) / (1 - eta))) by (field; lra).
      rewrite <- Rmult_assoc. apply Rmult_le_compat_l; [apply Rmult_le_pos; lra|].
      apply Rmult_le_reg_r with (1 - eta); [lra|]. unfold Rdiv. rewrite Rmult_assoc, Rinv_l by lra. lra. }
  replace ((1 + growth u 2) * (sum_error u (light row) g + m * sum_error u ab g) / (a - sum_error u ab g)) with
    ((1 + growth u 2) * ((sum_error u (light row) g + m * sum_error u ab g) / (a - sum_error u ab g))) by (unfold Rdiv; ring).
  pose proof (Rmult_le_compat_l (1 + growth u 2) _ _ ltac:(lra) X). lra.
Qed.

Lemma swing_falls h g : StronglySorted Rlt g -> Forall (fun t => 0 < t) g -> g <> [] ->
  (forall a b, In a g -> In b g -> a <= b -> h b <= h a) -> swing h g <= last g 0 * (h (hd 0 g) - h (last g 0)).
Proof.
  induction g as [|a g IH]; intros Hs Hp Hn Hf; [congruence|]. destruct g as [|b g]; [cbn; lra|].
  inversion Hs as [|? ? Hs' Hl]; subst. inversion Hp as [|? ? Pa Hp']; subst.
  specialize (IH Hs' Hp' ltac:(discriminate) ltac:(intros x y Hx Hy; apply Hf; right; auto)).
  change (swing h (a :: b :: g)) with (Rabs (h b - h a) * (a + b) / 2 + swing h (b :: g)).
  change (last (a :: b :: g) 0) with (last (b :: g) 0) in *. cbn [hd] in *. set (x := last (b :: g) 0) in *. set (w := swing h (b :: g)) in *.
  inversion Hl as [|? ? Hab _]; subst. pose proof (Hf a b ltac:(cbn; auto) ltac:(cbn; auto) ltac:(lra)).
  assert (Hx : b <= x) by (apply last_ge; auto).
  rewrite Rabs_left1 by lra. inversion Hp' as [|? ? Pb _]; subst. assert (0 <= (h a - h b) * (x - (a + b) / 2)) by (apply Rmult_le_pos; lra). lra.
Qed.
(** An integrand that rises up to a wavelength p and falls from there on changes by at most twice its maximum: [swing] is at most
    2 h(p) times the largest wavelength. *)
Lemma L_C105_swing :
  forall h g p, StronglySorted Rlt g -> Forall (fun t => 0 < t) g -> In p g -> (forall t, In t g -> 0 <= h t) ->
    (forall a b, In a g -> In b g -> a <= b <= p -> h a <= h b) -> (forall a b, In a g -> In b g -> p <= a <= b -> h b <= h a) ->
    swing h g <= 2 * h p * last g 0.
Proof.
  intros h g p Hs Hp Hi Hn Hr Hf.
  assert (Q : swing h g <= last g 0 * (2 * h p - h (hd 0 g) - h (last g 0))).
  { clear Hn. induction g as [|a g IH]; [destruct Hi|]. destruct (Req_dec p a) as [->|Ne].
    - eapply Rle_trans; [apply swing_falls; auto; [discriminate|]|cbn [hd]; lra].
      intros x y Hx Hy Hxy. apply Hf; auto. split; auto. inversion Hs as [|? ? _ Hl]; subst. rewrite Forall_forall in Hl.
      destruct Hx as [->|Hx]; [lra|]. specialize (Hl x Hx). lra.
    - destruct Hi as [->|Hi]; [congruence|]. destruct g as [|b g]; [destruct Hi|].
      inversion Hs as [|? ? Hs' Hl]; subst. inversion Hp as [|? ? Pa Hp']; subst.
      specialize (IH Hs' Hp' Hi ltac:(intros x y Hx Hy; apply Hr; right; auto) ltac:(intros x y Hx Hy; apply Hf; right; auto)).
      change (swing h (a :: b :: g)) with (Rabs (h b - h a) * (a + b) / 2 + swing h (b :: g)).
      change (last (a :: b :: g) 0) with (last (b :: g) 0) in *. cbn [hd] in *. set (x := last (b :: g) 0) in *. set (w := swing h (b :: g)) in *.
      inversion Hl as [|? ? Hab _]; subst. assert (Hbp : b <= p).
      { inversion Hs' as [|? ? _ Hl']; subst. rewrite Forall_forall in Hl'. destruct Hi as [->|Hi]; [lra|]. specialize (Hl' p Hi). lra. }
      pose proof (Hr a b ltac:(cbn; auto) ltac:(cbn; auto) ltac:(lra)). assert (Hx : b <= x) by (apply last_ge; auto).
      rewrite Rabs_pos_eq by lra. assert (0 <= (h b - h a) * (x - (a + b) / 2)) by (apply Rmult_le_pos; lra). lra. }
  assert (Ng : g <> []) by (destruct g; [destruct Hi|discriminate]).
  assert (I1 : In (last g 0) g) by (destruct (exists_last Ng) as (l & x & ->); rewrite last_last; apply in_or_app; right; left; auto).
  assert (I2 : In (hd 0 g) g) by (destruct g; [congruence|left; auto]).
  pose proof (Hn _ I1) as N1. pose proof (Hn _ I2) as N2. rewrite Forall_forall in Hp. pose proof (Hp _ I1) as P1.
  assert (0 <= last g 0 * (h (hd 0 g) + h (last g 0))) by (apply Rmult_le_pos; lra). lra.
Qed.

(** * Examples *)
Lemma trap_at : let y := spline lin [1;2;3;4] [0;1;1;0] in y (1/2) = 0 /\ y 1 = 0 /\ y 2 = 1 /\ y 3 = 1 /\ y 4 = 0 /\ y 5 = 0.
Proof.
  assert (A : forall i, (i < 4)%nat -> spline lin [1;2;3;4] [0;1;1;0] (nth i [1;2;3;4] 0) = nth i [0;1;1;0] 0).
  { intros i Hi. rewrite spline_lin1234 by (do 4 (destruct i as [|i]; [cbn; lra|]); lia). apply lin_at; auto. apply sorted1234. }
  intro y. split; [apply spline_outside; cbn; lra|]. split; [exact (A 0%nat ltac:(lia))|]. split; [exact (A 1%nat ltac:(lia))|].
  split; [exact (A 2%nat ltac:(lia))|]. split; [exact (A 3%nat ltac:(lia))|]. apply spline_outside; cbn; lra.
Qed.
Lemma wide_at : let y := spline lin [1/2;1;2;3;4;5] [1;1;2;2;1;1] in y (1/2) = 1 /\ y 1 = 1 /\ y 2 = 2 /\ y 3 = 2 /\ y 4 = 1 /\ y 5 = 1.
Proof.
  assert (A : forall i, (i < 6)%nat -> spline lin [1/2;1;2;3;4;5] [1;1;2;2;1;1] (nth i [1/2;1;2;3;4;5] 0) = nth i [1;1;2;2;1;1] 0).
  { intros i Hi. unfold spline. cbn [last].
    destruct (Rlt_dec _ _) as [C|_]; [exfalso; do 6 (destruct i as [|i]; [cbn in C; lra|]); lia|].
    destruct (Rlt_dec _ _) as [C|_]; [exfalso; do 6 (destruct i as [|i]; [cbn in C; lra|]); lia|].
    apply lin_at; auto. apply sorted_wide. }
  intro y. split; [exact (A 0%nat ltac:(lia))|]. split; [exact (A 1%nat ltac:(lia))|]. split; [exact (A 2%nat ltac:(lia))|].
  split; [exact (A 3%nat ltac:(lia))|]. split; [exact (A 4%nat ltac:(lia))|exact (A 5%nat ltac:(lia))].
Qed.
Lemma wide_grid : is_grid [1;2;3;4] [1/2;1;2;3;4;5] [1/2;1;2;3;4;5].
Proof.
  split; [repeat constructor; lra|]. intro t. unfold in_grid. cbn. split.
  - intros [<-|[<-|[<-|[<-|[<-|[<-|[]]]]]]]; auto 10.
    + right. right. left. split; auto. split; [lra|]. intros u Hu Hl. intuition lra.
    + right. right. right. split; auto 10. split; [lra|]. intros u Hu Hl. intuition lra.
  - intuition.
Qed.
Lemma wide_objects : exists r s, p_wave r = Some [1;2;3;4] /\ p_interp r = Some {| ix := [1;2;3;4]; iys := [[0;1;1;0]] |} /\
  s_wave s = [1/2;1;2;3;4;5] /\ s_interp s = Some {| ix := [1/2;1;2;3;4;5]; iys := [[1;1;2;2;1;1]] |} /\ s_nsed s = 1%nat.
Proof.
  destruct trapezium_band as [r Hr]. destruct (band_samples _ _ _ _ _ _ _ _ _ Hr) as (_ & _ & _ & _ & Hi & _).
  destruct Hr as (_ & _ & Hw & _).
  destruct (spectrum_intro [1/2;1;2;3;4;5] [1;1;2;2;1;1]) as [s HS]; try (cbn; lia); try (repeat constructor; lra).
  exists r, s. split; auto. split; auto. destruct HS as (_ & HS & _). 
  destruct (SED_ok [1/2;1;2;3;4;5] (vec [1;1;2;2;1;1]) s sorted_wide ltac:(reflexivity) HS) as (S1 & S2 & S3 & S4 & S5). split; auto.
  rewrite S3. split; [rewrite S5; reflexivity|]. unfold s_nsed. rewrite S5. reflexivity.
Qed.
Lemma wide_measures : let h t := ab_flux t * spline lin [1;2;3;4] [0;1;1;0] t * t in
  let l t := spline lin [1/2;1;2;3;4;5] [1;1;2;2;1;1] t * spline lin [1;2;3;4] [0;1;1;0] t * t in
  let k := 3631e-23 * 2.99792e18 in let g := [1/2;1;2;3;4;5] in
  trapezoid h g = 5 / 6 * k /\ swing h g = 7 / 3 * k /\ spread h g = 4 * k /\ boundary_minus h g = - (5 / 6 * k) /\ bulk h g = 5 / 6 * k /\
  trapezoid l g = 10 /\ swing l g = 32 /\ spread l g = 52.
Proof.
  intros h l k g. destruct trap_at as (A1 & A2 & A3 & A4 & A5 & A6). destruct wide_at as (B1 & B2 & B3 & B4 & B5 & B6).
  assert (H1 : h (1/2) = 0) by (unfold h; rewrite A1; ring). assert (H2 : h 1 = 0) by (unfold h; rewrite A2; ring).
  assert (H5 : h 4 = 0) by (unfold h; rewrite A5; ring). assert (H6 : h 5 = 0) by (unfold h; rewrite A6; ring).
  assert (H3 : h 2 = k / 2) by (unfold h; rewrite A3; unfold ab_flux; fold k; field).
  assert (H4 : h 3 = k / 3) by (unfold h; rewrite A4; unfold ab_flux; fold k; field).
  assert (L1 : l (1/2) = 0) by (unfold l; rewrite A1; ring). assert (L2 : l 1 = 0) by (unfold l; rewrite A2; ring).
  assert (L5 : l 4 = 0) by (unfold l; rewrite A5; ring). assert (L6 : l 5 = 0) by (unfold l; rewrite A6; ring).
  assert (L3 : l 2 = 4) by (unfold l; rewrite A3, B3; ring). assert (L4 : l 3 = 6) by (unfold l; rewrite A4, B4; ring).
  assert (P : 0 < k) by (unfold k; lra). clearbody h l k. unfold g, bulk, boundary_minus. cbn [trapezoid swing spread last hd].
  rewrite H1, H2, H3, H4, H5, H6, L1, L2, L3, L4, L5, L6, ?Rabs_R0.
  repeat match goal with |- context [Rabs ?x] => first [rewrite (Rabs_pos_eq x) by lra|rewrite (Rabs_left1 x) by lra] end.
  repeat split; lra.
Qed.
Lemma E_C105_project : exists r s, std_model (bpow radix2 (-24)) Num_24 /\ std_ab (bpow radix2 (-24)) Num_24 /\
  p_wave r = Some [1;2;3;4] /\ p_interp r = Some {| ix := [1;2;3;4]; iys := [[0;1;1;0]] |} /\
  s_wave s = [1/2;1;2;3;4;5] /\ s_interp s = Some {| ix := [1/2;1;2;3;4;5]; iys := [[1;1;2;2;1;1]] |} /\ s_nsed s = 1%nat /\
  overlaps [1;2;3;4] [1/2;1;2;3;4;5] /\ is_grid [1;2;3;4] [1/2;1;2;3;4;5] [1/2;1;2;3;4;5] /\
  let ab t := ab_flux t * spline lin [1;2;3;4] [0;1;1;0] t * t in
  sum_error (bpow radix2 (-24)) ab [1/2;1;2;3;4;5] < Rabs (boundary_minus ab [1/2;1;2;3;4;5]).
Proof.
  destruct wide_objects as (r & s & H1 & H2 & H3 & H4 & H5). exists r, s. split; [apply L_C83_model|]. split; [apply L_C105_model|].
  do 5 (split; auto). split; [apply wide_overlaps|]. split; [apply wide_grid|]. intro ab.
  destruct wide_measures as (_ & M2 & M3 & M4 & M5 & _). fold ab in M2, M3, M4, M5. unfold sum_error. rewrite M2, M3, M4, M5. cbn [length Nat.add].
  set (k := 3631e-23 * 2.99792e18) in *. assert (P : 0 < k) by (unfold k; lra). rewrite Rabs_Ropp, Rabs_pos_eq by lra.
  assert (Hu : 0 <= bpow radix2 (-24) < 1) by (cbn; lra).
  pose proof (growth24 7 ltac:(lia)) as G7. pose proof (growth24 9 ltac:(lia)) as G9. pose proof (growth_pos _ Hu 7) as Q7. pose proof (growth_pos _ Hu 9) as Q9.
  clearbody k. set (a := growth _ 7) in *. set (b := growth _ 9) in *. clearbody a b.
  assert (a * (5 / 6 * k) <= / 1000000 * (5 / 6 * k)) by (apply Rmult_le_compat_r; lra).
  assert (a * (4 * k) <= / 1000000 * (4 * k)) by (apply Rmult_le_compat_r; lra).
  assert (b * (7 / 3 * k + a * (4 * k)) <= / 1000000 * (7 / 3 * k + / 1000000 * (4 * k))).
  { apply Rmult_le_compat; try lra. assert (0 <= a * (4 * k)) by (apply Rmult_le_pos; lra). lra. }
  lra.
Qed.
Lemma E_C105_relative : exists r s, std_model (bpow radix2 (-24)) Num_24 /\ std_ab (bpow radix2 (-24)) Num_24 /\
  p_wave r = Some [1;2;3;4] /\ p_interp r = Some {| ix := [1;2;3;4]; iys := [[0;1;1;0]] |} /\
  s_wave s = [1/2;1;2;3;4;5] /\ s_interp s = Some {| ix := [1/2;1;2;3;4;5]; iys := [[1;1;2;2;1;1]] |} /\ s_nsed s = 1%nat /\
  brackets [1;2;3;4] [1/2;1;2;3;4;5] /\ is_grid [1;2;3;4] [1/2;1;2;3;4;5] [1/2;1;2;3;4;5] /\
  let u := bpow radix2 (-24) in let g := [1/2;1;2;3;4;5] in
  let ab t := ab_flux t * spline lin [1;2;3;4] [0;1;1;0] t * t in
  let light t := spline lin [1/2;1;2;3;4;5] [1;1;2;2;1;1] t * spline lin [1;2;3;4] [0;1;1;0] t * t in
  swing ab g + growth u 7 * spread ab g <= 4 * trapezoid ab g /\ swing light g + growth u 7 * spread light g <= 4 * trapezoid light g /\
  0 < trapezoid ab g /\ 0 <= growth u 7 + growth u (6 + 3) * 4 <= 5 / 1000000.
Proof.
  destruct wide_objects as (r & s & H1 & H2 & H3 & H4 & H5). exists r, s. split; [apply L_C83_model|]. split; [apply L_C105_model|].
  do 5 (split; auto). split; [apply wide_overlaps|]. split; [apply wide_grid|]. intros u g ab light.
  destruct wide_measures as (M1 & M2 & M3 & _ & _ & L1 & L2 & L3). fold ab in M1, M2, M3. fold light in L1, L2, L3. fold g in M1, M2, M3, L1, L2, L3.
  rewrite M1, M2, M3, L1, L2, L3. cbn [Nat.add].
  set (k := 3631e-23 * 2.99792e18) in *. assert (P : 0 < k) by (unfold k; lra).
  assert (Hu : 0 <= u < 1) by (unfold u; cbn; lra).
  pose proof (growth24 7 ltac:(lia)) as G7. pose proof (growth24 9 ltac:(lia)) as G9. fold u in G7, G9. pose proof (growth_pos _ Hu 7) as Q7. pose proof (growth_pos _ Hu 9) as Q9.
  clearbody k. set (a := growth _ 7) in *. set (b := growth _ 9) in *. clearbody a b.
  assert (a * (4 * k) <= / 1000000 * (4 * k)) by (apply Rmult_le_compat_r; lra). repeat split; lra.
Qed.
Lemma E_C105_swing : let h t := 3 - (t - 2) ^ 2 in let g := [1; 2; 3] in
  StronglySorted Rlt g /\ In 2 g /\ (forall t, In t g -> 0 <= h t) /\ swing h g = 4 /\ 2 * h 2 * last g 0 = 18.
Proof.
  intros h g. split; [repeat constructor; lra|]. split; [cbn; auto|]. split.
  - intros t Ht. unfold h. cbn in Ht. destruct Ht as [<-|[<-|[<-|[]]]]; lra.
  - unfold h, g. cbn [swing last]. rewrite (Rabs_pos_eq (_ - (3 - (1 - 2) ^ 2))) by lra. rewrite Rabs_left by lra. lra.
Qed.
