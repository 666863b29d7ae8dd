(** Band shifts (C79): the proofs.  Prop_Shift.v restates them. *)
From Coq Require Import String List Arith Lia Bool ZArith QArith Qreals Reals Lra Classical_Prop Sorting.Sorted Sorting.Permutation.
From Verif Require Import Base BaseLemmas Num Interp InterpReal Spec Utils Sed Response RespDict ResponseObj LinInterp ResponseEx
  Fitter FitSpec Kcorrect KSpec BuildSpec BuildEx Spline SplineSpec ShiftSpec.
Import ListNotations.
Local Open Scope R_scope.
(* STATEMENTS *)
From Verif Require Import ResponseProofs ResponseThms SplineProofs SplineThms FitterProofs FitReal FitTable BuildProofs BuildTable BuildThms.
From Verif Require McProofs.

Lemma blueshift_curve cub bq sun vega k wave y r w yy r' w' yy' : 0 < k ->
  band cub bq sun vega wave y r w yy -> band cub bq sun vega (map (fun t => t / k) wave) y r' w' yy' ->
  w' = map (fun t => t / k) w /\ yy' = yy.
Proof.
  intros Hk (L & HR & Hw & Hy & _) (L' & HR' & Hw' & Hy' & _).
  destruct (L_C15_sorted_samples _ _ _ _ _ _ _ L HR) as (a & b & A1 & A2 & A3).
  destruct (L_C15_sorted_samples _ _ _ _ _ _ _ L' HR') as (a' & b' & A1' & A2' & A3').
  rewrite Hw in A1. rewrite Hy in A2. rewrite Hw' in A1'. rewrite Hy' in A2'.
  injection A1 as <-. injection A2 as <-. injection A1' as <-. injection A2' as <-.
  eapply sorted_samples_unique; [|exact A3']. apply sorted_samples_map; auto.
  intros p q Hpq. apply Rmult_lt_compat_r; auto. apply Rinv_0_lt_compat; auto.
Qed.

Lemma nth0_map (f : R -> R) l : l <> [] -> nth 0 (map f l) 0 = f (nth 0 l 0).
Proof. destruct l; [easy|reflexivity]. Qed.
Lemma last_map (f : R -> R) l : l <> [] -> last (map f l) 0 = f (last l 0).
Proof. intro H. rewrite !last_nth_eq, map_length. apply (nth_map_lt f). destruct l; [easy|cbn; lia]. Qed.

Lemma grid_scale k w sw g : 0 < k -> w <> [] -> is_grid (map (fun t => t / k) w) sw g ->
  is_grid w (map (fun t => t * k) sw) (map (fun t => t * k) g).
Proof.
  intros Hk Hw [S G]. split; [apply sorted_map_inc; auto; intros; nra|]. intro t.
  assert (Q : forall l (x : R), In (x * k) (map (fun t => t * k) l) <-> In x l).
  { intros l x. rewrite in_map_iff. split; [|eauto]. intros (u & E & Hu). replace x with u by nra. auto. }
  replace t with (t / k * k) by (field; lra). set (x := t / k). rewrite Q, G. unfold in_grid.
  rewrite nth0_map, last_map by auto. set (lo := nth 0 w 0). set (hi := last w 0).
  assert (B1 : forall u, u < lo / k <-> u * k < lo).
  { intro u. replace (u < lo / k) with (u < lo / k) by auto. split; intro H.
    - replace lo with (lo / k * k) by (field; lra). nra.
    - replace lo with (lo / k * k) in H by (field; lra). nra. }
  assert (B2 : forall u, hi / k < u <-> hi < u * k).
  { intro u. split; intro H.
    - replace hi with (hi / k * k) by (field; lra). nra.
    - replace hi with (hi / k * k) in H by (field; lra). nra. }
  assert (I : In x (map (fun t => t / k) w) <-> In (x * k) w).
  { rewrite in_map_iff. split.
    - intros (u & E & Hu). replace (x * k) with u; auto. rewrite <- E. field. lra.
    - intro H. exists (x * k). split; auto. field. lra. }
  rewrite I, Q.
  assert (C1 : lo / k <= x <-> lo <= x * k) by (specialize (B1 x); split; intro H; apply Rnot_lt_le; intro H'; apply B1 in H'; lra).
  assert (C2 : x <= hi / k <-> x * k <= hi) by (specialize (B2 x); split; intro H; apply Rnot_lt_le; intro H'; apply B2 in H'; lra).
  rewrite C1, C2, B1, B2.
  assert (D1 : (forall u, In u sw -> u < lo / k -> u <= x) <->
               (forall u, In u (map (fun t => t * k) sw) -> u < lo -> u <= x * k)).
  { split; intros H u Hu Hl.
    - apply in_map_iff in Hu as (v & <- & Hv). apply B1 in Hl. specialize (H v Hv Hl). nra.
    - apply B1 in Hl. apply Q in Hu. specialize (H _ Hu Hl). nra. }
  assert (D2 : (forall u, In u sw -> hi / k < u -> x <= u) <->
               (forall u, In u (map (fun t => t * k) sw) -> hi < u -> x * k <= u)).
  { split; intros H u Hu Hl.
    - apply in_map_iff in Hu as (v & <- & Hv). apply B2 in Hl. specialize (H v Hv Hl). nra.
    - apply B2 in Hl. apply Q in Hu. specialize (H _ Hu Hl). nra. }
  rewrite D1, D2. tauto.
Qed.

Lemma trapezoid_scale k h g : trapezoid h (map (fun t => t * k) g) = k * trapezoid (fun t => h (t * k)) g.
Proof.
  induction g as [|a g IH]; [cbn; lra|]. destruct g as [|b g]; [cbn; lra|]. cbn [map trapezoid] in *. rewrite IH. field.
Qed.
Lemma boundary_scale k h g : g <> [] -> boundary_minus h (map (fun t => t * k) g) = k * boundary_minus (fun t => h (t * k)) g.
Proof.
  intro H. unfold boundary_minus. rewrite trapezoid_scale, (last_map (fun t => t * k)) by auto.
  replace (hd 0 (map (fun t => t * k) g)) with (hd 0 g * k) by (destruct g; [easy|reflexivity]). ring.
Qed.
Lemma boundary_const c h g : boundary_minus (fun t => c * h t) g = c * boundary_minus h g.
Proof.
  unfold boundary_minus. assert (E : trapezoid (fun t => c * h t) g = c * trapezoid h g).
  { induction g as [|a g IH]; [cbn; lra|]. destruct g as [|b g]; [cbn; lra|]. cbn [trapezoid] in *. rewrite IH. field. }
  rewrite E. ring.
Qed.

(** The blueshifted band of any response that is not dark everywhere exists. *)
Lemma L_C79_exists :
  forall cub bq tol sun vega (wave y : list R) k, splines cub -> root_finder tol bq -> reference_file sun -> reference_file vega ->
    length y = length wave -> NoDup wave -> (4 <= length wave)%nat -> Exists (fun v => 0 < v) y -> Forall (fun t => 0 < t) wave -> 0 < k ->
    exists r r', Response cub bq sun vega wave y = Ok r /\ blueshifted cub bq sun vega k r r'.
Proof.
  intros cub bq tol sun vega wave y k Hc Hr Hsun Hvega Hl Hn H4 Hex Hp Hk.
  destruct (L_C15_constructs cub bq tol sun vega wave y Hc Hr Hsun Hvega Hl Hn H4 Hex) as (r & w & yy & E & Ew & Ey & _).
  destruct (L_C15_constructs cub bq tol sun vega (map (fun t => t / k) wave) y Hc Hr Hsun Hvega) as (r' & w' & yy' & E' & Ew' & Ey' & _);
    try (rewrite map_length; auto); auto.
  - apply FinFun.Injective_map_NoDup; auto. intros a b H. apply (Rmult_eq_reg_r (/ k)); auto. apply Rinv_neq_0_compat. lra.
  - exists r, r'. split; auto. exists wave, y, w, yy, w', yy'. split; (split; [try rewrite map_length; auto|]); repeat split; auto.
    apply Forall_forall. intros t Ht. apply in_map_iff in Ht as (u & <- & Hu). rewrite Forall_forall in Hp. apply Rdiv_lt_0_compat; auto.
Qed.
Lemma toy_bands k : 0 < k -> exists r r', Response notaknot (bisect (1/1000)) sun0 sun0 [1;2;3;4] [0;1;1;0] = Ok r /\
  blueshifted notaknot (bisect (1/1000)) sun0 sun0 k r r'.
Proof.
  intro Hk. apply (L_C79_exists _ _ (1/1000)); auto using sun0_file, L_C78_exists.
  - apply bisect_root_finder. lra.
  - repeat constructor; cbn; lra.
  - apply Exists_cons_tl, Exists_cons_hd. lra.
  - repeat constructor; lra.
Qed.
Lemma E_C79_exists : splines notaknot /\ (exists bq, root_finder (1/1000) bq) /\ reference_file sun0 /\ NoDup [1;2;3;4].
Proof.
  split; [exact L_C78_exists|]. split; [exists (bisect (1/1000)); apply bisect_root_finder; lra|]. split; [exact sun0_file|].
  repeat constructor; cbn; lra.
Qed.

(** C79.  A redshifted spectrum through a band is, up to the factor 1+z, the rest-frame spectrum through the band blueshifted by
    1+z.  (wavelengths times k, fluxes divided by k: what set_redshift does, with k = 1+z.) *)
Lemma L_C79_project :
  forall cub bq sun vega k r r' sw f s sk, splines cub -> 0 < k -> blueshifted cub bq sun vega k r r' ->
    spectrum sw f s -> spectrum (map (fun t => t * k) sw) (map (fun v => v / k) f) sk ->
    exists m, project_sed cub r' s = Ok (scal m) /\ project_sed cub r sk = Ok (scal (k * m)).
Proof.
  intros cub bq sun vega k r r' sw f s sk Hc Hk (wave & y & w & yy & w' & yy' & HB & HB') HS HSk.
  destruct (blueshift_curve _ _ _ _ _ _ _ _ _ _ _ _ _ Hk HB HB') as [-> ->].
  destruct (band_samples _ _ _ _ _ _ _ _ _ HB) as (Hw & Hw4 & Ly & Pw & _).
  destruct (spectrum_facts _ _ _ HS) as (W1 & H4 & L1). destruct (spectrum_facts _ _ _ HSk) as (W2 & _).
  assert (Wn : w <> []) by (destruct w; [cbn in Hw4; lia|discriminate]).
  assert (OV : overlaps (map (fun t => t / k) w) sw <-> overlaps w (map (fun t => t * k) sw)).
  { unfold overlaps. rewrite nth0_map, last_map by auto. set (lo := nth 0 w 0). set (hi := last w 0). split.
    - intros (t & Ht & H1 & H2). exists (t * k). split; [apply in_map_iff; eauto|].
      replace lo with (lo / k * k) by (field; lra). replace hi with (hi / k * k) by (field; lra). nra.
    - intros (t & Ht & H1 & H2). apply in_map_iff in Ht as (u & <- & Hu). exists u. split; auto.
      replace lo with (lo / k * k) in H1 by (field; lra). replace hi with (hi / k * k) in H2 by (field; lra). nra. }
  destruct (classic (overlaps w (map (fun t => t * k) sw))) as [Ho|Hno].
  - assert (Ho' := proj2 OV Ho). destruct (L_C21_grid _ _ (proj1 HS) Ho') as [Hg _].
    set (g := grid_of (map (fun t => t / k) w) sw) in *.
    assert (Hg2 := grid_scale k w sw g Hk Wn Hg).
    rewrite (L_C18_projection_formula _ _ _ _ _ _ _ _ _ _ _ _ HB' HS Ho' _ Hg).
    rewrite (L_C18_projection_formula _ _ _ _ _ _ _ _ _ _ _ _ HB HSk Ho _ Hg2).
    assert (Hne : g <> []) by (eapply grid_nonempty; [|exact Hg]; destruct w; [easy|discriminate]).
    eexists. split; [reflexivity|]. f_equal. f_equal. rewrite !boundary_scale by auto.
    assert (Ef : forall t, spline cub (map (fun t => t * k) sw) (map (fun v => v / k) f) (t * k) = / k * spline cub sw f t).
    { intro t. rewrite <- (L_C78_scaling cub sw f k (/ k) t Hc (proj1 HS) H4 L1 Hk). f_equal. apply map_ext. intro v. unfold Rdiv. ring. }
    assert (Er : forall t, spline cub w yy (t * k) = spline cub (map (fun t => t / k) w) yy t).
    { intro t. assert (S' : StronglySorted Rlt (map (fun t => t / k) w)).
      { apply sorted_map_inc; auto. intros p q Hpq. apply Rmult_lt_compat_r; auto. apply Rinv_0_lt_compat; auto. }
      pose proof (L_C78_scaling cub (map (fun t => t / k) w) yy k 1 t Hc S' ltac:(rewrite map_length; auto)
        ltac:(rewrite map_length; auto) Hk) as E.
      rewrite map_map in E. rewrite (map_ext _ (fun t => t)) in E by (intro; field; lra). rewrite map_id in E.
      rewrite (map_ext _ (fun t => t)) in E by (intro; ring). rewrite map_id in E. rewrite E. ring. }
    assert (Pg : forall t, In t g -> 0 < t).
    { refine (grid_pos _ _ _ _ (proj2 (proj2 HS)) Hg). apply Forall_forall. intros t Ht. apply in_map_iff in Ht as (u & <- & Hu).
      rewrite Forall_forall in Pw. apply Rdiv_lt_0_compat; auto. }
    set (N1 := fun t => spline cub sw f t * spline cub (map (fun t => t / k) w) yy t * t).
    set (D1 := fun t => ab_flux t * spline cub (map (fun t => t / k) w) yy t * t).
    rewrite (boundary_ext _ (fun t => 1 * N1 t) g Hne).
    + rewrite boundary_const, (boundary_ext (fun t => ab_flux (t * k) * spline cub w yy (t * k) * (t * k)) (fun t => / k * D1 t) g Hne).
      * rewrite boundary_const. unfold Rdiv. rewrite !Rinv_mult, Rinv_inv. 
        replace (k * (1 * boundary_minus N1 g) * (/ k * (k * / boundary_minus D1 g)))
          with (k * / k * (k * (boundary_minus N1 g * / boundary_minus D1 g))) by ring.
        rewrite Rinv_r by lra. ring.
      * intros t Ht. specialize (Pg t Ht). unfold D1. rewrite Er. unfold ab_flux. field. lra.
    + intros t Ht. unfold N1. rewrite Ef, Er. field. lra.
  - exists 0. rewrite (L_C21_zero_without_sample _ _ _ _ _ _ _ _ _ _ HB') by (rewrite W1; tauto).
    rewrite (L_C21_zero_without_sample _ _ _ _ _ _ _ _ _ _ HB) by (rewrite W2; auto). split; auto. repeat f_equal. ring.
Qed.

Lemma E_C79_project : exists bq r r' s sk, splines notaknot /\ blueshifted notaknot bq sun0 sun0 (3/2) r r' /\
  spectrum [1;2;3;4] [1;2;2;5] s /\ spectrum (map (fun t => t * (3/2)) [1;2;3;4]) (map (fun v => v / (3/2)) [1;2;2;5]) sk.
Proof.
  destruct (toy_bands (3/2)) as (r & r' & _ & H); [lra|]. 
  destruct (spectrum_intro [1;2;3;4] [1;2;2;5]) as [s Hs]; try (cbn; lia); try (repeat constructor; lra).
  destruct (spectrum_intro (map (fun t => t * (3/2)) [1;2;3;4]) (map (fun v => v / (3/2)) [1;2;2;5])) as [sk Hsk];
    try (cbn; lia); try (repeat constructor; lra).
  exists (bisect (1/1000)), r, r', s, sk. split; [exact L_C78_exists|]. auto.
Qed.

Lemma SED_vec sw f : length f = length sw -> SED sw (vec f) true = SED sw (table (length sw) [f]) true.
Proof.
  intro H. unfold SED, sed_setup, table. cbn [ndim vec shp length Nat.eqb concat]. rewrite app_nil_r. unfold reshape.
  unfold vec at 1. cbn [shp]. unfold size. cbn [fold_right]. rewrite H.
  replace (1 * (length sw * 1) =? length sw * 1)%nat with true by (symmetry; apply Nat.eqb_eq; lia). reflexivity.
Qed.
Lemma cst_id (l : list R) : map cst l = l.
Proof. rcbn. apply map_id. Qed.

(** Photometry of all templates at once is photometry of each. *)
Lemma photometry_each cub d wave rows name z l r : photometry cub d wave (length wave) rows name z l ->
  rect (length wave) rows -> dget d name = Some r -> StronglySorted Rlt wave -> (4 <= length wave)%nat -> -1 < z ->
  through cub r (seen_wave z wave) (seen_rows z rows) l.
Proof.
  intros (r0 & v & Hd & Hp & Hb) Hr Hd' Hs H4 Hz. rewrite Hd in Hd'. injection Hd' as ->.
  change (map (fun x => nmul x (nadd n1 z)) wave) with (seen_wave z wave) in Hp.
  change (map (map (fun f => ndiv f (nadd n1 z))) rows) with (seen_rows z rows) in Hp.
  set (sw := seen_wave z wave) in *. set (rw := seen_rows z rows) in *.
  assert (Lsw : length wave = length sw) by (unfold sw, seen_wave; rewrite map_length; auto).
  assert (Lrw : length rows = length rw) by (unfold rw, seen_rows; rewrite map_length; auto).
  assert (Hr' : rect (length sw) rw) by (rewrite <- Lsw; apply rect_map; auto). rewrite Lsw in Hp. rewrite Lrw in Hb.
  split; [apply bto_length_1 in Hb; auto|]. intros k f Hf.
  assert (Lf : length f = length sw) by (unfold rect in Hr'; rewrite Forall_forall in Hr'; eapply Hr', nth_error_In, Hf).
  assert (Ssw : StronglySorted Rlt sw) by (apply sorted_map_inc; auto; intros; nra).
  assert (Es : exists s, SED sw (vec f) true = Ok s).
  { rewrite SED_vec by auto. apply SED_intro; auto. lia. }
  destruct Es as [s Es].
  exists s. split; auto. rewrite <- (L_C17_array_call cub r sw (table (length sw) [f]) s).
  - destruct (project_arr_rows cub r sw (length sw)) as [E HE]. rewrite (HE rw Hr') in Hp. rewrite (HE [f]) by (constructor; auto).
    assert (Hk : (k < length rw)%nat) by (apply nth_error_Some; congruence).
    destruct E as [[[num den]|]|e]; [| |discriminate].
    + cbn [length Nat.eqb hd]. destruct (Nat.eqb_spec (length rw) 1) as [E1|E1].
      * injection Hp as <-. rewrite bto_scal_rep in Hb. injection Hb as <-. destruct rw as [|a [|]]; try discriminate.
        destruct k; [|cbn in Hk; lia]. injection Hf as <-. reflexivity.
      * injection Hp as <-. rewrite bto_vec in Hb by (auto; cbn; rewrite map_length; auto). injection Hb as <-.
        cbn [dat]. rewrite (nth_map_lt (fun s0 => num s0 / den) rw k [] 0 Hk), (nth_error_nth _ _ _ Hf). reflexivity.
    + injection Hp as <-. rewrite bto_scal_rep in Hb. injection Hb as <-. do 2 f_equal.
      rewrite (McProofs.nth_repeat_lt _ 0) by auto. reflexivity.
  - unfold wf, table, size. cbn [shp dat fold_right length concat]. rewrite app_nil_r. lia.
  - right. reflexivity.
  - rewrite <- SED_vec; auto.
  - reflexivity.
Qed.

Lemma seen_seen z bs wave : seen_wave bs (seen_wave z wave) = seen_wave ((1 + z) * (1 + bs) - 1) wave.
Proof. unfold seen_wave. rewrite map_map. apply map_ext. intro t. ring. Qed.
Lemma seen_seen_rows z bs rows : 0 < 1 + z -> 0 < 1 + bs -> seen_rows bs (seen_rows z rows) = seen_rows ((1 + z) * (1 + bs) - 1) rows.
Proof.
  intros H1 H2. unfold seen_rows. rewrite map_map. apply map_ext. intro r. rewrite map_map. apply map_ext. intro t. field. split; [|lra].
  replace (1 + ((1 + z) * (1 + bs) - 1)) with ((1 + z) * (1 + bs)) by ring. nra.
Qed.

(** ... for a set of spectra. *)
Lemma through_shift cub bq sun vega bs r r' wave rows l l' : splines cub -> -1 < bs ->
  blueshifted cub bq sun vega (1 + bs) r r' -> StronglySorted Rlt wave -> Forall (fun t => 0 < t) wave ->
  through cub r' wave rows l' -> through cub r (seen_wave bs wave) (seen_rows bs rows) l -> l = map (fun m => (1 + bs) * m) l'.
Proof.
  intros Hc Hbs Hb Hs Hp [L1 H1] [L2 H2]. unfold seen_rows in L2. rewrite map_length in L2.
  apply nth_ext with (d := 0) (d' := 0); [rewrite map_length; congruence|]. intros k Hk.
  rewrite (nth_map_lt (fun m => (1 + bs) * m) l' k 0 0) by lia.
  destruct (nth_error rows k) as [f|] eqn:Ef; [|apply nth_error_None in Ef; lia].
  destruct (H1 k f Ef) as (s & Es & E1). destruct (H2 k (map (fun v => v / (1 + bs)) f)) as (sk & Esk & E2).
  { unfold seen_rows. rewrite nth_error_map, Ef. reflexivity. }
  destruct (L_C79_project cub bq sun vega (1 + bs) r r' wave f s sk Hc) as (m & M1 & M2); auto; try lra.
  - split; auto.
  - split; [apply sorted_map_inc; auto; intros; nra|]. split; auto. apply Forall_forall. intros t Ht. apply in_map_iff in Ht as (u & <- & Hu).
    rewrite Forall_forall in Hp. specialize (Hp u Hu). nra.
  - rewrite E1 in M1. rewrite E2 in M2. injection M1 as ->. injection M2 as ->. reflexivity.
Qed.
Lemma dot_scale k l c : dot (map (fun m => k * m) l) c = k * dot l c.
Proof.
  unfold dot. revert c. induction l as [|a l IH]; intros [|b c]; cbn [map zip fold_right]; try ring. rewrite IH. ring.
Qed.
Lemma grid_photometry cub d wave w rows r0 r1 nz n c i z x : r0 < r1 -> (2 <= nz)%nat ->
  model_flux cub d wave w rows (redshift_grid r0 r1 nz) n c z x -> nth_error (redshift_grid r0 r1 nz) i = Some z ->
  exists l, photometry cub d wave w rows n z l /\ x = dot l c.
Proof.
  intros H0 Hnz H Hi.
  assert (P : exists l, photometry cub d wave w rows n z l).
  { pose proof (grid_sorted r0 r1 nz Hnz H0) as Hg. destruct H as (k & z0 & z1 & l0 & l1 & u & E0 & E1 & Hu & Hz & P0 & P1 & _).
    assert (HN : forall k v, nth_error (redshift_grid r0 r1 nz) k = Some v ->
      (k < length (redshift_grid r0 r1 nz))%nat /\ nth k (redshift_grid r0 r1 nz) 0 = v).
    { intros j v Hk. split; [apply nth_error_Some; congruence|apply nth_error_nth; auto]. }
    destruct (HN _ _ E0) as [L0 V0], (HN _ _ E1) as [L1 V1], (HN _ _ Hi) as [Li Vi].
    pose proof (grid_nth _ Hg k (S k) ltac:(lia)) as D. rewrite V0, V1 in D.
    destruct (Nat.le_gt_cases i k) as [Hk|Hk].
    - assert (z <= z0). { destruct (Nat.eq_dec i k) as [->|]; [lra|]. pose proof (grid_nth _ Hg i k ltac:(lia)). lra. }
      assert (E : z = z0) by nra. exists l0. rewrite E. auto.
    - assert (z1 <= z). { destruct (Nat.eq_dec i (S k)) as [->|]; [lra|]. pose proof (grid_nth _ Hg (S k) i ltac:(lia)). lra. }
      assert (E : z = z1) by nra. exists l1. rewrite E. auto. }
  destruct P as [l P]. exists l. split; auto. eapply L_C72_at_grid_redshifts; eauto.
Qed.

Lemma grid_bounds r0 r1 nz z : In z (redshift_grid r0 r1 nz) -> (2 <= nz)%nat -> r0 < r1 -> r0 <= z <= r1.
Proof.
  intros H Hn Hr. apply In_nth with (d := 0) in H as (k & Hk & <-). rewrite grid_length in Hk. rewrite grid_eq by lia.
  assert (D : 0 <= INR k / INR (nz - 1) <= 1).
  { assert (0 < INR (nz - 1)) by (apply lt_0_INR; lia). assert (INR k <= INR (nz - 1)) by (apply le_INR; lia). pose proof (pos_INR k).
    split; [apply Rmult_le_pos; auto; apply Rlt_le, Rinv_0_lt_compat; auto|]. apply Rmult_le_reg_r with (INR (nz - 1)); auto.
    unfold Rdiv. rewrite Rmult_assoc, Rinv_l by lra. lra. }
  set (q := INR k / INR (nz - 1)) in *.
  match goal with |- r0 <= ?e <= r1 => replace e with (r0 + (r1 - r0) * q) by (unfold q; field; apply not_0_INR; lia) end. nra.
Qed.

(** reconstruct and reconstruct_out with a band shift give the flux of the templates at the redshift through the bands blueshifted
    by 1+band_shift, when the combined shift is a grid redshift (between grid redshifts the table is interpolated, C72). *)
Lemma L_C79_reconstruct :
  forall cub bq sun vega fs d k abc responses s t out map_ (r0 r1 : R) nz d' s' K rows z c bs i,
    Kcorrect cub bq sun vega fs d k abc responses s t out map_ r0 r1 nz = (d', s', Ok K) -> splines cub ->
    let wave := s_rwave s in
    s_rflux s = table (length wave) rows -> rect (length wave) rows -> rows <> [] -> length c = length rows ->
    StronglySorted Rlt wave -> (4 <= length wave)%nat -> Forall (fun t => 0 < t) wave -> r0 < r1 -> (2 <= nz)%nat ->
    -1 < z -> -1 < bs -> nth_error (redshift_grid r0 r1 nz) i = Some ((1 + z) * (1 + bs) - 1) ->
    exists p q, reconstruct (k_fit K) (Some (scal z)) (Some (vec c)) bs = Ok (vec p) /\
      reconstruct_out K (Some (scal z)) (Some (vec c)) bs = Ok (vec q) /\
      length p = length responses /\ length q = length (k_out K) /\
      forall j n v r r' l, (nth_error responses j = Some n /\ nth_error p j = Some v) \/ (nth_error (k_out K) j = Some n /\ nth_error q j = Some v) ->
        dget d' n = Some r -> blueshifted cub bq sun vega (1 + bs) r r' ->
        through cub r' (seen_wave z wave) (seen_rows z rows) l -> v = dot l c.
Proof.
  intros cub bq sun vega fs d k abc responses s t out map_ r0 r1 nz d' s' K rows z c bs i HK Hc wave Hf Hr Hne Lc Hs H4 Hp Hrr Hnz Hz Hbs Hi.
  assert (Hin : r0 <= (1 + z) * (1 + bs) - 1 <= r1).
  { apply nth_error_In in Hi. apply grid_bounds in Hi; auto. }
  destruct (L_C72_reconstruct cub bq sun vega fs d k abc responses s t out map_ r0 r1 nz d' s' K (length wave) rows z c bs HK Hf Hr Hne Hrr Hnz Hin Lc)
    as [(p & Ep & Lp & Fp) (q & Eq & Lq & Fq)].
  exists p, q. do 4 (split; auto). intros j n v r r' l Hj Hd Hb Hth.
  assert (exists x, model_flux cub d' (s_rwave s) (length wave) rows (redshift_grid r0 r1 nz) n c ((1 + z) * (1 + bs) - 1) x /\ v = x / (1 + bs)).
  { destruct Hj as [[J1 J2]|[J1 J2]]; [destruct (Fp j n J1) as (x & X1 & X2)|destruct (Fq j n J1) as (x & X1 & X2)];
      exists x; split; auto; congruence. }
  destruct H as (x & X1 & ->). destruct (grid_photometry _ _ _ _ _ _ _ _ _ _ _ _ _ Hrr Hnz X1 Hi) as (lz & Pz & ->).
  apply photometry_each with (r := r) in Pz; auto; [|nra].
  rewrite <- seen_seen, <- seen_seen_rows in Pz by lra.
  assert (E : lz = map (fun m => (1 + bs) * m) l).
  { apply (through_shift cub bq sun vega bs r r' (seen_wave z wave) (seen_rows z rows) lz l); auto.
    - apply sorted_map_inc; auto. intros; nra.
    - apply Forall_forall. intros u Hu. apply in_map_iff in Hu as (a & <- & Ha). rewrite Forall_forall in Hp. specialize (Hp a Ha). nra. }
  rewrite E, dot_scale. field. lra.
Qed.

Lemma through_exists cub bq sun vega k r r' wave rows : blueshifted cub bq sun vega k r r' -> StronglySorted Rlt wave -> (4 <= length wave)%nat ->
  Forall (fun t => 0 < t) wave -> rect (length wave) rows -> exists l, through cub r' wave rows l.
Proof.
  intros (wv & y & w & yy & w' & yy' & _ & HB) Hs H4 Hp. unfold rect. induction rows as [|f rows IH]; intro Hr.
  - exists []. split; auto. intros [|k'] f H; discriminate.
  - inversion Hr as [|? ? H1 H2]; subst. destruct (IH H2) as (l & L & H). destruct (spectrum_intro wave f) as [s HS]; auto.
    assert (exists m, project_sed cub r' s = Ok (scal m)) as [m Hm].
    { destruct (spectrum_facts _ _ _ HS) as (W1 & _). destruct (classic (overlaps w' wave)) as [Ho|Ho].
      - destruct (L_C21_grid _ _ Hs Ho) as [Hg _]. eexists. exact (L_C18_projection_formula _ _ _ _ _ _ _ _ _ _ _ _ HB HS Ho _ Hg).
      - exists 0. apply (L_C21_zero_without_sample _ _ _ _ _ _ _ _ _ _ HB). congruence. }
    exists (m :: l). split; [cbn; congruence|]. intros [|k'] g E.
    + injection E as <-. exists s. split; [apply HS|exact Hm].
    + apply (H k' g). exact E.
Qed.
Lemma toy_built k : 0 < k -> exists d d' s' K r r' l,
  Kcorrect notaknot (bisect (1/1000)) sun0 sun0 (fun _ => None) d Plain false ["u"%string] r_sed r_tmpl None None 0 1 2 = (d', s', Ok K) /\
  dget d' "u"%string = Some r /\ blueshifted notaknot (bisect (1/1000)) sun0 sun0 k r r' /\
  through notaknot r' (s_rwave r_sed) [[1;1;2;2;1;1]; [1;2;3;4;5;6]] l.
Proof.
  intro Hk. destruct (toy_bands k Hk) as (r & r' & E & Hb).
  assert (Sw : StronglySorted Rlt (s_rwave r_sed)) by apply sorted_wide.
  assert (Rw : rect (length (s_rwave r_sed)) [[1;1;2;2;1;1]; [1;2;3;4;5;6]]) by repeat constructor.
  destruct (through_exists _ _ _ _ _ _ _ (s_rwave r_sed) [[1;1;2;2;1;1]; [1;2;3;4;5;6]] Hb) as [l Hl]; auto; [cbn; lia|repeat constructor; lra|].
  assert (L0 : length [0;1;1;0] = length [1;2;3;4]) by reflexivity.
  destruct (Response_ok _ _ _ _ _ _ _ L0 E) as (w & yy & fw & W1 & _ & W3 & _).
  destruct (L_C73_construction_succeeds notaknot (bisect (1/1000)) sun0 sun0 (fun _ => None) [("u"%string, r)] Plain false ["u"%string] r_sed
    r_tmpl None None 0 1 2 [[1;1;2;2;1;1]; [1;2;3;4;5;6]]) as (d' & s' & K & HK); auto; try lra; try discriminate; try (cbn; lia).
  - intros n Hn. left. exists r. split; [destruct Hn as [[<-|[]]|[<-|[]]]; reflexivity|exists w; eexists; split; eauto].
  - exists [("u"%string, r)], d', s', K, r, r', l. split; auto. split; auto.
    assert (SR : same_rest s' s') by (repeat split; auto).
    destruct (Kcorrect_again _ _ _ _ _ (fun _ => None) _ _ d' _ _ _ _ _ s' _ _ _ _ _ _ _ (fun n r H => H) SR HK) as (_ & He & _).
    apply He. reflexivity.
Qed.
Lemma E_C79_reconstruct : splines notaknot /\ nth_error (redshift_grid 0 1 2) 1 = Some ((1 + 1/3) * (1 + 1/2) - 1) /\
  exists bq d d' s' K r r' l,
  Kcorrect notaknot bq sun0 sun0 (fun _ => None) d Plain false ["u"%string] r_sed r_tmpl None None 0 1 2 = (d', s', Ok K) /\
  dget d' "u"%string = Some r /\ blueshifted notaknot bq sun0 sun0 (1 + 1/2) r r' /\
  through notaknot r' (seen_wave (1/3) (s_rwave r_sed)) (seen_rows (1/3) [[1;1;2;2;1;1]; [1;2;3;4;5;6]]) l.
Proof.
  split; [exact L_C78_exists|]. split.
  { rewrite (nth_error_nth' _ 0) by (rewrite grid_length; lia). rewrite grid_eq by lia. cbn. f_equal. field. }
  destruct (toy_built (1 + 1/2)) as (d & d' & s' & K & r & r' & _ & HK & Hd & Hb & _); [lra|].
  destruct (through_exists _ _ _ _ _ _ _ (seen_wave (1/3) (s_rwave r_sed)) (seen_rows (1/3) [[1;1;2;2;1;1]; [1;2;3;4;5;6]]) Hb) as [l Hl].
  - apply sorted_map_inc; [intros; lra|apply sorted_wide].
  - cbn. lia.
  - cbn. repeat constructor; lra.
  - repeat constructor.
  - exists (bisect (1/1000)), d, d', s', K, r, r', l. auto.
Qed.

(** The K-correction is the textbook one (Hogg et al. 2002, eq. 13, per unit frequency of the AB system): with the rest-frame
    templates through the input band blueshifted by 1+z and through the output band blueshifted by 1+band_shift,
    K = -2.5 log10 [(1+z) F_in / F_out], when both shifts are grid redshifts. *)
Lemma L_C79_kcorrect :
  forall cub bq sun vega fs d k abc responses s t out map_ (r0 r1 : R) nz d' s' K rows z c bs i i',
    Kcorrect cub bq sun vega fs d k abc responses s t out map_ r0 r1 nz = (d', s', Ok K) -> splines cub ->
    let wave := s_rwave s in
    s_rflux s = table (length wave) rows -> rect (length wave) rows -> rows <> [] -> length c = length rows ->
    StronglySorted Rlt wave -> (4 <= length wave)%nat -> Forall (fun t => 0 < t) wave -> r0 < r1 -> (2 <= nz)%nat ->
    -1 < z -> -1 < bs -> nth_error (redshift_grid r0 r1 nz) i = Some z -> nth_error (redshift_grid r0 r1 nz) i' = Some bs ->
    0 < fold_right Rplus 0 c ->
    exists v, kcorrect K (Some (scal z)) (Some (vec c)) bs = Ok (vec v) /\ length v = length (k_out K) /\
      forall j n_out n_in r_in r_out r_in' r_out' l_in l_out,
        nth_error (k_out K) j = Some n_out -> nth_error (k_map K) j = Some n_in ->
        dget d' n_in = Some r_in -> dget d' n_out = Some r_out ->
        blueshifted cub bq sun vega (1 + z) r_in r_in' -> blueshifted cub bq sun vega (1 + bs) r_out r_out' ->
        through cub r_in' wave rows l_in -> through cub r_out' wave rows l_out ->
        nth_error v j = Some (-5/2 * log10 ((1 + z) * dot l_in c / dot l_out c)).
Proof.
  intros cub bq sun vega fs d k abc responses s t out map_ r0 r1 nz d' s' K rows z c bs i i' HK Hc wave Hf Hr Hne Lc Hs H4 Hp Hrr Hnz Hz Hbs Hi Hi' Hpos.
  assert (Hin : r0 <= z <= r1) by (apply nth_error_In in Hi; apply grid_bounds in Hi; auto).
  assert (Hin' : r0 <= bs <= r1) by (apply nth_error_In in Hi'; apply grid_bounds in Hi'; auto).
  destruct (L_C72_kcorrect cub bq sun vega fs d k abc responses s t out map_ r0 r1 nz d' s' K (length wave) rows z c bs HK Hf Hr Hne Hrr Hnz Hin Hin' Lc Hpos)
    as (v & Ev & Lv & Hv).
  exists v. do 2 (split; auto). intros j no ni ri ro ri' ro' li lo Hno Hni Di Do Bi Bo Ti To.
  destruct (Hv j no ni Hno Hni) as (x & y & X & Y & ->).
  destruct (grid_photometry _ _ _ _ _ _ _ _ _ _ _ _ _ Hrr Hnz X Hi) as (lx & Px & ->).
  destruct (grid_photometry _ _ _ _ _ _ _ _ _ _ _ _ _ Hrr Hnz Y Hi') as (ly & Py & ->).
  apply photometry_each with (r := ri) in Px; auto. apply photometry_each with (r := ro) in Py; auto.
  rewrite (through_shift cub bq sun vega z ri ri' wave rows lx li) by auto.
  rewrite (through_shift cub bq sun vega bs ro ro' wave rows ly lo) by auto.
  rewrite !dot_scale. do 3 f_equal. f_equal. field. lra.
Qed.
Lemma E_C79_kcorrect : splines notaknot /\ nth_error (redshift_grid 0 1 2) 1 = Some 1 /\ 0 < fold_right Rplus 0 [1; 1/2] /\
  exists bq d d' s' K r r' l,
  Kcorrect notaknot bq sun0 sun0 (fun _ => None) d Plain false ["u"%string] r_sed r_tmpl None None 0 1 2 = (d', s', Ok K) /\
  dget d' "u"%string = Some r /\ blueshifted notaknot bq sun0 sun0 (1 + 1) r r' /\
  through notaknot r' (s_rwave r_sed) [[1;1;2;2;1;1]; [1;2;3;4;5;6]] l.
Proof.
  split; [exact L_C78_exists|]. split.
  { rewrite (nth_error_nth' _ 0) by (rewrite grid_length; lia). rewrite grid_eq by lia. cbn. f_equal. field. }
  split; [cbn; lra|]. exists (bisect (1/1000)). apply (toy_built (1 + 1)). lra.
Qed.
