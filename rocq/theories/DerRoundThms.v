(** Theorems about the rounding errors of the derived quantities (kcorrect.py:187-323). *)
From Coq Require Import String List Arith Lia Bool ZArith QArith Qreals Reals Lra.
From Flocq Require Import Core.
From Verif Require Import Base BaseLemmas Num Spec Interp Sed Response RespDict Fitter FitSpec FitRealEx Kcorrect KSpec KEx RoundSpec UtilsRoundSpec.
Import ListNotations.
Local Open Scope R_scope.
(* STATEMENTS *)
From Verif Require Import FitterProofs FitterMC UtilsReal RoundProofs RoundThms UtilsRoundThms DerivedThms.

Lemma apx_bounds B x y : 1 <= B -> 0 <= y -> / B * y <= x <= B * y -> apx B x y.
Proof.
  intros HB Hy [H1 H2]. pose proof (inv_le1 B HB). destruct (Req_dec y 0) as [->|Hn].
  - exists 1. split; lra.
  - exists (x / y). split; [|field; auto]. assert (0 < y) by lra.
    split; apply Rmult_le_reg_r with y; auto; unfold Rdiv; rewrite Rmult_assoc, Rinv_l by auto; lra.
Qed.
Lemma apx_sum B : 1 <= B -> forall xs ys, Forall2 (fun x y => apx B x y /\ 0 <= y) xs ys ->
  apx B (fold_right Rplus 0 xs) (fold_right Rplus 0 ys) /\ 0 <= fold_right Rplus 0 ys.
Proof.
  intros HB xs ys H. pose proof (inv_le1 B HB) as HI. induction H as [|x y xs ys ((t & [T1 T2] & ->) & Hy) H IH]; cbn [fold_right].
  - split; [apply apx_refl; auto|lra].
  - destruct IH as ((s & [S1 S2] & ->) & Hs). split; [|lra]. apply apx_bounds; auto; [lra|].
    pose proof (Rmult_le_compat_l _ _ _ Hy T1). pose proof (Rmult_le_compat_l _ _ _ Hy T2).
    pose proof (Rmult_le_compat_l _ _ _ Hs S1). pose proof (Rmult_le_compat_l _ _ _ Hs S2). lra.
Qed.

Lemma terms_apx u (N : Num R) n k : 0 <= u < 1 -> std_model u N -> forall c, nonneg c -> forall v v' ts,
  nonneg v -> length v = length c -> Forall2 (apx ((/ (1 - u)) ^ k)) v' v -> Forall (fac u n) ts -> length ts = length c ->
  Forall2 (fun x y => apx ((/ (1 - u)) ^ (n + k + 2)) x y /\ 0 <= y)
    (zip Rmult (zip (@nmul R N) (map (@cst R N) c) v') ts) (zip Rmult c v).
Proof.
  intros Hu HN c Hc. set (rho := / (1 - u)) in *. assert (Hr : 1 <= rho) by (apply o_rho; auto).
  assert (HP : forall j, 1 <= rho ^ j) by (intro; apply pow_R1_Rle; auto).
  induction Hc as [|a c Ha Hc IH]; intros v v' ts Hv L F Ft Lt; destruct F as [|b' b v' v Hb F]; destruct ts as [|t ts]; try discriminate; cbn [map zip];
    constructor.
  - inversion Hv as [|? ? Hb0 Hv']; subst. inversion Ft as [|? ? Ht Ft']; subst. split; [|apply Rmult_le_pos; auto].
    replace (rho ^ (n + k + 2)) with (rho * rho ^ k * rho * rho ^ n) by (rewrite !pow_add; ring).
    replace (a * b) with (a * b * 1) by ring.
    apply apx_mul; auto.
    + apply ge1_mul; [apply ge1_mul|]; auto.
    + apply (o_mul u N); auto. apply o_rel; auto. apply HN.
    + exists t. split; [exact Ht|ring].
  - inversion Hv; subst. inversion Ft; subst. apply IH; auto.
Qed.
(** A coefficient-weighted sum, the weights [v'] being [v] up to [k] roundings. *)
Lemma dot_apx u (N : Num R) k c v v' : 0 <= u < 1 -> std_model u N -> nonneg c -> nonneg v ->
  length v = length c -> Forall2 (apx ((/ (1 - u)) ^ k)) v' v ->
  apx ((/ (1 - u)) ^ (length c + k + 2)) (@dotp R N (map (@cst R N) c) v') (dot c v) /\ 0 <= dot c v.
Proof.
  intros Hu HN Hc Hv L F. unfold dotp, nsum. rewrite (std_0 _ _ HN).
  destruct (sum_fac u Hu N HN (zip (@nmul R N) (map (@cst R N) c) v') 0) as (t0 & ts & _ & Ft & Lt & ->).
  rewrite Rmult_0_l, Rplus_0_l.
  assert (L' : length v' = length v) by (clear -F; induction F; cbn; auto).
  assert (Lz : length (zip (@nmul R N) (map (@cst R N) c) v') = length c) by (rewrite length_zip, map_length; lia).
  rewrite Lz in Ft, Lt. unfold dot.
  apply apx_sum; [apply pow_R1_Rle, o_rho; auto|]. apply terms_apx; auto.
Qed.
Lemma apx_list u k (v : list R) : 0 <= u < 1 -> Forall2 (apx ((/ (1 - u)) ^ k)) v v.
Proof. intro Hu. induction v; constructor; auto. apply apx_refl, pow_R1_Rle, o_rho; auto. Qed.
Lemma mets_apx u (N : Num R) : 0 <= u < 1 -> std_model u N -> forall a b,
  Forall2 (apx ((/ (1 - u)) ^ 1)) (zip (@nmul R N) a b) (zip Rmult a b).
Proof.
  intros Hu HN. induction a as [|x a IH]; intros [|y b]; cbn [zip]; constructor; auto. rewrite pow_1. apply o_rel; auto. apply HN.
Qed.
Lemma nonneg_zip a b : nonneg a -> nonneg b -> nonneg (zip Rmult a b).
Proof. intros Ha. revert b. induction Ha; intros [|y b] Hb; cbn [zip]; constructor; inversion Hb; subst; [apply Rmult_le_pos; auto|apply IHHa; auto]. Qed.

(** C115.  The derived quantities of one object, in an arithmetic with relative error u: the masses are those of the coefficients
    and the distance modulus up to nt + 4 roundings and the two of the exponent; the ratios b50, b300, b1000 and metallicity are
    those of the coefficients up to 2 nt + 7 and 2 nt + 8 roundings, independently of the distance; they are 0 exactly when the
    mass is; and the mass-to-light ratios are those of the mass and the (computed) output fluxes up to nt + 8 roundings and those
    of the two exponents, 0 exactly when the flux is not positive. *)
Lemma L_C115_derived : forall u (N : Num R) distmod dict (K : kcor R) A Ao nb no nt bs sols z c fl,
  0 <= u < 1 -> std_model u N -> std_fun u N -> rounding N ->
  kready K A Ao nb no nt -> tmpl_shape K nt -> solars dict K sols -> length c = nt -> nonneg c ->
  let t := k_tmpl K in
  nonneg (t_intsfh t) -> nonneg (t_mremain t) -> nonneg (t_mets t) -> nonneg (t_m50 t) -> nonneg (t_m300 t) -> nonneg (t_m1000 t) ->
  @reconstruct_out R N K (Some (scal 0)) (Some (vec c)) bs = Ok (vec fl) ->
  let dm := distmod (@cst R N z) in
  let mass := fun v => dot c v * pow10 (0.4 * dm) in
  let B := (1 + growth u (nt + 4)) * pow10 (0.4 * Rabs dm * growth u 2) - 1 in
  let ratio := fun k r x y =>
    (dot c (t_mremain t) = 0 -> r = 0) /\
    (0 < dot c (t_mremain t) -> 0 < dot c y -> rel (growth u (2 * nt + k)) r (dot c x / dot c y)) in
  exists M I b50 b300 b1000 Z mt,
    @derived_object R N distmod dict K bs (z, c) =
      Ok [("mremain", scal M); ("intsfh", scal I); ("mtol", vec mt); ("b50", scal b50); ("b300", scal b300); ("b1000", scal b1000);
          ("metallicity", scal Z)]%string /\
    rel B M (mass (t_mremain t)) /\ rel B I (mass (t_intsfh t)) /\
    ratio 7%nat b50 (t_m50 t) (t_intsfh t) /\ ratio 7%nat b300 (t_m300 t) (t_intsfh t) /\ ratio 7%nat b1000 (t_m1000 t) (t_intsfh t) /\
    ratio 8%nat Z (zip Rmult (t_mremain t) (t_mets t)) (t_mremain t) /\
    forall j, (j < length fl)%nat -> (j < length sols)%nat ->
      let s := nth j sols 0 in let f := nth j fl 0 in
      (f <= 0 -> nth j mt 0 = 0) /\
      (0 < f -> rel ((1 + growth u (nt + 8)) * pow10 (0.4 * Rabs dm * growth u 2 + 0.4 * Rabs (s + dm) * growth u 3) - 1)
                    (nth j mt 0) (dot c (t_mremain t) * pow10 (- 0.4 * s) / f)).
Proof.
  intros u N distmod dict K A Ao nb no nt bs sols z c fl Hu HN HF HR HK Ht Hs Lc Hc t P1 P2 P3 P4 P5 P6 Hfl dm mass B ratio.
  pose proof (L_C50_law R N distmod dict K A Ao nb no nt bs sols z c HR HK Ht Hs Lc) as E. cbv zeta in E. rewrite (std_0 _ _ HN), Hfl in E.
  fold t dm in E.
  set (tot := fun v => @nmul R N (@dotp R N (map (@cst R N) c) v) (@npow10 R N (@nmul R N (@nlit R N (2 # 5)) dm))) in *.
  pose proof Ht as LL. unfold tmpl_shape in LL. fold t in LL.
  inversion LL as [|? ? L1 LL1]; subst. inversion LL1 as [|? ? L2 LL2]; subst. inversion LL2 as [|? ? L3 LL3]; subst.
  inversion LL3 as [|? ? L4 LL4]; subst. inversion LL4 as [|? ? L5 LL5]; subst. inversion LL5 as [|? ? L6 _]; subst. clear LL LL1 LL2 LL3 LL4 LL5.
  set (rho := / (1 - u)) in *. assert (Hr : 1 <= rho) by (apply o_rho; auto).
  assert (HP : forall k, 1 <= rho ^ k) by (intro; apply pow_R1_Rle; auto).
  set (E2 := pow10 (0.4 * Rabs dm * growth u 2)).
  assert (HE2 : 1 <= E2).
  { apply pow10_ge1. pose proof (Rabs_pos dm). pose proof (growth_pos u Hu 2). apply Rmult_le_pos; lra. }
  set (df := @npow10 R N (@nmul R N (@nlit R N (2 # 5)) dm)) in *.
  assert (Hdf : apx (E2 * rho) df (pow10 (0.4 * dm))).
  { unfold df, E2. replace (0.4 * Rabs dm * growth u 2) with (Rabs (0.4 * dm) * (rho * 1 * rho - 1)).
    2:{ rewrite Rabs_mult, (Rabs_pos_eq 0.4) by lra. unfold growth. fold rho. ring. }
    apply (o_pow10 u N); auto; [nra|]. apply (o_mul u N); auto; try lra; [|apply apx_refl; lra].
    apply (o_lit u N); auto. unfold Q2R. cbn. lra. }
  assert (Hp : 0 < pow10 (0.4 * dm)) by (unfold pow10, Rpower; apply exp_pos).
  assert (Hd0 : 0 < df) by (eapply apx_pos; [|exact Hdf|auto]; apply ge1_mul; auto).
  assert (HT : forall k v v', nonneg v -> length v = length c -> Forall2 (apx (rho ^ k)) v' v ->
     apx (rho ^ (length c + k + 3)) (tot v') (dot c v * df) /\ 0 <= dot c v).
  { intros k v v' Hv Lv F. destruct (dot_apx u N k c v v' Hu HN Hc Hv Lv F) as [D1 D2]. fold rho in D1. split; auto.
    unfold tot. replace (rho ^ (length c + k + 3)) with (rho ^ (length c + k + 2) * 1 * rho) by (rewrite !pow_add; ring).
    apply (o_mul u N); auto; [lra|apply apx_refl; lra]. }
  assert (HT0 : forall v, nonneg v -> length v = length c -> apx (rho ^ (length c + 3)) (tot v) (dot c v * df) /\ 0 <= dot c v).
  { intros v Hv Lv. destruct (HT 0%nat v v Hv Lv) as [X Y]; [apply apx_list; auto|]. rewrite Nat.add_0_r in X. auto. }
  assert (HM : forall v, nonneg v -> length v = length c -> apx (rho ^ (length c + 4) * E2) (tot v) (mass v)).
  { intros v Hv Lv. destruct (HT0 v Hv Lv) as [X Y]. unfold mass.
    replace (rho ^ (length c + 4) * E2) with (rho ^ (length c + 3) * (1 * (E2 * rho))) by (rewrite !pow_add; ring).
    eapply apx_trans; [auto| |exact X|]; [rewrite Rmult_1_l; apply ge1_mul; auto|].
    apply apx_mul; auto; [lra|apply ge1_mul; auto|apply apx_refl; lra]. }
  assert (HBv : B = rho ^ (length c + 4) * E2 - 1) by (unfold B; rewrite o_growth; reflexivity).
  assert (G4 : 1 <= rho ^ (length c + 4) * E2) by (apply ge1_mul; auto).
  destruct (HT0 (t_mremain t) P2 L2) as [XM YM].
  assert (ZM : dot c (t_mremain t) = 0 -> tot (t_mremain t) = 0).
  { intro Z. rewrite Z in XM. destruct XM as (q & _ & ->). ring. }
  assert (SM : 0 < dot c (t_mremain t) -> 0 < tot (t_mremain t)).
  { intro Z. eapply apx_pos; [|exact XM|]; auto. apply Rmult_lt_0_compat; auto. }
  assert (HRat : forall k x x' y r, nonneg x -> length x = length c -> nonneg y -> length y = length c -> Forall2 (apx (rho ^ k)) x' x ->
     r = (if @nltb R N 0 (tot (t_mremain t)) then @ndiv R N (tot x') (tot y) else 0) -> ratio (k + 7)%nat r x y).
  { intros k x x' y r Nx Lx Ny Ly F ->. rewrite (std_lt _ _ HN). split.
    - intro Z. rewrite (ZM Z). rewrite (Rltb_false 0 0) by lra. auto.
    - intros Z Hy. rewrite (Rltb_true 0 _) by auto.
      destruct (HT k x x' Nx Lx F) as [Xx _]. destruct (HT0 y Ny Ly) as [Xy _].
      replace (dot c x / dot c y) with (dot c x * df / (dot c y * df)) by (field; lra).
      assert (G : growth u (2 * length c + (k + 7)) = rho ^ (length c + k + 3) * rho ^ (length c + 3) * rho - 1).
      { unfold growth. fold rho. replace (2 * length c + (k + 7))%nat with ((length c + k + 3) + (length c + 3) + 1)%nat by lia. rewrite !(pow_add rho (_ + _)%nat), pow_1. ring. }
      rewrite G. apply apx_rel; [apply ge1_mul; auto; apply ge1_mul; auto|]. apply (o_div u N); auto.
      apply Rmult_integral_contrapositive_currified; lra. }
  do 7 eexists. split; [exact E|]. cbv beta.
  split; [rewrite HBv; apply apx_rel; [auto|exact (HM _ P2 L2)]|]. split; [rewrite HBv; apply apx_rel; [auto|exact (HM _ P1 L1)]|].
  split; [apply (HRat 0%nat (t_m50 t) (t_m50 t)); auto; apply apx_list; auto|].
  split; [apply (HRat 0%nat (t_m300 t) (t_m300 t)); auto; apply apx_list; auto|].
  split; [apply (HRat 0%nat (t_m1000 t) (t_m1000 t)); auto; apply apx_list; auto|].
  split.
  { apply (HRat 1%nat _ (zip (@nmul R N) (t_mremain t) (t_mets t))); auto.
    - apply nonneg_zip; auto.
    - rewrite length_zip. lia.
    - apply mets_apx; auto. }
  intros j Hj1 Hj2. cbv zeta. cbn [vec dat].
  assert (Ez : forall g : R -> R -> R, nth j (zip g fl sols) 0 = g (nth j fl 0) (nth j sols 0)).
  { intro g. apply nth_error_nth. rewrite nth_error_zip, (nth_error_of fl j 0), (nth_error_of sols j 0); auto. }
  rewrite Ez. set (s := nth j sols 0). set (f := nth j fl 0).
  set (E3 := pow10 (0.4 * Rabs (s + dm) * growth u 3)).
  assert (HE3 : 1 <= E3).
  { apply pow10_ge1. pose proof (Rabs_pos (s + dm)). pose proof (growth_pos u Hu 3). apply Rmult_le_pos; lra. }
  set (sol := @npow10 R N (@nmul R N (@nlit R N (-(2) # 5)) (@nadd R N s dm))).
  assert (Hsol : apx (E3 * rho) sol (pow10 (- 0.4 * (s + dm)))).
  { unfold sol, E3. replace (0.4 * Rabs (s + dm) * growth u 3) with (Rabs (- 0.4 * (s + dm)) * (rho * rho * rho - 1)).
    2:{ rewrite Rabs_mult. replace (Rabs (-0.4)) with 0.4 by (rewrite Rabs_left; lra). unfold growth. fold rho. ring. }
    apply (o_pow10 u N); auto; [nra|]. apply (o_mul u N); auto.
    - apply (o_lit u N); auto. apply lit_m04.
    - apply o_rel; auto. apply HN. }
  assert (Hs0 : 0 < pow10 (- 0.4 * (s + dm))) by (unfold pow10, Rpower; apply exp_pos).
  assert (HE3r : 1 <= E3 * rho) by (apply ge1_mul; auto).
  assert (Hl : apx (1 * (E3 * rho) * rho) (@ndiv R N f sol) (f / pow10 (- 0.4 * (s + dm)))).
  { apply (o_div u N); auto; [lra|lra|apply apx_refl; lra]. }
  assert (HG : 1 <= 1 * (E3 * rho) * rho) by (rewrite Rmult_1_l; apply ge1_mul; auto).
  rewrite (std_lt _ _ HN). split.
  - intro Hf. rewrite (Rltb_false 0 _); auto.
    destruct Hl as (q & [Q1 _] & ->). pose proof (inv_le1 _ HG). assert (0 < / pow10 (- 0.4 * (s + dm))) by (apply Rinv_0_lt_compat; auto).
    unfold Rdiv. assert (f * / pow10 (- 0.4 * (s + dm)) <= 0) by nra. nra.
  - intro Hf. assert (Hlp : 0 < f / pow10 (- 0.4 * (s + dm))) by (apply Rdiv_lt_0_compat; auto).
    rewrite (Rltb_true 0 _) by (eapply apx_pos; eauto).
    replace (dot c (t_mremain t) * pow10 (- 0.4 * s) / f) with (mass (t_mremain t) / (f / pow10 (- 0.4 * (s + dm)))).
    2:{ unfold mass. replace (pow10 (- 0.4 * s)) with (pow10 (0.4 * dm) * pow10 (- 0.4 * (s + dm))) by (rewrite <- pow10_plus; f_equal; lra).
        field. split; lra. }
    assert (EE : (1 + growth u (length c + 8)) * pow10 (0.4 * Rabs dm * growth u 2 + 0.4 * Rabs (s + dm) * growth u 3) =
      rho ^ (length c + 4) * E2 * (1 * (E3 * rho) * rho) * rho * rho).
    { rewrite o_growth, pow10_plus. fold E2 E3 rho. rewrite !pow_add. ring. }
    rewrite EE. apply apx_rel.
    + apply ge1_mul; auto. apply ge1_mul; auto. apply ge1_mul; auto.
    + apply (o_cst u N); auto; [apply ge1_mul; auto; apply ge1_mul; auto|]. apply (o_div u N); auto; [lra|exact (HM _ P2 L2)].
Qed.
Lemma r_recon24 : exists fl, @reconstruct_out R Num_24 r_kcor (Some (scal 0)) (Some (vec [2])) 0 = Ok (vec fl) /\ length fl = 2%nat /\
  forall j, (j < 2)%nat -> 0 < nth j fl 0.
Proof.
  destruct L_C83_model as (HN & _ & _). destruct r_kready as (HR & HAo & Hto & _). destruct HR as (_ & _ & Hn & _).
  assert (Hu : 0 <= bpow radix2 (-24) < 1) by (cbn; lra).
  assert (Z : @shifted R Num_24 0 (@cst R Num_24 0) = 0).
  { change (rnd24 (rnd24 (rnd24 (1 + rnd24 0) * rnd24 (1 + 0)) - 1) = 0). rewrite rnd24_0. rewrite Rplus_0_r.
    assert (R1 : rnd24 1 = 1) by (pose proof (rnd24_int 1 0 ltac:(lia)) as X; cbn in X; rewrite !Rmult_1_r in X; exact X).
    rewrite R1, Rmult_1_r, R1. replace (1 - 1) with 0 by ring. apply rnd24_0. }
  destruct (reconstruct_rel (bpow radix2 (-24)) Num_24 (k_fit r_kcor) r_tab 2 1 0 [2] 0 3 Hu HN Hn Hto r_grid eq_refl ltac:(lra) ltac:(lra) r_gentle) as (m & e & X1 & _ & X3 & _ & X5).
  { constructor; [lra|constructor]. } { cbn; lra. } { rewrite Z. unfold in_range. cbn. lra. }
  exists m. unfold reconstruct_out. rewrite HAo. split; [exact X1|]. split; auto. intros j Hj. destruct (X5 j Hj) as [E1 E2].
  pose proof (growth24 11 ltac:(lia)) as G. unfold rel in E2. cbn [Nat.add] in E2.
  assert (Ee : nth j e 0 / (1 + 0) = nth j e 0) by field. rewrite Ee in E2. rewrite (Rabs_pos_eq (nth j e 0)) in E2 by lra.
  apply Rabs_le_inv in E2. nra.
Qed.
Lemma E_C115_derived : kready r_kcor r_tab r_tab 2 2 1 /\ tmpl_shape r_kcor 1 /\ solars r_solar r_kcor [5; 4] /\ nonneg [2] /\
  exists M I b50 b300 b1000 Z mt,
    @derived_object R Num_24 (fun _ => 35) r_solar r_kcor 0 (1, [2]) =
      Ok [("mremain", scal M); ("intsfh", scal I); ("mtol", vec mt); ("b50", scal b50); ("b300", scal b300); ("b1000", scal b1000);
          ("metallicity", scal Z)]%string /\
    rel (growth (bpow radix2 (-24)) 9) b50 (1 / 8) /\ rel (growth (bpow radix2 (-24)) 10) Z (1 / 50).
Proof.
  split; [apply r_kready|]. split; [repeat constructor|]. split. { repeat constructor; eexists; split; reflexivity. }
  assert (Hc : nonneg [2]) by (constructor; [lra|constructor]). split; auto.
  destruct r_recon24 as (fl & Hfl & _). destruct L_C113_model as [HN HF].
  destruct (L_C115_derived (bpow radix2 (-24)) Num_24 (fun _ => 35) r_solar r_kcor r_tab r_tab 2 2 1 0 [5; 4] 1 [2] fl)
    as (M & I & b50 & b300 & b1000 & Z & mt & E & _ & _ & (_ & H50) & _ & _ & (_ & HZ) & _); auto.
  { cbn; lra. } { apply L_C83_model. } { apply r_kready. } { repeat constructor. } { repeat constructor; eexists; split; reflexivity. }
  all: try (constructor; [lra|constructor]).
  exists M, I, b50, b300, b1000, Z, mt. split; auto. cbn [k_tmpl r_kcor ex_tmpl t_m50 t_intsfh t_mremain t_mets] in H50, HZ.
  unfold dot in H50, HZ. cbn [zip fold_right] in H50, HZ. split.
  - replace (1 / 8) with ((2 * (1 / 4) + 0) / (2 * 2 + 0)) by field. apply H50; lra.
  - replace (1 / 50) with ((2 * (1 * (1 / 50)) + 0) / (2 * 1 + 0)) by field. apply HZ; lra.
Qed.

(** C115.  Mass-to-light ratios against the exact fluxes of the output table, when neighbouring grid tables differ by a factor of
    at most kappa: those are taken at a redshift z' within five roundings of the band shift, and their own error adds the
    factor 1 / (1 - 2 kappa (growth of nt + 10 roundings)). *)
Lemma L_C115_mtol : forall u (N : Num R) distmod dict (K : kcor R) A Ao nb no nt bs sols z c kappa,
  0 <= u < 1 -> std_model u N -> std_fun u N -> rounding N ->
  kready K A Ao nb no nt -> tmpl_shape K nt -> solars dict K sols -> length c = nt -> nonneg c -> 0 < fold_right Rplus 0 c ->
  let t := k_tmpl K in
  nonneg (t_intsfh t) -> nonneg (t_mremain t) -> nonneg (t_mets t) -> nonneg (t_m50 t) -> nonneg (t_m300 t) -> nonneg (t_m1000 t) ->
  grid_ok (a_x Ao) -> gentle kappa Ao no nt -> -1 < bs ->
  let eps := 2 * kappa * growth u (nt + 10) in eps < 1 ->
  let dm := distmod (@cst R N z) in
  exists z', Rabs (z' - bs) <= growth u 5 * (2 + bs) /\
    (in_range (a_x Ao) z' -> exists o mt e,
      @derived_object R N distmod dict K bs (z, c) = Ok o /\ In ("mtol"%string, vec mt) o /\
      @reconstruct_out R Num_R K (Some (scal z')) (Some (vec c)) 0 = Ok (vec e) /\
      forall j, (j < no)%nat -> let s := nth j sols 0 in
        rel ((1 + growth u (nt + 8)) * pow10 (0.4 * Rabs dm * growth u 2 + 0.4 * Rabs (s + dm) * growth u 3) / (1 - eps) - 1)
            (nth j mt 0) (dot c (t_mremain t) * pow10 (- 0.4 * s) / (nth j e 0 / (1 + bs)))).
Proof.
  intros u N distmod dict K A Ao nb no nt bs sols z c kappa Hu HN HF HR HK Ht Hs Lc Hc Hsum t P1 P2 P3 P4 P5 P6 Hg Hk Hbs eps Heps dm.
  pose proof HK as ((_ & _ & Hn & _) & HAo & Hto & Ho & _).
  exists (@shifted R N bs (@cst R N 0)). split.
  { pose proof (shifted_err u N 0 bs Hu HN (Rle_refl 0) Hbs) as X. replace ((1 + 0) * (1 + bs) - 1) with bs in X by ring.
    replace ((1 + 0) * (1 + bs) + 1) with (2 + bs) in X by ring. exact X. }
  intros Hin.
  destruct (reconstruct_rel u N (k_fit K) Ao no nt 0 c bs kappa Hu HN Hn Hto Hg Lc ltac:(lra) Hbs Hk Hc Hsum Hin) as (m & e & X1 & X2 & X3 & X4 & X5).
  assert (Hfl : @reconstruct_out R N K (Some (scal 0)) (Some (vec c)) bs = Ok (vec m)) by (unfold reconstruct_out; rewrite HAo; exact X1).
  destruct (L_C115_derived u N distmod dict K A Ao nb no nt bs sols z c m Hu HN HF HR HK Ht Hs Lc Hc P1 P2 P3 P4 P5 P6 Hfl)
    as (M & I & b50 & b300 & b1000 & Z & mt & E & _ & _ & _ & _ & _ & _ & H).
  exists [("mremain", scal M); ("intsfh", scal I); ("mtol", vec mt); ("b50", scal b50); ("b300", scal b300); ("b1000", scal b1000);
          ("metallicity", scal Z)]%string, mt, e.
  split; [exact E|]. split; [cbn; auto|]. split; [unfold reconstruct_out; rewrite HAo; exact X2|].
  intros j Hj. cbv zeta. destruct (X5 j Hj) as [E1 E2].
  assert (Lsol : length sols = no).
  { rewrite <- Ho. clear -Hs. unfold solars in Hs. induction Hs; cbn; auto. }
  destruct (H j ltac:(lia) ltac:(lia)) as (_ & HP). clear H. fold t dm in HP.
  fold eps in E2. set (g := nth j e 0 / (1 + bs)) in *.
  assert (Hg0 : 0 < g) by (unfold g; apply Rdiv_lt_0_compat; lra).
  assert (Heps0 : 0 <= eps).
  { unfold rel in E2. rewrite (Rabs_pos_eq g) in E2 by lra. pose proof (Rabs_pos (nth j m 0 - g)). nra. }
  assert (HI : 1 <= / (1 - eps)) by (rewrite <- Rinv_1; apply Rinv_le_contravar; lra).
  assert (Hap : apx (/ (1 - eps)) (nth j m 0) g).
  { apply apx_bounds; auto; [lra|]. rewrite Rinv_inv. unfold rel in E2. rewrite (Rabs_pos_eq g) in E2 by lra. apply Rabs_le_inv in E2.
    split; [lra|]. assert (1 + eps <= / (1 - eps)); [|nra].
    apply Rmult_le_reg_r with (1 - eps); [lra|]. rewrite Rinv_l by lra. nra. }
  pose proof (apx_pos _ _ _ HI Hap Hg0) as Hm. specialize (HP Hm).
  set (s := nth j sols 0) in *.
  set (Q := (1 + growth u (nt + 8)) * pow10 (0.4 * Rabs dm * growth u 2 + 0.4 * Rabs (s + dm) * growth u 3)) in *.
  set (W := dot c (t_mremain t) * pow10 (- 0.4 * s)) in *.
  assert (HQ : 1 <= Q).
  { unfold Q. apply ge1_mul; [pose proof (growth_pos u Hu (nt + 8)); lra|]. apply pow10_ge1.
    pose proof (Rabs_pos dm). pose proof (Rabs_pos (s + dm)). pose proof (growth_pos u Hu 2). pose proof (growth_pos u Hu 3).
    apply Rplus_le_le_0_compat; apply Rmult_le_pos; lra. }
  pose proof (apx_inv _ _ _ HI Hap) as (q & Tq & Eq). unfold rel in HP |- *.
  assert (Ew : W / nth j m 0 = W / g * q) by (unfold Rdiv; rewrite Eq; ring). rewrite Ew in HP.
  pose proof (apx_err _ _ HI Tq) as Hq. pose proof (inv_le1 _ HI) as HII.
  replace (nth j mt 0 - W / g) with ((nth j mt 0 - W / g * q) + W / g * (q - 1)) by ring.
  eapply Rle_trans; [apply Rabs_triang|]. rewrite Rabs_mult in HP. rewrite (Rabs_mult (W / g)).
  rewrite (Rabs_pos_eq q) in HP by lra.
  eapply Rle_trans; [apply Rplus_le_compat; [exact HP|apply Rmult_le_compat_l; [apply Rabs_pos|exact Hq]]|].
  unfold Rdiv. set (w := Rabs (W * / g)). assert (0 <= w) by apply Rabs_pos.
  replace ((Q - 1) * (w * q) + w * (/ (1 - eps) - 1)) with (w * ((Q - 1) * q + / (1 - eps) - 1)) by ring.
  rewrite (Rmult_comm _ w). apply Rmult_le_compat_l; auto. destruct Tq as [T1 T2]. nra.
Qed.
Lemma E_C115_mtol : kready r_kcor r_tab r_tab 2 2 1 /\ grid_ok (a_x r_tab) /\ gentle 3 r_tab 2 1 /\
  2 * 3 * growth (bpow radix2 (-24)) (1 + 10) < 1 /\ nonneg [2] /\ 0 < fold_right Rplus 0 [2] /\ in_range (a_x r_tab) (/ 2) /\
  exists z', Rabs (z' - / 2) <= growth (bpow radix2 (-24)) 5 * (2 + / 2) /\
    exists o mt, @derived_object R Num_24 (fun _ => 35) r_solar r_kcor (/ 2) (1, [2]) = Ok o /\ In ("mtol"%string, vec mt) o.
Proof.
  pose proof (growth24 11 ltac:(lia)) as G. pose proof (growth24 5 ltac:(lia)) as G5.
  assert (Hc : nonneg [2]) by (constructor; [lra|constructor]).
  split; [apply r_kready|]. split; [apply r_grid|]. split; [apply r_gentle|]. split; [cbn [Nat.add]; lra|]. split; auto. split; [cbn; lra|].
  split; [unfold in_range; cbn; lra|]. destruct L_C113_model as [HN HF].
  destruct (L_C115_mtol (bpow radix2 (-24)) Num_24 (fun _ => 35) r_solar r_kcor r_tab r_tab 2 2 1 (/ 2) [5; 4] 1 [2] 3) as (z' & Hz & H); auto using r_grid, r_gentle.
  { cbn; lra. } { apply L_C83_model. } { apply r_kready. } { repeat constructor. } { repeat constructor; eexists; split; reflexivity. } { cbn; lra. }
  all: try (constructor; [lra|constructor]); try lra. { cbn [Nat.add]; lra. }
  exists z'. split; auto. destruct H as (o & mt & e & H1 & H2 & _); eauto. apply Rabs_le_inv in Hz. unfold in_range. cbn. lra.
Qed.
