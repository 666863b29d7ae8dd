(** Fits by solvers that only come close to the minimum (C84): the proofs. *)
From Coq Require Import String List Arith Lia Bool ZArith QArith Qreals Reals Lra Sorting.Sorted.
From Verif Require Import Base BaseLemmas Num Toy Interp InterpReal Spec Utils Sed Response RespDict LinInterp ResponseEx
  Fitter FitSpec FitterProofs FitterMC FitReal FitTable FitEx FitRealEx FitterThms FitRealThms NnlsSpec NnlsExact NnlsEx NnlsThms
  ApproxSpec.
Import ListNotations.
Local Open Scope R_scope.
(* STATEMENTS *)

(** * sqrt chi^2 is a distance *)
Lemma chi2_quad iv s t : nonneg iv -> forall p q r, length p = length iv -> length q = length iv -> length r = length iv ->
  0 <= s * s * chi2 iv p q - 2 * s * t * wdot iv (vsub p q) (vsub q r) + t * t * chi2 iv q r.
Proof.
  intros Hn. unfold wdot, chi2, vsub. induction Hn as [|w iv Hw Hn IH]; intros [|x p] [|y q] [|z r] H1 H2 H3; try discriminate;
    cbn [zip fold_right]; [lra|].
  specialize (IH p q r ltac:(cbn in *; lia) ltac:(cbn in *; lia) ltac:(cbn in *; lia)).
  pose proof (Rle_0_sqr (s * (x - y) - t * (y - z))) as H. unfold Rsqr in H. pose proof (Rmult_le_pos w _ Hw H). lra.
Qed.
Lemma chi2_split iv : forall p q r, length p = length iv -> length q = length iv -> length r = length iv ->
  chi2 iv p r = chi2 iv p q + 2 * wdot iv (vsub p q) (vsub q r) + chi2 iv q r.
Proof.
  unfold wdot, chi2, vsub. induction iv as [|w iv IH]; intros [|x p] [|y q] [|z r] H1 H2 H3; try discriminate;
    cbn [zip fold_right]; [lra|].
  rewrite (IH p q r) by (cbn in *; lia). lra.
Qed.
Lemma quad_cs P X Q : 0 <= P -> 0 <= Q -> (forall s t, 0 <= s * s * P - 2 * s * t * X + t * t * Q) -> X <= sqrt P * sqrt Q.
Proof.
  intros HP HQ H. rewrite <- sqrt_mult by auto.
  destruct (Rle_dec X 0) as [Hx|Hx]; [pose proof (sqrt_pos (P * Q)); lra|]. assert (0 < X) by lra.
  rewrite <- (sqrt_square X) by lra. apply sqrt_le_1_alt.
  destruct (Req_dec Q 0) as [->|HQ0].
  - exfalso. specialize (H 1 ((P + 1) / X)). 
    assert (E : 2 * 1 * ((P + 1) / X) * X = 2 * (P + 1)) by (field; lra). rewrite E in H. lra.
  - assert (0 < Q) by lra. specialize (H Q X).
    assert (0 <= Q * (P * Q - X * X)) by lra. apply (Rmult_le_reg_l Q); lra.
Qed.
Lemma chi2_tri iv p q r : nonneg iv -> length p = length iv -> length q = length iv -> length r = length iv ->
  sqrt (chi2 iv p r) <= sqrt (chi2 iv p q) + sqrt (chi2 iv q r).
Proof.
  intros Hn Hp Hq Hr. pose proof (chi2_nonneg iv p q Hn) as H1. pose proof (chi2_nonneg iv q r Hn) as H2.
  pose proof (sqrt_pos (chi2 iv p q)) as H3. pose proof (sqrt_pos (chi2 iv q r)) as H4.
  rewrite <- (sqrt_square (_ + _)) by lra. apply sqrt_le_1_alt.
  rewrite (chi2_split iv p q r) by auto.
  pose proof (quad_cs _ _ _ H1 H2 (fun s t => chi2_quad iv s t Hn p q r Hp Hq Hr)) as H5.
  pose proof (sqrt_sqrt _ H1). pose proof (sqrt_sqrt _ H2). lra.
Qed.

(** * One object *)
Lemma sumsq_signal iv : forall m, nonneg iv -> length m = length iv ->
  sumsq (zip Rmult m (map sqrt iv)) = signal2 iv m.
Proof.
  intros m Hn. revert m. unfold signal2, chi2, vsub, sumsq. induction Hn as [|w iv Hw Hn IH]; intros [|x m] H; try discriminate; cbn [map zip fold_right repeat length]; auto.
  rewrite (IH m ltac:(cbn in *; lia)). pose proof (sqrt_sqrt w Hw) as E. f_equal.
  replace (x * sqrt w * (x * sqrt w)) with (sqrt w * sqrt w * (x * x)) by ring. rewrite E. ring.
Qed.
Lemma signal2_nonneg iv m : nonneg iv -> 0 <= signal2 iv m.
Proof. intro H. unfold signal2. apply chi2_nonneg; auto. Qed.

(** C84.  The contract of C28 is the case eps = 0. *)
Lemma L_C84_exact : forall nnls, nnls_contract nnls <-> nnls_within 0 nnls.
Proof.
  intro nnls. split; intros H mi n A b x HA HL E; destruct (H mi n A b x HA HL E) as (L & N & O); repeat split; auto;
    intros y Ly Ny; specialize (O y Ly Ny); lra.
Qed.
Lemma E_C84_exact : nnls_within 0 nnls_exact.
Proof. apply L_C84_exact, nnls_exact_contract. Qed.

Lemma quad_min P X B : 0 <= P -> (forall k, 0 <= k -> P - 2 * X + B <= k * k * P - 2 * k * X + B) -> X = P.
Proof.
  intros HP H. destruct (Req_dec P 0) as [->|HP0].
  - pose proof (H 0 ltac:(lra)). pose proof (H 2 ltac:(lra)). lra.
  - assert (0 < P) by lra. destruct (Rlt_dec X 0) as [Hx|Hx]; [pose proof (H 0 ltac:(lra)); lra|].
    assert (Hk : 0 <= X / P) by (apply Rmult_le_pos; [lra|apply Rlt_le, Rinv_0_lt_compat; auto]).
    specialize (H _ Hk).
    assert (E1 : X / P * (X / P) * P = X / P * X) by (field; lra).
    assert (E2 : (P - X) * (P - X) = P * (P - 2 * X + X / P * X)) by (field; lra).
    rewrite E1 in H. assert (P - 2 * X + X / P * X <= 0) by lra.
    assert (P * (P - 2 * X + X / P * X) <= 0).
    { apply (Rmult_le_compat_l P) in H1; lra. }
    pose proof (Rle_0_sqr (P - X)) as Hs. unfold Rsqr in Hs.
    assert (Hz : (P - X) * (P - X) = 0) by lra. apply Rmult_integral in Hz as [Hz|Hz]; lra.
Qed.
Lemma mulmv_scale A k x : mulmv A (map (Rmult k) x) = map (Rmult k) (mulmv A x).
Proof. unfold mulmv. rewrite map_map. apply map_ext. intro r. rewrite dot_comm, dot_scale, dot_comm. auto. Qed.
Lemma sumsq_scale k b : forall p, length p = length b ->
  sumsq (vsub (map (Rmult k) p) b) = k * k * sumsq p - 2 * k * dot p b + sumsq b.
Proof.
  unfold sumsq, vsub, dot. induction b as [|y b IH]; intros [|x p] H; try discriminate; cbn [map zip fold_right]; [lra|].
  rewrite IH by (cbn in *; lia). lra.
Qed.
Lemma sumsq_nonneg a : 0 <= sumsq a.
Proof. rewrite sumsq_dot. apply dot_self_nonneg. Qed.
Lemma map_1 p : map (Rmult 1) p = p.
Proof. rewrite <- (map_id p) at 2. apply map_ext. intro. lra. Qed.

(** C84.  A solver whose answers are too small by a fraction d misses the minimum by at most d^2. *)
Lemma L_C84_shrunk : forall nnls d, nnls_contract nnls -> 0 <= d <= 1 -> nnls_within (d * d) (shrunk d nnls).
Proof.
  intros nnls d Hc Hd mi n A b x HA HL E. unfold shrunk in E. destruct (nnls mi n A b) as [x0|] eqn:E0; [|discriminate].
  cbn in E. injection E as <-. destruct (Hc mi n A b x0 HA HL E0) as (L & N & O).
  split; [rewrite map_length; auto|]. split; [apply scale_nonneg; auto; lra|].
  intros y Ly Ny. eapply Rle_trans; [|apply Rplus_le_compat_r, (O y Ly Ny)].
  assert (Lp : length (mulmv A x0) = length b) by (rewrite mulmv_length; auto).
  rewrite mulmv_scale. rewrite (sumsq_scale (1 - d)) by auto.
  set (p := mulmv A x0) in *. rewrite <- (map_1 p). rewrite (sumsq_scale 1) by (auto). rewrite map_1.
  assert (EX : dot p b = sumsq p).
  { apply (quad_min (sumsq p) (dot p b) (sumsq b)); [apply sumsq_nonneg|]. intros k Hk.
    specialize (O (map (Rmult k) x0) ltac:(rewrite map_length; auto) (scale_nonneg k x0 Hk N)).
    rewrite mulmv_scale in O. fold p in O. rewrite (sumsq_scale k) in O by auto.
    rewrite <- (map_1 p) in O at 1. rewrite (sumsq_scale 1) in O by auto. lra. }
  rewrite EX. assert (sumsq p <= sumsq b).
  { pose proof (sumsq_nonneg (vsub (map (Rmult 1) p) b)) as H0. rewrite (sumsq_scale 1) in H0 by auto. rewrite EX in H0. lra. }
  pose proof (Rmult_le_compat_l (d * d) _ _ ltac:(apply Rmult_le_pos; lra) H). lra.
Qed.
Lemma E_C84_shrunk :
  nnls_within (1 / 100 * (1 / 100)) (shrunk (1 / 100) nnls1) /\
  shrunk (1 / 100) nnls1 None 1 [[1]; [2]] [1; 3] = Some [1386 / 1000].
Proof.
  split; [apply L_C84_shrunk; [apply nnls1_contract|lra]|].
  unfold shrunk, nnls1. cbn [Nat.eqb map nth]. unfold dot; cbn [zip fold_right]. destruct (Rlt_dec _ _) as [_|Hn]; [|exfalso; apply Hn; lra].
  cbn [option_map map]. do 2 f_equal. field.
Qed.

Section Near.
  Variables (F : fitter R) (A : atab R) (nb nt : nat).
  Hypothesis HF : ready F A nb nt.
  Notation model z c := (mulmv (chunks nb nt (arow A z)) c).
  Definition near eps z iv m c : Prop := length c = nt /\ nonneg c /\
    forall y, length y = nt -> nonneg y -> chi2 iv m (model z c) <= chi2 iv m (model z y) + eps * signal2 iv m.

  Lemma fit_near nnls rng eps o cur c cur' : nnls_within eps nnls -> no_ab F -> nb <> 1%nat -> obj_ok nb o ->
    nonneg (o_iv o) -> in_range (a_x A) (o_z o) -> fit_object nnls rng F 0 o cur = Ok (Bare (vec c), cur') ->
    near eps (o_z o) (o_iv o) (o_m o) c.
  Proof.
    intros Hc Hab H1 Ho Hiv Hr E.
    destruct (fit_eq nnls rng F A nb nt o cur Hab HF H1 Ho Hr) as (HW & LW & Lb & EF). rewrite E in EF.
    set (W := zip (fun x r => map (Rmult x) r) _ _) in *. set (b := zip Rmult _ _) in *.
    assert (X : exists mi, nnls mi nt W b = Some c).
    { destruct (nnls None nt W b) as [x|] eqn:E1; [assert (c = x) by (inversion EF; auto); subst c; eauto|].
      destruct (nnls (Some (nt * 100)%nat) nt W b) as [x|] eqn:E2; [|discriminate]. assert (c = x) by (inversion EF; auto); subst c; eauto. }
    destruct X as [mi X]. destruct (Hc mi nt W b c HW ltac:(congruence) X) as (Lc & Nc & Opt).
    repeat split; auto. intros y Ly Ny. specialize (Opt y Ly Ny). destruct Ho as [Hm Hi].
    unfold W, b in Opt. rewrite !sumsq_chi2 in Opt; auto; try (rewrite ?length_chunks; congruence).
    rewrite sumsq_signal in Opt by (auto; congruence). exact Opt.
  Qed.
  Lemma near_dist eps z iv m c c' : nonneg iv -> length iv = nb -> length m = nb -> near eps z iv m c -> best A nb nt z iv m c' ->
    chi2 iv (model z c) (model z c') <= eps * signal2 iv m.
  Proof.
    intros Hiv Liv Lm (Lc & Nc & Hn) Hb. pose proof Hb as (Lc' & Nc' & _). specialize (Hn c' Lc' Nc').
    pose proof (best_vi A nb nt z iv m c' c Hiv Liv Lm Hb Lc Nc) as Hv.
    rewrite (chi2_expand iv m (model z c') (model z c)) in Hn by (rewrite ?(model_length A nb nt); congruence). lra.
  Qed.
End Near.

Lemma best_for F A nb nt z iv m : ready F A nb nt -> no_ab F -> nb <> 1%nat -> length m = nb -> length iv = nb ->
  nonneg iv -> in_range (a_x A) z -> exists c, best A nb nt z iv m c.
Proof.
  intros H Hab H1 Lm Liv Hiv Hr. destruct L_C80_fit_returns as (nnls & Hc & _ & Hfit).
  destruct (Hfit (fun _ => 0) F A nb nt {| o_z := z; o_m := m; o_iv := iv |} 0%nat Hab H H1) as (c & Lc & Ec);
    [split; auto|auto|].
  exists c. exact (fit_best F A nb nt H _ _ {| o_z := z; o_m := m; o_iv := iv |} _ _ _ Hc Hab H1 ltac:(split; auto) Hiv Hr Ec).
Qed.

(** C84.  The fit of one object by such a solver: no other nonnegative coefficients predict fluxes with a chi^2 that is lower
    by more than eps times the squared signal to noise ratio of the photometry. *)
Lemma L_C84_optimal :
  forall nnls eps rng (F : fitter R) A nb nt o cur c cur',
    nnls_within eps nnls -> no_ab F -> ready F A nb nt -> nb <> 1%nat -> obj_ok nb o ->
    nonneg (o_iv o) -> in_range (a_x A) (o_z o) ->
    fit_object nnls rng F 0 o cur = Ok (Bare (vec c), cur') ->
    length c = nt /\ nonneg c /\
    exists p, reconstruct F (Some (scal (o_z o))) (Some (vec c)) 0 = Ok (vec p) /\
      forall y, length y = nt -> nonneg y ->
        exists q, reconstruct F (Some (scal (o_z o))) (Some (vec y)) 0 = Ok (vec q) /\
                  chi2 (o_iv o) (o_m o) p <= chi2 (o_iv o) (o_m o) q + eps * signal2 (o_iv o) (o_m o).
Proof.
  intros nnls eps rng F A nb nt o cur c cur' Hc Hab H H1 Ho Hiv Hr E.
  destruct (fit_near F A nb nt H nnls rng eps o cur c cur' Hc Hab H1 Ho Hiv Hr E) as (Lc & Nc & Opt).
  split; auto. split; auto. eexists. split; [apply model_eq; eauto|].
  intros y Ly Ny. eexists. split; [apply model_eq; eauto|]. auto.
Qed.

(** C84.  Its fluxes are near those of the exact fit: the inverse variance weighted sum of their squared differences is at
    most eps times the squared signal to noise ratio. *)
Lemma L_C84_near :
  forall nnls nnls' eps rng rng' (F : fitter R) A nb nt o cur cur1 c cur1' c' cur' p p',
    nnls_within eps nnls -> nnls_contract nnls' -> no_ab F -> ready F A nb nt -> nb <> 1%nat -> obj_ok nb o ->
    nonneg (o_iv o) -> in_range (a_x A) (o_z o) ->
    fit_object nnls rng F 0 o cur = Ok (Bare (vec c), cur1) ->
    fit_object nnls' rng' F 0 o cur1' = Ok (Bare (vec c'), cur') ->
    reconstruct F (Some (scal (o_z o))) (Some (vec c)) 0 = Ok (vec p) ->
    reconstruct F (Some (scal (o_z o))) (Some (vec c')) 0 = Ok (vec p') ->
    chi2 (o_iv o) p p' <= eps * signal2 (o_iv o) (o_m o) /\
    forall i v a b, nth_error (o_iv o) i = Some v -> nth_error p i = Some a -> nth_error p' i = Some b ->
      v * ((a - b) * (a - b)) <= eps * signal2 (o_iv o) (o_m o).
Proof.
  intros nnls nnls' eps rng rng' F A nb nt o cur cur1 c cur1' c' cur' p p' Hc Hc' Hab H H1 Ho Hiv Hr E E' Ep Ep'.
  pose proof (fit_near F A nb nt H _ _ _ _ _ _ _ Hc Hab H1 Ho Hiv Hr E) as B1. pose proof B1 as (Lc & Nc & _).
  pose proof (fit_best F A nb nt H _ _ _ _ _ _ Hc' Hab H1 Ho Hiv Hr E') as B2. pose proof B2 as (Lc' & Nc' & _).
  rewrite (model_eq F A nb nt _ c H Lc Hr) in Ep. injection Ep as _ Ep.
  rewrite (model_eq F A nb nt _ c' H Lc' Hr) in Ep'. injection Ep' as _ Ep'. destruct Ho as [Lm Liv].
  assert (D : chi2 (o_iv o) p p' <= eps * signal2 (o_iv o) (o_m o)).
  { rewrite <- Ep, <- Ep'. eapply near_dist; eauto. }
  split; auto. intros i v a b Hv Ha Hb. eapply Rle_trans; [|exact D].
  clear - Hiv Hv Ha Hb. revert i p p' Hv Ha Hb. generalize dependent (o_iv o). intros iv Hn.
  induction Hn as [|w iv Hw Hn IH]; intros [|i] [|x p] [|y q] Hv Ha Hb; try discriminate; cbn in Hv, Ha, Hb;
    unfold chi2, vsub; cbn [zip fold_right]; fold (vsub p q); fold (chi2 iv p q).
  - injection Hv as ->. injection Ha as ->. injection Hb as ->. pose proof (chi2_nonneg iv p q Hn). lra.
  - specialize (IH i p q Hv Ha Hb). pose proof (Rle_0_sqr (x - y)) as H2. unfold Rsqr in H2.
    pose proof (Rmult_le_pos w _ Hw H2). lra.
Qed.
Lemma shrunk_fit :
  fit_object (shrunk (1 / 10) nnls1) (fun _ => 0) r_fitter 0 {| o_z := 1 / 2; o_m := [2; 6]; o_iv := [1; 4] |} 0 =
  Ok (Bare (vec [171 / 100]), 0%nat).
Proof.
  assert (HR : in_range (a_x r_tab) (1 / 2)) by (unfold in_range; cbn; lra).
  destruct (fit_eq (shrunk (1 / 10) nnls1) (fun _ => 0) r_fitter r_tab 2 1 {| o_z := 1 / 2; o_m := [2; 6]; o_iv := [1; 4] |} 0) as (_ & _ & _ & ->); auto.
  - left; reflexivity.
  - apply r_ready.
  - split; reflexivity.
  - cbn [o_z o_m o_iv].
    rewrite (arow_between r_tab 2 1 0 (1 / 2) (proj2 (proj2 (proj2 r_ready))) r_grid) by (cbn; lia || lra).
    assert (S4 : sqrt 4 = 2) by (replace 4 with (2 * 2) by lra; apply sqrt_square; lra).
    cbn [a_x r_tab a_rows nth chunks firstn skipn zip map]. rewrite sqrt_1, S4.
    unfold shrunk, nnls1. cbn [Nat.eqb map nth]. unfold dot; cbn [zip fold_right].
    destruct (Rlt_dec _ _) as [_|Hn]; [|exfalso; apply Hn; lra]. cbn [option_map map].
    match goal with |- Ok (Bare (vec [?a]), _) = _ => replace a with (171 / 100) by field end. reflexivity.
Qed.
Lemma E_C84_optimal :
  nnls_within (1 / 10 * (1 / 10)) (shrunk (1 / 10) nnls1) /\ ready r_fitter r_tab 2 1 /\
  fit_object (shrunk (1 / 10) nnls1) (fun _ => 0) r_fitter 0 {| o_z := 1 / 2; o_m := [2; 6]; o_iv := [1; 4] |} 0 =
  Ok (Bare (vec [171 / 100]), 0%nat) /\
  signal2 [1; 4] [2; 6] = 148.
Proof.
  split; [apply L_C84_shrunk; [apply nnls1_contract|lra]|]. split; [apply r_ready|]. split; [apply shrunk_fit|].
  unfold signal2, chi2, vsub. cbn [repeat length zip fold_right]. field.
Qed.
Lemma E_C84_near :
  nnls_contract nnls1 /\ nnls_within (1 / 10 * (1 / 10)) (shrunk (1 / 10) nnls1) /\
  chi2 [1; 4] [171 / 50; 513 / 100] [19 / 5; 57 / 10] = 1444 / 1000 /\ 1444 / 1000 <= 1 / 10 * (1 / 10) * signal2 [1; 4] [2; 6].
Proof.
  split; [apply nnls1_contract|]. split; [apply L_C84_shrunk; [apply nnls1_contract|lra]|].
  unfold signal2, chi2, vsub. cbn [repeat length zip fold_right]. split; [field|lra].
Qed.

(** C84.  Two fits of the same bands at the same redshift, by any two such solvers: in units of the errors, the fitted fluxes
    differ by no more than the photometry does, plus the two solvers' errors. *)
Lemma L_C84_stable :
  forall nnls1 nnls2 e1 e2 rng1 rng2 (F : fitter R) A nb nt z iv m1 m2 cur1 c1 cur1' cur2 c2 cur2' p1 p2,
    nnls_within e1 nnls1 -> nnls_within e2 nnls2 -> no_ab F -> ready F A nb nt -> nb <> 1%nat ->
    length m1 = nb -> length m2 = nb -> length iv = nb -> nonneg iv -> in_range (a_x A) z ->
    fit_object nnls1 rng1 F 0 {| o_z := z; o_m := m1; o_iv := iv |} cur1 = Ok (Bare (vec c1), cur1') ->
    fit_object nnls2 rng2 F 0 {| o_z := z; o_m := m2; o_iv := iv |} cur2 = Ok (Bare (vec c2), cur2') ->
    reconstruct F (Some (scal z)) (Some (vec c1)) 0 = Ok (vec p1) ->
    reconstruct F (Some (scal z)) (Some (vec c2)) 0 = Ok (vec p2) ->
    sqrt (chi2 iv p1 p2) <= sqrt (chi2 iv m1 m2) + sqrt (e1 * signal2 iv m1) + sqrt (e2 * signal2 iv m2).
Proof.
  intros n1 n2 e1 e2 rng1 rng2 F A nb nt z iv m1 m2 cur1 c1 cur1' cur2 c2 cur2' p1 p2 H1 H2 Hab H Hb L1 L2 Liv Hiv Hr E1 E2 P1 P2.
  pose proof (fit_near F A nb nt H _ _ _ {| o_z := z; o_m := m1; o_iv := iv |} _ _ _ H1 Hab Hb ltac:(split; auto) Hiv Hr E1) as B1.
  pose proof (fit_near F A nb nt H _ _ _ {| o_z := z; o_m := m2; o_iv := iv |} _ _ _ H2 Hab Hb ltac:(split; auto) Hiv Hr E2) as B2.
  cbn [o_z o_m o_iv] in B1, B2. pose proof B1 as (Lc1 & Nc1 & _). pose proof B2 as (Lc2 & Nc2 & _).
  rewrite (model_eq F A nb nt _ c1 H Lc1 Hr) in P1. injection P1 as _ <-.
  rewrite (model_eq F A nb nt _ c2 H Lc2 Hr) in P2. injection P2 as _ <-.
  destruct (best_for F A nb nt z iv m1 H Hab Hb L1 Liv Hiv Hr) as [b1 G1].
  destruct (best_for F A nb nt z iv m2 H Hab Hb L2 Liv Hiv Hr) as [b2 G2].
  pose proof (sqrt_le_1_alt _ _ (near_dist A nb nt e1 z iv m1 c1 b1 Hiv Liv L1 B1 G1)) as D1.
  pose proof (sqrt_le_1_alt _ _ (near_dist A nb nt e2 z iv m2 c2 b2 Hiv Liv L2 B2 G2)) as D2.
  pose proof (sqrt_le_1_alt _ _ (best_stable A nb nt z iv m1 m2 b1 b2 Hiv Liv L1 L2 G1 G2)) as D3.
  assert (ML : forall c, length (mulmv (chunks nb nt (arow A z)) c) = length iv) by (intro c; rewrite (model_length A nb nt); auto).
  pose proof (chi2_tri iv _ _ _ Hiv (ML c1) (ML b1) (ML c2)) as T1.
  pose proof (chi2_tri iv _ _ _ Hiv (ML b1) (ML b2) (ML c2)) as T2.
  assert (Sy : forall p q, length p = length iv -> length q = length iv -> chi2 iv p q = chi2 iv q p).
  { intros p q _ _. unfold chi2, vsub. clear. revert p q. induction iv as [|w iv IH]; intros [|x p] [|y q]; cbn [zip fold_right]; auto.
    rewrite IH. lra. }
  rewrite (Sy _ _ (ML b2) (ML c2)) in T2. lra.
Qed.
Lemma E_C84_stable :
  nnls_within (1 / 10 * (1 / 10)) (shrunk (1 / 10) nnls1) /\ nnls_within 0 nnls1 /\
  fit_object (shrunk (1 / 10) nnls1) (fun _ => 0) r_fitter 0 {| o_z := 1 / 2; o_m := [2; 6]; o_iv := [1; 4] |} 0 =
  Ok (Bare (vec [171 / 100]), 0%nat) /\
  fit_object nnls1 (fun _ => 0) r_fitter 0 {| o_z := 1 / 2; o_m := [4; 6]; o_iv := [1; 4] |} 0 = Ok (Bare (vec [2]), 0%nat).
Proof.
  split; [apply L_C84_shrunk; [apply nnls1_contract|lra]|]. split; [apply L_C84_exact, nnls1_contract|].
  split; [apply shrunk_fit|]. apply E_C81_stable.
Qed.

(** C84.  Photometry that nonnegative coefficients reproduce exactly is recovered up to the solver's error. *)
Lemma L_C84_recover :
  forall nnls eps rng (F : fitter R) A nb nt z iv m c0 cur c cur' p,
    nnls_within eps nnls -> no_ab F -> ready F A nb nt -> nb <> 1%nat -> length m = nb -> length iv = nb -> nonneg iv -> in_range (a_x A) z ->
    length c0 = nt -> nonneg c0 -> reconstruct F (Some (scal z)) (Some (vec c0)) 0 = Ok (vec m) ->
    fit_object nnls rng F 0 {| o_z := z; o_m := m; o_iv := iv |} cur = Ok (Bare (vec c), cur') ->
    reconstruct F (Some (scal z)) (Some (vec c)) 0 = Ok (vec p) ->
    chi2 iv m p <= eps * signal2 iv m.
Proof.
  intros nnls eps rng F A nb nt z iv m c0 cur c cur' p Hn Hab H Hb Lm Liv Hiv Hr Lc0 N0 E0 E P.
  pose proof (fit_near F A nb nt H _ _ _ {| o_z := z; o_m := m; o_iv := iv |} _ _ _ Hn Hab Hb ltac:(split; auto) Hiv Hr E) as (Lc & Nc & O).
  cbn [o_z o_m o_iv] in O. rewrite (model_eq F A nb nt _ c H Lc Hr) in P. injection P as _ <-.
  rewrite (model_eq F A nb nt _ c0 H Lc0 Hr) in E0. injection E0 as _ E0. specialize (O c0 Lc0 N0).
  rewrite E0, chi2_self in O. lra.
Qed.
Lemma E_C84_recover :
  no_ab r_fitter /\ ready r_fitter r_tab 2 1 /\ nonneg [1; 4] /\ in_range (a_x r_tab) (1 / 2) /\ nonneg [2] /\
  reconstruct r_fitter (Some (scal (1 / 2))) (Some (vec [2])) 0 = Ok (vec [4; 6]) /\
  nnls_within (1 / 10 * (1 / 10)) (shrunk (1 / 10) nnls1) /\
  exists c, fit_object (shrunk (1 / 10) nnls1) (fun _ => 0) r_fitter 0 {| o_z := 1 / 2; o_m := [4; 6]; o_iv := [1; 4] |} 0 = Ok (Bare (vec c), 0%nat).
Proof.
  assert (HR : in_range (a_x r_tab) (1 / 2)) by (unfold in_range; cbn; lra).
  split; [left; reflexivity|]. split; [apply r_ready|]. split; [repeat constructor; lra|]. split; [exact HR|]. split; [repeat constructor; lra|].
  split; [|split; [apply L_C84_shrunk; [apply nnls1_contract|lra]|]].
  - rewrite (model_eq r_fitter r_tab 2 1 (1 / 2) [2] r_ready eq_refl HR).
    rewrite (arow_between r_tab 2 1 0 (1 / 2) (proj2 (proj2 (proj2 r_ready))) r_grid) by (cbn; lia || lra).
    cbn [a_x r_tab a_rows nth chunks firstn skipn zip map]. unfold mulmv, dot. cbn [map zip fold_right].
    unfold vec. f_equal. f_equal. repeat (f_equal; try field).
  - destruct (fit_eq (shrunk (1 / 10) nnls1) (fun _ => 0) r_fitter r_tab 2 1 {| o_z := 1 / 2; o_m := [4; 6]; o_iv := [1; 4] |} 0) as (_ & _ & _ & ->); auto.
    + left; reflexivity.
    + apply r_ready.
    + split; reflexivity.
    + eexists. unfold shrunk, nnls1. cbn [Nat.eqb option_map]. reflexivity.
Qed.
