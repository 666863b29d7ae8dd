(** Rounding errors of fits (C100): the proofs. *)
From Coq Require Import String List Arith Lia Bool ZArith QArith Qreals Reals Lra Sorting.Sorted.
From Flocq Require Import Core.
From Verif Require Import Base BaseLemmas Num Toy Interp InterpReal Spec Utils Sed Response RespDict LinInterp ResponseEx
  Fitter FitSpec FitterProofs FitterMC FitReal FitTable FitEx FitRealEx FitterThms FitRealThms NnlsSpec NnlsExact NnlsEx NnlsThms
  ApproxSpec ApproxThms RoundSpec RoundProofs RoundThms FitRoundSpec FitRoundProofs.
Import ListNotations.
Local Open Scope R_scope.
(* STATEMENTS *)

Section OneFit.
  Variables (u : R) (N : Num R).
  Hypothesis Hu : 0 <= u < 1.
  Hypothesis HN : std_model u N.
  Hypothesis HS : std_sqrt u N.

  Lemma rnd_root a : 0 <= a -> exists t, RoundProofs.fac u 2 t /\ @nsqrt R N (@cst R N a) = sqrt a * t.
  Proof.
    intros Ha. destruct (rel_fac u Hu _ _ (std_cst _ _ HN a)) as (t1 & F1 & E1).
    pose proof (fac_pos _ Hu _ _ F1) as P1.
    assert (H0 : 0 <= @cst R N a) by (rewrite E1; nra).
    destruct (rel_fac u Hu _ _ (std_root _ _ HS _ H0)) as (t2 & F2 & E2).
    exists (sqrt t1 * t2). split.
    - apply (fac_mul _ Hu 1 1); auto. unfold RoundProofs.fac in *. rewrite pow_1 in *.
      pose proof (rho_ge1 u Hu) as G. set (r := / (1 - u)) in *.
      assert (0 < / r <= 1). { split; [apply Rinv_0_lt_compat; lra|]. rewrite <- Rinv_1. apply Rinv_le_contravar; lra. }
      split.
      + destruct (Rle_lt_dec t1 1).
        * rewrite <- (sqrt_square (/ r)) by lra. apply sqrt_le_1_alt. nra.
        * apply Rle_trans with 1; [lra|]. rewrite <- sqrt_1. apply sqrt_le_1_alt. lra.
      + destruct (Rle_lt_dec t1 1).
        * apply Rle_trans with 1; [|lra]. rewrite <- sqrt_1. apply sqrt_le_1_alt. lra.
        * rewrite <- (sqrt_square r) by lra. apply sqrt_le_1_alt. nra.
    - rewrite E2, E1, sqrt_mult by lra. ring.
  Qed.

  Lemma fit_std nnls rng (F : fitter R) A nb nt o cur c cur' : @no_ab R N F -> ready F A nb nt -> nb <> 1%nat -> obj_ok nb o ->
    in_range (a_x A) (@cst R N (o_z o)) ->
    let e := map (@nsqrt R N) (map (@cst R N) (o_iv o)) in
    let W := zip (fun x r => map (@nmul R N x) r) e (chunks nb nt (@arow R N A (@cst R N (o_z o)))) in
    let b := zip (@nmul R N) (map (@cst R N) (o_m o)) e in
    rect nt W /\ length W = nb /\ length b = nb /\
    (@fit_object R N nnls rng F 0 o cur = Ok (Bare (vec c), cur') -> exists mi, nnls mi nt W b = Some c) /\
    (forall x, nnls None nt W b = Some x -> @fit_object R N nnls rng F 0 o cur = Ok (Bare (vec x), cur)).
  Proof.
    intros Hab H H1 Ho Hr e W b. pose proof H as (HA & Hb & Hn & Ht). pose proof Ho as [Hm Hi].
    assert (Le : length e = nb) by (unfold e; rewrite !map_length; auto).
    assert (HW : rect nt W).
    { unfold W, rect. apply Forall_forall. intros r Hin. apply In_nth_error in Hin as [k Hk].
      rewrite nth_error_zip in Hk. destruct (nth_error e k); [|discriminate].
      destruct (nth_error (chunks nb nt _) k) as [q|] eqn:E; [|discriminate]. injection Hk as <-.
      rewrite map_length. rewrite nth_error_chunks in E. destruct (Nat.ltb_spec k nb); [|discriminate]. injection E as <-.
      rewrite firstn_length, skipn_length, (length_arow_N N _ _ _ _ Ht). nia. }
    assert (LW : length W = nb). { unfold W. rewrite length_zip, length_chunks. lia. }
    assert (Lb : length b = nb). { unfold b. rewrite length_zip, map_length. lia. }
    split; auto. split; auto. split; auto.
    rewrite (@single_eq R N nnls rng F A nb nt 0 o cur Hab H H1 Ho). unfold fit1_spec.
    rewrite (out_of_std _ _ _ _ HN). apply out_of_range in Hr. rewrite Hr. 
    unfold nnls_retry, nnls_call, catch. unfold wmat; cbn [dat shp]. change (lastd [nb; nt]) with nt.
    assert (Hf : forall l : list R, forallb (@nfin R N) l = true).
    { induction l as [|a l IH]; cbn [forallb]; auto. rewrite (std_fin _ _ HS), IH. auto. }
    rewrite !Hf. cbn [ndim shp length Nat.eqb hd].
    assert (EL : lrows (mk [nb; nt] (concat W)) = W).
    { transitivity (lrows (table nt W)); [|apply lrows_table; auto]. unfold table. rewrite LW. auto. }
    fold e W b. rewrite EL. rewrite Nat.eqb_refl.
    split.
    - destruct (nnls None nt W b) as [x|] eqn:E; cbn [bind Nat.eqb exn_eqb].
      + intros X. exists None. rewrite E. f_equal. inversion X; auto.
      + destruct (nnls (Some (nt * 100)%nat) nt W b) as [x|] eqn:E2; cbn [bind]; [|discriminate].
        intros X. exists (Some (nt * 100)%nat). rewrite E2. f_equal. inversion X; auto.
    - intros x E. rewrite E. cbn [bind Nat.eqb]. auto.
  Qed.

  Variables (A : atab R) (nb nt : nat) (kappa : R).
  Hypothesis Ht : tab_ok A nb nt.
  Hypothesis Hg : grid_ok (a_x A).
  Hypothesis Hk1 : 1 <= kappa.
  Hypothesis Hk : gentle kappa A nb nt.
  Notation eta := (matrix_error u kappa).

  Lemma u_eta : 0 <= u <= eta.
  Proof.
    unfold matrix_error. rewrite growth_pow. pose proof (rho_pow u Hu 8) as G. change ((/ (1 - u)) ^ 9) with (/ (1 - u) * (/ (1 - u)) ^ 8).
    set (r := (/ (1 - u)) ^ 8) in *.
    assert (1 + u <= / (1 - u)). { apply Rmult_le_reg_r with (1 - u); [lra|]. rewrite Rinv_l by lra. nra. }
    set (v := / (1 - u)) in *. split; [lra|]. assert (u <= v * r - 1) by nra. nra.
  Qed.
  Lemma growth_le j k : (j <= k)%nat -> growth u j <= growth u k.
  Proof. apply growth_mono; auto. Qed.

  Lemma entry_near z iv i j : in_range (a_x A) z -> 0 <= iv -> (i < nb)%nat -> (j < nt)%nat ->
    0 <= sqrt iv * nth (i * nt + j) (@arow R Num_R A z) 0 /\
    rel eta (@nmul R N (@nsqrt R N (@cst R N iv)) (nth (i * nt + j) (@arow R N A z) 0)) (sqrt iv * nth (i * nt + j) (@arow R Num_R A z) 0).
  Proof.
    intros Hin Hiv Hi Hj. destruct (gentle_bounded kappa A nb nt i z Ht Hg Hin Hk Hi) as (G1 & G2 & G3).
    pose proof (G3 j Hj) as G4. rewrite nth_slice in G4 by auto.
    destruct (arow_err u N A nb nt z i j _ Hu HN Ht Hg Hin G1 Hi Hj) as (E1 & _).
    rewrite (nth_indep (map (Rmult kappa) _) 0 (Rmult kappa 0)) in E1 by (rewrite map_length, G2; auto). rewrite map_nth, nth_slice in E1 by auto.
    set (a := nth (i * nt + j) (@arow R Num_R A z) 0) in *. set (a' := nth (i * nt + j) (@arow R N A z) 0) in *.
    destruct (rnd_root iv Hiv) as (t1 & F1 & ->).
    destruct (rel_fac u Hu _ _ (std_mul _ _ HN (sqrt iv * t1) a')) as (t2 & F2 & ->).
    pose proof (fac_mul _ Hu _ _ _ _ F1 F2) as F3. cbn [Nat.add] in F3.
    pose proof (sqrt_pos iv) as P. split; [nra|]. unfold rel.
    replace (sqrt iv * t1 * a' * t2 - sqrt iv * a) with (sqrt iv * (a' * (t1 * t2) - a)) by ring.
    rewrite !Rabs_mult, (Rabs_pos_eq _ P), (Rabs_pos_eq a) by lra.
    replace (eta * (sqrt iv * a)) with (sqrt iv * (eta * a)) by ring. apply Rmult_le_compat_l; auto.
    eapply Rle_trans; [apply (fac_approx u Hu 3 _ _ _ _ a F3 E1); rewrite Rabs_pos_eq; lra|].
    unfold matrix_error, growth. pose proof (rho_pow u Hu 3) as Q3. pose proof (rho_pow u Hu 6) as Q6.
    replace ((/ (1 - u)) ^ 9) with ((/ (1 - u)) ^ 6 * (/ (1 - u)) ^ 3) by ring.
    set (x := (/ (1 - u)) ^ 3) in *. set (w := (/ (1 - u)) ^ 6) in *.
    assert (X : 2 * kappa * (w - 1) * x + (x - 1) <= 2 * kappa * (w * x - 1)) by nra.
    pose proof (Rmult_le_compat_r a _ _ ltac:(lra) X). lra.
  Qed.
  Lemma data_near m iv : 0 <= iv -> rel eta (@nmul R N (@cst R N m) (@nsqrt R N (@cst R N iv))) (m * sqrt iv).
  Proof.
    intros Hiv. destruct (rnd_root iv Hiv) as (t1 & F1 & ->).
    destruct (rel_fac u Hu _ _ (std_cst _ _ HN m)) as (t2 & F2 & ->).
    destruct (rel_fac u Hu _ _ (std_mul _ _ HN (m * t2) (sqrt iv * t1))) as (t3 & F3 & ->).
    pose proof (fac_mul _ Hu _ _ _ _ (fac_mul _ Hu _ _ _ _ F1 F2) F3) as F4. cbn [Nat.add] in F4.
    unfold rel. replace (m * t2 * (sqrt iv * t1) * t3 - m * sqrt iv) with ((t1 * t2 * t3 - 1) * (m * sqrt iv)) by ring.
    rewrite Rabs_mult. apply Rmult_le_compat_r; [apply Rabs_pos|].
    eapply Rle_trans; [apply (fac_err u Hu 4); auto|]. change (growth u 4 <= eta). unfold matrix_error.
    pose proof (growth_le 4 9 ltac:(lia)). pose proof (growth_pos u Hu 9). nra.
  Qed.

  Lemma nth_wmat (f : R -> R -> R) (a : list R) e i j : length e = nb -> length a = (nb * nt)%nat -> (i < nb)%nat -> (j < nt)%nat ->
    nth j (nth i (zip (fun x r => map (f x) r) e (chunks nb nt a)) []) 0 = f (nth i e 0) (nth (i * nt + j) a 0).
  Proof.
    intros Le La Hi Hj. erewrite (nth_error_nth _ i).
    2:{ rewrite nth_error_zip, nth_error_chunks. destruct (Nat.ltb_spec i nb); [|lia].
        rewrite (nth_error_nth' e 0) by lia. reflexivity. }
    rewrite (nth_indep _ 0 (f (nth i e 0) 0)).
    - rewrite map_nth. f_equal. apply nth_slice; auto.
    - rewrite map_length, firstn_length, skipn_length, La. nia.
  Qed.

  (** The fit of the rounded problem. *)
  Lemma fit_round nnls rng eps (F : fitter R) o cur c cur' c' y : ready F A nb nt ->
    @no_ab R N F -> nb <> 1%nat -> obj_ok nb o -> nonneg (o_iv o) -> in_range (a_x A) (@cst R N (o_z o)) ->
    nnls_within eps nnls -> eta <= 1 / 10 -> 0 <= eps <= 1 / 100 ->
    @fit_object R N nnls rng F 0 o cur = Ok (Bare (vec c), cur') -> stored u c c' ->
    length c = nt /\ nonneg c /\ length c' = nt /\ nonneg c' /\
    (length y = nt -> nonneg y ->
     let model x := mulmv (chunks nb nt (@arow R Num_R A (@cst R N (o_z o)))) x in
     sqrt (chi2 (o_iv o) (o_m o) (model c')) <=
     sqrt (chi2 (o_iv o) (o_m o) (model y)) + (10 * eta + 2 * sqrt eps) * sqrt (signal2 (o_iv o) (o_m o))).
  Proof.
    intros H Hab H1 Ho Hiv Hr Hc He Heps E Hs.
    destruct (fit_std nnls rng F A nb nt o cur c cur' Hab H H1 Ho Hr) as (HW & LW & Lb & X & _). cbv zeta in HW, LW, Lb, X.
    destruct (X E) as (mi & EX). clear X. set (z := @cst R N (o_z o)) in *.
    set (e' := map (@nsqrt R N) (map (@cst R N) (o_iv o))) in *. set (W' := zip (fun x r => map (@nmul R N x) r) e' _) in *.
    set (b' := zip (@nmul R N) _ e') in *.
    destruct (Hc mi nt W' b' c HW ltac:(congruence) EX) as (Lc & Nc & Opt). pose proof Ho as [Hm Hi].
    pose proof Hs as (Ls & Hst).
    assert (Nc' : nonneg c').
    { apply Forall_forall. intros x Hx. apply (In_nth _ _ 0) in Hx as (j & Hj & <-). rewrite Ls in Hj. specialize (Hst j Hj).
      unfold nonneg in Nc. rewrite Forall_forall in Nc. pose proof (Nc _ (nth_In c 0 Hj)) as P. unfold rel in Hst.
      rewrite (Rabs_pos_eq _ P) in Hst. apply Rabs_le_inv in Hst. nra. }
    split; auto. split; auto. split; [congruence|]. split; auto. intros Ly Ny model.
    set (W := zip (fun x r => map (Rmult x) r) (map sqrt (o_iv o)) (chunks nb nt (@arow R Num_R A z))).
    set (b := zip Rmult (o_m o) (map sqrt (o_iv o))).
    assert (Lb2 : length b = nb) by (unfold b; rewrite length_zip, map_length; lia).
    assert (LW2 : length W = nb) by (unfold W; rewrite length_zip, map_length, length_chunks; lia).
    assert (Liv : forall i, (i < nb)%nat -> 0 <= nth i (o_iv o) 0).
    { intros i Hi'. unfold nonneg in Hiv. rewrite Forall_forall in Hiv. apply Hiv, nth_In. lia. }
    assert (N1 : forall i, (i < nb)%nat -> nth i (map sqrt (o_iv o)) 0 = sqrt (nth i (o_iv o) 0)).
    { intros i Hi'. rewrite (nth_indep _ 0 (sqrt 0)) by (rewrite map_length; lia). apply map_nth. }
    assert (N2 : forall i, (i < nb)%nat -> nth i e' 0 = @nsqrt R N (@cst R N (nth i (o_iv o) 0))).
    { intros i Hi'. unfold e'. rewrite map_map. rewrite (nth_indep _ 0 (@nsqrt R N (@cst R N 0))) by (rewrite map_length; lia).
      apply (map_nth (fun x => @nsqrt R N (@cst R N x))). }
    assert (Le' : length e' = nb) by (unfold e'; rewrite !map_length; auto).
    assert (HM : near_matrix eta nt W W').
    { split.
      - unfold W, rect. apply Forall_forall. intros r Hin. apply In_nth_error in Hin as [k Hk'].
        rewrite nth_error_zip in Hk'. destruct (nth_error (map sqrt (o_iv o)) k); [|discriminate].
        destruct (nth_error (chunks nb nt _) k) as [q|] eqn:Eq; [|discriminate]. injection Hk' as <-.
        rewrite map_length. rewrite nth_error_chunks in Eq. destruct (Nat.ltb_spec k nb); [|discriminate]. injection Eq as <-.
        rewrite firstn_length, skipn_length, (length_arow_N Num_R _ _ _ _ Ht). nia.
      - split; auto. split; [congruence|]. intros i j Hi' Hj. rewrite LW2 in Hi'. unfold W, W'.
        rewrite !nth_wmat by (auto; rewrite ?map_length, ?(length_arow_N N A nb nt), ?(length_arow_N Num_R A nb nt); auto).
        rewrite N1, N2 by auto. apply entry_near; auto. }
    assert (HB : forall i, (i < length b)%nat -> rel eta (nth i b' 0) (nth i b 0)).
    { intros i Hi'. rewrite Lb2 in Hi'. unfold b, b'. rewrite !nth_zip2 by (rewrite ?map_length; lia). rewrite N1, N2 by auto.
      rewrite (nth_indep (map (@cst R N) (o_m o)) 0 (@cst R N 0)) by (rewrite map_length; lia). rewrite map_nth.
      apply data_near; auto. }
    pose proof (perturbed eta u eps nt W W' b b' c c' y u_eta He Heps HM ltac:(congruence) ltac:(congruence) HB Lc Nc Hs Opt Ly Ny) as P.
    unfold nrm, W, b in P. rewrite !sumsq_chi2 in P; auto; try (rewrite ?length_chunks; congruence).
    rewrite sumsq_signal in P by (auto; congruence). exact P.
  Qed.
End OneFit.

(** C100.  A fit in an arithmetic that rounds, with photometry, redshift and design matrix rounded before they reach the
    solver: in exact arithmetic, at the rounded redshift, no nonnegative coefficients have a sqrt(chi^2) that is lower by more
    than 10 eta + 2 sqrt(eps) times the signal to noise ratio, where eta is the error of an entry of the design matrix and
    eps that of the solver.  This is also true for the coefficients stored in a float32 array. *)
Lemma L_C100_optimal :
  forall u kappa (N : Num R) nnls eps rng (F : fitter R) A nb nt o cur c cur' c',
    0 <= u < 1 -> std_model u N -> std_sqrt u N -> 1 <= kappa -> matrix_error u kappa <= 1 / 10 ->
    nnls_within eps nnls -> 0 <= eps <= 1 / 100 ->
    @no_ab R N F -> ready F A nb nt -> grid_ok (a_x A) -> gentle kappa A nb nt -> nb <> 1%nat -> obj_ok nb o -> nonneg (o_iv o) ->
    let z' := @cst R N (o_z o) in
    in_range (a_x A) z' ->
    @fit_object R N nnls rng F 0 o cur = Ok (Bare (vec c), cur') -> stored u c c' ->
    rel u z' (o_z o) /\ near_best F nt z' (o_m o) (o_iv o) (fit_loss u kappa eps) c'.
Proof.
  intros u kappa N nnls eps rng F A nb nt o cur c cur' c' Hu HN HS Hk1 He Hc Heps Hab H Hg Hk H1 Ho Hiv z' Hr E Hs.
  pose proof H as (_ & _ & _ & Ht).
  pose proof (fit_round u N Hu HN HS A nb nt kappa Ht Hg Hk1 Hk nnls rng eps F o cur c cur' c') as X.
  split; [apply (std_cst _ _ HN)|].
  destruct (X (repeat 0 nt) H Hab H1 Ho Hiv Hr Hc He Heps E Hs) as (_ & _ & Lc & Nc & _).
  split; auto. split; auto. eexists. split; [apply model_eq; eauto|].
  intros y Ly Ny. eexists. split; [apply model_eq; eauto|].
  destruct (X y H Hab H1 Ho Hiv Hr Hc He Heps E Hs) as (_ & _ & _ & _ & Y). apply Y; auto.
Qed.
Lemma root24 : std_sqrt (bpow radix2 (-24)) Num_24.
Proof. split; [intros a _; apply rnd24_rel|reflexivity]. Qed.
Lemma growth24_9 : growth (bpow radix2 (-24)) 9 <= / 1000000.
Proof. apply growth24. lia. Qed.
Lemma error24 : matrix_error (bpow radix2 (-24)) 3 <= 6 / 1000000.
Proof. unfold matrix_error. pose proof growth24_9. lra. Qed.
Lemma fr_half : @cst R Num_24 (1 / 2) = 1 / 2.
Proof.
  replace (1 / 2) with (IZR 1 * bpow radix2 (-1)) by (cbn; lra). apply rnd24_int. lia.
Qed.
Lemma fr_range : in_range (a_x r_tab) (@cst R Num_24 (1 / 2)).
Proof. rewrite fr_half. unfold in_range. cbn. lra. Qed.
Lemma fr_ready : ready r_fitter r_tab 2 1. Proof. apply r_ready. Qed.
Lemma fr_fit a b : exists c, length c = 1%nat /\
  @fit_object R Num_24 nnls_exact (fun _ => 0) r_fitter 0 {| o_z := 1 / 2; o_m := [a; b]; o_iv := [1; 4] |} 0 = Ok (Bare (vec c), 0%nat).
Proof.
  destruct L_C83_model as (HN & _ & _).
  destruct (fit_std (bpow radix2 (-24)) Num_24 HN root24 nnls_exact (fun _ => 0) r_fitter r_tab 2 1 {| o_z := 1 / 2; o_m := [a; b]; o_iv := [1; 4] |} 0 [] 0)
    as (_ & _ & _ & _ & X); auto using fr_ready.
  - right; reflexivity.
  - split; reflexivity.
  - apply fr_range.
  - destruct (nnls_exact None _ _ _) as [x|] eqn:E in X; [|discriminate]. exists x. split; [eapply nnls_exact_shape; eauto|]. apply X. auto.
Qed.
Lemma E_C100_optimal :
  std_model (bpow radix2 (-24)) Num_24 /\ std_sqrt (bpow radix2 (-24)) Num_24 /\ nnls_within 0 nnls_exact /\
  fit_loss (bpow radix2 (-24)) 3 0 <= 6 / 100000 /\
  ready r_fitter r_tab 2 1 /\ grid_ok (a_x r_tab) /\ gentle 3 r_tab 2 1 /\ in_range (a_x r_tab) (@cst R Num_24 (1 / 2)) /\
  exists c, @fit_object R Num_24 nnls_exact (fun _ => 0) r_fitter 0 {| o_z := 1 / 2; o_m := [2; 6]; o_iv := [1; 4] |} 0 =
            Ok (Bare (vec c), 0%nat) /\
    stored (bpow radix2 (-24)) c (map rnd24 c).
Proof.
  split; [apply L_C83_model|]. split; [apply root24|]. split; [apply E_C84_exact|].
  split; [unfold fit_loss; rewrite sqrt_0; pose proof error24; lra|].
  split; [apply fr_ready|]. split; [apply RoundThms.r_grid|]. split; [apply r_gentle|]. split; [apply fr_range|].
  destruct (fr_fit 2 6) as (c & _ & E). exists c. split; [exact E|]. split; [apply map_length|]. intros j Hj.
  rewrite (nth_indep _ 0 (rnd24 0)) by (rewrite map_length; auto). rewrite map_nth. apply rnd24_rel.
Qed.

(** C100.  The same for every object of a batch, whose coefficients are stored in float32. *)
Lemma L_C100_batch :
  forall u kappa (N : Num R) nnls eps rng (F : fitter R) A nb nt objs cur a cur',
    0 <= u < 1 -> std_model u N -> std_sqrt u N -> 1 <= kappa -> matrix_error u kappa <= 1 / 10 ->
    nnls_within eps nnls -> nnls_shape nnls -> 0 <= eps <= 1 / 100 ->
    @no_ab R N F -> ready F A nb nt -> grid_ok (a_x A) -> gentle kappa A nb nt -> nb <> 1%nat -> length objs <> 1%nat ->
    Forall (fun o => obj_ok nb o /\ nonneg (o_iv o) /\ in_range (a_x A) (@cst R N (o_z o))) objs ->
    @fit_objects R N nnls rng F nb 0 objs cur = Ok (Bare a, cur') ->
    forall i o, nth_error objs i = Some o ->
      exists c, row i a = vec c /\ near_best F nt (@cst R N (o_z o)) (o_m o) (o_iv o) (fit_loss u kappa eps) c.
Proof.
  intros u kappa N nnls eps rng F A nb nt objs cur a cur' Hu HN HS Hk1 He Hc Hsh Heps Hab H Hg Hk H1 Hl Ho E i o Hi.
  rewrite Forall_forall in Ho.
  assert (Ho' : Forall (obj_ok nb) objs) by (apply Forall_forall; intros x Hx; apply Ho; auto).
  destruct (@L_C27_rows R N nnls rng F A nb nt objs cur a cur' Hsh Hab H H1 Ho' Hl E i o Hi) as (ci & Ei & Er).
  destruct (Ho o (nth_error_In _ _ Hi)) as (O1 & O2 & O3).
  assert (Ev : ci = vec (dat ci)).
  { rewrite (@single_eq R N nnls rng F A nb nt 0 o cur Hab H H1 O1) in Ei.
    destruct (fit1_spec nnls rng F A nb nt _ _ _ 0 cur) as [[oo cc]|] eqn:E1; [|discriminate].
    destruct O1 as [M1 M2].
    eapply fit1_spec_shape in E1 as (S1 & _); auto; [|rewrite map_length; auto].
    destruct oo; inversion Ei; subst. exact S1. }
  rewrite Ev in Ei, Er. exists (map (@cst R N) (dat ci)). split.
  - rewrite Er. unfold map1, vec; cbn [shp dat]. rewrite map_length. auto.
  - apply (L_C100_optimal u kappa N nnls eps rng F A nb nt o cur (dat ci) cur); auto.
    split; [apply map_length|]. intros j Hj. rewrite (nth_indep _ 0 (@cst R N 0)) by (rewrite map_length; auto).
    rewrite map_nth. apply (std_cst _ _ HN).
Qed.
Lemma fr_batch : let o := {| o_z := 1 / 2; o_m := [2; 6]; o_iv := [1; 4] |} in
  exists a, @fit_objects R Num_24 nnls_exact (fun _ => 0) r_fitter 2 0 [o; o] 0 = Ok (Bare a, 0%nat).
Proof.
  cbv zeta. set (o := {| o_z := _ |}). destruct (fr_fit 2 6) as (c & _ & E). fold o in E.
  rewrite (@L_C27_batch_is_sequence_of_single_calls R Num_24 nnls_exact (fun _ => 0) r_fitter r_tab 2 1 0 [o; o] 0
             nnls_exact_shape ltac:(right; reflexivity) fr_ready ltac:(lia) ltac:(repeat constructor) ltac:(cbn; lia)).
  cbn [run_each]. rewrite E. cbn [run_each]. rewrite E. cbn [run_each Nat.eqb]. eexists. reflexivity.
Qed.
Lemma E_C100_batch :
  nnls_shape nnls_exact /\
  (let o := {| o_z := 1 / 2; o_m := [2; 6]; o_iv := [1; 4] |} in
   obj_ok 2 o /\ nonneg (o_iv o) /\ in_range (a_x r_tab) (@cst R Num_24 (o_z o)) /\
   exists a, @fit_objects R Num_24 nnls_exact (fun _ => 0) r_fitter 2 0 [o; o] 0 = Ok (Bare a, 0%nat)).
Proof.
  split; [apply nnls_exact_shape|]. cbv zeta. split; [split; reflexivity|]. split; [repeat constructor; lra|].
  split; [apply fr_range|]. exact fr_batch.
Qed.

(** C100.  Photometry that the templates reproduce exactly at the rounded redshift is recovered within a fraction of
    10 eta + 2 sqrt(eps) of the signal to noise ratio. *)
Lemma L_C100_recover :
  forall u kappa (N : Num R) nnls eps rng (F : fitter R) A nb nt o cur c cur' c' c0 p,
    0 <= u < 1 -> std_model u N -> std_sqrt u N -> 1 <= kappa -> matrix_error u kappa <= 1 / 10 ->
    nnls_within eps nnls -> 0 <= eps <= 1 / 100 ->
    @no_ab R N F -> ready F A nb nt -> grid_ok (a_x A) -> gentle kappa A nb nt -> nb <> 1%nat -> obj_ok nb o -> nonneg (o_iv o) ->
    let z' := @cst R N (o_z o) in
    in_range (a_x A) z' ->
    @fit_object R N nnls rng F 0 o cur = Ok (Bare (vec c), cur') -> stored u c c' ->
    length c0 = nt -> nonneg c0 -> @reconstruct R Num_R F (Some (scal z')) (Some (vec c0)) 0 = Ok (vec (o_m o)) ->
    @reconstruct R Num_R F (Some (scal z')) (Some (vec c')) 0 = Ok (vec p) ->
    sqrt (chi2 (o_iv o) (o_m o) p) <= fit_loss u kappa eps * sqrt (signal2 (o_iv o) (o_m o)) /\
    forall i v a b, nth_error (o_iv o) i = Some v -> nth_error (o_m o) i = Some a -> nth_error p i = Some b ->
      sqrt v * Rabs (a - b) <= fit_loss u kappa eps * sqrt (signal2 (o_iv o) (o_m o)).
Proof.
  intros u kappa N nnls eps rng F A nb nt o cur c cur' c' c0 p Hu HN HS Hk1 He Hc Heps Hab H Hg Hk H1 Ho Hiv z' Hr E Hs L0 N0 E0 Ep.
  destruct (L_C100_optimal u kappa N nnls eps rng F A nb nt o cur c cur' c' Hu HN HS Hk1 He Hc Heps Hab H Hg Hk H1 Ho Hiv Hr E Hs)
    as (_ & _ & _ & p' & Ep' & Hy).
  fold z' in Ep', Hy. rewrite Ep in Ep'. injection Ep' as _ <-. destruct (Hy c0 L0 N0) as (q & Eq & Hq). rewrite E0 in Eq. injection Eq as _ <-.
  assert (Z : forall iv m, chi2 iv m m = 0).
  { clear. unfold chi2, vsub. induction iv as [|w iv IH]; intros [|x m]; cbn [zip fold_right]; auto. rewrite IH. lra. }
  rewrite Z, sqrt_0, Rplus_0_l in Hq. split; auto.
  intros i v a b Hv Ha Hb. eapply Rle_trans; [|exact Hq].
  assert (Hp : forall iv, nonneg iv -> forall i m p, nth_error iv i = Some v -> nth_error m i = Some a -> nth_error p i = Some b ->
             0 <= v /\ v * ((a - b) * (a - b)) <= chi2 iv m p).
  { clear. intros iv Hn. induction Hn as [|w iv Hw Hn IH]; intros [|i] [|x m] [|y p] Hv Ha Hb; try discriminate; cbn in Hv, Ha, Hb;
      unfold chi2, vsub; cbn [zip fold_right]; fold (vsub m p); fold (chi2 iv m p).
    - injection Hv as ->. injection Ha as ->. injection Hb as ->. split; auto. pose proof (chi2_nonneg iv m p Hn). lra.
    - destruct (IH i m p Hv Ha Hb) as (I1 & I2). split; auto. pose proof (Rle_0_sqr (x - y)) as H2. unfold Rsqr in H2.
      pose proof (Rmult_le_pos w _ Hw H2). lra. }
  destruct (Hp _ Hiv i _ _ Hv Ha Hb) as (V0 & V1).
  rewrite <- (sqrt_Rsqr_abs (a - b)). rewrite <- sqrt_mult by (auto; apply Rle_0_sqr). apply sqrt_le_1_alt. exact V1.
Qed.
Lemma fr_model : @reconstruct R Num_R r_fitter (Some (scal (@cst R Num_24 (1 / 2)))) (Some (vec [2])) 0 = Ok (vec [4; 6]).
Proof.
  rewrite fr_half. rewrite (model_eq r_fitter r_tab 2 1 (1 / 2) [2] r_ready eq_refl).
  - unfold arow. cbn [r_tab a_x search nltb Num_R]. 
    replace (Nat.min _ _) with 1%nat.
    2:{ cbn. unfold Rltb. destruct (Rlt_dec 0 (1/2)); [|lra]. destruct (Rlt_dec 1 (1/2)); [lra|]. reflexivity. }
    cbn. f_equal. unfold vec, mulmv, dot; cbn. repeat f_equal; lra.
  - unfold in_range; cbn; lra.
Qed.
Lemma E_C100_recover :
  nonneg [2] /\
  @reconstruct R Num_R r_fitter (Some (scal (@cst R Num_24 (1 / 2)))) (Some (vec [2])) 0 = Ok (vec [4; 6]) /\
  exists c p, @fit_object R Num_24 nnls_exact (fun _ => 0) r_fitter 0 {| o_z := 1 / 2; o_m := [4; 6]; o_iv := [1; 4] |} 0 =
              Ok (Bare (vec c), 0%nat) /\
    @reconstruct R Num_R r_fitter (Some (scal (@cst R Num_24 (1 / 2)))) (Some (vec c)) 0 = Ok (vec p).
Proof.
  split; [repeat constructor; lra|]. split; [apply fr_model|]. destruct (fr_fit 4 6) as (c & Lc & E). exists c.
  eexists. split; [exact E|]. apply (model_eq r_fitter r_tab 2 1); auto using r_ready, fr_range.
Qed.

(** C100.  The fluxes of the fit are near those of an exact fit at the rounded redshift. *)
Lemma L_C100_near :
  forall u kappa (N : Num R) nnls nnls' eps rng rng' (F : fitter R) A nb nt o cur c cur1 c' cs cur2 cur3 p q,
    0 <= u < 1 -> std_model u N -> std_sqrt u N -> 1 <= kappa -> matrix_error u kappa <= 1 / 10 ->
    nnls_within eps nnls -> nnls_contract nnls' -> 0 <= eps <= 1 / 100 ->
    @no_ab R N F -> ready F A nb nt -> grid_ok (a_x A) -> gentle kappa A nb nt -> nb <> 1%nat -> obj_ok nb o -> nonneg (o_iv o) ->
    let z' := @cst R N (o_z o) in
    in_range (a_x A) z' ->
    @fit_object R N nnls rng F 0 o cur = Ok (Bare (vec c), cur1) -> stored u c c' ->
    @fit_object R Num_R nnls' rng' F 0 {| o_z := z'; o_m := o_m o; o_iv := o_iv o |} cur2 = Ok (Bare (vec cs), cur3) ->
    @reconstruct R Num_R F (Some (scal z')) (Some (vec c')) 0 = Ok (vec p) ->
    @reconstruct R Num_R F (Some (scal z')) (Some (vec cs)) 0 = Ok (vec q) ->
    let delta := fit_loss u kappa eps in
    chi2 (o_iv o) p q <= (2 * delta + delta * delta) * signal2 (o_iv o) (o_m o).
Proof.
  intros u kappa N nnls nnls' eps rng rng' F A nb nt o cur c cur1 c' cs cur2 cur3 p q Hu HN HS Hk1 He Hc Hc' Heps Hab H Hg Hk H1 Ho Hiv
    z' Hr E Hs E2 Ep Eq delta.
  pose proof H as (_ & _ & _ & Ht).
  assert (Hab' : @no_ab R Num_R F) by exact Hab.
  pose proof (fit_best F A nb nt H nnls' rng' {| o_z := z'; o_m := o_m o; o_iv := o_iv o |} cur2 cs cur3 Hc' Hab' H1 Ho Hiv Hr E2) as B.
  cbn [o_z o_m o_iv] in B. pose proof B as (Ls & Ns & Bmin).
  destruct (fit_round u N Hu HN HS A nb nt kappa Ht Hg Hk1 Hk nnls rng eps F o cur c cur1 c' cs H Hab H1 Ho Hiv Hr Hc He Heps E Hs)
    as (_ & _ & Lc & Nc & X). specialize (X Ls Ns). cbv zeta in X. fold z' in X. fold (fit_loss u kappa eps) in X. fold delta in X.
  rewrite (model_eq F A nb nt z' c' H Lc Hr) in Ep. injection Ep as _ <-.
  rewrite (model_eq F A nb nt z' cs H Ls Hr) in Eq. injection Eq as _ <-.
  destruct Ho as [Lm Li]. set (iv := o_iv o) in *. set (m := o_m o) in *.
  apply (near_dist A nb nt (2 * delta + delta * delta) z' iv m c' cs); auto.
  split; auto. split; auto. intros y Ly Ny. specialize (Bmin y Ly Ny).
  pose proof (proj2 (proj2 B) (repeat 0 nt) (repeat_length _ _) (zeros_nonneg _)) as Bmin'.
  rewrite mulmv_zero, length_chunks in Bmin'. fold m in Bmin'. replace nb with (length m) in Bmin' at 2 by auto.
  fold (signal2 iv m) in Bmin'.
  set (P := chi2 iv m (mulmv _ c')) in *. set (Q := chi2 iv m (mulmv _ cs)) in *. set (S := signal2 iv m) in *.
  assert (HP : 0 <= P) by (apply chi2_nonneg; auto). assert (HQ : 0 <= Q) by (apply chi2_nonneg; auto).
  assert (HSS : 0 <= S) by (apply signal2_nonneg; auto).
  assert (Hd : 0 <= delta). { unfold delta, fit_loss. pose proof (sqrt_pos eps). pose proof (u_eta u Hu kappa Hk1). lra. }
  pose proof (sqrt_le_1_alt _ _ Bmin') as Hqs. pose proof (sqrt_sqrt P HP) as E3. pose proof (sqrt_sqrt Q HQ) as E4. pose proof (sqrt_sqrt S HSS) as E5.
  pose proof (sqrt_pos P). pose proof (sqrt_pos Q). pose proof (sqrt_pos S).
  assert (P <= Q + (2 * delta + delta * delta) * S); [|lra].
  assert (G : forall a b s d, 0 <= a -> 0 <= b -> 0 <= s -> 0 <= d -> b <= s -> a <= b + d * s -> a * a <= b * b + (2 * d + d * d) * (s * s)).
  { clear. intros a b s d Ha Hb Hs Hd H1 H2. assert (a * a <= (b + d * s) * (b + d * s)) by (apply Rmult_le_compat; lra).
    assert (0 <= d * s) by nra. assert (b * (d * s) <= s * (d * s)) by (apply Rmult_le_compat_r; auto). lra. }
  pose proof (G (sqrt P) (sqrt Q) (sqrt S) delta ltac:(auto) ltac:(auto) ltac:(auto) Hd Hqs X) as Y. rewrite E3, E4, E5 in Y. exact Y.
Qed.
Lemma E_C100_near :
  nnls_contract nnls_exact /\ in_range (a_x r_tab) (@cst R Num_24 (1 / 2)) /\
  exists c cs p q,
    @fit_object R Num_24 nnls_exact (fun _ => 0) r_fitter 0 {| o_z := 1 / 2; o_m := [2; 6]; o_iv := [1; 4] |} 0 = Ok (Bare (vec c), 0%nat) /\
    @fit_object R Num_R nnls_exact (fun _ => 0) r_fitter 0 {| o_z := @cst R Num_24 (1 / 2); o_m := [2; 6]; o_iv := [1; 4] |} 0 =
      Ok (Bare (vec cs), 0%nat) /\
    @reconstruct R Num_R r_fitter (Some (scal (@cst R Num_24 (1 / 2)))) (Some (vec c)) 0 = Ok (vec p) /\
    @reconstruct R Num_R r_fitter (Some (scal (@cst R Num_24 (1 / 2)))) (Some (vec cs)) 0 = Ok (vec q).
Proof.
  split; [apply nnls_exact_contract|]. split; [apply fr_range|].
  destruct (fr_fit 2 6) as (c & Lc & E).
  destruct (fit_eq nnls_exact (fun _ => 0) r_fitter r_tab 2 1 {| o_z := @cst R Num_24 (1 / 2); o_m := [2; 6]; o_iv := [1; 4] |} 0)
    as (_ & _ & _ & X); auto using r_ready, fr_range.
  - right; reflexivity.
  - split; reflexivity.
  - destruct (nnls_exact None _ _ _) as [x|] eqn:Ex in X; [|discriminate].
    exists c, x. do 2 eexists. split; [exact E|]. split; [exact X|].
    split; apply (model_eq r_fitter r_tab 2 1); auto using r_ready, fr_range. eapply nnls_exact_shape; eauto.
Qed.
