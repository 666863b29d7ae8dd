(** A best fit exists, its fluxes are unique and stable (C80, C81): the proofs. *)
From Coq Require Import String List Arith Lia Bool ZArith QArith Qreals Reals Lra Sorting.Sorted.
From Verif Require Import Base BaseLemmas Num Toy Interp InterpReal Spec Utils Sed Response RespDict LinInterp ResponseEx
  Fitter FitSpec FitterProofs FitterMC FitReal FitTable FitEx FitRealEx FitterThms FitRealThms NnlsSpec NnlsExact NnlsEx.
Import ListNotations.
Local Open Scope R_scope.
(* STATEMENTS *)

(** * Geometry of chi^2 *)
Lemma chi2_move iv m t : forall p q, length m = length iv -> length p = length iv -> length q = length iv ->
  chi2 iv m (lincomb (1 - t) t p q) =
  chi2 iv m p + 2 * t * (wdot iv (vsub p m) q - wdot iv (vsub p m) p) + t * t * chi2 iv q p.
Proof.
  revert m. unfold chi2, wdot, vsub, lincomb.
  induction iv as [|w iv IH]; intros [|x m] [|a p] [|b q] H1 H2 H3; try discriminate; cbn [zip fold_right]; [lra|].
  rewrite IH by (cbn in *; lia). lra.
Qed.
Lemma chi2_expand iv : forall m p q, length m = length iv -> length p = length iv -> length q = length iv ->
  chi2 iv m q = chi2 iv m p + 2 * (wdot iv (vsub p m) q - wdot iv (vsub p m) p) + chi2 iv q p.
Proof.
  unfold chi2, wdot, vsub.
  induction iv as [|w iv IH]; intros [|x m] [|a p] [|b q] H1 H2 H3; try discriminate; cbn [zip fold_right]; [lra|].
  rewrite (IH m p q) by (cbn in *; lia). lra.
Qed.
Lemma wdot_zeros iv a n : wdot iv a (repeat 0 n) = 0.
Proof.
  unfold wdot. revert a n. induction iv as [|w iv IH]; intros [|x a] [|n]; cbn [repeat zip fold_right]; auto.
  rewrite IH. lra.
Qed.
Lemma wdot_scale iv k : forall a p, wdot iv a (map (Rmult k) p) = k * wdot iv a p.
Proof.
  unfold wdot. induction iv as [|w iv IH]; intros [|x a] [|y p]; cbn [map zip fold_right]; try lra. rewrite IH. lra.
Qed.
Lemma chi2_null iv : forall p q, nonneg iv -> length p = length iv -> length q = length iv -> chi2 iv p q <= 0 ->
  same_measured iv p q.
Proof.
  intros p q Hn Hp Hq H. split; [congruence|]. revert p q Hp Hq H. induction Hn as [|w iv Hw Hn IH]; intros [|x p] [|y q] Hp Hq H i u a b Hi Hu Ha Hb;
    try discriminate; [destruct i; discriminate|].
  pose proof (chi2_nonneg iv p q Hn) as H1. unfold chi2, vsub in H. cbn [zip fold_right] in H.
  pose proof (Rle_0_sqr (x - y)) as H2. unfold Rsqr in H2. pose proof (Rmult_le_pos w _ Hw H2) as H3.
  fold (vsub p q) in H. fold (chi2 iv p q) in H.
  destruct i as [|i]; cbn in Hi, Ha, Hb.
  - injection Hi as ->. injection Ha as ->. injection Hb as ->.
    assert (Hz : u * ((a - b) * (a - b)) = 0) by lra. apply Rmult_integral in Hz as [Hz|Hz]; [lra|].
    apply Rmult_integral in Hz as [Hz|Hz]; lra.
  - apply (IH p q ltac:(cbn in *; lia) ltac:(cbn in *; lia) ltac:(lra) i u a b); auto.
Qed.

(** * The fit of one object *)
Section Best.
  Variables (F : fitter R) (A : atab R) (nb nt : nat).
  Hypothesis HF : ready F A nb nt.
  Notation model z c := (mulmv (chunks nb nt (arow A z)) c).
  Lemma model_length z c : length (model z c) = nb.
  Proof. unfold mulmv. rewrite map_length, length_chunks. auto. Qed.

  Definition best z iv m c : Prop := length c = nt /\ nonneg c /\
    forall y, length y = nt -> nonneg y -> chi2 iv m (model z c) <= chi2 iv m (model z y).

  Lemma fit_best nnls rng o cur c cur' : nnls_contract nnls -> no_ab F -> nb <> 1%nat -> obj_ok nb o ->
    nonneg (o_iv o) -> in_range (a_x A) (o_z o) -> fit_object nnls rng F 0 o cur = Ok (Bare (vec c), cur') ->
    best (o_z o) (o_iv o) (o_m o) c.
  Proof.
    intros Hc Hab H1 Ho Hiv Hr E.
    destruct (L_C28_optimal nnls rng F A nb nt o cur c cur' Hc Hab HF H1 Ho Hiv Hr E) as (Lc & Nc & p & Ep & Hp).
    rewrite (model_eq F A nb nt (o_z o) c HF Lc Hr) in Ep. injection Ep as _ Ep. repeat split; auto.
    intros y Ly Ny. destruct (Hp y Ly Ny) as (q & Eq & Hq). rewrite (model_eq F A nb nt (o_z o) y HF Ly Hr) in Eq.
    injection Eq as _ Eq. rewrite Ep, Eq. auto.
  Qed.

  (** The directional derivative at a minimiser. *)
  Lemma best_vi z iv m c y : nonneg iv -> length iv = nb -> length m = nb -> best z iv m c -> length y = nt -> nonneg y ->
    0 <= wdot iv (vsub (model z c) m) (model z y) - wdot iv (vsub (model z c) m) (model z c).
  Proof.
    intros Hiv Liv Lm (Lc & Nc & Hb) Ly Ny.
    set (g := _ - _). destruct (Rle_dec 0 g) as [|Hg]; auto. exfalso. assert (g < 0) by lra. clear Hg.
    set (d := chi2 iv (model z y) (model z c)). assert (Hd : 0 <= d) by (apply chi2_nonneg; auto).
    set (t := (- g) / (d - g)). assert (0 < d - g) by lra.
    assert (Ht0 : 0 < t) by (apply Rdiv_lt_0_compat; lra).
    assert (Et : t * (d - g) = - g) by (unfold t; field; lra).
    assert (Ht1 : t <= 1) by (apply (Rmult_le_reg_r (d - g)); lra).
    specialize (Hb (lincomb (1 - t) t c y) ltac:(rewrite lincomb_length; congruence) (lin_nonneg t ltac:(lra) c y Nc Ny)).
    rewrite mulmv_lin in Hb by congruence. rewrite chi2_move in Hb by (rewrite ?model_length; congruence).
    fold g in Hb. fold d in Hb.
    assert (t * t * d = t * (- g + t * g)) by (rewrite <- Et at 1; ring).
    assert (0 <= t * (g + t * g)) by lra. assert (t * (g + t * g) < 0); [|lra].
    assert (0 < t * ((- g) * (1 + t))); [|lra]. apply Rmult_lt_0_compat; auto. apply Rmult_lt_0_compat; lra.
  Qed.
  Lemma scale_model z k c : model z (map (Rmult k) c) = map (Rmult k) (model z c).
  Proof.
    unfold mulmv. rewrite map_map. apply map_ext. intro r. rewrite dot_comm, dot_scale, dot_comm. auto.
  Qed.
  Lemma scale_nonneg k c : 0 <= k -> nonneg c -> nonneg (map (Rmult k) c).
  Proof. intros Hk. unfold nonneg. intro H. apply Forall_map. eapply Forall_impl; [|apply H]. intros; cbn. apply Rmult_le_pos; auto. Qed.

  Lemma best_self z iv m c : nonneg iv -> length iv = nb -> length m = nb -> best z iv m c ->
    wdot iv (vsub (model z c) m) (model z c) = 0.
  Proof.
    intros Hiv Liv Lm Hb. pose proof Hb as (Lc & Nc & _).
    assert (H0 := best_vi z iv m c (map (Rmult 0) c) Hiv Liv Lm Hb ltac:(rewrite map_length; auto) (scale_nonneg 0 c (Rle_refl 0) Nc)).
    assert (H2 := best_vi z iv m c (map (Rmult 2) c) Hiv Liv Lm Hb ltac:(rewrite map_length; auto) (scale_nonneg 2 c ltac:(lra) Nc)).
    rewrite scale_model, wdot_scale in H0, H2. lra.
  Qed.
  Lemma best_of_kkt z iv m c : nonneg iv -> length iv = nb -> length m = nb -> length c = nt -> nonneg c ->
    wdot iv (vsub (model z c) m) (model z c) = 0 ->
    (forall y, length y = nt -> nonneg y -> 0 <= wdot iv (vsub (model z c) m) (model z y)) -> best z iv m c.
  Proof.
    intros Hiv Liv Lm Lc Nc H0 Hy. repeat split; auto. intros y Ly Ny. specialize (Hy y Ly Ny).
    rewrite (chi2_expand iv m (model z c) (model z y)) by (rewrite ?model_length; congruence).
    pose proof (chi2_nonneg iv (model z y) (model z c) Hiv). lra.
  Qed.

  Lemma wdot_diff iv : forall p1 p2 m1 m2, length p1 = length iv -> length p2 = length iv -> length m1 = length iv -> length m2 = length iv ->
    wdot iv (vsub p1 m1) p2 - wdot iv (vsub p1 m1) p1 + (wdot iv (vsub p2 m2) p1 - wdot iv (vsub p2 m2) p2) <=
    (chi2 iv m1 m2 - chi2 iv p1 p2) / 2 - chi2 iv (vsub p1 p2) (vsub m1 m2) / 2.
  Proof.
    unfold wdot, chi2, vsub. induction iv as [|w iv IH]; intros [|a p1] [|b p2] [|x m1] [|y m2] H1 H2 H3 H4; try discriminate;
      cbn [zip fold_right]; [lra|].
    specialize (IH p1 p2 m1 m2 ltac:(cbn in *; lia) ltac:(cbn in *; lia) ltac:(cbn in *; lia) ltac:(cbn in *; lia)). lra.
  Qed.
  Lemma best_stable z iv m1 m2 c1 c2 : nonneg iv -> length iv = nb -> length m1 = nb -> length m2 = nb ->
    best z iv m1 c1 -> best z iv m2 c2 -> chi2 iv (model z c1) (model z c2) <= chi2 iv m1 m2.
  Proof.
    intros Hiv Liv L1 L2 B1 B2. pose proof B1 as (Lc1 & Nc1 & _). pose proof B2 as (Lc2 & Nc2 & _).
    pose proof (best_vi z iv m1 c1 c2 Hiv Liv L1 B1 Lc2 Nc2). pose proof (best_vi z iv m2 c2 c1 Hiv Liv L2 B2 Lc1 Nc1).
    pose proof (wdot_diff iv (model z c1) (model z c2) m1 m2) as Hd. rewrite !model_length in Hd.
    specialize (Hd (eq_sym Liv) (eq_sym Liv) ltac:(congruence) ltac:(congruence)).
    pose proof (chi2_nonneg iv (vsub (model z c1) (model z c2)) (vsub m1 m2) Hiv). lra.
  Qed.
End Best.

(** C80.  There is a solver that meets the contract and never fails. *)
Lemma L_C80_solver :
  exists nnls, nnls_contract nnls /\ nnls_shape nnls /\ forall mi n A b, exists x, nnls mi n A b = Some x.
Proof.
  exists nnls_exact. split; [apply nnls_exact_contract|]. split; [apply nnls_exact_shape|]. intros. eexists. reflexivity.
Qed.
Lemma E_C80_solver : nnls_exact None 1 [[2]; [6]] [2; 12] = Some [19 / 10].
Proof.
  unfold nnls_exact. cbn [masks map app lsq tl hd mulmv dot zip fold_right]. unfold lincomb, dot; cbn [zip fold_right].
  destruct (Req_EM_T _ _) as [H|H]; [exfalso; lra|]. unfold filter, nonnegb. cbn [forallb].
  match goal with |- context [Rle_dec 0 (?a / ?b)] => replace (a / b) with (19 / 10) by field end.
  destruct (Rle_dec 0 (19 / 10)); [|exfalso; lra]. destruct (Rle_dec 0 0); [|exfalso; lra].
  cbn [andb]. unfold argmin, sumsq, vsub, mulmv, dot. cbn [fold_right map zip repeat].
  repeat match goal with |- context [Rle_dec ?a ?b] =>
    lazymatch a with context [Rle_dec _ _] => fail | _ => lazymatch b with context [Rle_dec _ _] => fail | _ =>
      destruct (Rle_dec a b) end end end; cbn [map zip fold_right repeat] in *; try reflexivity; exfalso; lra.
Qed.

(** With that solver the fit of every object in range returns coefficients. *)
Lemma L_C80_fit_returns :
  exists nnls, nnls_contract nnls /\ nnls_shape nnls /\
    forall rng (F : fitter R) A nb nt o cur,
      no_ab F -> ready F A nb nt -> nb <> 1%nat -> obj_ok nb o -> in_range (a_x A) (o_z o) ->
      exists c, length c = nt /\ fit_object nnls rng F 0 o cur = Ok (Bare (vec c), cur).
Proof.
  exists nnls_exact. split; [apply nnls_exact_contract|]. split; [apply nnls_exact_shape|].
  intros rng F A nb nt o cur Hab H H1 Ho Hr.
  destruct (fit_eq nnls_exact rng F A nb nt o cur Hab H H1 Ho Hr) as (HW & LW & Lb & EF). rewrite EF.
  destruct (nnls_exact None nt _ _) as [x|] eqn:E; [|discriminate].
  exists x. split; auto. eapply nnls_exact_shape; eauto.
Qed.
Lemma E_C80_fit_returns : ready r_fitter r_tab 2 1 /\ in_range (a_x r_tab) (1 / 2) /\
  obj_ok 2 {| o_z := 1 / 2; o_m := [2; 6]; o_iv := [1; 4] |}.
Proof. split; [apply r_ready|]. split; [unfold in_range; cbn; lra|split; reflexivity]. Qed.

Lemma sqrt_good v : 0 <= v -> Rltb 0 (sqrt v) = Rltb 0 v.
Proof.
  intro H. unfold Rltb. destruct (Rlt_dec 0 v) as [Hv|Hv], (Rlt_dec 0 (sqrt v)) as [Hs|Hs]; auto; exfalso.
  - apply Hs. apply sqrt_lt_R0; auto.
  - assert (v = 0) by lra. subst v. rewrite sqrt_0 in Hs. lra.
Qed.
Lemma good_count iv : nonneg iv ->
  length (filter (fun e => Rltb 0 e) (map sqrt iv)) = length (filter (fun v => if Rlt_dec 0 v then true else false) iv).
Proof.
  induction 1 as [|v l Hv Hl IH]; cbn [map filter]; auto. rewrite sqrt_good by auto. unfold Rltb at 1.
  destruct (Rlt_dec 0 v); cbn [length]; rewrite IH; auto.
Qed.
Lemma exact_mc rng (F : fitter R) A nb nt mc o cur :
  no_ab F -> ready F A nb nt -> nb <> 1%nat -> obj_ok nb o -> in_range (a_x A) (o_z o) -> nonneg (o_iv o) -> mc <> 0%nat ->
  exists c cm mm, length c = nt /\
    fit_object nnls_exact rng F mc o cur =
    Ok (Three (vec c) cm mm, (cur + mc * length (filter (fun v => if Rlt_dec 0 v then true else false) (o_iv o)))%nat).
Proof.
  intros Hab H H1 Ho Hr Hiv Hmc. pose proof Ho as [Hm Hi]. rewrite (single_eq nnls_exact rng mc cur Hab H H1 Ho).
  pose proof H as (_ & _ & _ & Ht).
  unfold fit1_spec. change (cst (o_z o)) with (o_z o). change (map cst (o_iv o)) with (map (fun x : R => x) (o_iv o)). rewrite map_id.
  change (map cst (o_m o)) with (map (fun x : R => x) (o_m o)). rewrite map_id.
  apply out_of_range in Hr. rewrite Hr. change (map nsqrt (o_iv o)) with (map sqrt (o_iv o)).
  set (e := map sqrt (o_iv o)). set (W := wmat A nb nt e (o_z o)).
  assert (Le : length e = nb) by (unfold e; rewrite map_length; auto).
  assert (Hf : forall l : list R, forallb nfin l = true) by (induction l; cbn; auto).
  assert (RT : forall b, length b = nb -> exists x, length x = nt /\ nnls_retry nnls_exact W (vec b) = Ok (vec x)).
  { intros b Lb. unfold nnls_retry, nnls_call. rewrite !Hf. unfold W, wmat. cbn [ndim shp vec length Nat.eqb hd lastd last].
    rewrite Lb, Nat.eqb_refl. unfold nnls_exact at 1. cbn [catch]. eexists. split; [|reflexivity].
    eapply (nnls_exact_shape None nt). reflexivity. }
  assert (Lz : forall m, length m = nb -> length (zip Rmult m e) = nb) by (intros m0 L0; rewrite length_zip; lia).
  destruct (RT (zip Rmult (o_m o) e) (Lz _ Hm)) as (c & Lc & Ec).
  assert (Ev : mk [nb] (zip Rmult (o_m o) e) = vec (zip Rmult (o_m o) e)) by (unfold vec; rewrite Lz; auto).
  change (zip nmul (o_m o) e) with (zip Rmult (o_m o) e). rewrite Ev, Ec. cbn [bind].
  destruct (Nat.eqb_spec mc 0) as [|_]; [congruence|].
  assert (EL : forall k cur, exists ms cs, mc_loop nnls_exact rng nt W (o_m o) e k cur = Ok (ms, cs, (cur + k * length (good e))%nat)).
  { induction k as [|k IH]; intros cu; cbn [mc_loop].
    - exists [], []. do 2 f_equal. lia.
    - rewrite (draw_eq rng (o_m o) e cu ltac:(congruence)).
      destruct (RT (zip Rmult (draw_spec rng (o_m o) e cu) e)) as (x & Lx & Ex).
      { apply Lz. rewrite length_draw_spec by congruence. auto. }
      change (zip nmul (draw_spec rng (o_m o) e cu) e) with (zip Rmult (draw_spec rng (o_m o) e cu) e). rewrite Ex. cbn [bind].
      rewrite bto_vec by (unfold map1, vec; cbn [shp dat]; rewrite ?map_length; congruence). cbn [bind].
      destruct (IH (cu + length (good e))%nat) as (ms & cs & EI). rewrite EI. cbn [bind].
      eexists _, _. do 2 f_equal. lia. }
  destruct (EL mc cur) as (ms & cs & ->). cbn [bind]. exists c, (of_cols nt cs), (of_cols nb ms). split; auto.
  rewrite <- (good_count (o_iv o) Hiv). reflexivity.
Qed.
(** ... and so do all its Monte Carlo fits. *)
Lemma L_C80_monte_carlo_returns :
  exists nnls, nnls_contract nnls /\ nnls_shape nnls /\
    forall rng (F : fitter R) A nb nt mc o cur,
      no_ab F -> ready F A nb nt -> nb <> 1%nat -> obj_ok nb o -> in_range (a_x A) (o_z o) -> nonneg (o_iv o) -> mc <> 0%nat ->
      exists c cm mm cur', length c = nt /\ fit_object nnls rng F mc o cur = Ok (Three (vec c) cm mm, cur').
Proof.
  exists nnls_exact. split; [apply nnls_exact_contract|]. split; [apply nnls_exact_shape|].
  intros rng F A nb nt mc o cur Hab H H1 Ho Hr Hiv Hmc.
  destruct (exact_mc rng F A nb nt mc o cur Hab H H1 Ho Hr Hiv Hmc) as (c & cm & mm & Lc & E). eauto 10.
Qed.
Lemma E_C80_monte_carlo_returns : ready r_fitter r_tab 2 1 /\ in_range (a_x r_tab) (1 / 2) /\ nonneg [1; 4].
Proof. split; [apply r_ready|]. split; [unfold in_range; cbn; lra|repeat constructor; lra]. Qed.

(** Whatever the solver: nonnegative coefficients of least chi^2 exist for every object in range. *)
Lemma L_C80_best_exists :
  forall (F : fitter R) A nb nt z m iv,
    no_ab F -> ready F A nb nt -> nb <> 1%nat -> length m = nb -> length iv = nb -> nonneg iv -> in_range (a_x A) z ->
    exists c p, length c = nt /\ nonneg c /\ reconstruct F (Some (scal z)) (Some (vec c)) 0 = Ok (vec p) /\
      forall y q, length y = nt -> nonneg y -> reconstruct F (Some (scal z)) (Some (vec y)) 0 = Ok (vec q) ->
        chi2 iv m p <= chi2 iv m q.
Proof.
  intros F A nb nt z m iv Hab H H1 Lm Liv Hiv Hr.
  destruct L_C80_fit_returns as (nnls & Hc & _ & Hfit).
  destruct (Hfit (fun _ => 0) F A nb nt {| o_z := z; o_m := m; o_iv := iv |} 0%nat Hab H H1) as (c & Lc & Ec);
    [split; auto|auto|].
  pose proof (fit_best F A nb nt H _ _ {| o_z := z; o_m := m; o_iv := iv |} _ _ _ Hc Hab H1 ltac:(split; auto) Hiv Hr Ec) as (_ & Nc & Hb). cbn [o_z o_m o_iv] in Hb.
  exists c. eexists. repeat split; auto; [apply model_eq; eauto|]. intros y q Ly Ny Eq.
  rewrite (model_eq F A nb nt z y H Ly Hr) in Eq. injection Eq as _ <-. auto.
Qed.
Lemma E_C80_best_exists : ready r_fitter r_tab 2 1 /\ nonneg [1; 4] /\ in_range (a_x r_tab) (1 / 2).
Proof. split; [apply r_ready|]. split; [repeat constructor; lra|unfold in_range; cbn; lra]. Qed.

(** C81.  The optimality conditions of the fit: the weighted residual is orthogonal to the fitted fluxes and no
    nonnegative combination of templates can reduce it. *)
Lemma L_C81_conditions :
  forall nnls rng (F : fitter R) A nb nt o cur c cur' p,
    nnls_contract nnls -> no_ab F -> ready F A nb nt -> nb <> 1%nat -> obj_ok nb o ->
    nonneg (o_iv o) -> in_range (a_x A) (o_z o) ->
    fit_object nnls rng F 0 o cur = Ok (Bare (vec c), cur') ->
    reconstruct F (Some (scal (o_z o))) (Some (vec c)) 0 = Ok (vec p) ->
    wdot (o_iv o) (vsub p (o_m o)) p = 0 /\
    forall y q, length y = nt -> nonneg y -> reconstruct F (Some (scal (o_z o))) (Some (vec y)) 0 = Ok (vec q) ->
      0 <= wdot (o_iv o) (vsub p (o_m o)) q.
Proof.
  intros nnls rng F A nb nt o cur c cur' p Hc Hab H H1 Ho Hiv Hr E Ep.
  pose proof (fit_best F A nb nt H _ _ _ _ _ _ Hc Hab H1 Ho Hiv Hr E) as Hb. pose proof Hb as (Lc & Nc & _).
  rewrite (model_eq F A nb nt _ c H Lc Hr) in Ep. injection Ep as _ <-. destruct Ho as [Lm Liv].
  pose proof (best_self A nb nt _ _ _ _ Hiv Liv Lm Hb) as H0. split; auto.
  intros y q Ly Ny Eq. rewrite (model_eq F A nb nt _ y H Ly Hr) in Eq. injection Eq as _ <-.
  pose proof (best_vi A nb nt _ _ _ _ y Hiv Liv Lm Hb Ly Ny). lra.
Qed.
Lemma E_C81_conditions :
  nnls_contract nnls1 /\
  fit_object nnls1 (fun _ => 0) r_fitter 0 {| o_z := 1 / 2; o_m := [2; 6]; o_iv := [1; 4] |} 0 = Ok (Bare (vec [19 / 10]), 0%nat) /\
  reconstruct r_fitter (Some (scal (1 / 2))) (Some (vec [19 / 10])) 0 = Ok (vec [19 / 5; 57 / 10]) /\
  wdot [1; 4] (vsub [19 / 5; 57 / 10] [2; 6]) [2; 3] = 0.
Proof.
  destruct E_C28_optimal as (H1 & H2 & H3 & H4). split; auto. split; auto. split.
  - rewrite (model_eq r_fitter r_tab 2 1 _ _ r_ready) by auto.
    rewrite (arow_between r_tab 2 1 0 (1 / 2) (proj2 (proj2 (proj2 r_ready))) r_grid) by (cbn; lia || lra).
    cbn [a_x r_tab a_rows nth chunks firstn skipn zip map mulmv]. unfold dot; cbn [zip fold_right].
    do 2 f_equal. repeat (apply f_equal2; [field|]). reflexivity.
  - unfold wdot, vsub; cbn [zip fold_right]. field.
Qed.

(** ... and they suffice: nonnegative coefficients that satisfy them predict the fluxes of the fit in every
    measured band and have its chi^2. *)
Lemma L_C81_sufficient :
  forall nnls rng (F : fitter R) A nb nt o cur c cur' p x px,
    nnls_contract nnls -> no_ab F -> ready F A nb nt -> nb <> 1%nat -> obj_ok nb o ->
    nonneg (o_iv o) -> in_range (a_x A) (o_z o) ->
    fit_object nnls rng F 0 o cur = Ok (Bare (vec c), cur') ->
    reconstruct F (Some (scal (o_z o))) (Some (vec c)) 0 = Ok (vec p) ->
    length x = nt -> nonneg x -> reconstruct F (Some (scal (o_z o))) (Some (vec x)) 0 = Ok (vec px) ->
    wdot (o_iv o) (vsub px (o_m o)) px = 0 ->
    (forall y q, length y = nt -> nonneg y -> reconstruct F (Some (scal (o_z o))) (Some (vec y)) 0 = Ok (vec q) ->
      0 <= wdot (o_iv o) (vsub px (o_m o)) q) ->
    same_measured (o_iv o) p px /\ chi2 (o_iv o) (o_m o) p = chi2 (o_iv o) (o_m o) px.
Proof.
  intros nnls rng F A nb nt o cur c cur' p x px Hc Hab H H1 Ho Hiv Hr E Ep Lx Nx Ex Hx Hy.
  pose proof (fit_best F A nb nt H _ _ _ _ _ _ Hc Hab H1 Ho Hiv Hr E) as Hb. pose proof Hb as (Lc & Nc & Oc).
  rewrite (model_eq F A nb nt _ c H Lc Hr) in Ep. injection Ep as _ <-.
  rewrite (model_eq F A nb nt _ x H Lx Hr) in Ex. injection Ex as _ <-. destruct Ho as [Lm Liv].
  assert (Hbx : best A nb nt (o_z o) (o_iv o) (o_m o) x).
  { apply best_of_kkt; auto. intros y Ly Ny. apply (Hy y); auto. apply model_eq; eauto. }
  split.
  - apply chi2_null; auto; try (rewrite model_length; congruence).
    eapply Rle_trans; [apply (best_stable A nb nt (o_z o) (o_iv o) (o_m o) (o_m o) c x); auto|]. rewrite chi2_self. lra.
  - apply Rle_antisym; [apply Oc; auto|]. apply Hbx; auto.
Qed.
Lemma E_C81_sufficient :
  wdot [1; 4] (vsub [19 / 5; 57 / 10] [2; 6]) [19 / 5; 57 / 10] = 0 /\
  (forall t, 0 <= t -> 0 <= wdot [1; 4] (vsub [19 / 5; 57 / 10] [2; 6]) [2 * t; 3 * t]) /\
  same_measured [1; 0] [3; 4] [3; 5].
Proof.
  unfold wdot, vsub; cbn [zip fold_right]. split; [field|]. split; [intros; lra|]. split; auto.
  intros [|[|[|i]]] w a b Hi Hw Ha Hb; cbn in *; try discriminate; congruence || (injection Hi as <-; lra).
Qed.

(** chi^2 of the photometry against no light at all is the chi^2 of the fit plus that of the fitted fluxes: the fit
    never does worse than no light. *)
Lemma L_C81_pythagoras :
  forall nnls rng (F : fitter R) A nb nt o cur c cur' p,
    nnls_contract nnls -> no_ab F -> ready F A nb nt -> nb <> 1%nat -> obj_ok nb o ->
    nonneg (o_iv o) -> in_range (a_x A) (o_z o) ->
    fit_object nnls rng F 0 o cur = Ok (Bare (vec c), cur') ->
    reconstruct F (Some (scal (o_z o))) (Some (vec c)) 0 = Ok (vec p) ->
    chi2 (o_iv o) (o_m o) (repeat 0 nb) = chi2 (o_iv o) (o_m o) p + chi2 (o_iv o) p (repeat 0 nb).
Proof.
  intros nnls rng F A nb nt o cur c cur' p Hc Hab H H1 Ho Hiv Hr E Ep.
  destruct (L_C81_conditions nnls rng F A nb nt o cur c cur' p Hc Hab H H1 Ho Hiv Hr E Ep) as [H0 _].
  pose proof (fit_best F A nb nt H _ _ _ _ _ _ Hc Hab H1 Ho Hiv Hr E) as (Lc & Nc & _).
  rewrite (model_eq F A nb nt _ c H Lc Hr) in Ep. injection Ep as _ <-. destruct Ho as [Lm Liv].
  rewrite (chi2_expand (o_iv o) (o_m o) (mulmv (chunks nb nt (arow A (o_z o))) c) (repeat 0 nb))
    by (rewrite ?(model_length A nb nt), ?repeat_length; congruence).
  rewrite H0, wdot_zeros.
  assert (S : forall iv p q, chi2 iv p q = chi2 iv q p).
  { clear. unfold chi2, vsub. induction iv as [|w iv IH]; intros [|x p] [|y q]; cbn [zip fold_right]; auto. rewrite (IH p q). lra. }
  rewrite (S _ (repeat 0 nb) _). lra.
Qed.
Lemma exact_fit rng (F : fitter R) A nb nt o cur :
  no_ab F -> ready F A nb nt -> nb <> 1%nat -> obj_ok nb o -> in_range (a_x A) (o_z o) ->
  exists c, length c = nt /\ fit_object nnls_exact rng F 0 o cur = Ok (Bare (vec c), cur).
Proof.
  intros Hab H H1 Ho Hr. destruct (fit_eq nnls_exact rng F A nb nt o cur Hab H H1 Ho Hr) as (HW & LW & Lb & EF). rewrite EF.
  destruct (nnls_exact None nt _ _) as [x|] eqn:E; [|discriminate].
  exists x. split; auto. eapply nnls_exact_shape; eauto.
Qed.
Lemma E_C81_pythagoras :
  nnls_contract nnls1 /\ no_ab r_fitter /\ ready r_fitter r_tab 2 1 /\ nonneg [1; 4] /\ in_range (a_x r_tab) (1 / 2) /\
  fit_object nnls1 (fun _ => 0) r_fitter 0 {| o_z := 1 / 2; o_m := [2; 6]; o_iv := [1; 4] |} 0 = Ok (Bare (vec [19 / 10]), 0%nat) /\
  reconstruct r_fitter (Some (scal (1 / 2))) (Some (vec [19 / 10])) 0 = Ok (vec [19 / 5; 57 / 10]) /\
  chi2 [1; 4] [2; 6] [0; 0] = 148 /\ chi2 [1; 4] [2; 6] [19 / 5; 57 / 10] = 18 / 5 /\
  chi2 [1; 4] [19 / 5; 57 / 10] [0; 0] = 722 / 5.
Proof.
  destruct E_C81_conditions as (H1 & H2 & H3 & _). split; [exact H1|]. split; [left; reflexivity|]. split; [apply r_ready|]. split; [repeat constructor; lra|].
  split; [unfold in_range; cbn; lra|]. split; [exact H2|]. split; [exact H3|].
  unfold chi2, vsub; cbn [zip fold_right]. repeat split; field.
Qed.

(** The fluxes of the fit do not depend on the solver: two solvers that meet the contract give fits that agree in every
    measured band. *)
Lemma L_C81_unique :
  forall nnls nnls' rng rng' (F : fitter R) A nb nt o cur cur1 c cur1' c' cur' p p',
    nnls_contract nnls -> nnls_contract nnls' -> no_ab F -> ready F A nb nt -> nb <> 1%nat -> obj_ok nb o ->
    nonneg (o_iv o) -> in_range (a_x A) (o_z o) ->
    fit_object nnls rng F 0 o cur = Ok (Bare (vec c), cur1) ->
    fit_object nnls' rng' F 0 o cur1' = Ok (Bare (vec c'), cur') ->
    reconstruct F (Some (scal (o_z o))) (Some (vec c)) 0 = Ok (vec p) ->
    reconstruct F (Some (scal (o_z o))) (Some (vec c')) 0 = Ok (vec p') ->
    same_measured (o_iv o) p p'.
Proof.
  intros nnls nnls' rng rng' F A nb nt o cur cur1 c cur1' c' cur' p p' Hc Hc' Hab H H1 Ho Hiv Hr E E' Ep Ep'.
  pose proof (fit_best F A nb nt H _ _ _ _ _ _ Hc Hab H1 Ho Hiv Hr E) as B1. pose proof B1 as (Lc & Nc & _).
  pose proof (fit_best F A nb nt H _ _ _ _ _ _ Hc' Hab H1 Ho Hiv Hr E') as B2. pose proof B2 as (Lc' & Nc' & _).
  rewrite (model_eq F A nb nt _ c H Lc Hr) in Ep. injection Ep as _ <-.
  rewrite (model_eq F A nb nt _ c' H Lc' Hr) in Ep'. injection Ep' as _ <-. destruct Ho as [Lm Liv].
  apply chi2_null; auto; try (rewrite (model_length A nb nt); congruence).
  eapply Rle_trans; [apply (best_stable A nb nt (o_z o) (o_iv o) (o_m o) (o_m o) c c'); auto|]. rewrite chi2_self. lra.
Qed.
Lemma E_C81_unique : nnls_contract nnls1 /\ nnls_contract nnls_exact /\ nnls_contract (prefer [1; 2]) /\
  no_ab r_fitter /\ ready r_fitter r_tab 2 1 /\ nonneg [1; 4] /\ in_range (a_x r_tab) (1 / 2) /\
  (exists c, fit_object nnls1 (fun _ => 0) r_fitter 0 {| o_z := 1 / 2; o_m := [2; 6]; o_iv := [1; 4] |} 0 = Ok (Bare (vec c), 0%nat)) /\
  (exists c, fit_object nnls_exact (fun _ => 0) r_fitter 0 {| o_z := 1 / 2; o_m := [2; 6]; o_iv := [1; 4] |} 0 = Ok (Bare (vec c), 0%nat)).
Proof.
  split; [apply nnls1_contract|]. split; [apply nnls_exact_contract|]. split; [apply prefer_contract|].
  split; [left; reflexivity|]. split; [apply r_ready|]. split; [repeat constructor; lra|]. assert (HR : in_range (a_x r_tab) (1 / 2)) by (unfold in_range; cbn; lra).
  split; [exact HR|]. split; [eexists; apply E_C28_optimal|].
  destruct (exact_fit (fun _ => 0) r_fitter r_tab 2 1 {| o_z := 1 / 2; o_m := [2; 6]; o_iv := [1; 4] |} 0) as (c & _ & Ec); auto;
    [left; reflexivity|apply r_ready|split; reflexivity|]. exists c. exact Ec.
Qed.

(** If no combination of templates is dark in every measured band, neither do the coefficients. *)
Lemma L_C81_coefficients :
  forall nnls nnls' rng rng' (F : fitter R) A nb nt o cur cur1 c cur1' c' cur',
    nnls_contract nnls -> nnls_contract nnls' -> no_ab F -> ready F A nb nt -> nb <> 1%nat -> obj_ok nb o ->
    nonneg (o_iv o) -> in_range (a_x A) (o_z o) ->
    (forall y q, length y = nt -> reconstruct F (Some (scal (o_z o))) (Some (vec y)) 0 = Ok (vec q) ->
       dark_measured (o_iv o) q -> y = repeat 0 nt) ->
    fit_object nnls rng F 0 o cur = Ok (Bare (vec c), cur1) ->
    fit_object nnls' rng' F 0 o cur1' = Ok (Bare (vec c'), cur') ->
    c = c'.
Proof.
  intros nnls nnls' rng rng' F A nb nt o cur cur1 c cur1' c' cur' Hc Hc' Hab H H1 Ho Hiv Hr Hk E E'.
  pose proof (fit_best F A nb nt H _ _ _ _ _ _ Hc Hab H1 Ho Hiv Hr E) as B1. pose proof B1 as (Lc & Nc & _).
  pose proof (fit_best F A nb nt H _ _ _ _ _ _ Hc' Hab H1 Ho Hiv Hr E') as B2. pose proof B2 as (Lc' & Nc' & _).
  destruct (L_C81_unique nnls nnls' rng rng' F A nb nt o cur cur1 c cur1' c' cur' _ _ Hc Hc' Hab H H1 Ho Hiv Hr E E'
    (model_eq F A nb nt _ c H Lc Hr) (model_eq F A nb nt _ c' H Lc' Hr)) as [_ Hs].
  set (M := chunks nb nt (arow A (o_z o))) in *.
  assert (Z : lincomb 1 (-1) c c' = repeat 0 nt).
  { apply (Hk _ (mulmv M (lincomb 1 (-1) c c'))); [rewrite lincomb_length; congruence|
      apply model_eq; auto; rewrite lincomb_length; congruence|].
    rewrite mulmv_lin by congruence. intros i w a Hi Hw Ha. unfold lincomb in Ha. rewrite nth_error_zip in Ha.
    destruct (nth_error (mulmv M c) i) as [u|] eqn:Eu; [|discriminate].
    destruct (nth_error (mulmv M c') i) as [v|] eqn:Ev; [|discriminate]. injection Ha as <-.
    rewrite (Hs i w u v) by auto. lra. }
  assert (LL : length c = length c') by congruence. clear - Z LL. revert nt c' LL Z.
  induction c as [|x c IH]; intros nt [|y c'] LL Z; try discriminate; auto.
  destruct nt as [|nt]; [discriminate|]. unfold lincomb in Z; cbn [zip repeat] in Z. injection Z as Z0 Z.
  f_equal; [lra|]. apply (IH nt); auto.
Qed.
Lemma E_C81_coefficients :
  nnls_contract nnls1 /\ nnls_contract nnls_exact /\ no_ab r_fitter /\ ready r_fitter r_tab 2 1 /\ nonneg [1; 4] /\ in_range (a_x r_tab) (1 / 2) /\
  forall y q, length y = 1%nat -> reconstruct r_fitter (Some (scal (1 / 2))) (Some (vec y)) 0 = Ok (vec q) ->
    dark_measured [1; 4] q -> y = repeat 0 1.
Proof.
  assert (HR : in_range (a_x r_tab) (1 / 2)) by (unfold in_range; cbn; lra).
  split; [apply nnls1_contract|]. split; [apply nnls_exact_contract|]. split; [left; reflexivity|]. split; [apply r_ready|]. split; [repeat constructor; lra|].
  split; [exact HR|]. intros y q Ly Eq Hd.
  rewrite (model_eq r_fitter r_tab 2 1 _ _ r_ready) in Eq by auto.
  rewrite (arow_between r_tab 2 1 0 (1 / 2) (proj2 (proj2 (proj2 r_ready))) r_grid) in Eq by (cbn; lia || lra).
  destruct y as [|t [|]]; try discriminate. cbn [a_x r_tab a_rows nth chunks firstn skipn zip map mulmv] in Eq.
  unfold dot in Eq; cbn [zip fold_right] in Eq. injection Eq as Eq. subst q.
  specialize (Hd 0%nat 1 _ eq_refl ltac:(lra) eq_refl). cbn [repeat]. f_equal. lra.
Qed.

(** The coefficients themselves, and with them the fluxes at any other redshift, may depend on the solver. *)
Lemma L_C81_other_redshift_refuted :
  exists nnls nnls' rng (F : fitter R) A o c c' p p',
    nnls_contract nnls /\ nnls_contract nnls' /\ no_ab F /\ ready F A 2 2 /\ obj_ok 2 o /\ Forall (Rlt 0) (o_iv o) /\
    in_range (a_x A) (o_z o) /\
    fit_object nnls rng F 0 o 0 = Ok (Bare (vec c), 0%nat) /\ fit_object nnls' rng F 0 o 0 = Ok (Bare (vec c'), 0%nat) /\
    reconstruct F (Some (scal 1)) (Some (vec c)) 0 = Ok (vec p) /\
    reconstruct F (Some (scal 1)) (Some (vec c')) 0 = Ok (vec p') /\ ~ same_measured (o_iv o) p p'.
Proof.
  exists (prefer [1; 0]), (prefer [0; 1]), (fun _ => 0), twin_fitter, twin_tab, {| o_z := 0; o_m := [1; 2]; o_iv := [1; 1] |},
    [1; 0], [0; 1], [1; 1], [2; 3].
  assert (R0 : in_range (a_x twin_tab) 0) by (unfold in_range; cbn; lra).
  assert (R1 : in_range (a_x twin_tab) 1) by (unfold in_range; cbn; lra).
  assert (AB : no_ab twin_fitter) by (left; reflexivity).
  split; [apply prefer_contract|]. split; [apply prefer_contract|]. split; [exact AB|]. split; [apply twin_ready|].
  split; [split; reflexivity|]. split; [repeat constructor; lra|]. split; [exact R0|].
  assert (FX : forall x, length x = 2%nat -> nonneg x -> nth 0 x 0 + nth 1 x 0 = 1 ->
     fit_object (prefer x) (fun _ => 0) twin_fitter 0 {| o_z := 0; o_m := [1; 2]; o_iv := [1; 1] |} 0 = Ok (Bare (vec x), 0%nat)).
  { intros x Lx Nx Sx.
    destruct (fit_eq (prefer x) (fun _ => 0) twin_fitter twin_tab 2 2 {| o_z := 0; o_m := [1; 2]; o_iv := [1; 1] |} 0)
      as (_ & _ & _ & ->); auto; [apply twin_ready|split; reflexivity|]. cbn [o_z o_m o_iv].
    rewrite (arow_between twin_tab 2 2 0 0 (proj2 (proj2 (proj2 twin_ready))) twin_grid) by (cbn; lia || lra).
    cbn [a_x twin_tab a_rows nth chunks firstn skipn zip map]. rewrite sqrt_1.
    unfold prefer. rewrite Lx. cbn [Nat.eqb andb]. rewrite (proj2 (nonnegb_iff x) Nx).
    destruct x as [|x0 [|x1 [|]]]; try discriminate. cbn [nth] in Sx.
    destruct (Req_EM_T _ _) as [_|Hn]; [reflexivity|]. exfalso. apply Hn.
    unfold sumsq, vsub, mulmv, dot; cbn [map zip fold_right]. replace x1 with (1 - x0) by lra. field. }
  split; [apply FX; auto; [repeat constructor; lra|cbn; lra]|]. split; [apply FX; auto; [repeat constructor; lra|cbn; lra]|].
  assert (RX : forall x0 x1, reconstruct twin_fitter (Some (scal 1)) (Some (vec [x0; x1])) 0 = Ok (vec [x0 + 2 * x1; x0 + 3 * x1])).
  { intros x0 x1. rewrite (model_eq twin_fitter twin_tab 2 2 _ _ twin_ready) by auto.
    rewrite (arow_between twin_tab 2 2 0 1 (proj2 (proj2 (proj2 twin_ready))) twin_grid) by (cbn; lia || lra).
    cbn [a_x twin_tab a_rows nth chunks firstn skipn zip map mulmv]. unfold dot; cbn [zip fold_right].
    do 2 f_equal. repeat (apply f_equal2; [field|]). reflexivity. }
  split; [rewrite RX; do 2 f_equal; repeat (apply f_equal2; [field|]); reflexivity|].
  split; [rewrite RX; do 2 f_equal; repeat (apply f_equal2; [field|]); reflexivity|].
  intros [_ Hs]. specialize (Hs 0%nat 1 1 2 eq_refl ltac:(lra) eq_refl eq_refl). lra.
Qed.

(** The fit is stable: at the same redshift with the same inverse variances, the fitted fluxes of two objects are no
    further apart, in chi^2, than their photometry. *)
Lemma L_C81_stable :
  forall nnls rng (F : fitter R) A nb nt z iv m1 m2 cur1 c1 cur1' cur2 c2 cur2' p1 p2,
    nnls_contract nnls -> no_ab F -> ready F A nb nt -> nb <> 1%nat ->
    length m1 = nb -> length m2 = nb -> length iv = nb -> nonneg iv -> in_range (a_x A) z ->
    fit_object nnls rng F 0 {| o_z := z; o_m := m1; o_iv := iv |} cur1 = Ok (Bare (vec c1), cur1') ->
    fit_object nnls rng F 0 {| o_z := z; o_m := m2; o_iv := iv |} cur2 = Ok (Bare (vec c2), cur2') ->
    reconstruct F (Some (scal z)) (Some (vec c1)) 0 = Ok (vec p1) ->
    reconstruct F (Some (scal z)) (Some (vec c2)) 0 = Ok (vec p2) ->
    chi2 iv p1 p2 <= chi2 iv m1 m2.
Proof.
  intros nnls rng F A nb nt z iv m1 m2 cur1 c1 cur1' cur2 c2 cur2' p1 p2 Hc Hab H H1 L1 L2 Liv Hiv Hr E1 E2 P1 P2.
  pose proof (fit_best F A nb nt H _ _ {| o_z := z; o_m := m1; o_iv := iv |} _ _ _ Hc Hab H1 ltac:(split; auto) Hiv Hr E1) as B1. pose proof B1 as (Lc1 & _).
  pose proof (fit_best F A nb nt H _ _ {| o_z := z; o_m := m2; o_iv := iv |} _ _ _ Hc Hab H1 ltac:(split; auto) Hiv Hr E2) as B2. pose proof B2 as (Lc2 & _).
  rewrite (model_eq F A nb nt _ c1 H Lc1 Hr) in P1. injection P1 as _ <-.
  rewrite (model_eq F A nb nt _ c2 H Lc2 Hr) in P2. injection P2 as _ <-.
  apply (best_stable A nb nt z iv m1 m2); auto.
Qed.
Lemma E_C81_stable :
  fit_object nnls1 (fun _ => 0) r_fitter 0 {| o_z := 1 / 2; o_m := [2; 6]; o_iv := [1; 4] |} 0 = Ok (Bare (vec [19 / 10]), 0%nat) /\
  fit_object nnls1 (fun _ => 0) r_fitter 0 {| o_z := 1 / 2; o_m := [4; 6]; o_iv := [1; 4] |} 0 = Ok (Bare (vec [2]), 0%nat) /\
  chi2 [1; 4] [19 / 5; 57 / 10] [4; 6] = 2 / 5 /\ chi2 [1; 4] [2; 6] [4; 6] = 4.
Proof.
  split; [apply E_C28_optimal|]. split; [|unfold chi2, vsub; cbn [zip fold_right]; split; field].
  assert (HR : in_range (a_x r_tab) (1 / 2)) by (unfold in_range; cbn; lra).
  destruct (fit_eq nnls1 (fun _ => 0) r_fitter r_tab 2 1 {| o_z := 1 / 2; o_m := [4; 6]; o_iv := [1; 4] |} 0) as (_ & _ & _ & ->); auto.
  - left; reflexivity.
  - apply r_ready.
  - split; reflexivity.
  - cbn [o_z o_m o_iv].
    rewrite (arow_between r_tab 2 1 0 (1 / 2) (proj2 (proj2 (proj2 r_ready))) r_grid) by (cbn; lia || lra).
    assert (S4 : sqrt 4 = 2) by (replace 4 with (2 * 2) by lra; apply sqrt_square; lra).
    cbn [a_x r_tab a_rows nth chunks firstn skipn zip map]. rewrite sqrt_1, S4.
    unfold nnls1. cbn [Nat.eqb map nth]. unfold dot; cbn [zip fold_right].
    destruct (Rlt_dec _ _) as [_|Hn]; [|exfalso; apply Hn; lra].
    match goal with |- Ok (Bare (vec [?a]), _) = _ => replace a with 2 by field end. reflexivity.
Qed.

(** Photometry in other units (k > 0) with errors in the same units: the fitted fluxes are in those units. *)
Lemma L_C81_units :
  forall nnls rng (F : fitter R) A nb nt z iv m k cur1 c1 cur1' cur2 c2 cur2' p1 p2,
    nnls_contract nnls -> no_ab F -> ready F A nb nt -> nb <> 1%nat ->
    length m = nb -> length iv = nb -> nonneg iv -> in_range (a_x A) z -> 0 < k ->
    fit_object nnls rng F 0 {| o_z := z; o_m := m; o_iv := iv |} cur1 = Ok (Bare (vec c1), cur1') ->
    fit_object nnls rng F 0 {| o_z := z; o_m := map (Rmult k) m; o_iv := map (fun v => v / (k * k)) iv |} cur2 =
      Ok (Bare (vec c2), cur2') ->
    reconstruct F (Some (scal z)) (Some (vec c1)) 0 = Ok (vec p1) ->
    reconstruct F (Some (scal z)) (Some (vec c2)) 0 = Ok (vec p2) ->
    same_measured iv (map (Rmult k) p1) p2.
Proof.
  intros nnls rng F A nb nt z iv m k cur1 c1 cur1' cur2 c2 cur2' p1 p2 Hc Hab H H1 L1 Liv Hiv Hr Hk E1 E2 P1 P2.
  assert (Hkk : 0 < k * k) by (apply Rmult_lt_0_compat; auto).
  assert (Hiv2 : nonneg (map (fun v => v / (k * k)) iv)).
  { unfold nonneg. apply Forall_map. eapply Forall_impl; [|apply Hiv]. intros v Hv; cbn in *.
    apply Rmult_le_pos; auto. apply Rlt_le, Rinv_0_lt_compat; auto. }
  pose proof (fit_best F A nb nt H _ _ {| o_z := z; o_m := m; o_iv := iv |} _ _ _ Hc Hab H1 ltac:(split; auto) Hiv Hr E1) as B1. pose proof B1 as (Lc1 & Nc1 & O1).
  pose proof (fit_best F A nb nt H _ _ {| o_z := z; o_m := map (Rmult k) m; o_iv := map (fun v => v / (k * k)) iv |} _ _ _ Hc Hab H1 ltac:(split; cbn [o_m o_iv]; rewrite map_length; auto) Hiv2 Hr E2) as B2.
  pose proof B2 as (Lc2 & _). cbn [o_z o_m o_iv] in *.
  rewrite (model_eq F A nb nt _ c1 H Lc1 Hr) in P1. injection P1 as _ <-.
  rewrite (model_eq F A nb nt _ c2 H Lc2 Hr) in P2. injection P2 as _ <-.
  set (iv' := map (fun v => v / (k * k)) iv) in *.
  assert (S : forall iv m p, chi2 (map (fun v => v / (k * k)) iv) (map (Rmult k) m) (map (Rmult k) p) = chi2 iv m p).
  { clear - Hk. unfold chi2, vsub. induction iv as [|w iv IH]; intros [|x m] [|y p]; cbn [map zip fold_right]; auto.
    rewrite IH. field. lra. }
  assert (Bk : best A nb nt z iv' (map (Rmult k) m) (map (Rmult k) c1)).
  { split; [rewrite map_length; auto|]. split; [apply scale_nonneg; auto; lra|]. intros y Ly Ny.
    assert (Hki : 0 <= / k) by (apply Rlt_le, Rinv_0_lt_compat; auto).
    specialize (O1 (map (Rmult (/ k)) y) ltac:(rewrite map_length; auto) (scale_nonneg (/ k) y Hki Ny)).
    rewrite !scale_model in *. unfold iv'. rewrite S.
    replace (mulmv (chunks nb nt (arow A z)) y) with (map (Rmult k) (map (Rmult (/ k)) (mulmv (chunks nb nt (arow A z)) y))).
    2:{ rewrite map_map. transitivity (map (fun v : R => v) (mulmv (chunks nb nt (arow A z)) y)); [|apply map_id].
        apply map_ext. intro v. field. lra. }
    rewrite S. auto. }
  assert (SM : same_measured iv' (map (Rmult k) (mulmv (chunks nb nt (arow A z)) c1)) (mulmv (chunks nb nt (arow A z)) c2)).
  { rewrite <- scale_model. assert (Liv' : length iv' = nb) by (unfold iv'; rewrite map_length; auto).
    apply chi2_null; auto; try (rewrite (model_length A nb nt); congruence).
    eapply Rle_trans; [apply (best_stable A nb nt z iv' (map (Rmult k) m) (map (Rmult k) m)); auto; rewrite map_length; auto|].
    rewrite chi2_self. lra. }
  destruct SM as [SL SM]. split; auto. intros i w a b Hi Hw Ha Hb. apply (SM i (w / (k * k)) a b); auto.
  - unfold iv'. rewrite nth_error_map, Hi. auto.
  - apply Rdiv_lt_0_compat; auto.
Qed.
Lemma E_C81_units :
  nnls_contract nnls_exact /\ no_ab r_fitter /\ ready r_fitter r_tab 2 1 /\ nonneg [1; 4] /\ in_range (a_x r_tab) (1 / 2) /\
  map (Rmult 10) [2; 6] = [20; 60] /\ map (fun v => v / (10 * 10)) [1; 4] = [1 / 100; 1 / 25] /\
  (exists c, fit_object nnls_exact (fun _ => 0) r_fitter 0 {| o_z := 1 / 2; o_m := [2; 6]; o_iv := [1; 4] |} 0 = Ok (Bare (vec c), 0%nat)) /\
  (exists c, fit_object nnls_exact (fun _ => 0) r_fitter 0 {| o_z := 1 / 2; o_m := [20; 60]; o_iv := [1 / 100; 1 / 25] |} 0 = Ok (Bare (vec c), 0%nat)).
Proof.
  assert (HR : in_range (a_x r_tab) (1 / 2)) by (unfold in_range; cbn; lra).
  split; [apply nnls_exact_contract|]. split; [left; reflexivity|]. split; [apply r_ready|]. split; [repeat constructor; lra|]. split; [exact HR|].
  cbn [map]. split; [repeat (apply f_equal2; [field|]); reflexivity|]. split; [repeat (apply f_equal2; [field|]); reflexivity|].
  split; match goal with |- exists c, fit_object _ _ _ _ ?o _ = _ =>
    destruct (exact_fit (fun _ => 0) r_fitter r_tab 2 1 o 0) as (c & _ & Ec); auto; [left; reflexivity|apply r_ready|split; reflexivity|exists c; exact Ec] end.
Qed.

(** * Monte Carlo *)
Lemma draws_chi2 : forall iv m col (h : nat -> R), nonneg iv -> length m = length iv -> length col = length iv ->
  (forall b, (b < length iv)%nat ->
     nth b col 0 = if Rltb 0 (nth b (map sqrt iv) 0)
                   then nth b m 0 + h (length (filter (Rltb 0) (firstn b (map sqrt iv)))) * (1 / nth b (map sqrt iv) 0)
                   else nth b m 0) ->
  chi2 iv m col = fold_right Rplus 0 (map (fun j => h j * h j) (seq 0 (length (filter (Rltb 0) iv)))).
Proof.
  induction iv as [|v iv IH]; intros [|x m] [|y col] h Hn Hm Hc HB; try discriminate; [reflexivity|].
  inversion Hn as [|? ? Hv Hn']; subst. pose proof (HB 0%nat ltac:(cbn; lia)) as H0. cbn [nth map firstn filter length] in H0.
  rewrite sqrt_good in H0 by auto. unfold chi2, vsub. cbn [zip fold_right]. fold (vsub m col). fold (chi2 iv m col).
  cbn [filter]. destruct (Rltb 0 v) eqn:Ev.
  - assert (Hp : 0 < v) by (unfold Rltb in Ev; destruct (Rlt_dec 0 v); auto; discriminate).
    pose proof (sqrt_lt_R0 v Hp) as Hs. pose proof (sqrt_sqrt v Hv) as Hss.
    rewrite (IH m col (fun j => h (S j))); auto.
    + cbn [length seq map fold_right]. rewrite <- seq_shift, map_map. f_equal. rewrite H0.
      replace (x - (x + h 0%nat * (1 / sqrt v))) with (- h 0%nat / sqrt v) by (field; lra).
      rewrite <- Hss at 1. field. lra.
    + intros b Hb. pose proof (HB (S b) ltac:(cbn; lia)) as H1. cbn [nth map firstn filter] in H1.
      rewrite sqrt_good, Ev in H1 by auto. exact H1.
  - rewrite (IH m col h); auto.
    + rewrite H0. lra.
    + intros b Hb. pose proof (HB (S b) ltac:(cbn; lia)) as H1. cbn [nth map firstn filter] in H1.
      rewrite sqrt_good, Ev in H1 by auto. exact H1.
Qed.

(** The fluxes of a Monte Carlo fit are no further in chi^2 from those of the fit than the sum of the squares of its
    normal variates, one per measured band. *)
Lemma L_C81_monte_carlo :
  forall nnls rng (F : fitter R) A nb nt mc o cur c cm mm cur' p,
    nnls_contract nnls -> nnls_shape nnls -> no_ab F -> ready F A nb nt -> nb <> 1%nat -> obj_ok nb o ->
    nonneg (o_iv o) -> in_range (a_x A) (o_z o) -> mc <> 0%nat ->
    fit_object nnls rng F mc o cur = Ok (Three (vec c) cm mm, cur') ->
    reconstruct F (Some (scal (o_z o))) (Some (vec c)) 0 = Ok (vec p) ->
    forall i, (i < mc)%nat ->
      let k := length (filter (fun v => if Rlt_dec 0 v then true else false) (o_iv o)) in
      exists q, reconstruct F (Some (scal (o_z o))) (Some (vec (column nt mc i cm))) 0 = Ok (vec q) /\
        chi2 (o_iv o) p q <= fold_right Rplus 0 (map (fun j => rng (cur + i * k + j)%nat * rng (cur + i * k + j)%nat) (seq 0 k)).
Proof.
  intros nnls rng F A nb nt mc o cur c cm mm cur' p Hc Hs Hab H H1 Ho Hiv Hr Hmc E Ep i Hi k.
  destruct (L_C32_draws R _ nnls rng F A nb nt mc o cur _ cur' Hs Hab H H1 Ho Hmc E)
    as (c1 & cm1 & mm1 & E3 & EF & S1 & W1 & S2 & W2 & _ & HD).
  injection E3 as <- <- <-. cbv zeta in HD. pose proof Ho as [Hm Hv].
  destruct (L_C32_coeffs_mc _ _ nnls rng F A nb nt mc o cur _ cm mm cur' Hs Hab H H1 Ho Hmc (fun x => eq_refl) E i 0%nat Hi)
    as (ck & EK & Ecol).
  rewrite map_id in Ecol. rewrite Ecol.
  pose proof (fit_object_bare _ _ _ _ _ _ _ _ _ _ _ _ Hs H EK) as (_ & c2 & Ec & Hw & Hsh). injection Ec as <-.
  assert (Ev : ck = vec (dat ck)).
  { destruct ck as [s l]; cbn in *. subst s. unfold wf, size in Hw; cbn in Hw. unfold vec; cbn. f_equal. rewrite Hw. f_equal. lia. }
  rewrite Ev in EK.
  assert (Lcol : length (column nb mc i mm) = nb) by (unfold column; rewrite map_length, seq_length; auto).
  pose proof (fit_best F A nb nt H _ _ o _ _ _ Hc Hab H1 Ho Hiv Hr EF) as B1. pose proof B1 as (Lc & _).
  pose proof (fit_best F A nb nt H _ _ {| o_z := o_z o; o_m := column nb mc i mm; o_iv := o_iv o |} _ _ _ Hc Hab H1
    ltac:(split; auto) Hiv Hr EK) as B2. pose proof B2 as (Lk & _). cbn [o_z o_m o_iv] in *.
  rewrite (model_eq F A nb nt _ c H Lc Hr) in Ep. injection Ep as _ <-.
  eexists. split; [apply model_eq; eauto|].
  eapply Rle_trans; [apply (best_stable A nb nt (o_z o) (o_iv o) (o_m o) (column nb mc i mm)); auto|].
  rewrite (draws_chi2 (o_iv o) (o_m o) (column nb mc i mm) (fun j => rng (cur + i * k + j)%nat)); try congruence; auto.
  - unfold k. apply Rle_refl.
  - intros b Hb. unfold column. 
    erewrite (nth_indep _ _ (nth (0 * mc + i) (dat mm) 0)) by (rewrite map_length, seq_length; lia).
    rewrite (map_nth (fun b => nth (b * mc + i) (dat mm) 0)), seq_nth by lia. cbn [Nat.add].
    specialize (HD b i ltac:(lia) Hi). change (nth (b * mc + i) (dat mm) 0) with (nth (b * mc + i) (dat mm) n0). rewrite HD.
    assert (EM : map (fun v => nsqrt (cst v)) (o_iv o) = map sqrt (o_iv o)) by reflexivity. rewrite EM in *.
    assert (EK2 : length (filter (fun e => nltb n0 e) (map sqrt (o_iv o))) = k).
    { apply (good_count (o_iv o) Hiv). }
    rewrite EK2. rcbn. reflexivity.
Qed.
Lemma E_C81_monte_carlo : exists c cm mm p,
  fit_object nnls_exact (fun _ => 1 / 2) r_fitter 3 {| o_z := 1 / 2; o_m := [2; 6]; o_iv := [1; 4] |} 0 = Ok (Three (vec c) cm mm, 6%nat) /\
  reconstruct r_fitter (Some (scal (1 / 2))) (Some (vec c)) 0 = Ok (vec p).
Proof.
  assert (HR : in_range (a_x r_tab) (1 / 2)) by (unfold in_range; cbn; lra).
  destruct (exact_mc (fun _ => 1 / 2) r_fitter r_tab 2 1 3 {| o_z := 1 / 2; o_m := [2; 6]; o_iv := [1; 4] |} 0)
    as (c & cm & mm & Lc & E); auto; [left; reflexivity|apply r_ready|split; reflexivity|repeat constructor; lra|].
  exists c, cm, mm. eexists. split; [|apply (model_eq r_fitter r_tab 2 1); auto; apply r_ready].
  rewrite E. do 2 f_equal. cbn [o_iv filter].
  destruct (Rlt_dec 0 1); [|exfalso; lra]. destruct (Rlt_dec 0 4); [|exfalso; lra]. reflexivity.
Qed.
Lemma E_C28_monte_carlo : exists c cm mm,
  nnls_contract nnls_exact /\ nnls_shape nnls_exact /\ no_ab r_fitter /\ ready r_fitter r_tab 2 1 /\
  obj_ok 2 {| o_z := 1 / 2; o_m := [2; 6]; o_iv := [1; 4] |} /\ nonneg [1; 4] /\ in_range (a_x r_tab) (1 / 2) /\
  fit_object nnls_exact (fun _ => 1 / 2) r_fitter 3 {| o_z := 1 / 2; o_m := [2; 6]; o_iv := [1; 4] |} 0 = Ok (Three (vec c) cm mm, 6%nat).
Proof.
  destruct E_C81_monte_carlo as (c & cm & mm & p & E & _). exists c, cm, mm.
  split; [apply nnls_exact_contract|]. split; [apply nnls_exact_shape|]. split; [left; reflexivity|]. split; [apply r_ready|].
  split; [split; reflexivity|]. split; [repeat constructor; lra|]. split; [unfold in_range; cbn; lra|exact E].
Qed.
