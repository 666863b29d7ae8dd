(** Rounding errors of fits (C100): the perturbed least squares problem. *)
From Coq Require Import String List Arith Lia Bool ZArith QArith Qreals Reals Lra Sorting.Sorted.
From Verif Require Import Base BaseLemmas Num Toy Interp InterpReal Spec Utils Sed Response RespDict LinInterp ResponseEx
  Fitter FitSpec FitterProofs FitterMC FitReal FitTable FitEx FitRealEx FitterThms FitRealThms NnlsSpec NnlsExact NnlsEx NnlsThms
  ApproxSpec ApproxThms RoundSpec RoundProofs RoundThms FitRoundSpec.
Import ListNotations.
Local Open Scope R_scope.

Definition nrm (l : list R) : R := sqrt (sumsq l).
Lemma nrm_pos l : 0 <= nrm l. Proof. apply sqrt_pos. Qed.
Lemma sumsq_chi a : forall b, length b = length a -> chi2 (repeat 1 (length a)) a b = sumsq (vsub a b).
Proof.
  unfold chi2, sumsq, vsub. induction a as [|x a IH]; intros [|y b] L; try discriminate; auto.
  cbn [length repeat zip map fold_right]. rewrite IH by (cbn in L; lia). lra.
Qed.
Lemma ones_nonneg n : nonneg (repeat 1 n).
Proof. apply Forall_forall. intros x Hx. apply repeat_spec in Hx. lra. Qed.
Lemma nrm_tri a b c : length b = length a -> length c = length a ->
  nrm (vsub a c) <= nrm (vsub a b) + nrm (vsub b c).
Proof.
  intros L1 L2. unfold nrm. rewrite <- !sumsq_chi by congruence. rewrite L1.
  apply chi2_tri; rewrite ?repeat_length; auto using ones_nonneg.
Qed.
Lemma vsub_swap a : forall b, length b = length a -> sumsq (vsub a b) = sumsq (vsub b a).
Proof.
  unfold sumsq, vsub. induction a as [|x a IH]; intros [|y b] L; try discriminate; auto.
  cbn [zip map fold_right]. rewrite IH by (cbn in L; lia). lra.
Qed.
Lemma nrm_swap a b : length b = length a -> nrm (vsub a b) = nrm (vsub b a).
Proof. intros L. unfold nrm. rewrite vsub_swap; auto. Qed.
Lemma vsub_0 a n : (length a <= n)%nat -> vsub a (repeat 0 n) = a.
Proof.
  revert n. unfold vsub. induction a as [|x a IH]; intros [|n] H; cbn in *; auto; [lia|]. rewrite IH by lia. f_equal. lra.
Qed.
Lemma nrm_add a b : length b = length a -> nrm a <= nrm (vsub a b) + nrm b.
Proof.
  intros L. pose proof (nrm_tri a b (repeat 0 (length a)) L ltac:(apply repeat_length)) as H.
  rewrite !vsub_0 in H by lia. auto.
Qed.
(** An error that is relative entry by entry is relative in the norm. *)
Lemma nrm_mono k : 0 <= k -> forall d b, length d = length b -> (forall i, (i < length b)%nat -> Rabs (nth i d 0) <= k * Rabs (nth i b 0)) ->
  nrm d <= k * nrm b.
Proof.
  intros Hk d b L H. unfold nrm. rewrite <- (sqrt_square k) by auto. rewrite <- sqrt_mult; [|nra|apply sumsq_nonneg].
  apply sqrt_le_1_alt. revert b L H. unfold sumsq. induction d as [|x d IH]; intros [|y b] L H; try discriminate; cbn [map fold_right]; [lra|].
  specialize (IH b ltac:(cbn in L; lia) (fun i Hi => H (S i) ltac:(cbn; lia))).
  specialize (H 0%nat ltac:(cbn; lia)). cbn [nth] in H.
  assert (x * x <= k * k * (y * y)).
  { replace (x * x) with (Rabs x * Rabs x) by (rewrite <- Rabs_mult; apply Rabs_pos_eq; nra).
    replace (y * y) with (Rabs y * Rabs y) by (rewrite <- (Rabs_mult y y); apply Rabs_pos_eq; nra).
    pose proof (Rabs_pos x). pose proof (Rabs_pos y). 
    replace (k * k * (Rabs y * Rabs y)) with ((k * Rabs y) * (k * Rabs y)) by ring. apply Rmult_le_compat; auto. }
  lra.
Qed.
Lemma nth_vsub a : forall b i, length b = length a -> nth i (vsub a b) 0 = nth i a 0 - nth i b 0.
Proof.
  unfold vsub. induction a as [|x a IH]; intros [|y b] [|i] L; try discriminate; cbn; try lra. apply IH. cbn in L; lia.
Qed.
Lemma length_vsub a b : length b = length a -> length (vsub a b) = length a.
Proof. intros L. unfold vsub. rewrite length_zip, L. apply Nat.min_id. Qed.
Lemma nrm_rel k a b : 0 <= k -> length b = length a -> (forall i, (i < length b)%nat -> rel k (nth i a 0) (nth i b 0)) ->
  nrm (vsub a b) <= k * nrm b.
Proof.
  intros Hk L H. apply nrm_mono; auto; [rewrite length_vsub; auto|]. intros i Hi. rewrite nth_vsub by auto. apply H; auto.
Qed.

(** A product of a matrix of nonnegative numbers with nonnegative coefficients, both with relative errors. *)
Lemma dot_rel k : 0 <= k -> forall r r' x, length r' = length r -> length x = length r -> nonneg x ->
  (forall j, (j < length r)%nat -> 0 <= nth j r 0 /\ rel k (nth j r' 0) (nth j r 0)) ->
  0 <= dot r x /\ Rabs (dot r' x - dot r x) <= k * dot r x.
Proof.
  intros Hk. unfold dot. induction r as [|a r IH]; intros [|a' r'] [|c x] L1 L2 Hx H; try discriminate.
  - cbn. rewrite Rminus_0_r, Rabs_R0. lra.
  - inversion Hx as [|? ? Hc Hx']; subst. cbn [zip fold_right].
    destruct (IH r' x ltac:(cbn in *; lia) ltac:(cbn in *; lia) Hx' (fun j Hj => H (S j) ltac:(cbn; lia))) as (I1 & I2).
    destruct (H 0%nat ltac:(cbn; lia)) as (H0 & H1). cbn [nth] in H0, H1. unfold rel in H1. rewrite (Rabs_pos_eq a H0) in H1.
    split; [nra|].
    match goal with |- Rabs (?p + ?s - (?q + ?t)) <= _ => replace (p + s - (q + t)) with ((a' - a) * c + (s - t)) by ring end.
    eapply Rle_trans; [apply Rabs_triang|]. rewrite Rabs_mult, (Rabs_pos_eq c Hc).
    pose proof (Rmult_le_compat_r c _ _ Hc H1). lra.
Qed.
Definition near_matrix (k : R) (nt : nat) (W W' : list (list R)) : Prop :=
  rect nt W /\ rect nt W' /\ length W' = length W /\
  forall i j, (i < length W)%nat -> (j < nt)%nat ->
    0 <= nth j (nth i W []) 0 /\ rel k (nth j (nth i W' []) 0) (nth j (nth i W []) 0).
Lemma nth_mulmv W x i : (i < length W)%nat -> nth i (mulmv W x) 0 = dot (nth i W []) x.
Proof.
  intros H. unfold mulmv. rewrite (nth_indep _ 0 (dot [] x)) by (rewrite map_length; auto). apply (map_nth (fun r => dot r x)).
Qed.
Lemma rect_at nt (W : list (list R)) i : rect nt W -> (i < length W)%nat -> length (nth i W []) = nt.
Proof. intros H Hi. unfold rect in H. rewrite Forall_forall in H. apply H, nth_In; auto. Qed.
Lemma mulmv_rel k nt W W' x : 0 <= k -> near_matrix k nt W W' -> length x = nt -> nonneg x ->
  nrm (vsub (mulmv W' x) (mulmv W x)) <= k * nrm (mulmv W x).
Proof.
  intros Hk (HW & HW' & HL & H) Lx Nx. apply nrm_rel; auto; rewrite !mulmv_length; auto.
  intros i Hi. rewrite !nth_mulmv by congruence.
  destruct (dot_rel k Hk (nth i W []) (nth i W' []) x) as (P & Q); auto.
  - rewrite (rect_at nt), (rect_at nt W) by (auto; congruence). auto.
  - rewrite (rect_at nt) by auto. auto.
  - intros j Hj. rewrite (rect_at nt) in Hj by auto. apply H; auto.
  - unfold rel. rewrite (Rabs_pos_eq _ P). auto.
Qed.
Lemma dot_sym a b : dot a b = dot b a.
Proof. apply dot_comm. Qed.
Lemma stored_rel u nt W W' k c c' : 0 <= u -> near_matrix k nt W W' -> length c = nt -> nonneg c -> stored u c c' ->
  nrm (vsub (mulmv W c') (mulmv W c)) <= u * nrm (mulmv W c).
Proof.
  intros Hu (HW & HW' & HL & H) Lc Nc (Lc' & Hc). apply nrm_rel; auto; rewrite !mulmv_length; auto.
  intros i Hi. rewrite !nth_mulmv by auto. rewrite !(dot_sym (nth i W [])).
  destruct (dot_rel u Hu c c' (nth i W [])) as (P & Q); auto.
  - rewrite (rect_at nt); auto.
  - apply Forall_forall. intros x Hx. apply (In_nth _ _ 0) in Hx as (j & Hj & <-). rewrite (rect_at nt) in Hj by auto. apply H; auto.
  - intros j Hj. split; auto. unfold nonneg in Nc. rewrite Forall_forall in Nc. apply Nc, nth_In; auto.
  - unfold rel. rewrite (Rabs_pos_eq _ P). auto.
Qed.
Lemma mulmv_zero W n : mulmv W (repeat 0 n) = repeat 0 (length W).
Proof.
  unfold mulmv. induction W as [|r W IH]; auto. cbn [map length repeat]. rewrite IH. f_equal.
  unfold dot. clear. revert n. induction r as [|a r IH]; intros [|n]; cbn; auto. rewrite IH. lra.
Qed.
Lemma zeros_nonneg n : nonneg (repeat 0 n).
Proof. apply Forall_forall. intros x Hx. apply repeat_spec in Hx. lra. Qed.
Lemma sumsq_swap0 b : sumsq (vsub (repeat 0 (length b)) b) = sumsq b.
Proof. rewrite vsub_swap by (rewrite repeat_length; auto). rewrite vsub_0; auto. Qed.
Lemma sqrt_split x y : 0 <= x -> 0 <= y -> sqrt (x + y) <= sqrt x + sqrt y.
Proof.
  intros Hx Hy. pose proof (sqrt_pos x). pose proof (sqrt_pos y). rewrite <- (sqrt_square (sqrt x + sqrt y)) by lra.
  apply sqrt_le_1_alt. pose proof (sqrt_sqrt x Hx). pose proof (sqrt_sqrt y Hy). nra.
Qed.

(** The solution of the perturbed problem is nearly as good as any competitor in the exact problem. *)
Lemma perturbed eta u eps nt W W' b b' c c' y :
  0 <= u <= eta -> eta <= 1 / 10 -> 0 <= eps <= 1 / 100 ->
  near_matrix eta nt W W' -> length b = length W -> length b' = length b ->
  (forall i, (i < length b)%nat -> rel eta (nth i b' 0) (nth i b 0)) ->
  length c = nt -> nonneg c -> stored u c c' ->
  (forall x, length x = nt -> nonneg x -> sumsq (vsub (mulmv W' c) b') <= sumsq (vsub (mulmv W' x) b') + eps * sumsq b') ->
  length y = nt -> nonneg y ->
  nrm (vsub (mulmv W c') b) <= nrm (vsub (mulmv W y) b) + (10 * eta + 2 * sqrt eps) * nrm b.
Proof.
  intros Hu He Heps HM Lb Lb' Hb Lc Nc Hs Hopt Ly Ny. pose proof HM as (_ & _ & LW & _).
  assert (He0 : 0 <= eta) by lra.
  pose proof (mulmv_rel eta nt W W' c He0 HM Lc Nc) as A1. pose proof (mulmv_rel eta nt W W' y He0 HM Ly Ny) as A2.
  pose proof (stored_rel u nt W W' eta c c' ltac:(lra) HM Lc Nc Hs) as A3.
  assert (A4 : nrm (vsub b' b) <= eta * nrm b) by (apply nrm_rel; auto).
  set (p := mulmv W c) in *. set (p' := mulmv W' c) in *. set (q := mulmv W y) in *. set (q' := mulmv W' y) in *.
  set (ps := mulmv W c') in *.
  assert (Lp : length p = length b) by (unfold p; rewrite mulmv_length; auto).
  assert (Lp' : length p' = length b) by (unfold p'; rewrite mulmv_length; congruence).
  assert (Lq : length q = length b) by (unfold q; rewrite mulmv_length; auto).
  assert (Lq' : length q' = length b) by (unfold q'; rewrite mulmv_length; congruence).
  assert (Lps : length ps = length b) by (unfold ps; rewrite mulmv_length; auto).
  pose proof (sumsq_nonneg b') as Sb'.
  assert (O : forall v, 0 <= sumsq v -> sumsq (vsub p' b') <= sumsq v + eps * sumsq b' ->
            nrm (vsub p' b') <= nrm v + sqrt eps * nrm b').
  { intros v Hv H. unfold nrm. rewrite <- sqrt_mult by (auto; lra).
    eapply Rle_trans; [apply sqrt_le_1_alt, H|]. apply sqrt_split; auto. apply Rmult_le_pos; lra. }
  pose proof (O (vsub q' b') (sumsq_nonneg _) (Hopt y Ly Ny)) as B1.
  pose proof (Hopt (repeat 0 nt) (repeat_length _ _) (zeros_nonneg _)) as B2.
  rewrite mulmv_zero in B2. replace (length W') with (length b') in B2 by congruence. rewrite sumsq_swap0 in B2.
  pose proof (O b' Sb' B2) as B3. clear O B2.
  set (se := sqrt eps) in *.
  assert (Hse : 0 <= se <= 1 / 10).
  { split; [apply sqrt_pos|]. unfold se. rewrite <- (sqrt_square (1 / 10)) by lra. apply sqrt_le_1_alt. lra. }
  pose proof (nrm_pos b). pose proof (nrm_pos b'). pose proof (nrm_pos p). pose proof (nrm_pos q). pose proof (nrm_pos p').
  pose proof (nrm_add b' b ltac:(congruence)) as C1.
  pose proof (nrm_add p' b' ltac:(congruence)) as C2.
  pose proof (nrm_add p p' ltac:(congruence)) as C3. rewrite (nrm_swap p p') in C3 by congruence.
  pose proof (nrm_add q b ltac:(congruence)) as C4.
  pose proof (nrm_tri ps p b ltac:(congruence) ltac:(congruence)) as D1.
  pose proof (nrm_tri p p' b ltac:(congruence) ltac:(congruence)) as D2. rewrite (nrm_swap p p') in D2 by congruence.
  pose proof (nrm_tri p' b' b ltac:(congruence) ltac:(congruence)) as D3.
  pose proof (nrm_tri q' q b' ltac:(congruence) ltac:(congruence)) as D4.
  pose proof (nrm_tri q b b' ltac:(congruence) ltac:(congruence)) as D5. rewrite (nrm_swap b b') in D5 by congruence.
  set (B := nrm b) in *. set (B' := nrm b') in *. set (P := nrm p) in *. set (P' := nrm p') in *. set (Q := nrm q) in *.
  set (rq := nrm (vsub q b)) in *. set (rp := nrm (vsub p' b')) in *. 
  assert (HB' : B' <= 11 / 10 * B) by nra.
  assert (HseB : se * B' <= 11 / 10 * (se * B)) by nra.
  assert (HP' : P' <= 231 / 100 * B). { assert (se * B' <= 1 / 10 * B') by nra. lra. }
  assert (HP : P <= 257 / 100 * B) by nra.
  assert (HuP : u * P <= 257 / 100 * (eta * B)) by nra.
  assert (HeP : eta * P <= 257 / 100 * (eta * B)) by nra.
  assert (HeB : 0 <= eta * B) by nra. assert (HsB : 0 <= se * B) by nra.
  destruct (Rle_lt_dec rq B) as [Hq|Hq].
  - assert (HeQ : eta * Q <= 2 * (eta * B)) by nra. lra.
  - assert (B' <= B + eta * B) by lra. lra.
Qed.
