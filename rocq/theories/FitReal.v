(** Lemmas about the fitter over the reals. *)
From Coq Require Import String List Arith Bool Lia ZArith QArith Qreals Reals Lra Sorting.Sorted.
From Verif Require Import Base BaseLemmas Num Interp InterpReal Utils Sed Response RespDict Fitter FitSpec FitterProofs
  FitterMC.
Import ListNotations.
Local Open Scope R_scope.

Lemma nsum_R (l : list R) : nsum l = fold_right Rplus 0 l.
Proof. induction l as [|x l IH]; [reflexivity|]. rewrite nsum_cons, IH. reflexivity. Qed.
Lemma dotp_dot (a c : list R) : dotp a c = dot a c.
Proof. unfold dotp, dot. apply nsum_R. Qed.

Lemma dot_scale x r : forall c, dot (map (Rmult x) r) c = x * dot r c.
Proof.
  unfold dot. induction r as [|a r IH]; intros [|b c]; cbn [map zip fold_right]; try lra. rewrite IH. lra.
Qed.
Lemma dot_lin a b r : forall c1 c2, length c1 = length c2 ->
  dot r (lincomb a b c1 c2) = a * dot r c1 + b * dot r c2.
Proof.
  unfold dot, lincomb. induction r as [|x r IH]; intros [|y c1] [|z c2] H; try discriminate; cbn [zip fold_right]; try lra.
  rewrite IH by (cbn in H; lia). lra.
Qed.
Lemma dot_zero r n : dot r (repeat 0 n) = 0.
Proof.
  unfold dot. revert n; induction r as [|x r IH]; intros [|n]; cbn [repeat zip fold_right]; auto. rewrite IH. lra.
Qed.
Lemma dot_nonneg r : nonneg r -> forall c, nonneg c -> 0 <= dot r c.
Proof.
  unfold dot. induction 1 as [|x r Hx Hr IH]; intros c Hc; [cbn; lra|]. destruct Hc as [|y c Hy Hc]; [cbn; lra|].
  cbn [zip fold_right]. specialize (IH c Hc). pose proof (Rmult_le_pos _ _ Hx Hy). lra.
Qed.

(** The objective of the solver is chi^2. *)
Lemma sumsq_chi2 : forall iv M m c, nonneg iv -> length M = length iv -> length m = length iv ->
  sumsq (vsub (mulmv (zip (fun x r => map (Rmult x) r) (map sqrt iv) M) c) (zip Rmult m (map sqrt iv))) =
  chi2 iv m (mulmv M c).
Proof.
  unfold sumsq, vsub, mulmv, chi2. induction iv as [|w iv IH]; intros [|r M] [|x m] c Hn HM Hm; try discriminate; auto.
  inversion Hn as [|w' iv' Hw Hiv]; subst. cbn [map zip fold_right vsub]. rewrite dot_scale. unfold vsub. cbn [zip].
  rewrite <- IH by (cbn in *; auto). f_equal. rewrite <- (sqrt_sqrt w) at 5 by auto. ring.
Qed.

Lemma chi2_self iv m : chi2 iv m m = 0.
Proof.
  unfold chi2, vsub. revert m; induction iv as [|w iv IH]; intros [|x m]; cbn [zip fold_right]; auto. rewrite IH. ring.
Qed.
Lemma chi2_nonneg : forall iv m p, nonneg iv -> 0 <= chi2 iv m p.
Proof.
  unfold chi2, vsub. induction iv as [|w iv IH]; intros [|x m] [|y p] H; cbn [zip fold_right]; try lra.
  inversion H; subst. specialize (IH m p ltac:(auto)). pose proof (Rle_0_sqr (x - y)). unfold Rsqr in *.
  pose proof (Rmult_le_pos w _ ltac:(eauto) H0). lra.
Qed.
Lemma chi2_zero : forall iv m p, Forall (Rlt 0) iv -> length m = length iv -> length p = length iv ->
  chi2 iv m p <= 0 -> p = m.
Proof.
  induction iv as [|w iv IH]; intros [|x m] [|y p] H Hm Hp Hc; try discriminate; auto.
  inversion H as [|? ? Hw Hi]; subst.
  assert (Hn : nonneg iv) by (eapply Forall_impl; [|apply Hi]; intros; lra).
  pose proof (chi2_nonneg iv m p Hn) as H1. unfold chi2, vsub in *. cbn [zip fold_right] in Hc.
  pose proof (Rle_0_sqr (x - y)) as H2. unfold Rsqr in H2. pose proof (Rmult_le_pos w _ (Rlt_le _ _ Hw) H2) as H3.
  assert (Hz : w * ((x - y) * (x - y)) = 0) by lra.
  apply Rmult_integral in Hz as [Hz|Hz]; [lra|]. assert (x - y = 0) by (apply Rmult_integral in Hz; tauto).
  f_equal; [lra|]. apply IH; cbn in *; auto. unfold chi2, vsub. lra.
Qed.

Lemma out_of_range (x : list R) z : out_of x z = false <-> in_range x z.
Proof. unfold out_of, in_range. rcbn. rewrite orb_false_iff, !Rltb_niff. tauto. Qed.

Lemma shifted_0 z : shifted 0 z = z.
Proof. unfold shifted. rcbn. lra. Qed.

Lemma recon1_0 (A : atab R) nb nt z c : recon1 A nb nt 0 z c = mulmv (chunks nb nt (arow A z)) c.
Proof.
  unfold recon1, mulmv. rewrite shifted_0. apply map_ext. intro a. rewrite dotp_dot. rcbn. field.
Qed.
Lemma recon1_shift (A : atab R) nb nt s z c :
  recon1 A nb nt s z c = map (fun x => x / (1 + s)) (mulmv (chunks nb nt (arow A (shifted s z))) c).
Proof. unfold recon1, mulmv. rewrite map_map. apply map_ext. intro a. rewrite dotp_dot. reflexivity. Qed.

Lemma chunks_length_all A nb nt (t : R) : tab_ok A nb nt -> rect nt (chunks nb nt (arow A t)).
Proof. intro H. apply rect_chunks. apply arow_len; auto. Qed.

(** reconstruct of one object, band_shift 0, over the reals. *)
Lemma model_eq (F : fitter R) A nb nt z c : ready F A nb nt -> length c = nt -> in_range (a_x A) z ->
  reconstruct F (Some (scal z)) (Some (vec c)) 0 = Ok (vec (mulmv (chunks nb nt (arow A z)) c)).
Proof.
  intros (HA & Hb & Hn & Ht) Hc Hr. unfold reconstruct. rewrite HA, (reconstruct_scal F z c 0 Hn Ht Hc).
  rcbn. rewrite shifted_0. apply out_of_range in Hr. rewrite Hr, map_id, recon1_0.
  unfold vec. do 2 f_equal. unfold mulmv. rewrite map_length, length_chunks. auto.
Qed.

(** What fit_coeffs computes for one object, over the reals. *)
Lemma fit_eq nnls rng (F : fitter R) A nb nt o cur : no_ab F -> ready F A nb nt -> nb <> 1%nat -> obj_ok nb o ->
  in_range (a_x A) (o_z o) ->
  let W := zip (fun x r => map (Rmult x) r) (map sqrt (o_iv o)) (chunks nb nt (arow A (o_z o))) in
  let b := zip Rmult (o_m o) (map sqrt (o_iv o)) in
  rect nt W /\ length W = nb /\ length b = nb /\
  fit_object nnls rng F 0 o cur =
  match nnls None nt W b with
  | Some x => Ok (Bare (vec x), cur)
  | None => match nnls (Some (nt * 100)%nat) nt W b with
            | Some x => Ok (Bare (vec x), cur)
            | None => Raise RuntimeError
            end
  end.
Proof.
  intros Hab H H1 Ho Hr W b. pose proof H as (HA & Hb & Hn & Ht). pose proof Ho as [Hm Hi].
  assert (HW : rect nt W).
  { unfold W, rect. apply Forall_forall. intros r Hin. apply In_nth_error in Hin as [k Hk].
    rewrite nth_error_zip in Hk. destruct (nth_error (map sqrt (o_iv o)) k); [|discriminate].
    destruct (nth_error (chunks nb nt (arow A (o_z o))) k) as [q|] eqn:E; [|discriminate]. injection Hk as <-.
    rewrite map_length. pose proof (chunks_length_all A nb nt (o_z o) Ht) as HR. unfold rect in HR.
    rewrite Forall_forall in HR. apply HR. eapply nth_error_In; eauto. }
  assert (LW : length W = nb). { unfold W. rewrite length_zip, map_length, length_chunks. lia. }
  assert (Lb : length b = nb). { unfold b. rewrite length_zip, map_length. lia. }
  repeat split; auto.
  rewrite (single_eq nnls rng 0 cur Hab H H1 Ho). unfold fit1_spec.
  rcbn. apply out_of_range in Hr. rewrite Hr. rewrite !map_id.
  unfold nnls_retry, nnls_call, catch. unfold wmat; cbn [dat shp]. change (lastd [nb; nt]) with nt.
  assert (Hf : forall l : list R, forallb nfin l = true) by (induction l; cbn; auto).
  rewrite !Hf. cbn [ndim shp length Nat.eqb hd].
  assert (EL : lrows (mk [nb; nt] (concat W)) = W).
  { transitivity (lrows (table nt W)); [|apply lrows_table; auto]. unfold table. rewrite LW. auto. }
  rcbn. fold W b. rewrite EL. rewrite Nat.eqb_refl.
  destruct (nnls None nt W b); cbn [bind Nat.eqb exn_eqb]; auto.
  destruct (nnls (Some (nt * 100)%nat) nt W b); cbn [bind]; auto.
Qed.

(** * Linear interpolation *)
Lemma grid_nth x : grid_ok x -> forall i j, (i < j < length x)%nat -> nth i x 0 < nth j x 0.
Proof.
  induction 1 as [|a l Hl IH Hf]; intros i j [Hij Hj]; [cbn in Hj; lia|]. destruct j as [|j]; [lia|].
  cbn [length] in Hj. destruct i as [|i]; cbn [nth].
  - rewrite Forall_forall in Hf. apply Hf. apply nth_In. lia.
  - apply IH. lia.
Qed.

Lemma search_spec x : grid_ok x -> forall k t, (S k < length x)%nat -> nth k x 0 < t <= nth (S k) x 0 ->
  search x t = S k.
Proof.
  induction 1 as [|a l Hl IH Hf]; intros k t Hk Ht; [cbn in Hk; lia|]. cbn [search length] in *. rcbn.
  destruct k as [|k].
  - cbn [nth] in Ht. rewrite Rltb_true by lra. f_equal. destruct l as [|b l]; [cbn in Hk; lia|].
    cbn [search nth] in *. rcbn. rewrite Rltb_false by lra. auto.
  - assert (a < nth (S k) (a :: l) 0). { cbn [nth]. rewrite Forall_forall in Hf. apply Hf, nth_In. cbn in Hk. lia. }
    rewrite Rltb_true by lra. f_equal. apply IH; [lia|]. cbn [nth] in *. auto.
Qed.
Lemma search_first x t : (0 < length x)%nat -> t <= nth 0 x 0 -> search x t = 0%nat.
Proof. destruct x as [|a l]; cbn; [lia|]. intros _ H. rcbn. rewrite Rltb_false; auto. Qed.

Lemma arow_between (A : atab R) nb nt k t : tab_ok A nb nt -> grid_ok (a_x A) -> (S k < length (a_x A))%nat ->
  nth k (a_x A) 0 <= t <= nth (S k) (a_x A) 0 ->
  let w := (t - nth k (a_x A) 0) / (nth (S k) (a_x A) 0 - nth k (a_x A) 0) in
  arow A t = zip (fun u v => (1 - w) * u + w * v) (nth k (a_rows A) []) (nth (S k) (a_rows A) []).
Proof.
  intros (_ & Hl & H2 & Hr) Hg Hk Ht w.
  assert (Hlt := grid_nth _ Hg k (S k) ltac:(lia)).
  assert (HL : forall i, (i < length (a_x A))%nat -> length (nth i (a_rows A) []) = (nb * nt)%nat).
  { intros i Hi. eapply rect_nth; eauto. lia. }
  unfold arow. destruct (Rle_lt_dec t (nth k (a_x A) 0)) as [Hle|Hgt].
  - (* t = x_k *)
    assert (t = nth k (a_x A) 0) as Et by lra.
    assert (Ew : w = 0) by (unfold w; rewrite Et; unfold Rdiv; ring). rewrite Ew.
    destruct k as [|k].
    + rewrite search_first by (auto; lia). replace (Nat.min (Nat.max 1 0) (length (a_x A) - 1)) with 1%nat by lia.
      cbn [Nat.sub]. rcbn. apply zip_ext. intros a b _ _. rewrite Et. field. lra.
    + assert (Hlt' := grid_nth _ Hg k (S k) ltac:(lia)).
      rewrite (search_spec _ Hg k) by (try lia; lra).
      replace (Nat.min (Nat.max 1 (S k)) (length (a_x A) - 1)) with (S k) by lia.
      replace (S k - 1)%nat with k by lia. rcbn.
      pose proof (HL k ltac:(lia)) as L0. pose proof (HL (S k) ltac:(lia)) as L1. pose proof (HL (S (S k)) ltac:(lia)) as L2.
      revert L0 L1 L2. generalize (nth k (a_rows A) []) (nth (S k) (a_rows A) []) (nth (S (S k)) (a_rows A) []).
      generalize (nb * nt)%nat. intros m l0 l1 l2. revert m l1 l2.
      induction l0 as [|a l0 IH]; intros m [|b l1] [|c l2] L0 L1 L2; cbn in L0, L1, L2; subst; try discriminate; auto.
      cbn [zip]. f_equal; [|eapply IH; eauto; cbn in *; lia]. field. lra.
  - rewrite (search_spec _ Hg k) by (try lia; lra).
    replace (Nat.min (Nat.max 1 (S k)) (length (a_x A) - 1)) with (S k) by lia.
    replace (S k - 1)%nat with k by lia. rcbn. apply zip_ext. intros a b _ _. unfold w. field. lra.
Qed.

Lemma weight_01 a b t : a < b -> a <= t <= b -> 0 <= (t - a) / (b - a) <= 1.
Proof.
  intros H Ht. assert (0 < b - a) by lra. split.
  - apply Rmult_le_pos; [lra|]. apply Rlt_le, Rinv_0_lt_compat; lra.
  - apply Rmult_le_reg_r with (b - a); [lra|]. unfold Rdiv. rewrite Rmult_assoc, Rinv_l by lra. lra.
Qed.

(** A redshift in range lies in some interval of the grid. *)
Lemma bracket x : grid_ok x -> (2 <= length x)%nat -> forall t, in_range x t ->
  exists k, (S k < length x)%nat /\ nth k x 0 <= t <= nth (S k) x 0.
Proof.
  unfold in_range. induction 1 as [|a l Hl IH Hf]; intros H2 t [H0 H1]; [cbn in H2; lia|].
  destruct l as [|b l]; [cbn in H2; lia|]. destruct (Rle_lt_dec t b) as [Hb|Hb].
  - exists 0%nat. cbn in *. split; [lia|lra].
  - destruct l as [|c l].
    { cbn in *. lra. }
    destruct (IH ltac:(cbn; lia) t) as (k & Hk & Hkt).
    { split; [cbn; lra|]. exact H1. }
    exists (S k). cbn [length nth] in *. split; [lia|auto].
Qed.

Lemma arow_nonneg (A : atab R) nb nt t : tab_ok A nb nt -> grid_ok (a_x A) -> Forall nonneg (a_rows A) ->
  in_range (a_x A) t -> nonneg (arow A t).
Proof.
  intros Ht Hg Hn Hr. pose proof Ht as (_ & Hl & H2 & _).
  destruct (bracket _ Hg H2 t Hr) as (k & Hk & Hkt).
  rewrite (arow_between A nb nt k t Ht Hg Hk Hkt).
  pose proof (weight_01 _ _ _ (grid_nth _ Hg k (S k) ltac:(lia)) Hkt) as Hw.
  set (w := (t - _) / _) in *.
  assert (N0 : nonneg (nth k (a_rows A) [])) by (rewrite Forall_forall in Hn; apply Hn, nth_In; lia).
  assert (N1 : nonneg (nth (S k) (a_rows A) [])) by (rewrite Forall_forall in Hn; apply Hn, nth_In; lia).
  revert N0 N1. generalize (nth k (a_rows A) []) (nth (S k) (a_rows A) []). clear - Hw.
  intros l1 l2 H1. revert l2. induction H1 as [|a l1 Ha H1 IH]; intros l2 H2; [constructor|].
  destruct H2 as [|b l2 Hb H2]; [constructor|]. cbn [zip]. constructor; [|apply IH; auto].
  pose proof (Rmult_le_pos (1 - w) a ltac:(lra) Ha). pose proof (Rmult_le_pos w b ltac:(lra) Hb). lra.
Qed.

Lemma nonneg_chunks n w l : nonneg l -> Forall nonneg (chunks n w l).
Proof.
  revert l; induction n as [|n IH]; intros l H; cbn [chunks]; constructor.
  - unfold nonneg in *. rewrite <- (firstn_skipn w l), Forall_app in H. tauto.
  - apply IH. unfold nonneg in *. rewrite <- (firstn_skipn w l), Forall_app in H. tauto.
Qed.

(** * The redshift grid *)
Lemma nnat_R k : @nnat R Num_R k = INR k.
Proof. unfold nnat. rcbn. unfold Q2R; cbn. rewrite INR_IZR_INZ. field. Qed.
Lemma grid_eq r0 r1 n k : (2 <= n)%nat -> (k < n)%nat ->
  nth k (redshift_grid r0 r1 n) 0 = r0 + (r1 - r0) * INR k / INR (n - 1).
Proof.
  intros Hn Hk. unfold redshift_grid.
  erewrite nth_indep with (d' := _); [|rewrite map_length, seq_length; auto].
  rewrite map_nth with (d := 0%nat). rewrite seq_nth by auto. cbn [Nat.add]. rewrite nnat_R. rcbn.
  assert (E : Q2R (Z.of_nat n - 1 # 1) = INR (n - 1)).
  { unfold Q2R; cbn. rewrite INR_IZR_INZ, Nat2Z.inj_sub by lia. cbn. field. }
  rewrite E. auto.
Qed.
Lemma grid_length r0 r1 n : length (@redshift_grid R Num_R r0 r1 n) = n.
Proof. unfold redshift_grid. rewrite map_length, seq_length. auto. Qed.

Lemma sorted_nth (x : list R) : (forall i j, (i < j < length x)%nat -> nth i x 0 < nth j x 0) -> grid_ok x.
Proof.
  induction x as [|a l IH]; intro H; constructor.
  - apply IH. intros i j Hij. apply (H (S i) (S j)). cbn; lia.
  - apply Forall_forall. intros b Hb. apply In_nth with (d := 0) in Hb as (k & Hk & <-).
    apply (H 0%nat (S k)). cbn; lia.
Qed.
Lemma grid_sorted r0 r1 n : (2 <= n)%nat -> r0 < r1 -> grid_ok (redshift_grid r0 r1 n).
Proof.
  intros Hn Hr. apply sorted_nth. intros i j [Hij Hj]. rewrite grid_length in Hj.
  rewrite !grid_eq by lia. apply Rplus_lt_compat_l. unfold Rdiv.
  apply Rmult_lt_compat_r; [apply Rinv_0_lt_compat; apply lt_0_INR; lia|].
  apply Rmult_lt_compat_l; [lra|]. apply lt_INR; auto.
Qed.
