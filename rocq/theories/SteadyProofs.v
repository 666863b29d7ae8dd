(** Proofs about the change of fluxes with redshift. *)
From Coq Require Import String List Arith Lia Bool ZArith QArith Qreals Reals Lra Sorting.Sorted.
From Verif Require Import Base BaseLemmas Num Interp InterpReal Spec Fitter FitSpec FitterProofs FitReal FitTable FitRealThms RoundSpec RoundProofs RoundThms SteadySpec.
Import ListNotations.
Local Open Scope R_scope.

Definition close (L t1 v1 t2 v2 : R) : Prop := v1 <= v2 * exp (L * Rabs (t1 - t2)) /\ v2 <= v1 * exp (L * Rabs (t1 - t2)).
Lemma close_sym L t1 v1 t2 v2 : close L t1 v1 t2 v2 -> close L t2 v2 t1 v1.
Proof. unfold close. rewrite (Rabs_minus_sym t2). tauto. Qed.
Lemma close_trans L t1 v1 t2 v2 t3 v3 : t1 <= t2 <= t3 -> close L t1 v1 t2 v2 -> close L t2 v2 t3 v3 -> close L t1 v1 t3 v3.
Proof.
  intros [H H'] [A1 A2] [B1 B2]. assert (E : Rabs (t1 - t3) = Rabs (t1 - t2) + Rabs (t2 - t3)).
  { rewrite !Rabs_left1 by lra. ring. }
  unfold close. rewrite E, Rmult_plus_distr_l, exp_plus. pose proof (exp_pos (L * Rabs (t1 - t2))). pose proof (exp_pos (L * Rabs (t2 - t3))).
  split; nra.
Qed.
Lemma exp_ge x : 1 + x <= exp x.
Proof. destruct (Req_dec x 0) as [->|H]; [rewrite exp_0; lra|]. left. apply exp_ineq1; auto. Qed.

Section Table.
  Variables (L : R) (A : atab R) (nb nt : nat) (i : nat).
  Hypothesis HL : 0 <= L.
  Hypothesis Ht : tab_ok A nb nt.
  Hypothesis Hg : grid_ok (a_x A).
  Hypothesis Hs : steady L A nb nt.
  Hypothesis Hi : (i < nb * nt)%nat.
  Let x k := nth k (a_x A) 0.
  Let y k := nth i (nth k (a_rows A) []) 0.

  Lemma cell_value k t : (S k < length (a_x A))%nat -> x k <= t <= x (S k) ->
    exists w, 0 <= w <= 1 /\ t = (1 - w) * x k + w * x (S k) /\ nth i (arow A t) 0 = (1 - w) * y k + w * y (S k).
  Proof.
    intros Hk Hkt. pose proof (arow_between A nb nt k t Ht Hg Hk Hkt) as E. cbn zeta in E.
    pose proof (grid_nth _ Hg k (S k) ltac:(lia)) as Hlt. fold (x k) (x (S k)) in *.
    exists ((t - x k) / (x (S k) - x k)). split; [apply weight_01; auto|]. split; [field; lra|].
    rewrite E. destruct Ht as (_ & Hl & _ & Hr). assert (LR : forall m, (m < length (a_x A))%nat -> length (nth m (a_rows A) []) = (nb * nt)%nat).
    { intros m Hm. eapply rect_nth; eauto. lia. }
    apply nth_zip2; rewrite ?LR by lia; auto.
  Qed.
  Lemma cell_close k t1 t2 : (S k < length (a_x A))%nat -> x k <= t1 <= x (S k) -> x k <= t2 <= x (S k) ->
    0 < nth i (arow A t1) 0 /\ close L t1 (nth i (arow A t1) 0) t2 (nth i (arow A t2) 0).
  Proof.
    intros Hk H1 H2. destruct (cell_value k t1 Hk H1) as (w1 & W1 & T1 & ->). destruct (cell_value k t2 Hk H2) as (w2 & W2 & T2 & ->).
    destruct (Hs k i Hk Hi) as (P & P' & B). fold (y k) (y (S k)) (x k) (x (S k)) in *.
    pose proof (grid_nth _ Hg k (S k) ltac:(lia)) as Hlt. fold (x k) (x (S k)) in Hlt.
    assert (M : forall w, 0 <= w <= 1 -> Rmin (y k) (y (S k)) <= (1 - w) * y k + w * y (S k)).
    { intros w Hw. pose proof (Rmin_l (y k) (y (S k))). pose proof (Rmin_r (y k) (y (S k))). nra. }
    assert (Pm : 0 < Rmin (y k) (y (S k))) by (apply Rmin_pos; auto).
    assert (D : Rabs (((1 - w1) * y k + w1 * y (S k)) - ((1 - w2) * y k + w2 * y (S k))) <= L * Rabs (t1 - t2) * Rmin (y k) (y (S k))).
    { replace (_ - _) with ((w1 - w2) * (y (S k) - y k)) by ring. rewrite Rabs_mult.
      replace (t1 - t2) with ((w1 - w2) * (x (S k) - x k)) by (rewrite T1, T2; ring). rewrite Rabs_mult, (Rabs_right (x (S k) - x k)) by lra.
      pose proof (Rabs_pos (w1 - w2)). nra. }
    pose proof (M w1 W1) as M1. pose proof (M w2 W2) as M2. split; [lra|].
    assert (D1 := Rle_trans _ _ _ (Rle_abs _) D). rewrite Rabs_minus_sym in D. assert (D2 := Rle_trans _ _ _ (Rle_abs _) D). pose proof (exp_ge (L * Rabs (t1 - t2))) as E. pose proof (Rabs_pos (t1 - t2)) as Q.
    assert (0 <= L * Rabs (t1 - t2)) by (apply Rmult_le_pos; auto). unfold close. split; nra.
  Qed.
  Lemma node_value k : (k < length (a_x A))%nat -> (2 <= length (a_x A))%nat -> nth i (arow A (x k)) 0 = y k.
  Proof.
    intros Hk H2. destruct (Nat.eq_dec k (length (a_x A) - 1)) as [E|E].
    - destruct k as [|k]; [lia|]. pose proof (grid_nth _ Hg k (S k) ltac:(lia)) as Hlt. fold (x k) (x (S k)) in Hlt.
      destruct (cell_value k (x (S k)) ltac:(lia) ltac:(lra)) as (w & W & T & ->). assert (w = 1) by nra. subst w. ring.
    - pose proof (grid_nth _ Hg k (S k) ltac:(lia)) as Hlt. fold (x k) (x (S k)) in Hlt.
      destruct (cell_value k (x k) ltac:(lia) ltac:(lra)) as (w & W & T & ->). assert (w = 0) by nra. subst w. ring.
  Qed.
  Lemma nodes_close m : forall k, (k + m < length (a_x A))%nat ->
    close L (x k) (nth i (arow A (x k)) 0) (x (k + m)) (nth i (arow A (x (k + m))) 0).
  Proof.
    induction m as [|m IH]; intros k Hk.
    - rewrite Nat.add_0_r. unfold close. rewrite Rminus_diag_eq, Rabs_R0, Rmult_0_r, exp_0 by auto. lra.
    - assert (x k < x (S k)) by (apply grid_nth; auto; lia).
      assert (x (S k) <= x (k + S m)).
      { destruct m; [rewrite Nat.add_1_r; lra|]. left. apply grid_nth; auto; lia. }
      apply (close_trans L (x k) _ (x (S k)) (nth i (arow A (x (S k))) 0)); [lra| |].
      + apply (cell_close k); [lia| |]; lra.
      + replace (k + S m)%nat with (S k + m)%nat by lia. apply IH. lia.
  Qed.
  Lemma entry_close t1 t2 : in_range (a_x A) t1 -> in_range (a_x A) t2 ->
    0 < nth i (arow A t1) 0 /\ close L t1 (nth i (arow A t1) 0) t2 (nth i (arow A t2) 0).
  Proof.
    assert (H2 : (2 <= length (a_x A))%nat) by apply Ht.
    intros I1 I2. destruct (bracket _ Hg H2 t1 I1) as (k1 & K1 & B1). destruct (bracket _ Hg H2 t2 I2) as (k2 & K2 & B2).
    fold (x k1) (x (S k1)) in B1. fold (x k2) (x (S k2)) in B2. split; [apply (cell_close k1 t1 t1); auto|].
    assert (W : forall a b ka kb, (S ka < length (a_x A))%nat -> (S kb < length (a_x A))%nat -> x ka <= a <= x (S ka) -> x kb <= b <= x (S kb) -> (ka < kb)%nat ->
      close L a (nth i (arow A a) 0) b (nth i (arow A b) 0)).
    { intros a b ka kb Ka Kb Ba Bb Hlt. assert (x (S ka) <= x kb).
      { destruct (Nat.eq_dec (S ka) kb) as [->|]; [lra|]. left. apply grid_nth; auto; lia. }
      apply (close_trans L a _ (x kb) (nth i (arow A (x kb)) 0)); [lra| |].
      - apply (close_trans L a _ (x (S ka)) (nth i (arow A (x (S ka))) 0)); [lra|apply (cell_close ka); auto; lra|].
        replace kb with (S ka + (kb - S ka))%nat by lia. apply nodes_close. lia.
      - apply (cell_close kb); auto; lra. }
    destruct (lt_eq_lt_dec k1 k2) as [[H|H]|H].
    - eapply W with (ka := k1) (kb := k2); eauto.
    - subst k2. apply (cell_close k1); auto.
    - apply close_sym. eapply W with (ka := k2) (kb := k1); eauto.
  Qed.
End Table.

Lemma dot_close e : 0 < e -> forall c y1 y2, nonneg c -> length y1 = length c -> length y2 = length c ->
  (forall j, (j < length c)%nat -> nth j y1 0 <= nth j y2 0 * e) -> dot y1 c <= dot y2 c * e.
Proof.
  intro He. induction c as [|a c IH]; intros [|u y1] [|v y2] Hc L1 L2 H; try discriminate; unfold dot in *; cbn [zip fold_right]; [lra|].
  inversion Hc as [|? ? Ha Hc']; subst. pose proof (H 0%nat ltac:(cbn; lia)) as H0. cbn in H0.
  specialize (IH y1 y2 Hc' ltac:(cbn in L1; lia) ltac:(cbn in L2; lia) (fun j Hj => H (S j) ltac:(cbn; lia))). nra.
Qed.

Lemma nth_chunk {T} (d : T) n w : forall l b j, (b < n)%nat -> (j < w)%nat -> nth j (nth b (chunks n w l) []) d = nth (b * w + j) l d.
Proof.
  induction n as [|n IH]; intros l b j Hb Hj; [lia|]. destruct b as [|b]; cbn [chunks nth].
  - cbn [Nat.mul Nat.add]. revert l j Hj. clear. induction w as [|w IH]; intros l j Hj; [lia|]. destruct l as [|a l]; cbn [firstn nth]; [destruct j; auto|].
    destruct j; auto. apply IH. lia.
  - rewrite IH by lia. clear. replace (S b * w + j)%nat with (w + (b * w + j))%nat by lia. generalize (b * w + j)%nat as m. revert l.
    induction w as [|w IH]; intros l m; cbn [skipn Nat.add]; auto. destruct l as [|a l]; cbn [nth]; [destruct m; auto|]. apply IH.
Qed.

Lemma ln_mono x y : 0 < x -> x <= y -> ln x <= ln y.
Proof. intros H [H'| ->]; [left; apply ln_increasing; auto|lra]. Qed.
Lemma ratio_ln L d a b : 0 < a -> 0 < b -> a <= b * exp (L * d) -> b <= a * exp (L * d) -> Rabs (ln (a / b)) <= L * d.
Proof.
  intros Pa Pb H1 H2. apply Rabs_le. split.
  - replace (a / b) with (/ (b / a)) by (field; lra). rewrite ln_Rinv by (apply Rdiv_lt_0_compat; auto). apply Ropp_le_contravar.
    rewrite <- (ln_exp (L * d)). apply ln_mono; [apply Rdiv_lt_0_compat; auto|]. apply Rmult_le_reg_r with a; auto. replace (b / a * a) with b by (field; lra). lra.
  - rewrite <- (ln_exp (L * d)). apply ln_mono; [apply Rdiv_lt_0_compat; auto|]. apply Rmult_le_reg_r with b; auto. replace (a / b * b) with a by (field; lra). lra.
Qed.

Lemma steady_flux L (A : atab R) nb nt c t1 t2 b : tab_ok A nb nt -> grid_ok (a_x A) -> 0 <= L -> steady L A nb nt -> length c = nt ->
  nonneg c -> 0 < fold_right Rplus 0 c -> in_range (a_x A) t1 -> in_range (a_x A) t2 -> (b < nb)%nat ->
  let f t := nth b (mulmv (chunks nb nt (arow A t)) c) 0 in
  0 < f t1 /\ 0 < f t2 /\ Rabs (ln (f t1 / f t2)) <= L * Rabs (t1 - t2).
Proof.
  intros Ht Hg HL Hs Lc Hc Hp I1 I2 Hb f.
  assert (Ef : forall t, f t = dot (nth b (chunks nb nt (arow A t)) []) c).
  { intro t. unfold f, mulmv. rewrite (nth_indep _ 0 (dot [] c)) by (rewrite map_length, length_chunks; auto). apply (map_nth (fun r => dot r c)). }
  assert (Lr : forall t, length (nth b (chunks nb nt (arow A t)) []) = nt).
  { intro t. pose proof (chunks_length_all A nb nt t Ht) as HR. eapply rect_nth; eauto. rewrite length_chunks. auto. }
  assert (EN : forall t j, (j < nt)%nat -> nth j (nth b (chunks nb nt (arow A t)) []) 0 = nth (b * nt + j) (arow A t) 0) by (intros; apply nth_chunk; auto).
  assert (Hij : forall j, (j < nt)%nat -> (b * nt + j < nb * nt)%nat) by (intros; nia).
  assert (Pos : forall t, in_range (a_x A) t -> 0 < f t).
  { intros t It. rewrite Ef. apply dot_pos; auto; [rewrite Lr; auto|]. intros j Hj. rewrite Lc in Hj. rewrite EN by auto.
    apply (entry_close L A nb nt (b * nt + j) HL Ht Hg Hs (Hij j Hj) t t); auto. }
  assert (Cl : f t1 <= f t2 * exp (L * Rabs (t1 - t2)) /\ f t2 <= f t1 * exp (L * Rabs (t1 - t2))).
  { rewrite !Ef. split; apply dot_close; auto using exp_pos; try (rewrite Lr; auto); intros j Hj; rewrite Lc in Hj; rewrite !EN by auto;
      destruct (entry_close L A nb nt (b * nt + j) HL Ht Hg Hs (Hij j Hj) t1 t2 I1 I2) as [_ [? ?]]; auto. }
  split; [auto|]. split; [auto|]. apply ratio_ln; try tauto; auto.
Qed.
