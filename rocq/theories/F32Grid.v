(** The float32 redshift grid. *)
From Coq Require Import List Arith ZArith QArith Qreals Reals Lra Lia Sorting.Sorted.
From Flocq Require Import Core.
From Verif Require Import Base Num F32 F32Proofs Fitter FitSpec F32Spec.
Import ListNotations.
Open Scope R_scope.

Lemma two_pos e : 0 < two e. Proof. apply bpow_gt_0. Qed.
Lemma two_le a b : (a <= b)%Z -> two a <= two b. Proof. apply bpow_le. Qed.
Lemma two_S e : two (e + 1) = 2 * two e.
Proof. unfold two. rewrite bpow_plus. change (bpow radix2 1) with 2. ring. Qed.
Lemma two_plus a b : two (a + b) = two a * two b.
Proof. apply bpow_plus. Qed.
Lemma two_format e : (-149 <= e <= 127)%Z -> generic_format radix2 fe (two e).
Proof.
  intro H. apply generic_format_bpow. unfold SpecFloat.fexp, SpecFloat.emin. lia.
Qed.
Lemma rnd_two_abs e x : (-149 <= e <= 127)%Z -> Rabs x <= two e -> Rabs (rnd x) <= two e.
Proof.
  intros He H. apply Rabs_le. apply Rabs_le_inv in H. pose proof (rnd_format _ (two_format e He)) as E. split.
  - rewrite <- E, <- rnd_opp. apply rnd_le. lra.
  - rewrite <- E. apply rnd_le. lra.
Qed.
Lemma rnd_pos x : 0 <= x -> 0 <= rnd x.
Proof. intro H. rewrite <- rnd_0. apply rnd_le; auto. Qed.

Lemma sorted_map_seq A (P : A -> A -> Prop) (f : nat -> A) n : forall a,
  (forall i j, (a <= i < j)%nat -> (j < a + n)%nat -> P (f i) (f j)) -> StronglySorted P (map f (seq a n)).
Proof.
  induction n as [|n IH]; intros a H; cbn [seq map]; [constructor|]. constructor.
  - apply IH. intros i j Hij Hj. apply H; lia.
  - apply Forall_forall. intros x Hx. apply in_map_iff in Hx as (j & <- & Hj). apply in_seq in Hj. apply H; lia.
Qed.

(** Grid point [k] over the reals. *)
Definition gv (r0 r1 : R) (n k : nat) : R := rnd (r0 + rnd (rnd (rnd (r1 - r0) * INR k) / INR (n - 1))).

Section Range.
  Variables (L : libm) (r0 r1 : b32) (n : nat).
  Hypothesis H : ok_range r0 r1 n.

  Lemma n_pos : (2 <= n)%nat. Proof. destruct H as (_ & _ & _ & _ & _ & Hn). lia. Qed.
  Lemma N_ge1 : 1 <= INR (n - 1). Proof. pose proof n_pos. apply (le_INR 1). lia. Qed.
  Lemma D_bounds : 0 <= rnd (val r1 - val r0) <= two 101.
  Proof.
    destruct H as (_ & _ & Hle & H0 & H1 & _). split; [apply rnd_pos; lra|].
    apply Rabs_le_inv in H0. apply Rabs_le_inv in H1.
    assert (E : two 101 = 2 * two 100) by exact (two_S 100).
    assert (A : Rabs (rnd (val r1 - val r0)) <= two 101).
    { apply rnd_two_abs; [lia|]. apply Rabs_le. rewrite E. lra. }
    apply Rabs_le_inv in A. lra.
  Qed.
  Lemma INR_le24 k : (k <= n)%nat -> INR k <= two 24.
  Proof.
    intro Hk. destruct H as (_ & _ & _ & _ & _ & Hn). rewrite INR_IZR_INZ. change (two 24) with (IZR (2 ^ 24)). apply IZR_le. lia.
  Qed.
  Lemma P_bounds k : (k < n)%nat -> 0 <= rnd (val r1 - val r0) * INR k <= two 125.
  Proof.
    intro Hk. pose proof D_bounds as D. pose proof (INR_le24 k ltac:(lia)) as Ik. pose proof (pos_INR k) as Pk.
    split; [apply Rmult_le_pos; lra|].
    assert (E : two 125 = two 101 * two 24) by exact (two_plus 101 24). rewrite E.
    apply Rmult_le_compat; lra.
  Qed.
  Lemma P_rnd k : (k < n)%nat -> 0 <= rnd (rnd (val r1 - val r0) * INR k) <= two 125.
  Proof.
    intro Hk. pose proof (P_bounds k Hk) as P. split; [apply rnd_pos; lra|].
    pose proof (rnd_two_abs 125 (rnd (val r1 - val r0) * INR k) ltac:(lia)) as A.
    rewrite Rabs_pos_eq in A by lra. specialize (A (proj2 P)). apply Rabs_le_inv in A. lra.
  Qed.
  Lemma Q_bounds k : (k < n)%nat -> 0 <= rnd (rnd (val r1 - val r0) * INR k) / INR (n - 1) <= two 125.
  Proof.
    intro Hk. pose proof (P_rnd k Hk) as P. pose proof N_ge1 as N1. split.
    - apply Rmult_le_pos; [lra|]. apply Rlt_le, Rinv_0_lt_compat; lra.
    - apply Rle_trans with (rnd (rnd (val r1 - val r0) * INR k) / 1); [|lra].
      apply Rmult_le_compat_l; [lra|]. apply Rinv_le_contravar; lra.
  Qed.
  Lemma Q_rnd k : (k < n)%nat -> 0 <= rnd (rnd (rnd (val r1 - val r0) * INR k) / INR (n - 1)) <= two 125.
  Proof.
    intro Hk. pose proof (Q_bounds k Hk) as P. split; [apply rnd_pos; lra|].
    pose proof (rnd_two_abs 125 (rnd (rnd (val r1 - val r0) * INR k) / INR (n - 1)) ltac:(lia)) as A.
    rewrite Rabs_pos_eq in A by lra. specialize (A (proj2 P)). apply Rabs_le_inv in A. lra.
  Qed.

  Definition elt (k : nat) : b32 :=
    add32 r0 (div32 (mul32 (sub32 r1 r0) (q32 (Z.of_nat k # 1))) (q32 ((Z.of_nat n - 1) # 1))).

  Lemma grid_elts : grid32 L r0 r1 n = map elt (seq 0 n).
  Proof. reflexivity. Qed.

  Lemma elt_val k : (k < n)%nat -> fin32 (elt k) = true /\ val (elt k) = gv (val r0) (val r1) n k.
  Proof.
    intro Hk. pose proof n_pos as Hn2. pose proof H as (F0 & F1 & Hle & A0 & A1 & Hn).
    pose proof D_bounds as D. pose proof (P_bounds k Hk) as P. pose proof (P_rnd k Hk) as P'.
    pose proof (Q_bounds k Hk) as Q. pose proof (Q_rnd k Hk) as Q'.
    pose proof (two_le 125 127 ltac:(lia)) as B1. pose proof (two_le 101 127 ltac:(lia)) as B2.
    assert (E126 : two 126 + two 126 = two 127) by (change 127%Z with (126 + 1)%Z; rewrite two_S; ring).
    pose proof (two_le 100 126 ltac:(lia)) as B3. pose proof (two_le 125 126 ltac:(lia)) as B4.
    change big with (two 127) in *.
    apply Rabs_le_inv in A0. apply Rabs_le_inv in A1.
    destruct (val_sub r1 r0 F1 F0) as (S1 & S2).
    { change big with (two 127). apply Rabs_le. lra. }
    destruct (int_lit (Z.of_nat k)) as (K1 & K2); [rewrite Z.abs_eq by lia; lia|].
    destruct (int_lit (Z.of_nat n - 1)) as (N1 & N2); [rewrite Z.abs_eq by lia; lia|].
    rewrite <- INR_IZR_INZ in K2.
    assert (N3 : val (q32 ((Z.of_nat n - 1) # 1)) = INR (n - 1)).
    { rewrite N2. rewrite INR_IZR_INZ. f_equal. lia. }
    destruct (val_mul (sub32 r1 r0) (q32 (Z.of_nat k # 1)) S1 K1) as (M1 & M2).
    { change big with (two 127). rewrite S2, K2. rewrite Rabs_pos_eq; lra. }
    rewrite S2, K2 in M2.
    destruct (val_div (mul32 (sub32 r1 r0) (q32 (Z.of_nat k # 1))) (q32 ((Z.of_nat n - 1) # 1)) M1) as (V1 & V2).
    { rewrite N3. pose proof N_ge1. lra. }
    { change big with (two 127). rewrite M2, N3. rewrite Rabs_pos_eq; lra. }
    rewrite M2, N3 in V2.
    destruct (val_add r0 _ F0 V1) as (W1 & W2).
    { change big with (two 127). rewrite V2. apply Rabs_le. lra. }
    split; auto. unfold elt. rewrite W2, V2. reflexivity.
  Qed.

  Lemma grid_length : length (grid32 L r0 r1 n) = n.
  Proof. rewrite grid_elts, map_length, seq_length. auto. Qed.
  Lemma grid_nth k : (k < n)%nat -> nth k (grid32 L r0 r1 n) nan32 = elt k.
  Proof.
    intro Hk. rewrite grid_elts. rewrite nth_indep with (d' := elt 0) by (rewrite map_length, seq_length; auto).
    rewrite map_nth, seq_nth; auto.
  Qed.
  Lemma point_gv k : (k < n)%nat -> point L r0 r1 n k = gv (val r0) (val r1) n k.
  Proof. intro Hk. unfold point. rewrite grid_nth by auto. apply elt_val; auto. Qed.

  Lemma gv_mono i j : (i <= j)%nat -> gv (val r0) (val r1) n i <= gv (val r0) (val r1) n j.
  Proof.
    intro Hij. unfold gv. apply rnd_le, Rplus_le_compat_l, rnd_le. unfold Rdiv. apply Rmult_le_compat_r.
    { pose proof N_ge1. apply Rlt_le, Rinv_0_lt_compat; lra. }
    apply rnd_le, Rmult_le_compat_l; [apply D_bounds|apply le_INR; auto].
  Qed.
  Lemma gv_0 : gv (val r0) (val r1) n 0 = val r0.
  Proof. unfold gv. cbn [INR]. rewrite Rmult_0_r, rnd_0. unfold Rdiv. rewrite Rmult_0_l, rnd_0, Rplus_0_r. apply rnd_val. Qed.

  Lemma gv_err k : (k < n)%nat ->
    Rabs (gv (val r0) (val r1) n k - exact_point r0 r1 n k) <= grid_error r0 r1.
  Proof.
    intro Hk. pose proof N_ge1 as N1. pose proof H as (F0 & F1 & Hle & A0 & A1 & Hn).
    pose proof D_bounds as D. unfold gv, exact_point, grid_error.
    assert (EH : two (-147) = 8 * (/ 2 * bpow radix2 (-149))).
    { unfold two. replace (-147)%Z with (2 + -149)%Z by lia. rewrite bpow_plus. change (bpow radix2 2) with 4. lra. }
    rewrite EH. set (h := / 2 * bpow radix2 (-149)) in *.
    assert (Hh : 0 < h) by (unfold h; pose proof (bpow_gt_0 radix2 (-149)); lra).
    assert (EU : two (-21) = 8 * / 16777216) by (unfold two; cbn; lra). rewrite EU.
    pose proof (rnd_err (val r1 - val r0)) as E1. fold h in E1. set (d := val r1 - val r0) in *.
    rewrite (Rabs_pos_eq d) in E1 by (unfold d; lra). set (Dr := rnd d) in *.
    pose proof (rnd_err (Dr * INR k)) as E2. fold h in E2.
    rewrite (Rabs_pos_eq (Dr * INR k)) in E2 by (apply Rmult_le_pos; [lra|apply pos_INR]).
    set (P := rnd (Dr * INR k)) in *.
    assert (HP : 0 <= P) by (apply rnd_pos, Rmult_le_pos; [lra|apply pos_INR]).
    set (t := INR k / INR (n - 1)).
    assert (Ht : 0 <= t <= 1).
    { unfold t. split.
      - apply Rmult_le_pos; [apply pos_INR|]. apply Rlt_le, Rinv_0_lt_compat; lra.
      - apply Rmult_le_reg_r with (INR (n - 1)); [lra|]. unfold Rdiv. rewrite Rmult_assoc, Rinv_l, Rmult_1_r, Rmult_1_l by lra.
        apply le_INR. lia. }
    assert (Ei : 0 < / INR (n - 1) <= 1).
    { split; [apply Rinv_0_lt_compat; lra|]. rewrite <- Rinv_1. apply Rinv_le_contravar; lra. }
    pose proof (rnd_err (P / INR (n - 1))) as E3. fold h in E3. set (p := P / INR (n - 1)) in *.
    assert (Hp : 0 <= p) by (apply Rmult_le_pos; lra). rewrite (Rabs_pos_eq p) in E3 by auto.
    set (Q := rnd p) in *.
    pose proof (rnd_err (val r0 + Q)) as E4. fold h in E4. set (g := rnd (val r0 + Q)) in *.
    replace (d * INR k / INR (n - 1)) with (d * t) by (unfold t; field; lra).
    (* p against Dr t *)
    assert (E5 : Rabs (p - Dr * t) <= / 16777216 * (Dr * t) + h).
    { replace (p - Dr * t) with ((P - Dr * INR k) * / INR (n - 1)) by (unfold p, t; field; lra).
      rewrite Rabs_mult, (Rabs_pos_eq (/ INR (n - 1))) by lra.
      apply Rle_trans with ((/ 16777216 * (Dr * INR k) + h) * / INR (n - 1)).
      - apply Rmult_le_compat_r; lra.
      - rewrite Rmult_plus_distr_r. apply Rplus_le_compat.
        + unfold t. apply Req_le. field. lra.
        + rewrite <- (Rmult_1_r h) at 2. apply Rmult_le_compat_l; lra. }
    assert (E6 : Rabs (Dr * t - d * t) <= / 16777216 * (d * t) + h).
    { rewrite <- Rmult_minus_distr_r, Rabs_mult, (Rabs_pos_eq t) by lra.
      apply Rle_trans with ((/ 16777216 * d + h) * t); [apply Rmult_le_compat_r; lra|].
      rewrite Rmult_plus_distr_r, Rmult_assoc. apply Rplus_le_compat_l. rewrite <- (Rmult_1_r h) at 2. apply Rmult_le_compat_l; lra. }
    assert (Hx : 0 <= d * t <= d).
    { assert (0 <= d) by (unfold d; lra). split; [apply Rmult_le_pos; lra|]. rewrite <- (Rmult_1_r d) at 2. apply Rmult_le_compat_l; lra. }
    set (x := d * t) in *. set (y := Dr * t) in *.
    assert (Hd : d = val r1 - val r0) by reflexivity.
    pose proof (Rle_abs (val r0)) as B1. pose proof (Rle_abs (val r1)) as B2.
    pose proof (Rle_abs (- val r0)) as B3. pose proof (Rle_abs (- val r1)) as B4. rewrite Rabs_Ropp in B3, B4.
    set (a := Rabs (val r0)) in *. set (b := Rabs (val r1)) in *.
    apply Rabs_le_inv in E1, E2, E3, E5, E6.
    assert (HQ : Rabs (val r0 + Q) <= a + b + Rabs (Q - x)).
    { replace (val r0 + Q) with ((val r0 + x) + (Q - x)) by ring. eapply Rle_trans; [apply Rabs_triang|].
      apply Rplus_le_compat_r, Rabs_le. lra. }
    assert (HQx : Rabs (Q - x) <= 4 * / 16777216 * (a + b) - / 1073741824 * (a + b) + 4 * h).
    { apply Rabs_le. lra. }
    apply Rabs_le_inv in E4. apply Rabs_le_inv in HQx as HQ2. apply Rabs_le. lra.
  Qed.
End Range.
