(** The spline exists, is unique, and [notaknot] computes it. *)
From Coq Require Import List Arith Lia ZArith QArith Qreals Reals Lra Sorting.Sorted.
From Verif Require Import Base Num Spline SplineSpec.
Import ListNotations.
Local Open Scope R_scope.

(** * Tridiagonal systems *)
Definition dom (r : R * R * R * R) : Prop := let '(a, b, c, d) := r in Rabs a + Rabs c < b.
Fixpoint sat (prev : R) (rows : list (R * R * R * R)) (ms : list R) : Prop :=
  match rows, ms with
  | [], [] => True
  | (a, b, c, d) :: rows', m :: ms' => a * prev + b * m + c * hd 0 ms' = d /\ sat m rows' ms'
  | _, _ => False
  end.
Lemma elim_small rows : Forall dom rows -> Rabs (fst (hd (0, 0) (elim rows))) <= 1.
Proof.
  induction 1 as [|[[[a b] c] d] r H _ IH]; cbn [elim hd fst].
  - rewrite Rabs_R0. lra.
  - destruct (hd (0, 0) (elim r)) as [al be] eqn:E. change (@n0 R Num_R) with 0. rewrite E. cbn [hd fst] in *. cbn [nopp ndiv nadd nmul Num_R].
    cbn [dom] in H. assert (Hm : Rabs (c * al) <= Rabs c).
    { rewrite Rabs_mult. pose proof (Rabs_pos c). nra. }
    assert (Hd : Rabs a < b + c * al). { pose proof (Rle_abs (- (c * al))). rewrite Rabs_Ropp in H0. lra. }
    pose proof (Rabs_pos a). unfold Rdiv. rewrite Rabs_mult, Rabs_Ropp, Rabs_inv, (Rabs_pos_eq (b + c * al)) by lra.
    apply Rmult_le_reg_r with (b + c * al); [lra|]. rewrite Rmult_assoc, Rinv_l by lra. lra.
Qed.
Lemma subst_sat rows : Forall dom rows -> forall prev, sat prev rows (subst prev (elim rows)).
Proof.
  induction 1 as [|[[[a b] c] d] r H Hr IH]; intro prev; [exact I|].
  pose proof (elim_small r Hr) as Hs. cbn [elim]. change (@n0 R Num_R) with 0.
  destruct (hd (0, 0) (elim r)) as [al be] eqn:E. cbn [subst sat]. split; [|apply IH].
  cbn [fst dom] in *. cbn [nopp ndiv nadd nmul nsub Num_R].
  assert (Hm : Rabs (c * al) <= Rabs c). { rewrite Rabs_mult. pose proof (Rabs_pos c). nra. }
  assert (Hd : 0 < b + c * al). { pose proof (Rle_abs (- (c * al))). rewrite Rabs_Ropp in H0. pose proof (Rabs_pos a). lra. }
  set (m := - a / (b + c * al) * prev + (d - c * be) / (b + c * al)).
  assert (Hh : hd 0 (subst m (elim r)) = al * m + be).
  { destruct (elim r) as [|[al' be'] l]; cbn [hd subst] in *; injection E as <- <-; cbn [nadd nmul Num_R]; [lra|reflexivity]. }
  rewrite Hh. unfold m. field. lra.
Qed.
Lemma sat_nth rows : forall prev ms, sat prev rows ms -> length ms = length rows /\
  forall i a b c d, nth_error rows i = Some (a, b, c, d) ->
    a * nth i (prev :: ms) 0 + b * nth i ms 0 + c * nth (S i) ms 0 = d.
Proof.
  induction rows as [|[[[a b] c] d] r IH]; intros prev [|m ms] H; cbn [sat] in H; try contradiction.
  - split; [reflexivity|]. intros [|i]; discriminate.
  - destruct H as [H1 H2]. destruct (IH m ms H2) as [IH1 IH2]. split; [cbn; lia|].
    intros [|i] a' b' c' d' E; cbn [nth_error] in E.
    + injection E as <- <- <- <-. cbn [nth]. destruct ms; cbn [hd nth] in *; exact H1.
    + apply (IH2 i) in E. exact E.
Qed.
(** Homogeneous systems have only the zero solution. *)
Lemma tri_zero_head m : forall (a b c X : nat -> R), (forall i, (i < m)%nat -> Rabs (a i) + Rabs (c i) < b i) ->
  (forall i, (i < m)%nat -> a i * X i + b i * X (S i) + c i * X (S (S i)) = 0) -> X (S m) = 0 ->
  Rabs (X 1%nat) <= Rabs (X 0%nat).
Proof.
  induction m as [|m IH]; intros a b c X Hd He H0.
  - rewrite H0, Rabs_R0. apply Rabs_pos.
  - specialize (IH (fun i => a (S i)) (fun i => b (S i)) (fun i => c (S i)) (fun i => X (S i))).
    cbn beta in IH. assert (H2 : Rabs (X 2%nat) <= Rabs (X 1%nat)).
    { apply IH; auto; intros i Hi; [apply Hd|apply He]; lia. }
    specialize (Hd 0%nat ltac:(lia)). specialize (He 0%nat ltac:(lia)).
    destruct (Rle_lt_dec (Rabs (X 1%nat)) (Rabs (X 0%nat))) as [|Hlt]; [assumption|exfalso].
    assert (Hb : Rabs (b 0%nat * X 1%nat) <= (Rabs (a 0%nat) + Rabs (c 0%nat)) * Rabs (X 1%nat)).
    { replace (b 0%nat * X 1%nat) with (- (a 0%nat * X 0%nat) + - (c 0%nat * X 2%nat)) by lra.
      eapply Rle_trans; [apply Rabs_triang|]. rewrite !Rabs_Ropp, !Rabs_mult.
      pose proof (Rabs_pos (a 0%nat)). pose proof (Rabs_pos (c 0%nat)). nra. }
    rewrite Rabs_mult in Hb. pose proof (Rabs_pos (X 0%nat)). pose proof (Rabs_pos (a 0%nat)). pose proof (Rabs_pos (c 0%nat)).
    rewrite (Rabs_pos_eq (b 0%nat)) in Hb by lra. nra.
Qed.
Lemma tri_zero m : forall (a b c X : nat -> R), (forall i, (i < m)%nat -> Rabs (a i) + Rabs (c i) < b i) ->
  (forall i, (i < m)%nat -> a i * X i + b i * X (S i) + c i * X (S (S i)) = 0) -> X (S m) = 0 -> X 0%nat = 0 ->
  forall i, (i <= S m)%nat -> X i = 0.
Proof.
  induction m as [|m IH]; intros a b c X Hd He HL H0 i Hi.
  - destruct i as [|[|i]]; [assumption|assumption|lia].
  - assert (H1 : X 1%nat = 0).
    { pose proof (tri_zero_head (S m) a b c X Hd He HL) as H. rewrite H0, Rabs_R0 in H.
      destruct (Req_dec (X 1%nat) 0) as [|Hn]; [assumption|]. apply Rabs_pos_lt in Hn. lra. }
    destruct i as [|i]; [assumption|].
    apply (IH (fun i => a (S i)) (fun i => b (S i)) (fun i => c (S i)) (fun i => X (S i))); try lia; auto;
      intros k Hk; [apply Hd|apply He]; lia.
Qed.

(** * The spline *)
Section Spline.
  Variable n : nat.
  Hypothesis Hn : (4 <= n)%nat.
  Variable x : nat -> R.
  Hypothesis Hx : forall i, (S i < n)%nat -> x i < x (S i).
  Let h i := x (S i) - x i.
  Lemma h_pos i : (S i < n)%nat -> 0 < h i.
  Proof. intro H. apply Hx in H. unfold h. lra. Qed.

  (** First derivatives at the ends of a piece, from values and second derivatives. *)
  Lemma d1_left p a b : a <> b -> pd1 p a = (peval p b - peval p a) / (b - a) - (b - a) * (2 * pd2 p a + pd2 p b) / 6.
  Proof. intro H. unfold pd1, pd2, peval. field. lra. Qed.
  Lemma d1_right p a b : a <> b -> pd1 p b = (peval p b - peval p a) / (b - a) + (b - a) * (pd2 p a + 2 * pd2 p b) / 6.
  Proof. intro H. unfold pd1, pd2, peval. field. lra. Qed.
  Lemma d3_pd2 p a b : a <> b -> pd3 p = (pd2 p b - pd2 p a) / (b - a).
  Proof. intro H. unfold pd3, pd2. field. lra. Qed.

  (** The rows of the system. *)
  Definition ra k := if Nat.eqb k 0 then 0 else if Nat.eqb (S (S (S k))) n then h k - h (S k) * (h (S k) / h k) else h k.
  Definition rb k := if Nat.eqb k 0 then 2 * (h k + h (S k)) + h k * (1 + h k / h (S k))
                     else if Nat.eqb (S (S (S k))) n then 2 * (h k + h (S k)) + h (S k) * (1 + h (S k) / h k) else 2 * (h k + h (S k)).
  Definition rc k := if Nat.eqb k 0 then h (S k) - h k * (h k / h (S k)) else if Nat.eqb (S (S (S k))) n then 0 else h (S k).
  Lemma abs_sub u v : 0 < u -> 0 < v -> Rabs (u - v * (v / u)) <= u + v * (v / u).
  Proof.
    intros Hu Hv. assert (0 < v * (v / u)) by (apply Rmult_lt_0_compat; [|apply Rdiv_lt_0_compat]; assumption).
    unfold Rabs. destruct (Rcase_abs _); lra.
  Qed.
  Lemma rows_dom k : (S (S k) < n)%nat -> Rabs (ra k) + Rabs (rc k) < rb k.
  Proof.
    intro Hk. pose proof (h_pos k ltac:(lia)) as H1. pose proof (h_pos (S k) ltac:(lia)) as H2. unfold ra, rb, rc.
    destruct (Nat.eqb k 0).
    - rewrite Rabs_R0. pose proof (abs_sub (h (S k)) (h k) H2 H1). rewrite Rmult_plus_distr_l. lra.
    - destruct (Nat.eqb _ n).
      + rewrite Rabs_R0. pose proof (abs_sub (h k) (h (S k)) H1 H2). rewrite Rmult_plus_distr_l. lra.
      + rewrite !Rabs_pos_eq; lra.
  Qed.

  (** The second derivatives of a spline through zeros vanish. *)
  Lemma curv_zero M : (forall k, (S (S k) < n)%nat ->
      h k * M k + 2 * (h k + h (S k)) * M (S k) + h (S k) * M (S (S k)) = 0) ->
    (M 1%nat - M 0%nat) / h 0 = (M 2%nat - M 1%nat) / h 1 ->
    (M (n - 2)%nat - M (n - 3)%nat) / h (n - 3) = (M (n - 1)%nat - M (n - 2)%nat) / h (n - 2) ->
    forall i, (i < n)%nat -> M i = 0.
  Proof.
    intros He H0 HL.
    pose proof (h_pos 0 ltac:(lia)) as P0. pose proof (h_pos 1 ltac:(lia)) as P1.
    pose proof (h_pos (n - 3) ltac:(lia)) as P2. pose proof (h_pos (n - 2) ltac:(lia)) as P3.
    assert (E0 : M 0%nat = M 1%nat * (1 + h 0 / h 1) - h 0 / h 1 * M 2%nat).
    { apply (f_equal (fun v => v * h 0)) in H0. unfold Rdiv in H0 at 1. rewrite Rmult_assoc, Rinv_l in H0 by lra.
      replace (M 0%nat) with (M 1%nat - (M 1%nat - M 0%nat) * 1) by ring. rewrite H0. field. lra. }
    assert (EL : M (n - 1)%nat = M (n - 2)%nat * (1 + h (n - 2) / h (n - 3)) - h (n - 2) / h (n - 3) * M (n - 3)%nat).
    { symmetry in HL. apply (f_equal (fun v => v * h (n - 2))) in HL. unfold Rdiv in HL at 1. rewrite Rmult_assoc, Rinv_l in HL by lra.
      replace (M (n - 1)%nat) with (M (n - 2)%nat + (M (n - 1)%nat - M (n - 2)%nat) * 1) by ring. rewrite HL. field. lra. }
    set (X := fun i => if Nat.eqb i 0 then 0 else if Nat.eqb (S i) n then 0 else M i).
    assert (Xin : forall i, (0 < i)%nat -> (S i < n)%nat -> X i = M i).
    { intros i H1 H2. unfold X. destruct (Nat.eqb_spec i 0); [lia|]. destruct (Nat.eqb_spec (S i) n); [lia|reflexivity]. }
    assert (HX : forall i, (i <= S (n - 2))%nat -> X i = 0).
    { apply (tri_zero (n - 2) ra rb rc X).
      - intros i Hi. apply rows_dom. lia.
      - intros k Hk. assert (Hk' : (S (S k) < n)%nat) by lia. specialize (He k Hk').
        pose proof (h_pos k ltac:(lia)) as Q1. pose proof (h_pos (S k) ltac:(lia)) as Q2.
        unfold ra, rb, rc. destruct (Nat.eqb_spec k 0) as [->|Hk0].
        + rewrite (Xin 1%nat), (Xin 2%nat) by lia. rewrite E0 in He. eapply eq_trans; [|exact He]. field. lra.
        + rewrite (Xin k), (Xin (S k)) by lia. destruct (Nat.eqb_spec (S (S (S k))) n) as [HkL|HkL].
          * replace (n - 1)%nat with (S (S k)) in EL by lia. replace (n - 2)%nat with (S k) in EL by lia. replace (n - 3)%nat with k in EL by lia.
            rewrite EL in He. eapply eq_trans; [|exact He]. field. lra.
          * rewrite (Xin (S (S k))) by lia. exact He.
      - unfold X. change (Nat.eqb (S (n - 2)) 0) with false. destruct (Nat.eqb_spec (S (S (n - 2))) n); [reflexivity|lia].
      - reflexivity. }
    assert (HM : forall i, (0 < i < n - 1)%nat -> M i = 0).
    { intros i Hi. specialize (HX i ltac:(lia)). unfold X in HX. destruct (Nat.eqb_spec i 0); [lia|]. destruct (Nat.eqb_spec (S i) n); [lia|]. exact HX. }
    intros i Hi. destruct (Nat.eq_dec i 0) as [->|]; [|destruct (Nat.eq_dec i (n - 1)) as [->|]; [|apply HM; lia]].
    - rewrite E0, (HM 1%nat), (HM 2%nat) by lia. ring.
    - rewrite EL, (HM (n - 2)%nat), (HM (n - 3)%nat) by lia. ring.
  Qed.

  Lemma pieces_zero p : pieces n x (fun _ => 0) p -> forall i t, (S i < n)%nat -> peval (p i) t = 0.
  Proof.
    intros [H1 H2 H3 H4 H5 H6]. cbn beta in *.
    set (M := fun i => if Nat.eqb (S i) n then pd2 (p (n - 2)%nat) (x (n - 1)%nat) else pd2 (p i) (x i)).
    assert (Ml : forall i, (S i < n)%nat -> pd2 (p i) (x i) = M i).
    { intros i Hi. unfold M. destruct (Nat.eqb_spec (S i) n); [lia|reflexivity]. }
    assert (Mr : forall i, (S i < n)%nat -> pd2 (p i) (x (S i)) = M (S i)).
    { intros i Hi. unfold M. destruct (Nat.eqb_spec (S (S i)) n) as [E|E].
      - replace (n - 2)%nat with i by lia. replace (n - 1)%nat with (S i) by lia. reflexivity.
      - apply H4. lia. }
    assert (HM : forall i, (i < n)%nat -> M i = 0).
    { apply curv_zero.
      - intros k Hk. specialize (H3 k Hk).
        pose proof (Hx k ltac:(lia)). pose proof (Hx (S k) ltac:(lia)).
        rewrite (d1_right (p k) (x k)), (d1_left (p (S k)) (x (S k)) (x (S (S k)))) in H3 by lra.
        rewrite (H1 k), (H2 k), (H1 (S k)), (H2 (S k)) in H3 by lia. rewrite (Ml k), (Mr k), (Ml (S k)), (Mr (S k)) in H3 by lia.
        unfold h. replace ((0 - 0) / (x (S k) - x k)) with 0 in H3 by (field; lra).
        replace ((0 - 0) / (x (S (S k)) - x (S k))) with 0 in H3 by (field; lra). lra.
      - pose proof (Hx 0 ltac:(lia)). pose proof (Hx 1 ltac:(lia)).
        rewrite (d3_pd2 (p 0%nat) (x 0%nat) (x 1%nat)), (d3_pd2 (p 1%nat) (x 1%nat) (x 2%nat)) in H5 by lra.
        rewrite (Ml 0%nat), (Mr 0%nat), (Ml 1%nat), (Mr 1%nat) in H5 by lia. exact H5.
      - destruct n as [|[|[|m]]] eqn:En; try lia. replace (S (S (S m)) - 3)%nat with m in * by lia.
        replace (S (S (S m)) - 2)%nat with (S m) in * by lia. replace (S (S (S m)) - 1)%nat with (S (S m)) in * by lia.
        pose proof (Hx m ltac:(lia)). pose proof (Hx (S m) ltac:(lia)).
        rewrite (d3_pd2 (p m) (x m) (x (S m))), (d3_pd2 (p (S m)) (x (S m)) (x (S (S m)))) in H6 by lra.
        rewrite (Ml m), (Mr m), (Ml (S m)), (Mr (S m)) in H6 by lia. exact H6. }
    intros i t Hi. pose proof (Hx i Hi) as Hxi.
    pose proof (Ml i Hi) as A1. pose proof (Mr i Hi) as A2. rewrite HM in A1, A2 by lia.
    pose proof (H1 i Hi) as B1. pose proof (H2 i Hi) as B2.
    unfold pd2 in A1, A2. unfold peval in *. destruct (p i) as [a b c d]; cbn [q0 q1 q2 q3] in *.
    assert (d = 0) as -> by nra. assert (c = 0) as -> by lra. assert (b = 0) as -> by nra. assert (a = 0) as -> by lra. ring.
  Qed.

  Definition psub (p q : cubic) : cubic := {| q0 := q0 p - q0 q; q1 := q1 p - q1 q; q2 := q2 p - q2 q; q3 := q3 p - q3 q |}.
  Lemma pieces_unique y p q : pieces n x y p -> pieces n x y q -> forall i t, (S i < n)%nat -> peval (p i) t = peval (q i) t.
  Proof.
    intros P Q i t Hi. assert (H : peval (psub (p i) (q i)) t = 0).
    { apply (pieces_zero (fun i => psub (p i) (q i))); auto.
      assert (E0 : forall p q t, peval (psub p q) t = peval p t - peval q t) by (intros; unfold peval, psub; cbn; ring).
      assert (E1 : forall p q t, pd1 (psub p q) t = pd1 p t - pd1 q t) by (intros; unfold pd1, psub; cbn; ring).
      assert (E2 : forall p q t, pd2 (psub p q) t = pd2 p t - pd2 q t) by (intros; unfold pd2, psub; cbn; ring).
      assert (E3 : forall p q, pd3 (psub p q) = pd3 p - pd3 q) by (intros; unfold pd3, psub; cbn; ring).
      destruct P as [P1 P2 P3 P4 P5 P6], Q as [Q1 Q2 Q3 Q4 Q5 Q6]. constructor; intros; rewrite ?E0, ?E1, ?E2, ?E3.
      - rewrite P1, Q1 by auto. ring.
      - rewrite P2, Q2 by auto. ring.
      - rewrite P3, Q3 by auto. reflexivity.
      - rewrite P4, Q4 by auto. reflexivity.
      - rewrite P5, Q5. reflexivity.
      - rewrite P6, Q6. reflexivity. }
    revert H. unfold peval, psub. cbn. lra.
  Qed.

  (** * Existence: the pieces of the model *)
  Variable y : nat -> R.
  Let M := curv x y n.
  Definition pb i := slope x y i - h i * (2 * M i + M (S i)) / 6.
  Definition pcc i := M i / 2.
  Definition pdd i := (M (S i) - M i) / (6 * h i).
  Definition pw i : cubic :=
    {| q0 := y i - pb i * x i + pcc i * x i ^ 2 - pdd i * x i ^ 3;
       q1 := pb i - 2 * pcc i * x i + 3 * pdd i * x i ^ 2;
       q2 := pcc i - 3 * pdd i * x i;
       q3 := pdd i |}.
  Lemma lit2 : @nlit R Num_R 2 = 2. Proof. cbn [nlit Num_R]. unfold Q2R. cbn. lra. Qed.
  Lemma lit6 : @nlit R Num_R 6 = 6. Proof. cbn [nlit Num_R]. unfold Q2R. cbn. lra. Qed.
  Lemma piece_pw i t : piece x y n i t = peval (pw i) t.
  Proof.
    unfold piece. rewrite lit2, lit6. change (@step R Num_R x i) with (h i).
    unfold pw, peval. cbn [q0 q1 q2 q3 nadd nsub nmul ndiv Num_R]. fold M. fold (pb i) (pcc i) (pdd i). ring.
  Qed.
  Lemma pw_1 i t : pd1 (pw i) t = pb i + 2 * pcc i * (t - x i) + 3 * pdd i * (t - x i) ^ 2.
  Proof. unfold pd1, pw. cbn [q1 q2 q3]. ring. Qed.
  Lemma pw_2 i t : pd2 (pw i) t = 2 * pcc i + 6 * pdd i * (t - x i).
  Proof. unfold pd2, pw. cbn [q2 q3]. ring. Qed.

  Let rows := map (nak_row x y n) (seq 0 (n - 2)).
  Lemma nak_row_eq k : nak_row x y n k = (ra k, rb k, rc k, 6 * (slope x y (S k) - slope x y k)).
  Proof.
    unfold nak_row, ra, rb, rc. rewrite lit2, lit6. change (@step R Num_R x k) with (h k). change (@step R Num_R x (S k)) with (h (S k)).
    reflexivity.
  Qed.
  Lemma system k : (S (S k) < n)%nat ->
    h k * M k + 2 * (h k + h (S k)) * M (S k) + h (S k) * M (S (S k)) = 6 * (slope x y (S k) - slope x y k).
  Proof.
    intro Hk.
    assert (HD : Forall dom rows).
    { apply Forall_forall. intros r Hr. apply in_map_iff in Hr as (j & <- & Hj). apply in_seq in Hj. rewrite nak_row_eq. apply rows_dom. lia. }
    destruct (sat_nth rows 0 _ (subst_sat rows HD 0)) as [HL HS]. fold (inner x y n) in HL, HS.
    change (subst 0 (elim rows)) with (inner x y n) in HL, HS.
    unfold rows in HL. rewrite map_length, seq_length in HL.
    specialize (HS k (ra k) (rb k) (rc k) (6 * (slope x y (S k) - slope x y k))).
    assert (Hnth : nth_error rows k = Some (ra k, rb k, rc k, 6 * (slope x y (S k) - slope x y k))).
    { unfold rows. rewrite nth_error_map, (nth_error_nth' _ 0%nat) by (rewrite seq_length; lia).
      rewrite seq_nth by lia. cbn [option_map]. rewrite <- nak_row_eq. reflexivity. }
    specialize (HS Hnth). eapply eq_trans; [|exact HS].
    pose proof (h_pos k ltac:(lia)) as Q1. pose proof (h_pos (S k) ltac:(lia)) as Q2.
    set (I := inner x y n) in *.
    assert (Min : forall j, (S (S j) < n)%nat -> M (S j) = nth j I 0).
    { intros j Hj. unfold M, curv. change (Nat.eqb (S j) 0) with false. destruct (Nat.eqb_spec (S (S j)) n); [lia|].
      replace (S j - 1)%nat with j by lia. reflexivity. }
    assert (M0 : M 0%nat = nth 0 I 0 * (1 + h 0 / h 1) - h 0 / h 1 * nth 1 I 0) by reflexivity.
    assert (ML : M (n - 1)%nat = nth (n - 3) I 0 * (1 + h (n - 2) / h (n - 3)) - h (n - 2) / h (n - 3) * nth (n - 4) I 0).
    { unfold M, curv. destruct (Nat.eqb_spec (n - 1) 0); [lia|]. destruct (Nat.eqb_spec (S (n - 1)) n); [|lia]. reflexivity. }
    unfold ra, rb, rc. destruct (Nat.eqb_spec k 0) as [->|Hk0].
    - rewrite M0, (Min 0%nat), (Min 1%nat) by lia. cbn [nth]. field. lra.
    - destruct k as [|k]; [lia|]. cbn [nth]. rewrite (Min k), (Min (S k)) by lia.
      destruct (Nat.eqb_spec (S (S (S (S k)))) n) as [HkL|HkL].
      + replace (n - 1)%nat with (S (S (S k))) in ML by lia. replace (n - 2)%nat with (S (S k)) in ML by lia.
        replace (n - 3)%nat with (S k) in ML by lia. replace (n - 4)%nat with k in ML by lia. rewrite ML. field. lra.
      + rewrite (Min (S (S k))) by lia. reflexivity.
  Qed.

  Lemma pw_pieces : pieces n x y pw.
  Proof.
    constructor.
    - intros i Hi. unfold peval, pw. cbn [q0 q1 q2 q3]. ring.
    - intros i Hi. rewrite <- piece_pw. unfold piece. rewrite lit2, lit6. change (@step R Num_R x i) with (h i).
      pose proof (h_pos i Hi) as H. cbn [nadd nsub nmul ndiv Num_R]. fold M. unfold slope. change (@step R Num_R x i) with (h i).
      cbn [nadd nsub nmul ndiv Num_R]. change (x (S i) - x i) with (h i). field. lra.
    - intros i Hi. rewrite !pw_1. replace (x (S i) - x (S i)) with 0 by ring. change (x (S i) - x i) with (h i).
      pose proof (system i Hi) as E. pose proof (h_pos i ltac:(lia)) as Q1. pose proof (h_pos (S i) ltac:(lia)) as Q2.
      unfold pb, pcc, pdd. assert (slope x y (S i) = slope x y i + (h i * M i + 2 * (h i + h (S i)) * M (S i) + h (S i) * M (S (S i))) / 6) as -> by (rewrite E; field).
      field. lra.
    - intros i Hi. rewrite !pw_2. change (x (S i) - x i) with (h i). pose proof (h_pos i ltac:(lia)) as Q1. pose proof (h_pos (S i) ltac:(lia)) as Q2. unfold pcc, pdd. field. lra.
    - unfold pd3. cbn [q3 pw]. unfold pdd. pose proof (h_pos 0 ltac:(lia)). pose proof (h_pos 1 ltac:(lia)).
      assert (M0 : M 0%nat = nth 0 (inner x y n) 0 * (1 + h 0 / h 1) - h 0 / h 1 * nth 1 (inner x y n) 0) by reflexivity.
      assert (M1 : M 1%nat = nth 0 (inner x y n) 0).
      { unfold M, curv. change (Nat.eqb 1 0) with false. destruct (Nat.eqb_spec 2 n); [lia|]. reflexivity. }
      assert (M2 : M 2%nat = nth 1 (inner x y n) 0).
      { unfold M, curv. change (Nat.eqb 2 0) with false. destruct (Nat.eqb_spec 3 n); [lia|]. reflexivity. }
      rewrite M0, M1, M2. field. lra.
    - unfold pd3. cbn [q3 pw]. unfold pdd. pose proof (h_pos (n - 3) ltac:(lia)). pose proof (h_pos (n - 2) ltac:(lia)).
      assert (ML : M (n - 1)%nat = nth (n - 3) (inner x y n) 0 * (1 + h (n - 2) / h (n - 3)) - h (n - 2) / h (n - 3) * nth (n - 4) (inner x y n) 0).
      { unfold M, curv. destruct (Nat.eqb_spec (n - 1) 0); [lia|]. destruct (Nat.eqb_spec (S (n - 1)) n); [|lia]. reflexivity. }
      assert (M1 : M (n - 2)%nat = nth (n - 3) (inner x y n) 0).
      { unfold M, curv. destruct (Nat.eqb_spec (n - 2) 0); [lia|]. destruct (Nat.eqb_spec (S (n - 2)) n); [lia|].
        replace (n - 2 - 1)%nat with (n - 3)%nat by lia. reflexivity. }
      assert (M2 : M (n - 3)%nat = nth (n - 4) (inner x y n) 0).
      { unfold M, curv. destruct (Nat.eqb_spec (n - 3) 0); [lia|]. destruct (Nat.eqb_spec (S (n - 3)) n); [lia|].
        replace (n - 3 - 1)%nat with (n - 4)%nat by lia. reflexivity. }
      replace (S (n - 3)) with (n - 2)%nat by lia. replace (S (n - 2)) with (n - 1)%nat by lia.
      rewrite ML, M1, M2. field. lra.
  Qed.

  (** * Locating t *)
  Lemma mono i j : (i < j < n)%nat -> x i < x j.
  Proof.
    intros [H1 H2]. induction H1 as [|j H1 IH]; [apply Hx; lia|]. apply Rlt_trans with (x j); [apply IH; lia|apply Hx; lia].
  Qed.
  Lemma mono_le i j : (i <= j < n)%nat -> x i <= x j.
  Proof. intros [H1 H2]. destruct (Nat.eq_dec i j) as [->|]; [lra|]. left. apply mono. lia. Qed.
  Lemma count_below t k : (k <= n - 2)%nat ->
    (forall j, (j < k)%nat -> x (S j) < t) -> (forall j, (k <= j < n - 2)%nat -> t <= x (S j)) -> which x n t = k.
  Proof.
    intros Hk H1 H2. unfold which. replace (n - 2)%nat with (k + (n - 2 - k))%nat by lia. rewrite seq_app, filter_app, app_length. cbn [Nat.add].
    assert (A : forall m a, (forall j, (a <= j < a + m)%nat -> x (S j) < t) ->
      length (filter (fun k0 => nltb (x (S k0)) t) (seq a m)) = m).
    { induction m as [|m IH]; intros a H; [reflexivity|]. cbn [seq filter].
      assert (E : nltb (x (S a)) t = true) by (apply Rltb_true, H; lia). rewrite E. cbn [length]. rewrite (IH (S a)); auto. intros; apply H; lia. }
    assert (B : forall m a, (forall j, (a <= j < a + m)%nat -> t <= x (S j)) ->
      length (filter (fun k0 => nltb (x (S k0)) t) (seq a m)) = 0%nat).
    { induction m as [|m IH]; intros a H; [reflexivity|]. cbn [seq filter].
      assert (E : nltb (x (S a)) t = false) by (apply Rltb_false, H; lia). rewrite E. apply IH. intros; apply H; lia. }
    rewrite A by (intros; apply H1; lia). rewrite B by (intros; apply H2; lia). lia.
  Qed.
  Lemma located i t : (S i < n)%nat -> x i <= t <= x (S i) -> piece x y n (which x n t) t = peval (pw i) t.
  Proof.
    intros Hi [H1 H2]. destruct (Rle_lt_or_eq_dec _ _ H1) as [Hlt|<-].
    - rewrite (count_below t i), piece_pw; [reflexivity|lia| |].
      + intros j Hj. apply Rle_lt_trans with (x i); [apply mono_le; lia|assumption].
      + intros j Hj. apply Rle_trans with (x (S i)); [assumption|apply mono_le; lia].
    - destruct i as [|i].
      + rewrite (count_below (x 0%nat) 0), piece_pw; [reflexivity|lia| |]; intros j Hj; [lia|]. apply mono_le. lia.
      + rewrite (count_below (x (S i)) i), piece_pw; [|lia| |].
        * rewrite (pc_right _ _ _ _ pw_pieces) by lia. rewrite (pc_left _ _ _ _ pw_pieces) by lia. reflexivity.
        * intros j Hj. apply mono. lia.
        * intros j Hj. apply mono_le. lia.
  Qed.
  Lemma find_interval t : x 0%nat <= t <= x (n - 1)%nat -> exists i, (S i < n)%nat /\ x i <= t <= x (S i).
  Proof.
    intros [H1 H2].
    assert (G : forall m, (S m < n)%nat -> t <= x (S m) -> exists i, (S i < n)%nat /\ x i <= t <= x (S i)).
    { induction m as [|m IH]; intros Hm Ht; [exists 0%nat; split; [lia|lra]|].
      destruct (Rle_lt_dec t (x (S m))) as [C|C]; [apply IH; [lia|exact C]|]. exists (S m). split; [lia|lra]. }
    apply (G (n - 2)%nat); [lia|]. replace (S (n - 2)) with (n - 1)%nat by lia. exact H2.
  Qed.
End Spline.

Lemma sorted_step xs : StronglySorted Rlt xs -> forall i, (S i < length xs)%nat -> nth i xs 0 < nth (S i) xs 0.
Proof.
  induction 1 as [|a l H IH Hf]; intros i Hi; cbn [length] in Hi; [lia|]. destruct i as [|i]; cbn [nth].
  - rewrite Forall_forall in Hf. apply Hf. apply nth_In. lia.
  - apply IH. lia.
Qed.

Lemma last_nth_eq (l : list R) : last l 0 = nth (length l - 1) l 0.
Proof.
  induction l as [|a [|b l] IH]; [reflexivity|reflexivity|]. change (last (a :: b :: l) 0) with (last (b :: l) 0). rewrite IH.
  cbn [length]. replace (S (S (length l)) - 1)%nat with (S (S (length l) - 1)) by lia. reflexivity.
Qed.

Theorem notaknot_is_spline xs ys : StronglySorted Rlt xs -> (4 <= length xs)%nat -> is_spline xs ys (notaknot xs ys).
Proof.
  intros Hs Hn. pose proof (sorted_step xs Hs) as Hx. exists (pw (length xs) (fun k => nth k xs 0) (fun k => nth k ys 0)). split.
  - apply pw_pieces; auto.
  - intros i t Hi Ht. unfold notaknot. apply located; auto.
Qed.
Theorem spline_unique xs ys f g t : StronglySorted Rlt xs -> (4 <= length xs)%nat -> is_spline xs ys f -> is_spline xs ys g ->
  nth 0 xs 0 <= t <= last xs 0 -> f t = g t.
Proof.
  intros Hs Hn (p & Hp & Ef) (q & Hq & Eg) Ht. rewrite last_nth_eq in Ht. pose proof (sorted_step xs Hs) as Hx.
  destruct (find_interval (length xs) Hn (fun k => nth k xs 0) t Ht) as (i & Hi & Hit).
  rewrite (Ef i), (Eg i) by auto. apply (pieces_unique (length xs) Hn (fun k => nth k xs 0) Hx (fun k => nth k ys 0)); auto.
Qed.

(** * Laws of the spline *)
Lemma is_spline_at xs ys f k : StronglySorted Rlt xs -> (2 <= length xs)%nat -> is_spline xs ys f -> (k < length xs)%nat ->
  f (nth k xs 0) = nth k ys 0.
Proof.
  intros Hs Hn (p & Hp & Ef) Hk. pose proof (sorted_step xs Hs) as Hx.
  destruct (Nat.eq_dec (S k) (length xs)) as [E|E].
  - destruct k as [|k]; [lia|]. pose proof (Hx k ltac:(lia)). rewrite (Ef k) by (auto; lra). apply (pc_right _ _ _ _ Hp). lia.
  - pose proof (Hx k ltac:(lia)). rewrite (Ef k) by (try lia; lra). apply (pc_left _ _ _ _ Hp). lia.
Qed.

Definition padd (a b : R) (p q : cubic) : cubic :=
  {| q0 := a * q0 p + b * q0 q; q1 := a * q1 p + b * q1 q; q2 := a * q2 p + b * q2 q; q3 := a * q3 p + b * q3 q |}.
Lemma nth_zip {A B C} (f : A -> B -> C) da db l1 : forall l2 k, (k < length l1)%nat -> length l1 = length l2 ->
  forall d, nth k (zip f l1 l2) d = f (nth k l1 da) (nth k l2 db).
Proof.
  induction l1 as [|x l1 IH]; intros [|y l2] k Hk Hl d; cbn [length] in *; try lia. destruct k as [|k]; cbn [zip nth]; [reflexivity|].
  apply IH; lia.
Qed.
Lemma is_spline_lin a b xs ys zs f g : length ys = length xs -> length zs = length xs ->
  is_spline xs ys f -> is_spline xs zs g ->
  is_spline xs (zip (fun u v => a * u + b * v) ys zs) (fun t => a * f t + b * g t).
Proof.
  intros L1 L2 (p & P & Ef) (q & Q & Eg). exists (fun i => padd a b (p i) (q i)).
  assert (E0 : forall p q t, peval (padd a b p q) t = a * peval p t + b * peval q t) by (intros; unfold peval, padd; cbn; ring).
  assert (E1 : forall p q t, pd1 (padd a b p q) t = a * pd1 p t + b * pd1 q t) by (intros; unfold pd1, padd; cbn; ring).
  assert (E2 : forall p q t, pd2 (padd a b p q) t = a * pd2 p t + b * pd2 q t) by (intros; unfold pd2, padd; cbn; ring).
  assert (E3 : forall p q, pd3 (padd a b p q) = a * pd3 p + b * pd3 q) by (intros; unfold pd3, padd; cbn; ring).
  split.
  - destruct P as [P1 P2 P3 P4 P5 P6], Q as [Q1 Q2 Q3 Q4 Q5 Q6]. constructor; intros; rewrite ?E0, ?E1, ?E2, ?E3.
    + rewrite P1, Q1 by auto. rewrite (nth_zip _ 0 0) by lia. reflexivity.
    + rewrite P2, Q2 by auto. rewrite (nth_zip _ 0 0) by lia. reflexivity.
    + rewrite P3, Q3 by auto. reflexivity.
    + rewrite P4, Q4 by auto. reflexivity.
    + rewrite P5, Q5. reflexivity.
    + rewrite P6, Q6. reflexivity.
  - intros i t Hi Ht. rewrite E0, (Ef i), (Eg i) by auto. reflexivity.
Qed.

Lemma nth_map_lt {A B} (f : A -> B) l k da db : (k < length l)%nat -> nth k (map f l) db = f (nth k l da).
Proof. intro H. rewrite (nth_indep _ db (f da)) by (rewrite map_length; auto). apply map_nth. Qed.

Lemma is_spline_cubic xs q : is_spline xs (map (peval q) xs) (peval q).
Proof.
  exists (fun _ => q). split; [|auto]. constructor; intros; auto; rewrite (nth_map_lt _ _ _ 0) by lia; reflexivity.
Qed.

Definition pscale (c s : R) (p : cubic) : cubic :=
  {| q0 := c * q0 p; q1 := c * q1 p / s; q2 := c * q2 p / s ^ 2; q3 := c * q3 p / s ^ 3 |}.
Lemma is_spline_scale c s xs ys f : 0 < s -> length ys = length xs -> (4 <= length xs)%nat -> is_spline xs ys f ->
  is_spline (map (fun x => x * s) xs) (map (fun v => c * v) ys) (fun t => c * f (t / s)).
Proof.
  intros Hs Hl H4 (p & P & Ef). exists (fun i => pscale c s (p i)). rewrite map_length.
  assert (E0 : forall p t, peval (pscale c s p) (t * s) = c * peval p t) by (intros; unfold peval, pscale; cbn; field; lra).
  assert (E1 : forall p t, pd1 (pscale c s p) (t * s) = c / s * pd1 p t) by (intros; unfold pd1, pscale; cbn; field; lra).
  assert (E2 : forall p t, pd2 (pscale c s p) (t * s) = c / s ^ 2 * pd2 p t) by (intros; unfold pd2, pscale; cbn; field; lra).
  assert (E3 : forall p, pd3 (pscale c s p) = c / s ^ 3 * pd3 p) by (intros; unfold pd3, pscale; cbn; field; lra).
  assert (Nx : forall k, (k < length xs)%nat -> nth k (map (fun x => x * s) xs) 0 = nth k xs 0 * s) by (intros; apply (nth_map_lt (fun x => x * s)); auto).
  assert (Ny : forall k, (k < length xs)%nat -> nth k (map (fun v => c * v) ys) 0 = c * nth k ys 0) by (intros; apply (nth_map_lt (fun v => c * v)); lia).
  split.
  - destruct P as [P1 P2 P3 P4 P5 P6]. constructor; intros; rewrite ?E3.
    + rewrite Nx, Ny, E0, P1 by lia. reflexivity.
    + rewrite Nx, Ny, E0, P2 by lia. reflexivity.
    + rewrite Nx, !E1, P3 by lia. reflexivity.
    + rewrite Nx, !E2, P4 by lia. reflexivity.
    + rewrite P5. reflexivity.
    + rewrite P6. reflexivity.
  - intros i t Hi Ht. rewrite !Nx in Ht by lia. rewrite (Ef i).
    + rewrite <- E0. f_equal. field. lra.
    + auto.
    + split; apply Rmult_le_reg_r with s; auto; replace (t / s * s) with t by (field; lra); lra.
Qed.

(** Between neighbouring samples the spline is continuous. *)
Lemma peval_continuous p : continuity (peval p).
Proof.
  unfold peval. intro t. repeat apply continuity_pt_plus; try apply continuity_pt_mult; try (apply continuity_pt_const; intros ? ?; reflexivity);
    try apply derivable_continuous_pt, derivable_pt_id; apply derivable_continuous_pt, derivable_pt_pow.
Qed.

(** * A root finder: bisection *)
Fixpoint bisect_n (n : nat) (f : R -> R) (a b : R) : R :=
  match n with
  | O => a
  | S n => let m := (a + b) / 2 in if Rle_dec (f a * f m) 0 then bisect_n n f a m else bisect_n n f m b
  end.
Definition bisect (tol : R) (f : R -> R) (a b : R) : res R :=
  if Rle_dec (f a * f b) 0 then Ok (bisect_n (Z.to_nat (up ((b - a) / tol))) f a b) else Raise ValueError.
Lemma bisect_n_spec n : forall f a b, a <= b -> (exists g, continuity g /\ forall t, a <= t <= b -> f t = g t) -> f a * f b <= 0 ->
  a <= bisect_n n f a b <= b /\ exists x0, a <= x0 <= b /\ f x0 = 0 /\ Rabs (bisect_n n f a b - x0) <= (b - a) / 2 ^ n.
Proof.
  induction n as [|n IH]; intros f a b Hab (g & Cg & Eg) Hs; cbn [bisect_n].
  - split; [lra|]. rewrite !Eg in Hs by lra. destruct (IVT_cor g a b Cg Hab Hs) as (z & Hz & Hz0).
    exists z. rewrite Eg by lra. repeat split; try lra. cbn [pow]. unfold Rabs. destruct (Rcase_abs _); lra.
  - assert (Hm : a <= (a + b) / 2 <= b) by lra. destruct (Rle_dec (f a * f ((a + b) / 2)) 0) as [H|H].
    + destruct (IH f a ((a + b) / 2)) as (H1 & x0 & H2 & H3 & H4); [lra| |assumption|].
      * exists g. split; auto. intros t Ht. apply Eg. lra.
      * split; [lra|]. exists x0. repeat split; try lra. replace ((b - a) / 2 ^ S n) with (((a + b) / 2 - a) / 2 ^ n); [exact H4|].
        cbn [pow]. field. apply pow_nonzero. lra.
    + destruct (IH f ((a + b) / 2) b) as (H1 & x0 & H2 & H3 & H4); [lra| |nra|].
      * exists g. split; auto. intros t Ht. apply Eg. lra.
      * split; [lra|]. exists x0. repeat split; try lra. replace ((b - a) / 2 ^ S n) with ((b - (a + b) / 2) / 2 ^ n); [exact H4|].
        cbn [pow]. field. apply pow_nonzero. lra.
Qed.
Lemma bisect_root_finder tol : 0 < tol -> root_finder tol (bisect tol).
Proof.
  intros Ht f a b Hab Hg Hs. unfold bisect. destruct (Rle_dec (f a * f b) 0) as [_|C]; [|contradiction].
  set (n := Z.to_nat (up ((b - a) / tol))). destruct (bisect_n_spec n f a b ltac:(lra) Hg Hs) as (H1 & x0 & H2 & H3 & H4).
  exists (bisect_n n f a b), x0. repeat split; try lra. eapply Rle_trans; [exact H4|].
  assert (Hn : (b - a) / tol <= INR n).
  { destruct (archimed ((b - a) / tol)) as [Hu _]. unfold n. rewrite INR_IZR_INZ, Z2Nat.id; [lra|].
    apply le_IZR. assert (0 < (b - a) / tol) by (apply Rdiv_lt_0_compat; lra). lra. }
  assert (Hp : INR n <= 2 ^ n).
  { clear. induction n as [|n IH]; [cbn; lra|]. rewrite S_INR. cbn [pow]. pose proof (pow_R1_Rle 2 n ltac:(lra)). lra. }
  assert (0 < 2 ^ n) by (apply pow_lt; lra).
  apply Rmult_le_reg_r with (2 ^ n); auto. unfold Rdiv. rewrite Rmult_assoc, Rinv_l by lra.
  assert (b - a <= tol * INR n). { replace (b - a) with (tol * ((b - a) / tol)) by (field; lra). apply Rmult_le_compat_l; lra. }
  nra.
Qed.
