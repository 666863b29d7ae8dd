(** C39: the redshift grid and the band shift in float32. *)
From Coq Require Import String List Arith ZArith QArith Qreals Reals Lra Lia Sorting.Sorted.
From Flocq Require Import Core IEEE754.BinarySingleNaN.
From Verif Require Import Base BaseLemmas Num F32 F32Proofs Interp Sed Response RespDict Fitter FitSpec FitterProofs FitTable
  F32Spec F32Grid F32Ex FitterThms FitRealThms.
Import ListNotations.
Open Scope R_scope.
(* STATEMENTS *)

(** C39.  For every float32 range and grid size the grid has n finite points, starts exactly at redshift_range[0],
    never decreases, and every point is within a few roundings of the exact one. *)
Lemma L_C39_grid :
  forall (L : libm) (r0 r1 : b32) (n : nat), ok_range r0 r1 n ->
    length (grid32 L r0 r1 n) = n /\
    (forall k, (k < n)%nat -> fin32 (nth k (grid32 L r0 r1 n) nan32) = true) /\
    point L r0 r1 n 0 = val r0 /\
    (forall i j, (i <= j < n)%nat -> point L r0 r1 n i <= point L r0 r1 n j) /\
    (forall k, (k < n)%nat -> Rabs (point L r0 r1 n k - exact_point r0 r1 n k) <= grid_error r0 r1).
Proof.
  intros L r0 r1 n H. pose proof (n_pos _ _ _ H) as Hn. split; [apply grid_length|]. split.
  { intros k Hk. rewrite grid_nth by auto. apply elt_val; auto. }
  split; [rewrite (point_gv L _ _ _ H) by lia; eapply gv_0|]. split.
  - intros i j Hij. rewrite !(point_gv L _ _ _ H) by lia. apply gv_mono; auto. lia.
  - intros k Hk. rewrite (point_gv L _ _ _ H) by lia. apply gv_err; auto.
Qed.
Lemma ok_small : forall (r : b32) n, fin32 r = true -> 0 <= val r <= 4 -> (2 <= Z.of_nat n <= 2 ^ 24)%Z -> ok_range zero32 r n.
Proof.
  intros r n Hf Hr Hn. assert (E : val zero32 = 0) by reflexivity. pose proof (two_le 2 100 ltac:(lia)) as H2.
  change (two 2) with 4 in H2. unfold ok_range. rewrite E. repeat split; auto; try lra; try lia.
  - rewrite Rabs_R0. lra.
  - rewrite Rabs_pos_eq; lra.
Qed.
Lemma E_C39_grid : ok_range zero32 two32 4000 /\ exact_point zero32 two32 4000 3999 = 2.
Proof.
  assert (E : val two32 = 2) by (unfold val, two32; vm_compute; lra).
  split; [apply ok_small; [reflexivity|lra|lia]|].
  unfold exact_point. rewrite E. change (val zero32) with 0. 
  replace (INR (4000 - 1)) with (INR 3999) by (f_equal; lia). field.
  apply not_0_INR. lia.
Qed.

(** If the step is larger than twice that error the points are distinct, so no interpolation divides by zero. *)
Lemma L_C39_distinct :
  forall (L : libm) (r0 r1 : b32) (n : nat), ok_range r0 r1 n ->
    2 * grid_error r0 r1 < (val r1 - val r0) / INR (n - 1) ->
    forall i j, (i < j < n)%nat -> point L r0 r1 n i < point L r0 r1 n j.
Proof.
  intros L r0 r1 n H Hs i j Hij. pose proof (N_ge1 _ _ _ H) as N1.
  rewrite !(point_gv L _ _ _ H) by lia.
  assert (A : point L r0 r1 n i < point L r0 r1 n (S i)).
  { rewrite !(point_gv L _ _ _ H) by lia.
    pose proof (gv_err _ _ _ H i ltac:(lia)) as E1. pose proof (gv_err _ _ _ H (S i) ltac:(lia)) as E2.
    apply Rabs_le_inv in E1, E2. unfold exact_point in *. rewrite S_INR in E2.
    replace ((val r1 - val r0) * (INR i + 1) / INR (n - 1)) with
      ((val r1 - val r0) * INR i / INR (n - 1) + (val r1 - val r0) / INR (n - 1)) in E2 by (field; lra). lra. }
  rewrite !(point_gv L _ _ _ H) in A by lia. eapply Rlt_le_trans; [exact A|]. apply gv_mono; auto. lia.
Qed.
Lemma E_C39_distinct : ok_range zero32 two32 4000 /\ 2 * grid_error zero32 two32 < (val two32 - val zero32) / INR (4000 - 1).
Proof.
  split; [apply E_C39_grid|]. assert (E : val two32 = 2) by (unfold val, two32; vm_compute; lra).
  unfold grid_error. rewrite E. change (val zero32) with 0. rewrite Rabs_R0, Rabs_pos_eq by lra.
  pose proof (two_le (-147) (-21) ltac:(lia)) as A. assert (B : two (-21) = / 2097152) by (unfold two; cbn; lra). rewrite B in *.
  assert (C : / 4000 <= / INR (4000 - 1)).
  { apply Rinv_le_contravar; [apply lt_0_INR; lia|]. rewrite INR_IZR_INZ. apply IZR_le. lia. }
  unfold Rdiv. lra.
Qed.

(** Without that condition two grid points can coincide although redshift_range[0] < redshift_range[1]. *)
Lemma L_C39_distinct_refuted :
  exists (r0 r1 : b32) (n : nat), ok_range r0 r1 n /\ val r0 < val r1 /\
    forall L : libm, exists k, (S k < n)%nat /\ point L r0 r1 n k = point L r0 r1 n (S k).
Proof.
  exists one32, (q32 (8388609 # 8388608)), 5%nat.
  assert (E1 : val one32 = 1) by (unfold val, one32; vm_compute; lra).
  assert (E2 : val (q32 (8388609 # 8388608)) = 1 + / 8388608) by (unfold val; vm_compute; lra).
  pose proof (two_le 2 100 ltac:(lia)) as H2. change (two 2) with 4 in H2.
  assert (H : ok_range one32 (q32 (8388609 # 8388608)) 5).
  { unfold ok_range. rewrite E1, E2. repeat split; try reflexivity; try lra; try lia; rewrite Rabs_pos_eq; lra. }
  split; [exact H|]. split; [lra|]. intro L. exists 0%nat. split; [lia|].
  unfold point. rewrite !grid_nth by lia. unfold val. vm_compute. reflexivity.
Qed.

(** The last point is exactly redshift_range[1] when the width of the range and (n - 1) times it are float32 values;
    both defaults ([0, 1] with 2000 points for Fitter, [0, 2] with 4000 for Kcorrect) qualify. *)
Lemma L_C39_end_exact :
  forall (L : libm) (r0 r1 : b32) (n : nat), ok_range r0 r1 n ->
    repr (val r1 - val r0) -> repr ((val r1 - val r0) * INR (n - 1)) ->
    point L r0 r1 n (n - 1) = val r1.
Proof.
  intros L r0 r1 n H Hw Hp. pose proof (n_pos _ _ _ H) as Hn. pose proof (N_ge1 _ _ _ H) as N1.
  rewrite (point_gv L _ _ _ H) by lia. unfold gv. rewrite (rnd_repr _ Hw), (rnd_repr _ Hp).
  replace ((val r1 - val r0) * INR (n - 1) / INR (n - 1)) with (val r1 - val r0) by (field; lra).
  rewrite (rnd_repr _ Hw). replace (val r0 + (val r1 - val r0)) with (val r1) by ring. apply rnd_val.
Qed.
Lemma int_repr : forall k, (Z.abs k <= 2 ^ 24)%Z -> repr (IZR k).
Proof. intros k H. destruct (int_lit k H) as (A & B). exists (q32 (k # 1)). auto. Qed.
Lemma E_C39_end_exact :
  (ok_range zero32 one32 2000 /\ repr (val one32 - val zero32) /\ repr ((val one32 - val zero32) * INR (2000 - 1))) /\
  (ok_range zero32 two32 4000 /\ repr (val two32 - val zero32) /\ repr ((val two32 - val zero32) * INR (4000 - 1))).
Proof.
  assert (E1 : val one32 = 1) by (unfold val, one32; vm_compute; lra).
  assert (E2 : val two32 = 2) by (unfold val, two32; vm_compute; lra).
  rewrite E1, E2. change (val zero32) with 0. split; (split; [apply ok_small; [reflexivity|lra|lia]|]).
  - rewrite Rminus_0_r, Rmult_1_l, INR_IZR_INZ. split; apply int_repr; lia.
  - rewrite Rminus_0_r, INR_IZR_INZ, <- mult_IZR. split; apply int_repr; lia.
Qed.

Lemma in_order32 : forall L r0 r1 n, ok_range r0 r1 n -> @in_order b32 (Num_b32 L) (grid32 L r0 r1 n).
Proof.
  intros L r0 r1 n H. unfold in_order. rewrite grid_elts. apply sorted_map_seq. intros i j Hij Hj.
  cbn [nltb Num_b32]. destruct (elt_val _ _ _ H i ltac:(lia)) as (F1 & V1). destruct (elt_val _ _ _ H j ltac:(lia)) as (F2 & V2).
  rewrite ltb_val by auto. rewrite V1, V2. apply Rltb_false. apply gv_mono; auto. lia.
Qed.
Lemma fitter32_ready : forall L k abc names r0 r1 n nt F, ok_range r0 r1 n -> fitter32 L k abc names r0 r1 n nt F ->
  f_kind F = k /\ f_abc F = abc /\ exists A, @ready b32 F A (length names) nt /\ a_x A = grid32 L r0 r1 n.
Proof.
  intros L k abc names r0 r1 n nt F H (cub & bq & sun & vega & fs & d & d' & s & w & rows & E1 & E2 & E3 & E4 & E5).
  pose proof (n_pos _ _ _ H) as Hn.
  destruct (@L_C36_table b32 (Num_b32 L) cub bq sun vega fs d (@Fitter b32 (Num_b32 L) k abc names s r0 r1 n) d' F w rows)
    as (B1 & B2 & B3 & A & B4 & B5 & _); auto.
  - intro Z. rewrite Z in E3. cbn in E3. auto.
  - cbn [f_zs Fitter]. apply in_order32; auto.
  - change (2 <= length (grid32 L r0 r1 n))%nat. rewrite grid_length. auto.
  - cbn [f_kind f_abc f_resp Fitter f_zs] in *. split; auto. split; auto. exists A. rewrite <- E3. auto.
Qed.
Lemma ends : forall L r0 r1 n, ok_range r0 r1 n ->
  nth 0 (grid32 L r0 r1 n) (B754_zero false) = elt r0 r1 n 0 /\ last (grid32 L r0 r1 n) (B754_zero false) = elt r0 r1 n (n - 1).
Proof.
  intros L r0 r1 n H. pose proof (n_pos _ _ _ H) as Hn. rewrite grid_elts. split.
  - destruct n; [lia|]. reflexivity.
  - destruct n as [|n]; [lia|]. rewrite seq_S, map_app. cbn [map]. rewrite last_last. f_equal. lia.
Qed.
(** The rounding of (1 + z) (1 + 0) - 1. *)
Definition shift0 (z : R) : R := rnd (rnd (1 + z) - 1).
Lemma shift_val : forall (z : b32), fin32 z = true -> Rabs (val z) <= two 100 ->
  let s := sub32 (mul32 (add32 (z32 1) z) (add32 (z32 1) (B754_zero false))) (z32 1) in
  fin32 s = true /\ val s = shift0 (val z).
Proof.
  intros z Hf Hz. cbv zeta. destruct one_val as (O1 & O2).
  pose proof (two_le 100 101 ltac:(lia)) as B0. pose proof (two_le 101 126 ltac:(lia)) as B1.
  pose proof (two_le 126 127 ltac:(lia)) as B2. pose proof (two_le 0 100 ltac:(lia)) as B3. change (two 0) with 1 in B3.
  assert (E101 : two 101 = 2 * two 100) by exact (two_S 100).
  assert (E127 : two 127 = 2 * two 126) by exact (two_S 126).
  apply Rabs_le_inv in Hz.
  destruct (val_add (z32 1) z O1 Hf) as (A1 & A2).
  { change big with (two 127). rewrite O2. apply Rabs_le. lra. }
  rewrite O2 in A2.
  assert (R1 : Rabs (rnd (1 + val z)) <= two 101) by (apply rnd_two_abs; [lia|]; apply Rabs_le; lra).
  assert (C1 : fin32 (add32 (z32 1) (B754_zero false)) = true) by reflexivity.
  assert (C2 : val (add32 (z32 1) (B754_zero false)) = 1) by (unfold val; vm_compute; lra).
  destruct (val_mul (add32 (z32 1) z) (add32 (z32 1) (B754_zero false)) A1 C1) as (M1 & M2).
  { change big with (two 127). rewrite C2, A2, Rmult_1_r. lra. }
  rewrite C2, Rmult_1_r, rnd_val, A2 in M2.
  destruct (val_sub _ (z32 1) M1 O1) as (S1 & S2).
  { change big with (two 127). rewrite M2, O2. apply Rabs_le_inv in R1. apply Rabs_le. lra. }
  split; auto. rewrite S2, M2, O2. reflexivity.
Qed.
Lemma shift0_mono : forall x y, x <= y -> shift0 x <= shift0 y.
Proof. intros x y H. unfold shift0. apply rnd_le. apply Rplus_le_compat_r, rnd_le. lra. Qed.
Lemma shift0_exact : forall x, repr x -> repr (1 + x) -> shift0 x = x.
Proof.
  intros x Hx H1. unfold shift0. rewrite (rnd_repr _ H1). replace (1 + x - 1) with x by ring. apply rnd_repr; auto.
Qed.
Lemma outside32 : forall L (A : atab b32) r0 r1 n t, ok_range r0 r1 n -> a_x A = grid32 L r0 r1 n -> fin32 t = true ->
  (@outside b32 (Num_b32 L) A t <-> val t < val r0 \/ point L r0 r1 n (n - 1) < val t).
Proof.
  intros L A r0 r1 n t H EA Ht. pose proof (n_pos _ _ _ H) as Hn. unfold outside. rewrite EA. cbn [nltb n0 Num_b32].
  destruct (ends L _ _ _ H) as (-> & ->). destruct (elt_val _ _ _ H 0 ltac:(lia)) as (F1 & V1).
  destruct (elt_val _ _ _ H (n - 1) ltac:(lia)) as (F2 & V2). rewrite !ltb_val by auto.
  rewrite V1, V2, gv_0, (point_gv L _ _ _ H) by lia. unfold Rltb.
  destruct (Rlt_dec (val t) (val r0)), (Rlt_dec (gv (val r0) (val r1) n (n - 1)) (val t)); intuition (try discriminate; try lra).
Qed.

(** reconstruct (band_shift 0) of redshifts between redshift_range[0] and redshift_range[1] never fails if, besides,
    1 + redshift_range[0] and 1 + redshift_range[1] are float32 values.  The defaults qualify. *)
Lemma L_C39_reconstruct_in_range :
  forall (L : libm) k abc names (r0 r1 : b32) n nt (F : fitter b32) (objs : list (b32 * list b32)),
    ok_range r0 r1 n -> fitter32 L k abc names r0 r1 n nt F ->
    repr (val r1 - val r0) -> repr ((val r1 - val r0) * INR (n - 1)) -> repr (1 + val r0) -> repr (1 + val r1) ->
    Forall (fun zc => fin32 (fst zc) = true /\ val r0 <= val (fst zc) <= val r1 /\ length (snd zc) = nt) objs ->
    exists m, @reconstruct b32 (Num_b32 L) F (Some (vec (map fst objs))) (Some (table nt (map snd objs))) zero32 = Ok m /\
              shp m = [length objs; length names].
Proof.
  intros L k abc names r0 r1 n nt F objs H HF Hw Hp H0 H1 Ho.
  destruct (fitter32_ready _ _ _ _ _ _ _ _ _ H HF) as (_ & _ & A & HA & EA).
  pose proof (L_C39_end_exact L _ _ _ H Hw Hp) as Ee.
  assert (Ho2 : Forall (fun zc : b32 * list b32 => length (snd zc) = nt) objs).
  { eapply Forall_impl; [|exact Ho]. cbn. tauto. }
  destruct (@L_C30_reconstruct_range b32 (Num_b32 L) F A (length names) nt objs (B754_zero false) HA Ho2) as (_ & C).
  destruct C as (m & E & S & _).
  - intros zc Hin HO. rewrite Forall_forall in Ho. destruct (Ho _ Hin) as (Hf & Hz & _).
    pose proof H as (F0 & F1 & _ & A0 & A1 & _).
    assert (Hz2 : Rabs (val (fst zc)) <= two 100).
    { apply Rabs_le_inv in A0, A1. apply Rabs_le. lra. }
    destruct (shift_val (fst zc) Hf Hz2) as (S1 & S2). cbv zeta in S1, S2.
    apply (outside32 L A r0 r1 n _ H EA S1) in HO. rewrite S2, Ee in HO.
    pose proof (shift0_mono _ _ (proj1 Hz)) as M1. pose proof (shift0_mono _ _ (proj2 Hz)) as M2.
    rewrite shift0_exact in M1 by (auto; exists r0; auto). rewrite (shift0_exact (val r1)) in M2 by (auto; exists r1; auto). lra.
  - exists m. split; auto.
Qed.
Lemma x_fitter32 : forall r0 r1 n, snd (x_setup r0 r1 n) = None ->
  fitter32 x_libm Plain false x_names r0 r1 n 2 (x_fitter r0 r1 n).
Proof.
  intros r0 r1 n E. unfold fitter32.
  exists x_cub, (fun _ _ _ => Raise ValueError), (Raise OSError), (Raise OSError), (fun _ => None), x_dict, (fst (fst (x_setup r0 r1 n))).
  exists x_sed, 5%nat, x_rows. split; [reflexivity|]. split; [repeat constructor|]. split; [reflexivity|]. split; [lia|].
  change (x_setup r0 r1 n = (fst (fst (x_setup r0 r1 n)), snd (fst (x_setup r0 r1 n)), None)).
  rewrite <- E. destruct (x_setup r0 r1 n) as ((?, ?), ?). reflexivity.
Qed.
Lemma E_C39_reconstruct_in_range :
  ok_range zero32 two32 4000 /\ repr (1 + val zero32) /\ repr (1 + val two32) /\
  fitter32 x_libm Plain false x_names zero32 two32 9 2 (x_fitter zero32 two32 9).
Proof.
  assert (E2 : val two32 = 2) by (unfold val, two32; vm_compute; lra).
  rewrite E2. change (val zero32) with 0. split; [apply ok_small; [reflexivity|lra|lia]|].
  split; [rewrite Rplus_0_r; apply (int_repr 1); lia|]. split; [replace (1 + 2) with 3 by ring; apply (int_repr 3); lia|].
  apply x_fitter32. vm_compute. reflexivity.
Qed.

(** Whenever the last grid point lies below redshift_range[1], a fit at redshift_range[1] silently returns zeros. *)
Lemma L_C39_fit_at_end_zero :
  forall (L : libm) k names (r0 r1 : b32) n nt (F : fitter b32) nnls rng o cur,
    ok_range r0 r1 n -> fitter32 L k false names r0 r1 n nt F -> length names <> 1%nat -> obj_ok (length names) o ->
    o_z o = r1 -> point L r0 r1 n (n - 1) < val r1 ->
    @fit_object b32 (Num_b32 L) nnls rng F 0 o cur = Ok (Bare (vec (repeat zero32 nt)), cur).
Proof.
  intros L k names r0 r1 n nt F nnls rng o cur H HF Hn Ho Ez Hlt.
  destruct (fitter32_ready _ _ _ _ _ _ _ _ _ H HF) as (_ & Hab & A & HA & EA).
  apply (@L_C30_out_of_range_gives_zero b32 (Num_b32 L) nnls rng F A (length names)); auto.
  - left; auto.
  - apply (outside32 L A r0 r1 n); auto; [|right]; rewrite Ez; auto. apply H.
Qed.
Lemma E_C39_fit_at_end_zero :
  ok_range zero32 r07 100 /\ Rabs (val r07 - 7 / 10) <= two (-25) /\
  fitter32 x_libm Plain false x_names zero32 r07 100 2 (x_fitter zero32 r07 100) /\
  point x_libm zero32 r07 100 (100 - 1) < val r07.
Proof.
  assert (E2 : val r07 = 11744051 / 16777216) by (unfold val, r07; vm_compute; lra).
  split; [apply ok_small; [reflexivity|lra|lia]|].
  split. { rewrite E2. assert (B : two (-25) = / 33554432) by (unfold two; cbn; lra). rewrite B. apply Rabs_le. lra. }
  split; [apply x_fitter32; vm_compute; reflexivity|].
  unfold point. rewrite grid_nth by lia. rewrite E2. unfold val. vm_compute. lra.
Qed.

(** So "every redshift in redshift_range is fitted" is false: redshift_range [0, 0.7], nredshift 100, redshift 0.7. *)
Lemma L_C39_end_refuted :
  exists (r1 : b32) n (F : fitter b32), Rabs (val r1 - 7 / 10) <= two (-25) /\
    fitter32 x_libm Plain false x_names zero32 r1 n 2 F /\
    forall nnls rng m iv cur, length m = 2%nat -> length iv = 2%nat ->
      @fit_object b32 (Num_b32 x_libm) nnls rng F 0 {| o_z := r1; o_m := m; o_iv := iv |} cur =
      Ok (Bare (vec [zero32; zero32]), cur).
Proof.
  destruct E_C39_fit_at_end_zero as (A & B & C & D). exists r07, 100%nat, (x_fitter zero32 r07 100).
  split; auto. split; auto. intros nnls rng m iv cur Hm Hi.
  apply (L_C39_fit_at_end_zero x_libm Plain x_names zero32 r07 100 2); auto; [cbn; lia|split; auto].
Qed.

(** Even when the last grid point is exactly redshift_range[1], so that fit_coeffs accepts it, reconstruct raises
    there if (1 + z) - 1 rounds upwards: redshift_range [0, 0.2] with the default 4000 points. *)
Lemma L_C39_reconstruct_refuted :
  exists (r1 : b32), Rabs (val r1 - 2 / 10) <= two (-27) /\ ok_range zero32 r1 4000 /\
    (forall L, point L zero32 r1 4000 3999 = val r1) /\
    forall (L : libm) k abc names n nt (F : fitter b32) (objs : list (b32 * list b32)),
      ok_range zero32 r1 n -> point L zero32 r1 n (n - 1) = val r1 -> fitter32 L k abc names zero32 r1 n nt F ->
      Forall (fun zc => length (snd zc) = nt) objs -> In r1 (map fst objs) ->
      @reconstruct b32 (Num_b32 L) F (Some (vec (map fst objs))) (Some (table nt (map snd objs))) zero32 = Raise ValueError.
Proof.
  exists r02. assert (E2 : val r02 = 13421773 / 67108864) by (unfold val, r02; vm_compute; lra).
  split. { rewrite E2. assert (B : two (-27) = / 134217728) by (unfold two; cbn; lra). rewrite B. apply Rabs_le. lra. }
  split; [apply ok_small; [reflexivity|lra|lia]|]. split.
  { intro L. unfold point. rewrite grid_nth by lia. rewrite E2. unfold val, elt.
    replace (Z.of_nat 3999 # 1)%Q with (3999 # 1)%Q by (f_equal; lia).
    replace (Z.of_nat 4000 - 1 # 1)%Q with (3999 # 1)%Q by (f_equal; lia). vm_compute. lra. }
  intros L k abc names n nt F objs H Hp HF Hl Hin.
  destruct (fitter32_ready _ _ _ _ _ _ _ _ _ H HF) as (_ & _ & A & HA & EA).
  apply in_map_iff in Hin as (zc & Ez & Hin).
  apply (@L_C30_reconstruct_range b32 (Num_b32 L) F A (length names) nt objs (B754_zero false) HA Hl).
  exists zc. split; auto. rewrite Ez. cbn [nsub nmul nadd n1 n0 cst Num_b32].
  destruct (shift_val r02) as (S1 & S2); [reflexivity|apply H|].
  apply (outside32 L A zero32 r02 n); auto. right. rewrite Hp, E2. unfold val. vm_compute. lra.
Qed.
Lemma E_C39_reconstruct_refuted :
  ok_range zero32 r02 5 /\ point x_libm zero32 r02 5 (5 - 1) = val r02 /\
  fitter32 x_libm Plain false x_names zero32 r02 5 2 (x_fitter zero32 r02 5).
Proof.
  assert (E2 : val r02 = 13421773 / 67108864) by (unfold val, r02; vm_compute; lra).
  split; [apply ok_small; [reflexivity|lra|lia]|]. split.
  - unfold point. rewrite grid_nth by lia. rewrite E2. unfold val. vm_compute. lra.
  - apply x_fitter32. vm_compute. reflexivity.
Qed.

(** (1 + z) - 1 is within two roundings of z. *)
Lemma L_C39_shift_error :
  forall (z : b32), fin32 z = true -> 0 <= val z <= two 100 ->
    Rabs (val (sub32 (mul32 (add32 (z32 1) z) (add32 (z32 1) zero32)) (z32 1)) - val z) <= two (-22) * (1 + val z).
Proof.
  intros z Hf Hz. destruct (shift_val z Hf) as (_ & E); [rewrite Rabs_pos_eq; lra|]. cbv zeta in E.
  change zero32 with (B754_zero false : b32). rewrite E. unfold shift0.
  pose proof (rnd_err (1 + val z)) as E1. pose proof (rnd_err (rnd (1 + val z) - 1)) as E2.
  rewrite (Rabs_pos_eq (1 + val z)) in E1 by lra.
  assert (EU : two (-22) = 4 * / 16777216) by (unfold two; cbn; lra). rewrite EU.
  assert (Hh : / 2 * bpow radix2 (-149) <= / 67108864).
  { pose proof (two_le (-149) (-25) ltac:(lia)) as A. unfold two in A.
    assert (B : bpow radix2 (-25) = / 33554432) by (cbn; lra). rewrite B in A. lra. }
  pose proof (bpow_gt_0 radix2 (-149)) as Hh0. set (h := / 2 * bpow radix2 (-149)) in *.
  set (a := rnd (1 + val z)) in *. set (b := rnd (a - 1)) in *.
  assert (A1 : Rabs (a - 1) <= val z + (/ 16777216 * (1 + val z) + h)).
  { replace (a - 1) with (val z + (a - (1 + val z))) by ring. eapply Rle_trans; [apply Rabs_triang|].
    rewrite (Rabs_pos_eq (val z)) by lra. lra. }
  apply Rabs_le_inv in E1, E2. apply Rabs_le. lra.
Qed.
Lemma E_C39_shift_error : fin32 r02 = true /\ 0 <= val r02 <= two 100.
Proof.
  assert (E2 : val r02 = 13421773 / 67108864) by (unfold val, r02; vm_compute; lra).
  pose proof (two_le 0 100 ltac:(lia)) as B3. change (two 0) with 1 in B3. split; [reflexivity|lra].
Qed.

(** With nredshift=1 the only grid point is NaN, whatever the range. *)
Lemma L_C39_one_point :
  forall (L : libm) (r0 r1 : b32), fin32 r0 = true -> fin32 r1 = true -> grid32 L r0 r1 1 = [nan32].
Proof.
  intros L r0 r1 H0 H1. unfold grid32, redshift_grid. cbn [seq map]. cbn [nadd nsub nmul ndiv cst nlit Num_b32 nnat].
  change (q32 (Z.of_nat 0 # 1)) with (B754_zero false : b32). change (q32 (Z.of_nat 1 - 1 # 1)) with (B754_zero false : b32).
  f_equal. destruct (sub32 r1 r0); cbn [mul32 Bmult]; unfold div32, mul32; cbn [Bmult Bdiv]; unfold add32;
    destruct r0; try discriminate; reflexivity.
Qed.
Lemma E_C39_one_point : fin32 zero32 = true /\ fin32 two32 = true.
Proof. split; reflexivity. Qed.

Lemma mul_one32 : forall x : b32, mul32 x (z32 1) = x.
Proof.
  intro x. destruct x as [s|s| |s m e Hb] eqn:Ex; try (destruct s; reflexivity); try reflexivity.
  rewrite <- Ex. assert (Hf : fin32 x = true) by (rewrite Ex; reflexivity).
  destruct one_val as (O1 & O2).
  generalize (Bmult_correct 24 128 _ _ mode_NE x (z32 1)). change (B2R (z32 1)) with (val (z32 1)).
  rewrite O2, Rmult_1_r. cbn [round_mode]. change (round radix2 fe ZnearestE (B2R x)) with (rnd (val x)). rewrite rnd_val.
  rewrite Rlt_bool_true by (apply abs_B2R_lt_emax). intros (A & B & C).
  apply B2R_Bsign_inj.
  - unfold mul32. rewrite B. unfold fin32 in Hf. rewrite Hf. reflexivity.
  - exact Hf.
  - exact A.
  - unfold mul32. rewrite C; [rewrite Bool.xorb_false_r; reflexivity|].
    destruct (Bmult mode_NE x (z32 1)); try reflexivity. unfold fin32 in Hf. rewrite Hf in B. discriminate.
Qed.
Lemma div_one32 : forall x : b32, div32 x (z32 1) = x.
Proof.
  intro x. destruct x as [s|s| |s m e Hb] eqn:Ex; try (destruct s; reflexivity); try reflexivity.
  rewrite <- Ex. assert (Hf : fin32 x = true) by (rewrite Ex; reflexivity).
  destruct one_val as (O1 & O2).
  generalize (Bdiv_correct 24 128 _ _ mode_NE x (z32 1)). change (B2R (z32 1)) with (val (z32 1)).
  rewrite O2. intro G. specialize (G ltac:(lra)). revert G. replace (B2R x / 1) with (B2R x) by field. cbn [round_mode].
  change (round radix2 fe ZnearestE (B2R x)) with (rnd (val x)). rewrite rnd_val.
  rewrite Rlt_bool_true by (apply abs_B2R_lt_emax). intros (A & B & C).
  apply B2R_Bsign_inj.
  - unfold div32. rewrite B. exact Hf.
  - exact Hf.
  - exact A.
  - unfold div32. rewrite C; [rewrite Bool.xorb_false_r; reflexivity|].
    destruct (Bdiv mode_NE x (z32 1)); try reflexivity. unfold fin32 in Hf. rewrite Hf in B. discriminate.
Qed.

(** C38 in float32: after a set_Amatrix that succeeds the templates are at redshift 0 with bit-identical rest-frame
    arrays (x * (1 + 0) and x / (1 + 0) are x for every float32, NaN, infinities and signed zeros included). *)
Lemma L_C38_float32 :
  forall (L : libm) cub bq sun vega fs d (F : fitter b32) d' F',
    @set_Amatrix b32 (Num_b32 L) cub bq sun vega fs d F = (d', F', None) ->
    s_z (f_sed F') = zero32 /\ s_wave (f_sed F') = s_rwave (f_sed F) /\ s_flux (f_sed F') = s_rflux (f_sed F) /\
    s_rwave (f_sed F') = s_rwave (f_sed F) /\ s_rflux (f_sed F') = s_rflux (f_sed F).
Proof.
  intros L cub bq sun vega fs d F d' F' H.
  assert (E : add32 (z32 1) (B754_zero false) = z32 1) by (apply B2SF_inj; vm_compute; reflexivity).
  destruct (@L_C38_templates_back_at_zero b32 (Num_b32 L) cub bq sun vega fs d F d' F') as (A & B & C & D & G & _); auto.
  - intro x. cbn [nmul nadd n1 n0 Num_b32]. rewrite E. apply mul_one32.
  - intro x. cbn [ndiv nadd n1 n0 Num_b32]. rewrite E. apply div_one32.
Qed.
Lemma E_C38_float32 : exists d' F', 
  @set_Amatrix b32 (Num_b32 x_libm) x_cub (fun _ _ _ => Raise ValueError) (Raise OSError) (Raise OSError) (fun _ => None)
    x_dict (@Fitter b32 (Num_b32 x_libm) Plain false x_names x_sed zero32 two32 9) = (d', F', None).
Proof.
  exists (fst (fst (x_setup zero32 two32 9))), (x_fitter zero32 two32 9).
  assert (E : snd (x_setup zero32 two32 9) = None) by (vm_compute; reflexivity).
  change (x_setup zero32 two32 9 = (fst (fst (x_setup zero32 two32 9)), snd (fst (x_setup zero32 two32 9)), None)).
  rewrite <- E. destruct (x_setup zero32 two32 9) as ((?, ?), ?). reflexivity.
Qed.
