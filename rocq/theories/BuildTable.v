(** The tables of a constructed Kcorrect object in terms of its templates and responses (real arithmetic). *)
From Coq Require Import String List Arith Lia Bool ZArith QArith Qreals Reals Lra.
From Verif Require Import Base BaseLemmas Num Interp InterpReal Utils Sed Response RespDict Fitter FitSpec FitterProofs FitterMC
  FitReal FitTable FitRealThms Kcorrect KSpec KTable KcorrectThms PersistThms BuildSpec BuildProofs.
Import ListNotations.
Local Open Scope R_scope.

Lemma chunk_eq {A} n m (l r : list A) j : length r = m -> (j < n)%nat ->
  (forall i, (i < m)%nat -> nth_error l (j * m + i) = nth_error r i) -> nth_error (chunks n m l) j = Some r.
Proof.
  intros Hr Hj H. rewrite nth_error_chunks. destruct (Nat.ltb_spec j n); [|lia]. f_equal.
  apply nth_error_ext. intro i. rewrite nth_error_firstn, nth_error_skipn. destruct (Nat.ltb_spec i m).
  - apply H; auto.
  - symmetry. apply nth_error_None. lia.
Qed.

(** One table. *)
Lemma calc_A_entries cub bq sun vega fs names zs d (s : sed R) d' s' A w rows :
  s_rflux s = table w rows -> rect w rows -> rows <> [] -> in_order zs -> (2 <= length zs)%nat ->
  calc_A cub bq sun vega fs names zs d s = (d', s', Ok A) ->
  forall k z j n, nth_error zs k = Some z -> nth_error names j = Some n ->
    exists l, photometry cub d' (s_rwave s) w rows n z l /\ length l = length rows /\
      nth_error (chunks (length names) (length rows) (nth k (a_rows A) [])) j = Some l.
Proof.
  intros Hf Hr Hne Ho H2 H k z j n Hk Hj.
  set (F := {| f_kind := Plain; f_abc := false; f_resp := names; f_sed := s; f_zs := zs; f_A := None |}).
  destruct (L_C36_table R Num_R cub bq sun vega fs d F d'
    {| f_kind := Plain; f_abc := false; f_resp := names; f_sed := s'; f_zs := zs; f_A := Some A |} w rows)
    as (_ & _ & _ & A' & HA & _ & He); auto.
  { unfold set_Amatrix; cbn [F f_resp f_zs f_sed f_kind f_abc]. rewrite H. auto. }
  destruct HA as (EA & _). injection EA as <-.
  destruct (He k z j n Hk Hj) as (r & v & l & Hd & Hp & Hb & Hi).
  assert (L : length l = length rows) by (eapply bto_length_1; eauto).
  exists l. split; [exists r, v; auto|]. split; auto. apply chunk_eq; auto. apply nth_error_Some. congruence.
Qed.

Lemma photometry_ext cub (d d' : dict (resp R)) wave w rows n z l : extends d d' -> photometry cub d wave w rows n z l ->
  photometry cub d' wave w rows n z l.
Proof. intros He (r & v & H & H'). exists r, v. split; auto. Qed.

Lemma built_tables cub bq sun vega fs d k abc responses s t out map_ (r0 r1 : R) nz d' s' K w rows :
  Kcorrect cub bq sun vega fs d k abc responses s t out map_ r0 r1 nz = (d', s', Ok K) ->
  s_rflux s = table w rows -> rect w rows -> rows <> [] -> r0 < r1 -> (2 <= nz)%nat ->
  exists A Ao, kready K A Ao (length responses) (length (k_out K)) (length rows) /\
    a_x A = redshift_grid r0 r1 nz /\ a_x Ao = redshift_grid r0 r1 nz /\
    forall i z, nth_error (redshift_grid r0 r1 nz) i = Some z ->
      (forall j n, nth_error responses j = Some n ->
        exists l, photometry cub d' (s_rwave s) w rows n z l /\ length l = length rows /\
          nth_error (chunks (length responses) (length rows) (nth i (a_rows A) [])) j = Some l) /\
      (forall j n, nth_error (k_out K) j = Some n ->
        exists l, photometry cub d' (s_rwave s) w rows n z l /\ length l = length rows /\
          nth_error (chunks (length (k_out K)) (length rows) (nth i (a_rows Ao) [])) j = Some l).
Proof.
  intros H Hf Hr Hne Hrr Hnz.
  assert (HG : grid_ok (redshift_grid r0 r1 nz)) by (apply grid_sorted; auto).
  assert (HO : in_order (redshift_grid r0 r1 nz)) by (apply grid_in_order; auto).
  assert (H2 : (2 <= length (redshift_grid r0 r1 nz))%nat) by (rewrite grid_length; auto).
  destruct (L_C40_ready R Num_R cub bq sun vega fs d k abc responses s t out map_ r0 r1 nz d' s' K w rows H Hf HO Hnz)
    as (A & Ao & HK & X1 & X2 & _).
  exists A, Ao. split; auto. split; auto. split; auto. intros i z Hi.
  unfold Kcorrect, set_Amatrix in H. cbn [f_resp f_zs f_sed Fitter f_kind f_abc] in H.
  destruct (calc_A cub bq sun vega fs responses (redshift_grid r0 r1 nz) d s) as [[d0 s0] [A0|?]] eqn:EC; [|discriminate].
  cbn [f_sed f_A f_zs f_kind f_abc f_resp] in H. destruct (negb _); [discriminate|].
  set (o := match out with Some l => l | None => responses end) in *.
  destruct (calc_A_again cub bq sun vega fs fs responses (redshift_grid r0 r1 nz) d d0 d0 s s s0 A0 (same_rest_refl s)) as (_ & _ & _ & HR); auto; [intros ? ? ?; auto|].
  pose proof HR as (HRw & HRf & _).
  destruct (if names_eqb o responses then _ else _) as [[d2 s2] [A2|e]] eqn:EO; [|discriminate]. injection H as <- <- H.
  cbn [bind] in H. apply bind_ok in H as (im & _ & H). injection H as <-. cbn [k_out].
  destruct HK as ((EA & _) & EAo & _). cbn [k_fit k_Aout f_A] in EA, EAo. injection EA as ->. injection EAo as ->.
  pose proof (calc_A_entries _ _ _ _ _ _ _ _ _ _ _ _ _ _ Hf Hr Hne HO H2 EC i z) as P1.
  destruct (names_eqb o responses) eqn:EN.
  - injection EO as <- <- <-. apply names_eqb_eq in EN. rewrite EN. split; intros; apply P1; auto.
  - destruct (calc_A_again cub bq sun vega fs fs o (redshift_grid r0 r1 nz) d0 d2 d2 s0 s0 s2 Ao (same_rest_refl s0)) as (_ & _ & HE & _); auto; [intros ? ? ?; auto|].
    split.
    + intros j n Hj. destruct (P1 j n Hi Hj) as (l & Hl & Hll). exists l. split; auto. eapply photometry_ext; eauto.
    + intros j n Hj. rewrite Hf in HRf.
      destruct (calc_A_entries _ _ _ _ _ _ _ _ _ _ _ _ _ _ HRf Hr Hne HO H2 EO i z j n Hi Hj) as (l & Hl & Hll).
      rewrite HRw in Hl. exists l. auto.
Qed.

(** reconstruct and reconstruct_out at a grid redshift. *)
Lemma recon_grid (F : fitter R) A nb nt z c bs i : f_nsed F = nt -> tab_ok A nb nt -> grid_ok (a_x A) -> length c = nt ->
  (i < length (a_x A))%nat -> (1 + z) * (1 + bs) - 1 = nth i (a_x A) 0 ->
  reconstruct_ F (Some A) (Some (scal z)) (Some (vec c)) bs =
  Ok (vec (map (fun a => dot a c / (1 + bs)) (chunks nb nt (nth i (a_rows A) [])))).
Proof.
  intros Hn Ht Hg Lc Hi Hz. rewrite (reconstruct_scal F z c bs Hn Ht Lc). rcbn. rewrite map_id.
  pose proof (L_C36_at_grid_points A nb nt i Ht Hg Hi) as E. rewrite (acall_scal (nth i (a_x A) 0) Ht) in E.
  change (shifted bs z) with ((1 + z) * (1 + bs) - 1). rewrite Hz.
  destruct (out_of (a_x A) (nth i (a_x A) 0)); [discriminate|]. injection E as E.
  rewrite recon1_shift. change (shifted bs z) with ((1 + z) * (1 + bs) - 1). rewrite Hz, E.
  unfold vec, mulmv. rewrite map_map, map_length, length_chunks. auto.
Qed.

(** * Any redshift *)
Lemma photometry_unique cub d wave w rows n (z : R) l l' : photometry cub d wave w rows n z l -> photometry cub d wave w rows n z l' -> l' = l.
Proof. intros (r & v & Hd & Hp & Hb) (r' & v' & Hd' & Hp' & Hb'). rewrite Hd in Hd'. injection Hd' as <-. congruence. Qed.

Lemma model_flux_unique cub d wave w rows grid n c z x x' : grid_ok grid ->
  model_flux cub d wave w rows grid n c z x -> model_flux cub d wave w rows grid n c z x' -> x' = x.
Proof.
  intros Hg (i & z0 & z1 & l0 & l1 & u & E0 & E1 & Hu & Hz & P0 & P1 & ->) (i' & z0' & z1' & l0' & l1' & u' & E0' & E1' & Hu' & Hz' & P0' & P1' & ->).
  assert (HN : forall k v, nth_error grid k = Some v -> (k < length grid)%nat /\ nth k grid 0 = v).
  { intros k v Hk. split; [apply nth_error_Some; congruence|apply nth_error_nth; auto]. }
  destruct (HN _ _ E0) as [L0 V0], (HN _ _ E1) as [L1 V1], (HN _ _ E0') as [L0' V0'], (HN _ _ E1') as [L1' V1'].
  pose proof (grid_nth _ Hg i (S i) ltac:(lia)) as D1. pose proof (grid_nth _ Hg i' (S i') ltac:(lia)) as D2.
  rewrite V0, V1 in D1. rewrite V0', V1' in D2.
  destruct (Nat.lt_trichotomy i i') as [H|[H|H]].
  - assert (z1 <= z0').
    { destruct (Nat.eq_dec (S i) i') as [<-|]; [lra|]. pose proof (grid_nth _ Hg (S i) i' ltac:(lia)). lra. }
    assert (u = 1) by nra. assert (u' = 0) by nra. subst u u'. assert (E : z1 = z0') by nra. rewrite <- E in P0'.
    rewrite (photometry_unique _ _ _ _ _ _ _ _ _ P1 P0'). lra.
  - subst i'. rewrite E0 in E0'. rewrite E1 in E1'. injection E0' as <-. injection E1' as <-. assert (u' = u) by nra. subst u'.
    rewrite (photometry_unique _ _ _ _ _ _ _ _ _ P0 P0'), (photometry_unique _ _ _ _ _ _ _ _ _ P1 P1'). auto.
  - assert (z1' <= z0).
    { destruct (Nat.eq_dec (S i') i) as [<-|]; [lra|]. pose proof (grid_nth _ Hg (S i') i ltac:(lia)). lra. }
    assert (u' = 1) by nra. assert (u = 0) by nra. subst u u'. assert (E : z1' = z0) by nra. rewrite <- E in P0.
    rewrite (photometry_unique _ _ _ _ _ _ _ _ _ P0 P1'). lra.
Qed.

Lemma model_flux_grid cub d wave w rows grid n c z x i l : grid_ok grid ->
  model_flux cub d wave w rows grid n c z x -> nth_error grid i = Some z -> photometry cub d wave w rows n z l -> x = dot l c.
Proof.
  intros Hg (k & z0 & z1 & l0 & l1 & u & E0 & E1 & Hu & Hz & P0 & P1 & ->) Ei P.
  assert (HN : forall k v, nth_error grid k = Some v -> (k < length grid)%nat /\ nth k grid 0 = v).
  { intros j v Hk. split; [apply nth_error_Some; congruence|apply nth_error_nth; auto]. }
  destruct (HN _ _ E0) as [L0 V0], (HN _ _ E1) as [L1 V1], (HN _ _ Ei) as [Li Vi].
  pose proof (grid_nth _ Hg k (S k) ltac:(lia)) as D. rewrite V0, V1 in D.
  destruct (Nat.le_gt_cases i k) as [H|H].
  - assert (z <= z0). { destruct (Nat.eq_dec i k) as [->|]; [lra|]. pose proof (grid_nth _ Hg i k ltac:(lia)). lra. }
    assert (u = 0) by nra. subst u. assert (E : z = z0) by nra. rewrite <- E in P0. rewrite (photometry_unique _ _ _ _ _ _ _ _ _ P0 P). lra.
  - assert (z1 <= z). { destruct (Nat.eq_dec i (S k)) as [->|]; [lra|]. pose proof (grid_nth _ Hg (S k) i ltac:(lia)). lra. }
    assert (u = 1) by nra. subst u. assert (E : z = z1) by nra. rewrite <- E in P1. rewrite (photometry_unique _ _ _ _ _ _ _ _ _ P1 P). lra.
Qed.

Lemma dot_comb a b (l0 l1 c : list R) : length l0 = length l1 -> dot (lincomb a b l0 l1) c = a * dot l0 c + b * dot l1 c.
Proof.
  unfold dot, lincomb. revert l1 c. induction l0 as [|x l0 IH]; intros [|y l1] c H; try discriminate; cbn [zip fold_right].
  - destruct c; cbn; lra.
  - destruct c as [|z c]; cbn [zip fold_right]; [lra|]. rewrite IH by (cbn in H; lia). lra.
Qed.

(** Reconstruction at any redshift whose band-shifted value is in the range of the grid, for a table that holds the
    photometry of the templates. *)
Lemma recon_model cub d wave w rows (names : list string) (F : fitter R) A z c bs :
  let nt := length rows in let g := (1 + z) * (1 + bs) - 1 in
  f_nsed F = nt -> tab_ok A (length names) nt -> grid_ok (a_x A) -> in_range (a_x A) g -> length c = nt ->
  (forall i y, nth_error (a_x A) i = Some y -> forall j n, nth_error names j = Some n ->
     exists l, photometry cub d wave w rows n y l /\ length l = nt /\
       nth_error (chunks (length names) nt (nth i (a_rows A) [])) j = Some l) ->
  exists p, reconstruct_ F (Some A) (Some (scal z)) (Some (vec c)) bs = Ok (vec p) /\ length p = length names /\
    forall j n, nth_error names j = Some n ->
      exists x, model_flux cub d wave w rows (a_x A) n c g x /\ nth_error p j = Some (x / (1 + bs)).
Proof.
  intros nt g Hn Ht Hg Hin Lc HP. pose proof Ht as (_ & _ & H2 & _).
  destruct (bracket _ Hg H2 g Hin) as (k & Hk & Hkg).
  destruct (L_C36_interpolation A (length names) nt k g Ht Hg Hk Hkg) as (u & l & Hu & Eg & Ea & Ll & Hl).
  rewrite (reconstruct_scal F z c bs Hn Ht Lc). rcbn. rewrite map_id.
  change (shifted bs z) with g. rewrite (acall_scal g Ht) in Ea. destruct (out_of (a_x A) g); [discriminate|]. injection Ea as Ea.
  rewrite recon1_shift. change (shifted bs z) with g. rewrite Ea.
  eexists. split; [unfold vec; f_equal; f_equal; rewrite map_length; unfold mulmv; rewrite map_length, length_chunks; reflexivity|].
  split; [unfold mulmv; rewrite !map_length, length_chunks; auto|].
  intros j n Hj. assert (Hjn : (j < length names)%nat) by (apply nth_error_Some; congruence).
  assert (E0 : nth_error (a_x A) k = Some (nth k (a_x A) 0)) by (apply nth_error_nth'; lia).
  assert (E1 : nth_error (a_x A) (S k) = Some (nth (S k) (a_x A) 0)) by (apply nth_error_nth'; lia).
  destruct (HP _ _ E0 j n Hj) as (l0 & P0 & N0 & C0), (HP _ _ E1 j n Hj) as (l1 & P1 & N1 & C1).
  exists ((1 - u) * dot l0 c + u * dot l1 c). split; [do 6 eexists; eauto 10|].
  unfold mulmv. rewrite !nth_error_map, (chunk_eq _ _ _ (lincomb (1 - u) u l0 l1)); auto.
  - cbn [option_map]. rewrite dot_comb by lia. reflexivity.
  - unfold lincomb. rewrite length_zip. lia.
  - intros i Hi.
    assert (Hlt : (j * nt + i < length names * nt)%nat) by nia.
    rewrite (nth_error_nth' l 0) by lia. rewrite Hl.
    rewrite nth_error_chunks in C0, C1. destruct (Nat.ltb_spec j (length names)); [|lia]. injection C0 as C0. injection C1 as C1.
    assert (X : forall q r, firstn nt (skipn (j * nt) q) = r -> length r = nt -> nth (j * nt + i) q 0 = nth i r 0).
    { intros q r <- Hq. pose proof (nth_error_nth' (firstn nt (skipn (j * nt) q)) 0 ltac:(rewrite Hq; exact Hi)) as Y.
      rewrite nth_error_firstn, nth_error_skipn in Y. destruct (Nat.ltb_spec i nt); [|lia].
      rewrite (nth_error_nth _ _ 0 Y). reflexivity. }
    rewrite (X _ _ C0 N0), (X _ _ C1 N1). unfold lincomb. rewrite nth_error_zip.
    rewrite (nth_error_nth' l0 0), (nth_error_nth' l1 0) by lia. reflexivity.
Qed.
