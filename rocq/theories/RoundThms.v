(** Rounding error of the design-matrix arithmetic (C83): the proofs. *)
From Coq Require Import String List Arith Lia Bool ZArith QArith Qreals Reals Lra Sorting.Sorted Permutation.
From Flocq Require Import Core.
From Flocq Require Relative.
From Verif Require Import Base BaseLemmas Num Interp InterpReal Spec Fitter FitSpec FitterProofs FitterMC FitReal FitTable FitEx
  FitRealEx FitterThms FitRealThms Kcorrect KSpec KTable KEx KcorrectProofs KcorrectThms AbsmagProofs RoundSpec RoundProofs.
Import ListNotations.
Local Open Scope R_scope.
(* STATEMENTS *)

(** * The arithmetic with 24-bit significands *)
Lemma rnd24_rel x : rel (bpow radix2 (-24)) (rnd24 x) x.
Proof.
  unfold rel, rnd24. pose proof (Relative.relative_error_N_FLX radix2 24 eq_refl (fun z => negb (Z.even z)) x) as H.
  eapply Rle_trans; [exact H|]. apply Rmult_le_compat_r; [apply Rabs_pos|]. apply Req_le.
  change (/ 2) with (bpow radix2 (-1)). rewrite <- bpow_plus. reflexivity.
Qed.
Lemma rnd24_idem x : rnd24 (rnd24 x) = rnd24 x.
Proof.
  unfold rnd24. assert (Prec_gt_0 24) by reflexivity. apply round_generic; [apply valid_rnd_N|]. apply generic_format_round.
  - apply FLX_exp_valid. auto.
  - apply valid_rnd_N.
Qed.
Lemma rnd24_0 : rnd24 0 = 0.
Proof. apply round_0, valid_rnd_N. Qed.
Lemma rnd24_int m e : (Z.abs m < 16777216)%Z -> rnd24 (IZR m * bpow radix2 e) = IZR m * bpow radix2 e.
Proof.
  intros H. assert (Prec_gt_0 24) by reflexivity. apply round_generic; [apply valid_rnd_N|]. apply generic_format_FLX.
  exists (Float radix2 m e); [reflexivity|]. cbn. exact H.
Qed.

(** Rounding every operation to 24-bit significands (float32 without underflow and overflow) meets the standard model with
    u = 2^-24. *)
Lemma L_C83_model : std_model (bpow radix2 (-24)) Num_24 /\ std_log (bpow radix2 (-24)) Num_24 /\ rounding Num_24.
Proof.
  repeat split; intros; try apply rnd24_rel; try apply rnd24_idem; try apply rnd24_0; try reflexivity.
  - change (rnd24 (Q2R (0 # 1)) = 0). replace (Q2R (0 # 1)) with 0 by (unfold Q2R; cbn; field). apply rnd24_0.
  - change (rnd24 (Q2R (- (5) # 2)) = - (5 / 2)). replace (Q2R (- (5) # 2)) with (IZR (-5) * bpow radix2 (-1)) by (unfold Q2R; cbn; field).
    rewrite rnd24_int by lia. cbn. field.
Qed.

Lemma E_C83_model : 0 <= bpow radix2 (-24) < 1 /\ @nadd R Num_24 1 (bpow radix2 (-30)) = 1.
Proof.
  split; [cbn; lra|]. change (rnd24 (1 + bpow radix2 (-30)) = 1). unfold rnd24.
  assert (HP : Prec_gt_0 24) by reflexivity. pose proof (FLX_exp_valid 24) as HV.
  assert (F1 : generic_format radix2 (FLX_exp 24) 1).
  { apply generic_format_FLX. exists (Float radix2 1 0); [unfold F2R; cbn; lra|]. cbn. lia. }
  apply Rle_antisym.
  - apply round_N_le_midp; auto. rewrite succ_eq_pos by lra. assert (U : ulp radix2 (FLX_exp 24) 1 = bpow radix2 (-23)) by exact (ulp_bpow radix2 (FLX_exp 24) 0).
    rewrite U. cbn. lra.
  - apply round_ge_generic; auto; [apply valid_rnd_N|]. pose proof (bpow_gt_0 radix2 (-30)). lra.
Qed.

Lemma growth24 k : (k <= 11)%nat -> growth (bpow radix2 (-24)) k <= / 1000000.
Proof.
  intros Hk. assert (Hu : 0 <= bpow radix2 (-24) < 1) by (cbn; lra). pose proof (rho_ge1 _ Hu) as H1.
  unfold growth. pose proof (Rle_pow _ _ _ H1 Hk) as H. eapply Rle_trans; [apply Rplus_le_compat_r; exact H|].
  change (bpow radix2 (-24)) with (/ 16777216). replace (/ (1 - / 16777216)) with (16777216 / 16777215) by field. lra.
Qed.
Lemma r_gentle : gentle 3 r_tab 2 1.
Proof.
  intros k i Hk Hi y y'. cbn in Hk. assert (k = 0)%nat by lia. subst k.
  destruct i as [|[|i]]; [| |cbn in Hi; lia]; unfold y, y'; cbn; lra.
Qed.
Lemma r_grid : grid_ok (a_x r_tab).
Proof. cbn. repeat constructor. lra. Qed.

Lemma shifted_err u N z bs : 0 <= u < 1 -> std_model u N -> 0 <= z -> -1 < bs ->
  Rabs (@shifted R N bs (@cst R N z) - ((1 + z) * (1 + bs) - 1)) <= growth u 5 * ((1 + z) * (1 + bs) + 1).
Proof.
  intros Hu HN Hz Hb. unfold shifted. rewrite (std_1 _ _ HN).
  assert (Hc : exists t, fac u 1 t /\ 1 + @cst R N z = (1 + z) * t).
  { apply rel_fac; auto. unfold rel. pose proof (std_cst _ _ HN z) as H. unfold rel in H.
    replace (1 + @cst R N z - (1 + z)) with (@cst R N z - z) by ring. rewrite (Rabs_pos_eq z) in H by auto.
    rewrite (Rabs_pos_eq (1 + z)) by lra. nra. }
  destruct Hc as (t0 & F0 & E0).
  destruct (rel_fac _ Hu _ _ (std_add _ _ HN 1 (@cst R N z))) as (t1 & F1 & ->). rewrite E0.
  destruct (rel_fac _ Hu _ _ (std_add _ _ HN 1 bs)) as (t2 & F2 & ->).
  match goal with |- context [@nmul R N ?a ?b] => destruct (rel_fac _ Hu _ _ (std_mul _ _ HN a b)) as (t3 & F3 & ->) end.
  match goal with |- context [@nsub R N ?a ?b] => destruct (rel_fac _ Hu _ _ (std_sub _ _ HN a b)) as (t4 & F4 & ->) end.
  set (P := (1 + z) * (1 + bs)). assert (HP : 0 < P) by (unfold P; nra).
  replace ((1 + z) * t0 * t1 * ((1 + bs) * t2) * t3 - 1) with (P * (t0 * t1 * t2 * t3) - 1) by (unfold P; ring).
  pose proof (fac_mul _ Hu _ _ _ _ (fac_mul _ Hu _ _ _ _ (fac_mul _ Hu _ _ _ _ F0 F1) F2) F3) as FF. cbn [Nat.add] in FF.
  set (T := t0 * t1 * t2 * t3) in *.
  assert (E1 : Rabs (P * T - 1 - (P - 1)) <= P * growth u 4).
  { replace (P * T - 1 - (P - 1)) with (P * (T - 1)) by ring. rewrite Rabs_mult, (Rabs_pos_eq P) by lra.
    apply Rmult_le_compat_l; [lra|]. apply fac_err; auto. }
  assert (E2 : Rabs (P - 1) <= P + 1) by (apply Rabs_le; lra).
  pose proof (fac_approx _ Hu _ _ _ _ _ _ F4 E1 E2) as E. eapply Rle_trans; [exact E|].
  unfold growth. pose proof (rho_ge1 _ Hu) as G1. pose proof (rho_pow _ Hu 4) as G4. set (r := / (1 - u)) in *.
  rewrite pow_1. change (r ^ 5) with (r * r ^ 4). nra.
Qed.

Lemma out_of_std u N x t : std_model u N -> @out_of R N x t = @out_of R Num_R x t.
Proof. intros HN. unfold out_of. rewrite !(std_lt _ _ HN), (std_0 _ _ HN). reflexivity. Qed.
Lemma search_std u N x t : std_model u N -> @search R N x t = @search R Num_R x t.
Proof. intros HN. induction x as [|a x IH]; cbn [search]; auto. rewrite (std_lt _ _ HN), IH. reflexivity. Qed.

Lemma nth_zip2 (f : R -> R -> R) : forall l1 l2 i, (i < length l1)%nat -> length l2 = length l1 ->
  nth i (zip f l1 l2) 0 = f (nth i l1 0) (nth i l2 0).
Proof. induction l1 as [|a l1 IH]; intros [|b l2] [|i] H L; cbn in *; try lia; auto. apply IH; lia. Qed.

(** The interpolated table: entry by entry. *)
Lemma arow_err u N (A : atab R) nb nt t b j h : 0 <= u < 1 -> std_model u N -> tab_ok A nb nt -> grid_ok (a_x A) ->
  in_range (a_x A) t -> bounded A nt b t h -> (b < nb)%nat -> (j < nt)%nat ->
  Rabs (nth (b * nt + j) (@arow R N A t) 0 - nth (b * nt + j) (@arow R Num_R A t) 0) <= 2 * nth j h 0 * growth u 6 /\
  Rabs (nth (b * nt + j) (@arow R Num_R A t) 0) <= nth j h 0.
Proof.
  intros Hu HN (_ & Hl & H2 & Hr) Hg Hin (_ & Hh) Hb Hj. unfold arow. rewrite (search_std _ _ _ _ HN).
  set (hi := Nat.min _ _).
  assert (Hhi : (1 <= hi < length (a_x A))%nat) by (unfold hi; lia).
  assert (Hbr : nth (hi - 1) (a_x A) 0 <= t <= nth hi (a_x A) 0).
  { destruct (bracket _ Hg H2 t Hin) as (k & Hk & Hkt). unfold hi.
    destruct (Rle_lt_dec t (nth k (a_x A) 0)) as [Hle|Hgt].
    - destruct k as [|k].
      + rewrite search_first by (auto; lia). replace (Nat.min (Nat.max 1 0) (length (a_x A) - 1)) with 1%nat by lia. exact Hkt.
      + pose proof (grid_nth _ Hg k (S k) ltac:(lia)).
        rewrite (search_spec _ Hg k) by (try lia; lra).
        replace (Nat.min (Nat.max 1 (S k)) (length (a_x A) - 1)) with (S k) by lia. replace (S k - 1)%nat with k by lia. lra.
    - rewrite (search_spec _ Hg k) by (try lia; lra).
      replace (Nat.min (Nat.max 1 (S k)) (length (a_x A) - 1)) with (S k) by lia. replace (S k - 1)%nat with k by lia. lra. }
  pose proof (grid_nth _ Hg (hi - 1) hi ltac:(lia)) as Hlt.
  assert (L1 : length (nth (hi - 1) (a_rows A) []) = (nb * nt)%nat) by (apply (rect_nth Hr); lia).
  assert (L2 : length (nth hi (a_rows A) []) = (nb * nt)%nat) by (apply (rect_nth Hr); lia).
  assert (Hi : (b * nt + j < nb * nt)%nat) by nia.
  rewrite !nth_zip2 by (rewrite ?L1, ?L2; auto). rewrite !(std_0 _ _ HN).
  assert (HS : S (hi - 1) = hi) by lia.
  destruct (Hh (hi - 1)%nat j ltac:(lia) ltac:(rewrite HS; auto) Hj) as (B1 & B2). rewrite HS in B2.
  exact (entry_err u Hu N HN _ _ t _ _ _ Hlt Hbr B1 B2).
Qed.

Lemma nth_slice (l : list R) s w j : (j < w)%nat -> nth j (firstn w (skipn s l)) 0 = nth (s + j) l 0.
Proof.
  intros H. revert l w j H. induction s as [|s IH]; intros l w j H.
  - cbn [skipn Nat.add]. revert w j H. induction l as [|a l IH]; intros [|w] [|j] H; cbn; try lia; auto. apply IH. lia.
  - destruct l as [|a l]; cbn [skipn Nat.add nth]; [rewrite firstn_nil; destruct j; auto|]. apply IH; auto.
Qed.

Lemma length_arow_N (N : Num R) (A : atab R) nb nt t : tab_ok A nb nt -> length (@arow R N A t) = (nb * nt)%nat.
Proof.
  intros (_ & Hl & H2 & Hr). unfold arow. rewrite length_zip, !(rect_nth Hr) by lia. apply Nat.min_id.
Qed.

Lemma dot_abs : forall y h c, length h = length y -> length c = length y ->
  (forall j, (j < length y)%nat -> Rabs (nth j y 0) <= nth j h 0) -> Rabs (dot y c) <= dot (map Rabs c) h.
Proof.
  unfold dot. induction y as [|a y IH]; intros [|k h] [|c cs] L1 L2 Hj; try discriminate.
  - cbn. rewrite Rabs_R0. lra.
  - cbn [map zip fold_right]. eapply Rle_trans; [apply Rabs_triang|]. rewrite Rabs_mult.
    pose proof (Hj 0%nat ltac:(cbn; lia)) as H0. cbn [nth] in H0.
    pose proof (IH h cs ltac:(cbn in *; lia) ltac:(cbn in *; lia) ltac:(intros j Hl; apply (Hj (S j)); cbn; lia)).
    pose proof (Rmult_le_compat_l _ _ _ (Rabs_pos c) H0). lra.
Qed.

(** One band. *)
Lemma band_err u N (A : atab R) nb nt t b h c bs : 0 <= u < 1 -> std_model u N -> tab_ok A nb nt -> grid_ok (a_x A) ->
  in_range (a_x A) t -> bounded A nt b t h -> (b < nb)%nat -> length c = nt -> -1 < bs ->
  Rabs (@ndiv R N (@dotp R N (firstn nt (skipn (b * nt) (@arow R N A t))) (map (@cst R N) c)) (@nadd R N (@n1 R N) bs)
        - dot (firstn nt (skipn (b * nt) (@arow R Num_R A t))) c / (1 + bs))
    <= 2 * growth u (nt + 10) * dot (map Rabs c) h / (1 + bs).
Proof.
  intros Hu HN Ht Hg Hin Hh Hb Lc Hbs. pose proof Hh as (Lh & _).
  set (ys' := firstn nt (skipn (b * nt) (@arow R N A t))). set (ys := firstn nt (skipn (b * nt) (@arow R Num_R A t))).
  assert (Ly' : length ys' = nt).
  { unfold ys'. rewrite firstn_length, skipn_length, (length_arow_N N _ _ _ _ Ht). nia. }
  assert (Ly : length ys = nt).
  { unfold ys. rewrite firstn_length, skipn_length, (length_arow_N Num_R _ _ _ _ Ht). nia. }
  assert (HJ : forall j, (j < length ys)%nat ->
             Rabs (nth j ys' 0 - nth j ys 0) <= 2 * nth j h 0 * growth u 6 /\ Rabs (nth j ys 0) <= nth j h 0).
  { intros j Hj. rewrite Ly in Hj. unfold ys, ys'. rewrite !nth_slice by auto. eapply arow_err; eauto. }
  rewrite (std_1 _ _ HN). unfold dotp, nsum. rewrite (std_0 _ _ HN).
  set (l := zip (@nmul R N) ys' (map (@cst R N) c)).
  assert (Ll : length l = nt) by (unfold l; rewrite length_zip, map_length, Ly', Lc; apply Nat.min_id).
  destruct (sum_fac u Hu N HN l 0) as (t0 & ts & _ & Fs & Lts & ->). rewrite Rmult_0_l, Rplus_0_l. rewrite Ll in Fs, Lts.
  pose proof (growth_pos u Hu 6) as Hg6.
  pose proof (zip_err u Hu N HN nt (growth u 6) Hg6 ys ys' h c ts ltac:(congruence) ltac:(congruence) ltac:(congruence)
                ltac:(congruence) Fs) as HZ.
  fold l in HZ. specialize (HZ HJ).
  set (S := fold_right Rplus 0 (zip Rmult l ts)) in *.
  assert (Hd : Rabs (dot ys c) <= dot (map Rabs c) h) by (apply dot_abs; [congruence|congruence|]; intros j Hj; apply (HJ j Hj)).
  set (B := dot (map Rabs c) h) in *. assert (HB : 0 <= B) by (pose proof (Rabs_pos (dot ys c)); lra).
  destruct (rel_fac _ Hu _ _ (std_add _ _ HN 1 bs)) as (t1 & F1 & ->). pose proof (fac_pos _ Hu _ _ F1).
  destruct (rel_fac _ Hu _ _ (std_div _ _ HN S ((1 + bs) * t1) ltac:(nra))) as (t2 & F2 & ->).
  replace (S / ((1 + bs) * t1) * t2 - dot ys c / (1 + bs)) with ((S * (/ t1 * t2) - dot ys c) * / (1 + bs)) by (field; lra).
  unfold Rdiv. rewrite Rabs_mult, (Rabs_pos_eq (/ (1 + bs))) by (apply Rlt_le, Rinv_0_lt_compat; lra).
  apply Rmult_le_compat_r; [apply Rlt_le, Rinv_0_lt_compat; lra|].
  pose proof (fac_mul _ Hu _ _ _ _ (fac_inv _ Hu _ _ F1) F2) as FF. cbn [Nat.add] in FF.
  pose proof (fac_approx _ Hu _ _ _ _ _ _ FF HZ Hd) as E. eapply Rle_trans; [exact E|].
  clear E HZ HJ. unfold growth in *. pose proof (rho_pow _ Hu (nt + 2)) as P2. pose proof (rho_pow _ Hu 2) as Q2.
  set (r := / (1 - u)) in *. replace (nt + 10)%nat with (nt + 2 + 6 + 2)%nat by lia. rewrite (pow_add r (nt + 2 + 6) 2), (pow_add r (nt + 2) 6).
  set (a := r ^ (nt + 2)) in *. set (g := r ^ 6) in *. set (d := r ^ 2) in *.
  assert (X : (2 * (g - 1) * a + (a - 1)) * d + (d - 1) <= 2 * (a * g * d - 1)).
  { assert (1 <= a * d) by nra. assert (Hx : (2 * (g - 1) * a + (a - 1)) * d + (d - 1) = 2 * (a * g * d) - a * d - 1) by ring. lra. }
  pose proof (Rmult_le_compat_r _ _ _ HB X). lra.
Qed.

Lemma reconstruct_err u (N : Num R) (F : fitter R) A nb nt z c bs :
  0 <= u < 1 -> std_model u N -> f_nsed F = nt -> tab_ok A nb nt -> grid_ok (a_x A) -> length c = nt -> 0 <= z -> -1 < bs ->
  let z' := @shifted R N bs (@cst R N z) in
    (~ in_range (a_x A) z' -> @reconstruct_ R N F (Some A) (Some (scal z)) (Some (vec c)) bs = Raise ValueError) /\
    (in_range (a_x A) z' -> exists m e,
       @reconstruct_ R N F (Some A) (Some (scal z)) (Some (vec c)) bs = Ok (vec m) /\
       @reconstruct_ R Num_R F (Some A) (Some (scal z')) (Some (vec c)) 0 = Ok (vec e) /\
       length m = nb /\ length e = nb /\
       (forall b h, (b < nb)%nat -> bounded A nt b z' h ->
         Rabs (nth b m 0 - nth b e 0 / (1 + bs)) <= 2 * growth u (nt + 10) * dot (map Rabs c) h / (1 + bs)) /\
       (forall b, (b < nb)%nat -> nth b e 0 = dot (firstn nt (skipn (b * nt) (@arow R Num_R A z'))) c)).
Proof.
  intros Hu HN Hn Ht Hg Lc Hz Hbs z'.
  rewrite (@reconstruct_scal R N F A nb nt z c bs Hn Ht Lc). fold z'.
  rewrite (@reconstruct_scal R Num_R F A nb nt z' c 0 Hn Ht Lc).
  rewrite (out_of_std _ _ _ _ HN).
  assert (Ez : @shifted R Num_R 0 (@cst R Num_R z') = z') by (unfold shifted; rcbn; ring). rewrite Ez.
  assert (LN : forall (N' : Num R) (s x : R) cc, length (@recon1 R N' A nb nt s x cc) = nb).
  { intros. unfold recon1. rewrite map_length. apply length_chunks. }
  split; intros Hin.
  - destruct (@out_of R Num_R (a_x A) z') eqn:E; auto. apply out_of_range in E. contradiction.
  - rewrite (proj2 (out_of_range _ _) Hin).
    exists (@recon1 R N A nb nt bs (@cst R N z) (map (@cst R N) c)),
      (@recon1 R Num_R A nb nt 0 (@cst R Num_R z') (map (@cst R Num_R) c)).
    split; [unfold vec; rewrite LN; reflexivity|]. split; [unfold vec; rewrite LN; reflexivity|].
    split; [apply LN|]. split; [apply LN|].
    assert (HM : forall (f : list R -> R) (a : list R) b, (b < nb)%nat ->
              nth b (map f (chunks nb nt a)) 0 = f (firstn nt (skipn (b * nt) a))).
    { intros f a b Hb. apply nth_error_nth. apply map_nth_error. rewrite nth_error_chunks.
      destruct (Nat.ltb_spec b nb); [reflexivity|lia]. }
    assert (HE : forall b, (b < nb)%nat -> nth b (@recon1 R Num_R A nb nt 0 (@cst R Num_R z') (map (@cst R Num_R) c)) 0 =
              dot (firstn nt (skipn (b * nt) (@arow R Num_R A z'))) c).
    { intros b Hb. unfold recon1. rewrite Ez, HM, dotp_dot by auto.
      change (@ndiv R Num_R) with Rdiv. change (@nadd R Num_R) with Rplus. change (@n1 R Num_R) with 1.
      change (@cst R Num_R) with (fun x : R => x). rewrite map_id. field. }
    split; auto. intros b h Hb Hh. rewrite HE by auto. unfold recon1. fold z'. rewrite HM by auto. eapply band_err; eauto.
Qed.

(** reconstruct in an arithmetic that rounds: it raises ValueError or returns exactly according to the range of the
    rounded redshift z' (within growth 5 of (1+z)(1+bs)-1), and each returned flux differs from the exact interpolation and
    sum at z' by at most twice the growth of nt + 10 roundings of sum_j |c_j| h_j / (1+bs). *)
Lemma L_C83_reconstruct : forall u (N : Num R) (F : fitter R) A nb nt z c bs,
  0 <= u < 1 -> std_model u N -> ready F A nb nt -> grid_ok (a_x A) -> length c = nt -> 0 <= z -> -1 < bs ->
  exists z', Rabs (z' - ((1 + z) * (1 + bs) - 1)) <= growth u 5 * ((1 + z) * (1 + bs) + 1) /\
    (~ in_range (a_x A) z' -> @reconstruct R N F (Some (scal z)) (Some (vec c)) bs = Raise ValueError) /\
    (in_range (a_x A) z' -> exists m e,
       @reconstruct R N F (Some (scal z)) (Some (vec c)) bs = Ok (vec m) /\
       @reconstruct R Num_R F (Some (scal z')) (Some (vec c)) 0 = Ok (vec e) /\
       length m = nb /\ length e = nb /\
       forall b h, (b < nb)%nat -> bounded A nt b z' h ->
         Rabs (nth b m 0 - nth b e 0 / (1 + bs)) <= 2 * growth u (nt + 10) * dot (map Rabs c) h / (1 + bs)).
Proof.
  intros u N F A nb nt z c bs Hu HN (HA & _ & Hn & Ht) Hg Lc Hz Hbs.
  exists (@shifted R N bs (@cst R N z)). split; [apply shifted_err; auto|].
  unfold reconstruct. rewrite HA.
  destruct (reconstruct_err u N F A nb nt z c bs Hu HN Hn Ht Hg Lc Hz Hbs) as (H1 & H2). split; auto.
  intros Hin. destruct (H2 Hin) as (m & e & X1 & X2 & X3 & X4 & X5 & _). exists m, e. auto.
Qed.

Lemma E_C83_reconstruct : ready r_fitter r_tab 2 1 /\ grid_ok (a_x r_tab) /\ bounded r_tab 1 1 (/ 2) [4] /\
  growth (bpow radix2 (-24)) 11 <= / 1000000 /\
  exists m, @reconstruct R Num_24 r_fitter (Some (scal (/ 2))) (Some (vec [2])) (/ 10) = Ok (vec m).
Proof.
  destruct r_kready as (HR & _). split; [exact HR|]. split; [apply r_grid|]. split.
  { split; auto. intros k j Hk Hkt Hj. cbn in Hk. assert (k = 0)%nat by lia. assert (j = 0)%nat by lia. subst. cbn.
    rewrite !Rabs_pos_eq by lra. lra. }
  split; [apply growth24; lia|].
  destruct L_C83_model as (HN & _ & _).
  destruct (L_C83_reconstruct (bpow radix2 (-24)) Num_24 r_fitter r_tab 2 1 (/ 2) [2] (/ 10) ltac:(cbn; lra) HN HR r_grid
              eq_refl ltac:(lra) ltac:(lra)) as (z' & Hz & _ & H).
  destruct H as (m & e & Hm & _); [|exists m; exact Hm].
  pose proof (growth24 5 ltac:(lia)) as G. apply Rabs_le_inv in Hz. unfold in_range. cbn. lra.
Qed.

(** Tables that change gently. *)
Lemma gentle_entry kappa y0 y1 w : 0 < y0 -> 0 < y1 -> y0 <= kappa * y1 -> y1 <= kappa * y0 -> 0 <= w <= 1 ->
  let y := (1 - w) * y0 + w * y1 in 0 < y /\ y0 <= kappa * y /\ y1 <= kappa * y.
Proof.
  intros H0 H1 K0 K1 Hw y. assert (Hk : 0 < kappa) by nra. assert (Hk1 : 1 <= kappa).
  { destruct (Rle_lt_dec 1 kappa); auto. exfalso. nra. }
  assert (0 <= (kappa - 1) * y0) by nra. assert (0 <= (kappa - 1) * y1) by nra. unfold y. repeat split; [nra| |].
  - replace (kappa * ((1 - w) * y0 + w * y1)) with ((1 - w) * (kappa * y0) + w * (kappa * y1)) by ring. nra.
  - replace (kappa * ((1 - w) * y0 + w * y1)) with ((1 - w) * (kappa * y0) + w * (kappa * y1)) by ring. nra.
Qed.
Lemma gentle_bounded kappa (A : atab R) nb nt b t : tab_ok A nb nt -> grid_ok (a_x A) -> in_range (a_x A) t ->
  gentle kappa A nb nt -> (b < nb)%nat ->
  let ys := firstn nt (skipn (b * nt) (@arow R Num_R A t)) in
  bounded A nt b t (map (Rmult kappa) ys) /\ length ys = nt /\ forall j, (j < nt)%nat -> 0 < nth j ys 0.
Proof.
  intros Ht Hg Hin Hk Hb ys.
  assert (Ly : length ys = nt).
  { unfold ys. rewrite firstn_length, skipn_length, (length_arow_N Num_R _ _ _ _ Ht). nia. }
  pose proof Ht as (_ & Hl & H2 & Hr).
  assert (HH : forall k j, (S k < length (a_x A))%nat -> nth k (a_x A) 0 <= t <= nth (S k) (a_x A) 0 -> (j < nt)%nat ->
    0 < nth j ys 0 /\ Rabs (nth (b * nt + j) (nth k (a_rows A) []) 0) <= kappa * nth j ys 0 /\
    Rabs (nth (b * nt + j) (nth (S k) (a_rows A) []) 0) <= kappa * nth j ys 0).
  { intros k j Hkk Hkt Hj. assert (Hi : (b * nt + j < nb * nt)%nat) by nia.
    unfold ys. rewrite nth_slice by auto. rewrite (arow_between A nb nt k t Ht Hg Hkk Hkt).
    pose proof (weight_01 _ _ _ (grid_nth _ Hg k (S k) ltac:(lia)) Hkt) as Hw.
    set (w := (t - _) / _) in *.
    assert (L1 : length (nth k (a_rows A) []) = (nb * nt)%nat) by (apply (rect_nth Hr); lia).
    assert (L2 : length (nth (S k) (a_rows A) []) = (nb * nt)%nat) by (apply (rect_nth Hr); lia).
    rewrite nth_zip2 by (rewrite ?L1, ?L2; auto).
    destruct (Hk k (b * nt + j)%nat Hkk Hi) as (G1 & G2 & G3 & G4).
    rewrite !Rabs_pos_eq by (apply Rlt_le; assumption). apply gentle_entry; auto. }
  split; [|split; auto].
  - split; [rewrite map_length; auto|]. intros k j Hkk Hkt Hj.
    rewrite (nth_indep (map (Rmult kappa) ys) 0 (Rmult kappa 0)) by (rewrite map_length; lia). rewrite map_nth.
    destruct (HH k j Hkk Hkt Hj) as (_ & X & Y). auto.
  - intros j Hj. destruct (bracket _ Hg H2 t Hin) as (k & Hkk & Hkt). apply (HH k j); auto.
Qed.
Lemma dot_kappa kappa : forall c y, nonneg c -> length y = length c -> dot (map Rabs c) (map (Rmult kappa) y) = kappa * dot y c.
Proof.
  unfold dot. induction c as [|a c IH]; intros [|b y] Hc L; try discriminate; cbn [map zip fold_right]; [ring|].
  inversion Hc; subst. rewrite IH by (auto; cbn in L; lia). rewrite Rabs_pos_eq by auto. ring.
Qed.
Lemma dot_pos : forall c y, nonneg c -> length y = length c -> (forall j, (j < length c)%nat -> 0 < nth j y 0) ->
  0 <= dot y c /\ (0 < fold_right Rplus 0 c -> 0 < dot y c).
Proof.
  unfold dot. induction c as [|a c IH]; intros [|b y] Hc L Hy; try discriminate; cbn [zip fold_right]; [lra|].
  inversion Hc as [|? ? Ha Hc']; subst.
  destruct (IH y Hc' ltac:(cbn in L; lia) ltac:(intros j Hj; apply (Hy (S j)); cbn; lia)) as [I1 I2].
  pose proof (Hy 0%nat ltac:(cbn; lia)) as Hb. cbn [nth] in Hb. split; [nra|]. intros Hs.
  destruct (Rle_lt_or_eq_dec _ _ Ha) as [Hp| <-].
  - pose proof (Rmult_lt_0_compat _ _ Hb Hp). lra.
  - assert (0 < fold_right Rplus 0 c) by lra. specialize (I2 H). lra.
Qed.

Lemma reconstruct_rel u (N : Num R) (F : fitter R) A nb nt z c bs kappa :
  0 <= u < 1 -> std_model u N -> f_nsed F = nt -> tab_ok A nb nt -> grid_ok (a_x A) -> length c = nt -> 0 <= z -> -1 < bs ->
  gentle kappa A nb nt -> nonneg c -> 0 < fold_right Rplus 0 c ->
  let z' := @shifted R N bs (@cst R N z) in
    in_range (a_x A) z' -> exists m e,
       @reconstruct_ R N F (Some A) (Some (scal z)) (Some (vec c)) bs = Ok (vec m) /\
       @reconstruct_ R Num_R F (Some A) (Some (scal z')) (Some (vec c)) 0 = Ok (vec e) /\
       length m = nb /\ length e = nb /\
       forall b, (b < nb)%nat -> 0 < nth b e 0 /\
         rel (2 * kappa * growth u (nt + 10)) (nth b m 0) (nth b e 0 / (1 + bs)).
Proof.
  intros Hu HN Hn Ht Hg Lc Hz Hbs Hk Hc Hs z' Hin.
  destruct (reconstruct_err u N F A nb nt z c bs Hu HN Hn Ht Hg Lc Hz Hbs) as (_ & H2).
  destruct (H2 Hin) as (m & e & X1 & X2 & X3 & X4 & X5 & X6). exists m, e. repeat (split; auto).
  - destruct (gentle_bounded kappa A nb nt b _ Ht Hg Hin Hk H) as (G1 & G2 & G3). rewrite X6 by auto.
    apply dot_pos; auto; [rewrite Lc; exact G2|]. rewrite Lc. exact G3.
  - destruct (gentle_bounded kappa A nb nt b _ Ht Hg Hin Hk H) as (G1 & G2 & G3).
    pose proof (X5 b _ H G1) as E. rewrite dot_kappa in E by (auto; rewrite Lc; exact G2). rewrite <- X6 in E by auto.
    unfold rel. eapply Rle_trans; [exact E|].
    assert (P : 0 <= nth b e 0). { rewrite X6 by auto. apply dot_pos; auto; [rewrite Lc; exact G2|]. rewrite Lc. exact G3. }
    rewrite (Rabs_pos_eq (nth b e 0 / (1 + bs))) by (apply Rmult_le_pos; auto; apply Rlt_le, Rinv_0_lt_compat; lra).
    apply Req_le. field. lra.
Qed.

(** If neighbouring grid tables differ by a factor of at most kappa in every entry and the coefficients are nonnegative and
    not all 0, each flux returned has a relative error of at most 2 kappa times the growth of nt + 10 roundings. *)
Lemma L_C83_relative : forall u (N : Num R) (F : fitter R) A nb nt z c bs kappa,
  0 <= u < 1 -> std_model u N -> ready F A nb nt -> grid_ok (a_x A) -> length c = nt -> 0 <= z -> -1 < bs ->
  gentle kappa A nb nt -> nonneg c -> 0 < fold_right Rplus 0 c ->
  exists z', Rabs (z' - ((1 + z) * (1 + bs) - 1)) <= growth u 5 * ((1 + z) * (1 + bs) + 1) /\
    (in_range (a_x A) z' -> exists m e,
       @reconstruct R N F (Some (scal z)) (Some (vec c)) bs = Ok (vec m) /\
       @reconstruct R Num_R F (Some (scal z')) (Some (vec c)) 0 = Ok (vec e) /\
       length m = nb /\ length e = nb /\
       forall b, (b < nb)%nat -> 0 < nth b e 0 /\
         rel (2 * kappa * growth u (nt + 10)) (nth b m 0) (nth b e 0 / (1 + bs))).
Proof.
  intros u N F A nb nt z c bs kappa Hu HN (HA & _ & Hn & Ht) Hg Lc Hz Hbs Hk Hc Hs.
  exists (@shifted R N bs (@cst R N z)). split; [apply shifted_err; auto|].
  unfold reconstruct. rewrite HA. apply (reconstruct_rel u N F A nb nt z c bs kappa); auto.
Qed.

Lemma E_C83_relative : ready r_fitter r_tab 2 1 /\ grid_ok (a_x r_tab) /\ gentle 3 r_tab 2 1 /\ nonneg [2] /\
  0 < fold_right Rplus 0 [2] /\ 2 * 3 * growth (bpow radix2 (-24)) (1 + 10) <= 6 / 1000000.
Proof.
  destruct r_kready as (HR & _). split; [exact HR|]. split; [apply r_grid|]. split; [apply r_gentle|].
  split; [constructor; [lra|constructor]|]. split; [cbn; lra|]. pose proof (growth24 11 ltac:(lia)). cbn [Nat.add]. lra.
Qed.

(** * K-corrections *)
Lemma log10_le x y : 0 < x -> x <= y -> log10 x <= log10 y.
Proof.
  intros Hx [H| ->]; [|lra]. unfold log10. pose proof ln10_pos. apply Rmult_le_compat_r; [apply Rlt_le, Rinv_0_lt_compat; auto|].
  apply Rlt_le, ln_increasing; auto.
Qed.
Lemma log10_inv x : 0 < x -> log10 (/ x) = - log10 x.
Proof. intros H. unfold log10. rewrite ln_Rinv by auto. unfold Rdiv. ring. Qed.

(** A computed sum of nonnegative coefficients, one of them positive, is positive. *)
Lemma sum_pos u N c : 0 <= u < 1 -> std_model u N -> nonneg c -> 0 < fold_right Rplus 0 c ->
  @nltb R N (@n0 R N) (@nsum R N (map (@cst R N) c)) = true.
Proof.
  intros Hu HN Hc Hs. rewrite (std_lt _ _ HN), (std_0 _ _ HN). apply Rltb_true. unfold nsum. rewrite (std_0 _ _ HN).
  destruct (sum_fac u Hu N HN (map (@cst R N) c) 0) as (t0 & ts & _ & Fs & L & ->). rewrite Rmult_0_l, Rplus_0_l.
  rewrite map_length in *. revert ts Fs L Hs. generalize (length c) at 1. intros k.
  assert (G : forall ts, Forall (fac u k) ts -> length ts = length c ->
              0 <= fold_right Rplus 0 (zip Rmult (map (@cst R N) c) ts) /\
              (0 < fold_right Rplus 0 c -> 0 < fold_right Rplus 0 (zip Rmult (map (@cst R N) c) ts))).
  { induction Hc as [|a c Ha Hc IH]; intros [|t ts] Fs L; try discriminate; cbn [map zip fold_right]; [split; lra|].
    inversion Fs as [|? ? F0 F1]; subst. destruct (IH ts F1 ltac:(cbn in L; lia)) as [I1 I2].
    destruct (rel_fac _ Hu _ _ (std_cst _ _ HN a)) as (s & Gs & ->).
    pose proof (fac_pos _ Hu _ _ F0). pose proof (fac_pos _ Hu _ _ Gs).
    assert (Hst : 0 < s * t) by nra.
    replace (a * s * t) with (a * (s * t)) by ring.
    pose proof (Rmult_le_pos _ _ Ha (Rlt_le _ _ Hst)). split; [lra|]. intros Hs.
    destruct (Rle_lt_or_eq_dec _ _ Ha) as [Hp| <-].
    - pose proof (Rmult_lt_0_compat _ _ Hp Hst). lra.
    - assert (0 < fold_right Rplus 0 c) by lra. specialize (I2 H2). lra. }
  intros ts Fs L Hs. apply (G ts Fs L); auto.
Qed.

(** A relative error as a factor. *)
Lemma rel_bounds eta x X : 0 <= eta < 1 -> 0 < X -> rel eta x X -> 0 < x /\ (1 - eta) <= x / X <= 1 + eta.
Proof.
  unfold rel. intros He HX H. rewrite (Rabs_pos_eq X) in H by lra. apply Rabs_le_inv in H.
  assert (0 < x) by nra. split; auto. split.
  - apply Rmult_le_reg_r with X; auto. unfold Rdiv. rewrite Rmult_assoc, Rinv_l by lra. lra.
  - apply Rmult_le_reg_r with X; auto. unfold Rdiv. rewrite Rmult_assoc, Rinv_l by lra. lra.
Qed.

Lemma mag_err u N eta x y X Y : 0 <= u < 1 -> std_model u N -> std_log u N -> 0 <= eta < 1 -> 0 < X -> 0 < Y ->
  rel eta x X -> rel eta y Y ->
  Rabs (@nmul R N (@nlit R N (-(5) # 2)) (@nlog10 R N (@ndiv R N x y)) - - (5 / 2) * log10 (X / Y)) <=
    5 / 2 * (log10 ((1 + eta) / (1 - eta) / (1 - u)) * (1 + growth u 2) + Rabs (log10 (X / Y)) * growth u 2).
Proof.
  intros Hu HN HL He HX HY Hx Hy.
  destruct (rel_bounds _ _ _ He HX Hx) as (Px & Bx). destruct (rel_bounds _ _ _ He HY Hy) as (Py & By).
  destruct (rel_fac _ Hu _ _ (std_div _ _ HN x y ltac:(lra))) as (t1 & F1 & ->). pose proof (fac_pos _ Hu _ _ F1) as P1.
  assert (Pq : 0 < x / y * t1) by (apply Rmult_lt_0_compat; auto; apply Rdiv_lt_0_compat; auto).
  destruct (rel_fac _ Hu _ _ (std_log10 _ _ HL _ Pq)) as (t2 & F2 & ->).
  match goal with |- context [@nmul R N ?a ?b] => destruct (rel_fac _ Hu _ _ (std_mul _ _ HN a b)) as (t3 & F3 & ->) end.
  rewrite (std_lit25 _ _ HL).
  set (th := (x / X) * / (y / Y) * t1).
  assert (Hry : 0 < y / Y) by lra. assert (Hrx : 0 < x / X) by lra.
  assert (Eq : x / y * t1 = X / Y * th) by (unfold th; field; lra). rewrite Eq.
  assert (Pth : 0 < th). { unfold th. apply Rmult_lt_0_compat; auto. apply Rmult_lt_0_compat; auto. apply Rinv_0_lt_compat; auto. }
  rewrite log10_mult by (auto; apply Rdiv_lt_0_compat; auto).
  set (L := log10 (X / Y)). set (M := (1 + eta) / (1 - eta) / (1 - u)).
  assert (HM : 0 < M) by (unfold M; repeat apply Rdiv_lt_0_compat; lra).
  destruct F1 as [G1 G2]. rewrite pow_1 in G1, G2.
  assert (Hi1 : / (y / Y) <= / (1 - eta)) by (apply Rinv_le_contravar; lra).
  assert (Hi2 : / (1 + eta) <= / (y / Y)) by (apply Rinv_le_contravar; lra).
  assert (Pi1 : 0 < / (1 + eta)) by (apply Rinv_0_lt_compat; lra).
  assert (Pi2 : 0 < / (1 - u)) by (apply Rinv_0_lt_compat; lra).
  assert (T1 : th <= M).
  { unfold th, M, Rdiv at 2 3. apply Rmult_le_compat; auto; [|lra|]; [nra|]. apply Rmult_le_compat; lra. }
  assert (T2 : / M <= th).
  { unfold M. replace (/ ((1 + eta) / (1 - eta) / (1 - u))) with ((1 - eta) * / (1 + eta) * / / (1 - u))
      by (rewrite Rinv_inv; field; lra).
    unfold th. apply Rmult_le_compat; auto.
    - apply Rmult_le_pos; lra.
    - apply Rlt_le, Rinv_0_lt_compat; auto.
    - apply Rmult_le_compat; lra. }
  assert (HT : Rabs (log10 th) <= log10 M).
  { apply Rabs_le. split; [|apply log10_le; auto].
    rewrite <- log10_inv by auto. apply log10_le; auto. apply Rinv_0_lt_compat; auto. }
  pose proof (fac_mul _ Hu _ _ _ _ F2 F3) as FF. cbn [Nat.add] in FF.
  replace (- (5 / 2) * ((L + log10 th) * t2) * t3 - - (5 / 2) * L) with (- (5 / 2) * ((L + log10 th) * (t2 * t3) - L)) by ring.
  rewrite Rabs_mult, Rabs_Ropp, (Rabs_pos_eq (5 / 2)) by lra. apply Rmult_le_compat_l; [lra|].
  assert (E1 : Rabs (L + log10 th - L) <= log10 M) by (replace (L + log10 th - L) with (log10 th) by ring; auto).
  pose proof (fac_approx _ Hu _ _ _ _ _ _ FF E1 (Rle_refl (Rabs L))) as E. eapply Rle_trans; [exact E|].
  unfold growth. lra.
Qed.

(** kcorrect in an arithmetic that rounds: if the fluxes x, y that reconstruct and reconstruct_out compute have relative error
    at most eta (with respect to any X, Y), the K-correction is within 2.5 log10 of (1 + eta) / (1 - eta), plus the rounding of
    three operations, of -2.5 log10(X / Y). *)
Lemma L_C83_kcorrect : forall u (N : Num R) (K : kcor R) A Ao nb no nt z c bs x y,
  0 <= u < 1 -> std_model u N -> std_log u N -> rounding N -> @kready R N K A Ao nb no nt -> length c = nt ->
  nonneg c -> 0 < fold_right Rplus 0 c ->
  @reconstruct R N (k_fit K) (Some (scal z)) (Some (vec c)) 0 = Ok x ->
  @reconstruct_out R N K (Some (scal 0)) (Some (vec c)) bs = Ok y ->
  exists v, @kcorrect R N K (Some (scal z)) (Some (vec c)) bs = Ok (vec v) /\ length v = no /\
    forall j eta X Y, (j < no)%nat -> 0 <= eta < 1 -> 0 < X -> 0 < Y ->
      rel eta (nth (in_band K j) (dat x) 0) X -> rel eta (nth j (dat y) 0) Y ->
      Rabs (nth j v 0 - - (5 / 2) * log10 (X / Y)) <=
        5 / 2 * (log10 ((1 + eta) / (1 - eta) / (1 - u)) * (1 + growth u 2) + Rabs (log10 (X / Y)) * growth u 2).
Proof.
  intros u N K A Ao nb no nt z c bs x y Hu HN HL HR HK Lc Hc Hs Ex Ey.
  assert (Z0 : @nmul R N (@nlit R N (0 # 1)) (@cst R N z) = @n0 R N).
  { rewrite (std_0 _ _ HN), (std_lit0 _ _ HL). destruct (rel_fac _ Hu _ _ (std_mul _ _ HN 0 (@cst R N z))) as (t & _ & ->). ring. }
  destruct (L_C41_definition R N K A Ao nb no nt z c bs HR HK Lc Z0) as (_ & _ & HD).
  rewrite (std_0 _ _ HN) in HD. destruct (HD x y Ex Ey) as (v & Ev & Lv & Hv). exists v. split; auto. split; auto.
  intros j eta X Y Hj He HX HY Hx Hy. destruct (Hv j Hj) as (xj & yj & N1 & N2 & N3).
  rewrite (nth_error_nth _ _ _ N3). rewrite (nth_error_nth _ _ 0 N1) in Hx. rewrite (nth_error_nth _ _ 0 N2) in Hy.
  pose proof (sum_pos u N c Hu HN Hc Hs) as SP. rewrite (std_0 _ _ HN) in SP. rewrite SP. eapply mag_err; eauto.
Qed.

Lemma E_C83_kcorrect : kready r_kcor r_tab r_tab 2 2 1 /\ nonneg [2] /\ 0 < fold_right Rplus 0 [2] /\
  rel (/ 10) 21 20 /\ rel (/ 10) 19 20.
Proof.
  split; [exact r_kready|]. split; [constructor; [lra|constructor]|]. split; [cbn; lra|].
  unfold rel. split; (apply Rabs_le; rewrite Rabs_pos_eq; lra).
Qed.

(** End to end: with gentle tables, kcorrect returns -2.5 log10 of the ratio of the exact fluxes, at redshifts z1, z2 that are
    the rounded redshift and the rounded band shift, to the accuracy of the previous theorems. *)
Lemma L_C83_kcorrect_tables : forall u (N : Num R) (K : kcor R) A Ao nb no nt z c bs kappa,
  0 <= u < 1 -> std_model u N -> std_log u N -> rounding N -> @kready R N K A Ao nb no nt -> length c = nt ->
  grid_ok (a_x A) -> grid_ok (a_x Ao) -> gentle kappa A nb nt -> gentle kappa Ao no nt ->
  nonneg c -> 0 < fold_right Rplus 0 c -> 0 <= z -> -1 < bs ->
  let eta := 2 * kappa * growth u (nt + 10) in 0 <= eta < 1 ->
  exists z1 z2, Rabs (z1 - z) <= growth u 5 * (2 + z) /\ Rabs (z2 - bs) <= growth u 5 * (2 + bs) /\
    (in_range (a_x A) z1 -> in_range (a_x Ao) z2 -> exists v e1 e2,
       @kcorrect R N K (Some (scal z)) (Some (vec c)) bs = Ok (vec v) /\
       @reconstruct R Num_R (k_fit K) (Some (scal z1)) (Some (vec c)) 0 = Ok (vec e1) /\
       @reconstruct_out R Num_R K (Some (scal z2)) (Some (vec c)) 0 = Ok (vec e2) /\
       length v = no /\ length e1 = nb /\ length e2 = no /\
       forall j, (j < no)%nat ->
         let f1 := nth (in_band K j) e1 0 in
         let f2 := nth j e2 0 / (1 + bs) in
         0 < f1 /\ 0 < f2 /\
         Rabs (nth j v 0 - - (5 / 2) * log10 (f1 / f2)) <=
           5 / 2 * (log10 ((1 + eta) / (1 - eta) / (1 - u)) * (1 + growth u 2) + Rabs (log10 (f1 / f2)) * growth u 2)).
Proof.
  intros u N K A Ao nb no nt z c bs kappa Hu HN HL HR HK Lc Hg Hgo Hk Hko Hc Hs Hz Hbs eta He.
  pose proof HK as ((HA & Hb & Hn & Ht) & HAo & Hto & Lo & Li & Hi).
  exists (@shifted R N 0 (@cst R N z)), (@shifted R N bs (@cst R N 0)).
  split. { pose proof (shifted_err u N z 0 Hu HN Hz ltac:(lra)) as E. replace ((1 + z) * (1 + 0) - 1) with z in E by ring.
           replace ((1 + z) * (1 + 0) + 1) with (2 + z) in E by ring. exact E. }
  split. { pose proof (shifted_err u N 0 bs Hu HN ltac:(lra) Hbs) as E. replace ((1 + 0) * (1 + bs) - 1) with bs in E by ring.
           replace ((1 + 0) * (1 + bs) + 1) with (2 + bs) in E by ring. exact E. }
  intros I1 I2.
  destruct (reconstruct_rel u N (k_fit K) A nb nt z c 0 kappa Hu HN Hn Ht Hg Lc Hz ltac:(lra) Hk Hc Hs I1)
    as (m1 & e1 & X1 & X2 & X3 & X4 & X5).
  destruct (reconstruct_rel u N (k_fit K) Ao no nt 0 c bs kappa Hu HN Hn Hto Hgo Lc ltac:(lra) Hbs Hko Hc Hs I2)
    as (m2 & e2 & Y1 & Y2 & Y3 & Y4 & Y5).
  destruct (L_C83_kcorrect u N K A Ao nb no nt z c bs (vec m1) (vec m2) Hu HN HL HR HK Lc Hc Hs) as (v & Ev & Lv & Hv).
  { unfold reconstruct. rewrite HA. exact X1. }
  { unfold reconstruct_out. rewrite HAo. exact Y1. }
  exists v, e1, e2. split; auto. split; [unfold reconstruct; rewrite HA; exact X2|].
  split; [unfold reconstruct_out; rewrite HAo; exact Y2|]. split; auto. split; auto. split; auto.
  intros j Hj f1 f2.
  assert (Hib : (in_band K j < nb)%nat).
  { unfold in_band. rewrite Forall_forall in Hi. apply Hi, nth_In. lia. }
  destruct (X5 _ Hib) as (P1 & R1). destruct (Y5 j Hj) as (P2 & R2).
  assert (Pf1 : 0 < f1) by exact P1. assert (Pf2 : 0 < f2) by (apply Rdiv_lt_0_compat; auto; lra).
  split; auto. split; auto. apply Hv; auto.
  cbn [dat vec]. replace f1 with (nth (in_band K j) e1 0 / (1 + 0)) by (unfold f1; field). exact R1.
Qed.

Lemma E_C83_kcorrect_tables : kready r_kcor r_tab r_tab 2 2 1 /\
  0 <= 2 * 3 * growth (bpow radix2 (-24)) (1 + 10) < 1 /\
  exists v, @kcorrect R Num_24 r_kcor (Some (scal (/ 2))) (Some (vec [2])) (/ 10) = Ok (vec v).
Proof.
  split; [exact r_kready|].
  assert (Hu : 0 <= bpow radix2 (-24) < 1) by (cbn; lra).
  assert (He : 0 <= 2 * 3 * growth (bpow radix2 (-24)) (1 + 10) < 1).
  { pose proof (growth24 11 ltac:(lia)). pose proof (growth_pos _ Hu 11). cbn [Nat.add]. lra. }
  split; [exact He|]. destruct L_C83_model as (HN & HL & HR).
  destruct (L_C83_kcorrect_tables (bpow radix2 (-24)) Num_24 r_kcor r_tab r_tab 2 2 1 (/ 2) [2] (/ 10) 3 Hu HN HL HR r_kready
              eq_refl r_grid r_grid r_gentle r_gentle) as (z1 & z2 & H1 & H2 & H); auto.
  - constructor; [lra|constructor].
  - cbn; lra.
  - lra.
  - lra.
  - pose proof (growth24 5 ltac:(lia)) as G. apply Rabs_le_inv in H1, H2.
    destruct H as (v & _ & _ & Hv & _); [| |exists v; exact Hv]; unfold in_range; cbn; lra.
Qed.

(** * Absolute magnitudes *)
Lemma absmag1_err u N m iv dm k : 0 <= u < 1 -> std_model u N -> std_log u N -> 0 < m -> 0 < iv ->
  Rabs (@absmag1 R N (@cst R N m) (@cst R N iv) dm k - (- (5 / 2) * log10 m - dm - k)) <=
    5 / 2 * log10 (/ (1 - u)) * (1 + growth u 6) + growth u 6 * (5 / 2 * Rabs (log10 m) + Rabs dm + Rabs k).
Proof.
  intros Hu HN HL Hm Hi. unfold absmag1, m25. rewrite !(std_lt _ _ HN), !(std_le _ _ HN), (std_0 _ _ HN).
  destruct (rel_fac _ Hu _ _ (std_cst _ _ HN m)) as (t0 & F0 & ->). pose proof (fac_pos _ Hu _ _ F0) as P0.
  destruct (rel_fac _ Hu _ _ (std_cst _ _ HN iv)) as (s0 & G0 & ->). pose proof (fac_pos _ Hu _ _ G0) as Q0.
  assert (H1 : 0 < m * t0) by nra. assert (H2 : 0 < iv * s0) by nra.
  rewrite !Rltb_true, !Rleb_false by auto. cbn [andb orb].
  destruct (rel_fac _ Hu _ _ (std_log10 _ _ HL _ H1)) as (t1 & F1 & ->). rewrite (std_lit25 _ _ HL).
  rewrite Num.log10_mult by auto. set (L := log10 m). set (lam := log10 t0).
  match goal with |- context [@nmul R N ?a ?b] => destruct (rel_fac _ Hu _ _ (std_mul _ _ HN a b)) as (t2 & F2 & ->) end.
  match goal with |- context [@nsub R N (@cst R N ?a) _] => destruct (rel_fac _ Hu _ _ (std_cst _ _ HN a)) as (t3 & F3 & ->) end.
  match goal with |- context [@nsub R N (@nsub R N ?a ?b) _] => destruct (rel_fac _ Hu _ _ (std_sub _ _ HN a b)) as (t4 & F4 & ->) end.
  match goal with |- context [@nsub R N ?a ?b] => destruct (rel_fac _ Hu _ _ (std_sub _ _ HN a b)) as (t5 & F5 & ->) end.
  match goal with |- context [@cst R N ?a] => destruct (rel_fac _ Hu _ _ (std_cst _ _ HN a)) as (t6 & F6 & ->) end.
  assert (Hlam : Rabs lam <= log10 (/ (1 - u))).
  { destruct F0 as [A1 A2]. rewrite pow_1 in A1, A2. assert (0 < / (1 - u)) by (apply Rinv_0_lt_compat; lra).
    apply Rabs_le. split; [|apply log10_le; auto]. rewrite <- log10_inv by auto. apply log10_le; auto. apply Rinv_0_lt_compat; auto. }
  pose proof (fac_mul _ Hu _ _ _ _ F5 F6) as F56. pose proof (fac_mul _ Hu _ _ _ _ F4 F56) as F456.
  pose proof (fac_mul _ Hu _ _ _ _ (fac_mul _ Hu _ _ _ _ (fac_mul _ Hu _ _ _ _ F1 F2) F3) F456) as FA. cbn [Nat.add] in *.
  set (T := t1 * t2 * t3 * (t4 * (t5 * t6))) in *.
  replace (((- (5 / 2) * ((L + lam) * t1) * t2 * t3 - dm) * t4 - k) * t5 * t6 - (- (5 / 2) * L - dm - k)) with
    (- (5 / 2) * ((L + lam) * T - L) + (- (dm * (t4 * (t5 * t6) - 1)) + - (k * (t5 * t6 - 1)))) by (unfold T; ring).
  eapply Rle_trans; [apply Rabs_triang|].
  assert (E0 : Rabs (L + lam - L) <= log10 (/ (1 - u))) by (replace (L + lam - L) with lam by ring; auto).
  pose proof (fac_approx _ Hu _ _ _ _ _ _ FA E0 (Rle_refl (Rabs L))) as EA.
  assert (EB : Rabs (dm * (t4 * (t5 * t6) - 1)) <= Rabs dm * growth u 6).
  { rewrite Rabs_mult. apply Rmult_le_compat_l; [apply Rabs_pos|]. apply (fac_err _ Hu 6). apply (fac_weak _ Hu 3); auto; lia. }
  assert (EC : Rabs (k * (t5 * t6 - 1)) <= Rabs k * growth u 6).
  { rewrite Rabs_mult. apply Rmult_le_compat_l; [apply Rabs_pos|]. apply (fac_err _ Hu 6). apply (fac_weak _ Hu 2); auto; lia. }
  assert (ED : Rabs (- (5 / 2) * ((L + lam) * T - L)) <= 5 / 2 * (log10 (/ (1 - u)) * (1 + growth u 6) + Rabs L * growth u 6)).
  { rewrite Rabs_mult, Rabs_Ropp, (Rabs_pos_eq (5 / 2)) by lra. apply Rmult_le_compat_l; [lra|].
    eapply Rle_trans; [exact EA|]. unfold growth. lra. }
  pose proof (Rabs_triang (- (dm * (t4 * (t5 * t6) - 1))) (- (k * (t5 * t6 - 1)))) as ET. rewrite !Rabs_Ropp in ET. lra.
Qed.

(** absmag in an arithmetic that rounds: in a band of positive maggies and inverse variance the result is within the roundings
    of seven operations of -2.5 log10(maggies) - DM - K, DM being the distance modulus of the float32 redshift and K the
    K-correction computed. *)
Lemma L_C83_absmag : forall u (N : Num R) distmod (K : kcor R) A Ao nb no nt bs l k o ks,
  0 <= u < 1 -> std_model u N -> std_log u N -> rounding N -> @kready R N K A Ao nb no nt -> @no_ab R N (k_fit K) ->
  kobj_ok nb nt o ->
  @kcorrect R N K (Some (scal (ko_z o))) (Some (vec (ko_c o))) bs = Ok (vec ks) ->
  exists v a, @absmag_object R N distmod K bs false false l k o = Ok a /\ nth_error (parts a) 0 = Some (vec v) /\ length v = no /\
    forall j, (j < no)%nat ->
      let m := nth (in_band K j) (ko_m o) 0 in
      let dm := distmod (@cst R N (ko_z o)) in
      0 < m -> 0 < nth (in_band K j) (ko_iv o) 0 ->
      Rabs (nth j v 0 - (- (5 / 2) * log10 m - dm - nth j ks 0)) <=
        5 / 2 * log10 (/ (1 - u)) * (1 + growth u 6) + growth u 6 * (5 / 2 * Rabs (log10 m) + Rabs dm + Rabs (nth j ks 0)).
Proof.
  intros u N distmod K A Ao nb no nt bs l k o ks Hu HN HL HR HK Hab Ho Ek.
  rewrite (@kc_scal R N K A Ao nb no nt _ _ bs HR HK (proj2 (proj2 Ho))) in Ek.
  rewrite (@obj_eq R N distmod K A Ao nb no nt bs false false l k o HR HK Hab Ho). unfold obj_res. cbn [andb].
  destruct (@kbad R N A Ao bs (ko_z o)); [discriminate|]. injection Ek as E1 E2. subst ks.
  set (kk := @kval1 R N K A Ao nb no nt bs (ko_z o) (ko_c o)) in *.
  destruct (@am_row_nth R N K A Ao nb no nt (map (@cst R N) (ko_m o)) (map (@cst R N) (ko_iv o))
              (@dm_val R N distmod false (ko_z o) (ko_d o)) kk HK) as [L Hn].
  { rewrite map_length. apply Ho. } { rewrite map_length. apply Ho. } { auto. }
  exists (@am_row R N K (map (@cst R N) (ko_m o)) (map (@cst R N) (ko_iv o)) (@dm_val R N distmod false (ko_z o) (ko_d o)) kk).
  eexists. split; [reflexivity|]. split; [unfold obj_out; rewrite am_pack_0; unfold vec; rewrite L; reflexivity|].
  split; [exact L|]. intros j Hj. cbv zeta. intros Hm Hi.
  rewrite (nth_error_nth _ _ _ (Hn j 0 Hj)).
  assert (C0 : @cst R N 0 = 0) by (destruct HR as [_ C]; rewrite (std_0 _ _ HN) in C; exact C).
  rewrite <- C0 at 1 2. rewrite !map_nth. apply absmag1_err; auto.
Qed.
Lemma E_C83_absmag : kready r_kcor r_tab r_tab 2 2 1 /\ no_ab (k_fit r_kcor) /\
  (exists ks, @kcorrect R Num_24 r_kcor (Some (scal (/ 2))) (Some (vec [2])) (/ 10) = Ok (vec ks)) /\
  growth (bpow radix2 (-24)) 6 <= / 1000000.
Proof.
  split; [exact r_kready|]. split; [left; reflexivity|]. split; [apply E_C83_kcorrect_tables|]. apply growth24; lia.
Qed.

(** * The order of additions *)
Definition rsum (l : list R) : R := fold_right Rplus 0 l.
Lemma rsum_app l r : rsum (l ++ r) = rsum l + rsum r.
Proof. unfold rsum. induction l as [|a l IH]; cbn; [lra|]. rewrite IH. lra. Qed.
Lemma rsum_perm l r : Permutation l r -> rsum l = rsum r.
Proof. unfold rsum. induction 1; cbn; lra. Qed.
Lemma rsum_abs l : Rabs (rsum l) <= rsum (map Rabs l).
Proof. unfold rsum. induction l as [|a l IH]; cbn; [rewrite Rabs_R0; lra|]. eapply Rle_trans; [apply Rabs_triang|]. lra. Qed.
Lemma terms_len o : (1 <= length (terms o))%nat.
Proof. induction o; cbn; rewrite ?app_length; lia. Qed.
Lemma growth_mono u j k : 0 <= u < 1 -> (j <= k)%nat -> growth u j <= growth u k.
Proof. intros Hu H. unfold growth. pose proof (Rle_pow _ j k (rho_ge1 u Hu) H). lra. Qed.
Lemma order_err u N : 0 <= u < 1 -> std_model u N -> forall o,
  Rabs (total N o - rsum (terms o)) <= growth u (length (terms o) - 1) * rsum (map Rabs (terms o)).
Proof.
  intros Hu HN. induction o as [a|l IHl r IHr].
  - cbn. unfold growth. cbn. rewrite Rplus_0_r, Rminus_diag_eq by lra. rewrite Rabs_R0. lra.
  - cbn [total terms]. rewrite map_app, !rsum_app, app_length.
    destruct (rel_fac u Hu _ _ (std_add _ _ HN (total N l) (total N r))) as (t & Ft & ->).
    pose proof (terms_len l). pose proof (terms_len r).
    set (n := (length (terms l) + length (terms r) - 2)%nat).
    replace (length (terms l) + length (terms r) - 1)%nat with (S n) by (unfold n; lia).
    assert (Pl : 0 <= rsum (map Rabs (terms l))) by (eapply Rle_trans; [apply Rabs_pos|apply rsum_abs]).
    assert (Pr : 0 <= rsum (map Rabs (terms r))) by (eapply Rle_trans; [apply Rabs_pos|apply rsum_abs]).
    pose proof (rsum_abs (terms l)) as Al. pose proof (rsum_abs (terms r)) as Ar.
    set (sl := rsum (terms l)) in *. set (sr := rsum (terms r)) in *.
    set (bl := rsum (map Rabs (terms l))) in *. set (br := rsum (map Rabs (terms r))) in *.
    assert (El : Rabs (total N l - sl) <= growth u n * bl).
    { eapply Rle_trans; [exact IHl|]. apply Rmult_le_compat_r; auto. apply growth_mono; auto. unfold n; lia. }
    assert (Er : Rabs (total N r - sr) <= growth u n * br).
    { eapply Rle_trans; [exact IHr|]. apply Rmult_le_compat_r; auto. apply growth_mono; auto. unfold n; lia. }
    assert (E : Rabs (total N l + total N r - (sl + sr)) <= growth u n * (bl + br)).
    { replace (total N l + total N r - (sl + sr)) with ((total N l - sl) + (total N r - sr)) by ring.
      eapply Rle_trans; [apply Rabs_triang|]. lra. }
    assert (B : Rabs (sl + sr) <= bl + br) by (eapply Rle_trans; [apply Rabs_triang|]; lra).
    pose proof (fac_approx u Hu 1 t _ _ _ _ Ft E B) as X. rewrite pow_1 in X. eapply Rle_trans; [exact X|].
    unfold growth. cbn [pow]. apply Req_le. ring.
Qed.

(** C83.  Whatever the order in which the terms of a sum are added, the result misses the exact sum by at most
    ((1-u)^-(n-1) - 1) times the sum of the magnitudes. *)
Lemma L_C83_any_order : forall u (N : Num R) o, 0 <= u < 1 -> std_model u N ->
  Rabs (total N o - fold_right Rplus 0 (terms o)) <= growth u (length (terms o) - 1) * fold_right Rplus 0 (map Rabs (terms o)).
Proof. intros. apply order_err; auto. Qed.
Lemma E_C83_any_order :
  std_model (bpow radix2 (-24)) Num_24 /\
  total Num_24 (Plus (Plus (Term 1) (Term (bpow radix2 (-30)))) (Term (-1))) = 0 /\
  total Num_24 (Plus (Plus (Term 1) (Term (-1))) (Term (bpow radix2 (-30)))) = bpow radix2 (-30).
Proof.
  split; [apply L_C83_model|]. cbn [total].
  assert (R0 : @nadd R Num_24 1 (-1) = 0).
  { change (rnd24 (1 + -1) = 0). replace (1 + -1) with 0 by ring. apply rnd24_0. }
  split.
  - replace (@nadd R Num_24 1 (bpow radix2 (-30))) with 1 by (symmetry; apply E_C83_model). exact R0.
  - rewrite R0. change (rnd24 (0 + bpow radix2 (-30)) = bpow radix2 (-30)). rewrite Rplus_0_l.
    pose proof (rnd24_int 1 (-30) ltac:(lia)) as H. rewrite Rmult_1_l in H. exact H.
Qed.

Lemma fold_order (N : Num R) l a : exists o, terms o = a :: l /\ total N o = fold_left (@nadd R N) l a.
Proof.
  enough (H : forall o, exists o', terms o' = terms o ++ l /\ total N o' = fold_left (@nadd R N) l (total N o)) by (apply (H (Term a))).
  induction l as [|b l IH]; intro o; [exists o; rewrite app_nil_r; auto|].
  destruct (IH (Plus o (Term b))) as (o' & T & E). exists o'. cbn in *. rewrite <- app_assoc in T. auto.
Qed.
(** C83.  The sums of the model add from the left, starting with 0.  Any other order of the same terms gives a result that
    differs by at most twice that error. *)
Lemma L_C83_left_fold : forall u (N : Num R) l o, 0 <= u < 1 -> std_model u N -> Permutation (terms o) l ->
  Rabs (fold_left (@nadd R N) l (@n0 R N) - total N o) <= 2 * growth u (length l) * fold_right Rplus 0 (map Rabs l).
Proof.
  intros u N l o Hu HN P. rewrite (std_0 _ _ HN). destruct (fold_order N l 0) as (f & T & <-).
  pose proof (order_err u N Hu HN f) as H1. pose proof (order_err u N Hu HN o) as H2. rewrite T in H1.
  rewrite (rsum_perm _ _ P), (Permutation_length P), (rsum_perm _ _ (Permutation_map Rabs P)) in H2.
  fold (rsum (map Rabs l)). cbn [map length] in H1. rewrite Rabs_R0 in H1.
  change (rsum (0 :: l)) with (0 + rsum l) in H1. change (rsum (0 :: map Rabs l)) with (0 + rsum (map Rabs l)) in H1.
  rewrite !Rplus_0_l in H1. replace (S (length l) - 1)%nat with (length l) in H1 by lia.
  assert (B : 0 <= rsum (map Rabs l)) by (eapply Rle_trans; [apply Rabs_pos|apply rsum_abs]).
  pose proof (Rmult_le_compat_r _ _ _ B (growth_mono u (length l - 1) (length l) Hu ltac:(lia))).
  rewrite Rabs_minus_sym in H2.
  replace (total N f - total N o) with ((total N f - rsum l) + (rsum l - total N o)) by ring.
  eapply Rle_trans; [apply Rabs_triang|]. lra.
Qed.
Lemma E_C83_left_fold :
  Permutation (terms (Plus (Term 3) (Plus (Term 1) (Term 2)))) [1; 2; 3] /\
  total Num_24 (Plus (Term 3) (Plus (Term 1) (Term 2))) = 6.
Proof.
  split; [cbn; apply perm_trans with [1; 3; 2]; [apply perm_swap|apply perm_skip, perm_swap]|].
  assert (I : forall k, (Z.abs k < 16777216)%Z -> rnd24 (IZR k) = IZR k).
  { intros k Hk. pose proof (rnd24_int k 0 Hk) as H. cbn in H. rewrite Rmult_1_r in H. exact H. }
  change (rnd24 (3 + rnd24 (1 + 2)) = 6). rewrite <- !plus_IZR. rewrite (I (1 + 2)%Z) by lia. rewrite <- plus_IZR. rewrite I by lia. reflexivity.
Qed.
