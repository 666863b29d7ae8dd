(** Rounding errors of magnitude limits, reconstructed magnitudes and distances (C117): the proofs. *)
From Coq Require Import String List Arith Lia Bool ZArith QArith Qreals Reals Lra.
From Flocq Require Import Core.
From Verif Require Import Base BaseLemmas Num Spec Interp Fitter FitSpec FitRealEx Kcorrect KSpec KEx RoundSpec UtilsRoundSpec.
Import ListNotations.
Local Open Scope R_scope.
(* STATEMENTS *)
From Verif Require Import FitterProofs FitterMC FitReal KcorrectProofs KcorrectThms AbsmagProofs RoundProofs RoundThms UtilsRoundThms.

(** The last steps of absmag: from a flux whose logarithm is known up to [e]. *)
Lemma mag_err u N x L e dm k : 0 <= u < 1 -> std_model u N -> std_log u N -> 0 < x -> Rabs (log10 x - L) <= e ->
  Rabs (@cst R N (@nsub R N (@nsub R N (@cst R N (@nmul R N (@m25 R N) (@nlog10 R N x))) dm) k) - (- (5 / 2) * L - dm - k)) <=
    5 / 2 * e * (1 + growth u 6) + growth u 6 * (5 / 2 * Rabs L + Rabs dm + Rabs k).
Proof.
  intros Hu HN HL Hx He. unfold m25. rewrite (std_lit25 _ _ HL).
  destruct (rel_fac _ Hu _ _ (std_log10 _ _ HL _ Hx)) as (t1 & F1 & ->).
  match goal with |- context [@nmul R N ?a ?b] => destruct (rel_fac _ Hu _ _ (std_mul _ _ HN a b)) as (t2 & F2 & ->) end.
  match goal with |- context [@nsub R N (@cst R N ?a) _] => destruct (rel_fac _ Hu _ _ (std_cst _ _ HN a)) as (t3 & F3 & ->) end.
  match goal with |- context [@nsub R N (@nsub R N ?a ?b) _] => destruct (rel_fac _ Hu _ _ (std_sub _ _ HN a b)) as (t4 & F4 & ->) end.
  match goal with |- context [@nsub R N ?a ?b] => destruct (rel_fac _ Hu _ _ (std_sub _ _ HN a b)) as (t5 & F5 & ->) end.
  match goal with |- context [@cst R N ?a] => destruct (rel_fac _ Hu _ _ (std_cst _ _ HN a)) as (t6 & F6 & ->) end.
  set (l := log10 x) in *.
  pose proof (fac_mul _ Hu _ _ _ _ F5 F6) as F56. pose proof (fac_mul _ Hu _ _ _ _ F4 F56) as F456.
  pose proof (fac_mul _ Hu _ _ _ _ (fac_mul _ Hu _ _ _ _ (fac_mul _ Hu _ _ _ _ F1 F2) F3) F456) as FA. cbn [Nat.add] in *.
  set (T := t1 * t2 * t3 * (t4 * (t5 * t6))) in *.
  replace (((- (5 / 2) * (l * t1) * t2 * t3 - dm) * t4 - k) * t5 * t6 - (- (5 / 2) * L - dm - k)) with
    (- (5 / 2) * (l * T - L) + (- (dm * (t4 * (t5 * t6) - 1)) + - (k * (t5 * t6 - 1)))) by (unfold T; ring).
  eapply Rle_trans; [apply Rabs_triang|].
  pose proof (fac_approx _ Hu _ _ _ _ _ _ FA He (Rle_refl (Rabs L))) as EA.
  assert (EB : Rabs (dm * (t4 * (t5 * t6) - 1)) <= Rabs dm * growth u 6).
  { rewrite Rabs_mult. apply Rmult_le_compat_l; [apply Rabs_pos|]. apply (fac_err _ Hu 6). apply (fac_weak _ Hu 3); auto; lia. }
  assert (EC : Rabs (k * (t5 * t6 - 1)) <= Rabs k * growth u 6).
  { rewrite Rabs_mult. apply Rmult_le_compat_l; [apply Rabs_pos|]. apply (fac_err _ Hu 6). apply (fac_weak _ Hu 2); auto; lia. }
  assert (ED : Rabs (- (5 / 2) * (l * T - L)) <= 5 / 2 * (e * (1 + growth u 6) + Rabs L * growth u 6)).
  { rewrite Rabs_mult, Rabs_Ropp, (Rabs_pos_eq (5 / 2)) by lra. apply Rmult_le_compat_l; [lra|].
    eapply Rle_trans; [exact EA|]. unfold growth. lra. }
  pose proof (Rabs_triang (- (dm * (t4 * (t5 * t6) - 1))) (- (k * (t5 * t6 - 1)))) as ET. rewrite !Rabs_Ropp in ET. lra.
Qed.

Lemma log_pow x n : 0 < x -> log10 (x ^ n) = INR n * log10 x.
Proof.
  intro Hx. induction n as [|n IH].
  - cbn [pow INR]. rewrite Rmult_0_l. unfold log10. rewrite ln_1. unfold Rdiv. apply Rmult_0_l.
  - rewrite S_INR. cbn [pow]. rewrite Num.log10_mult, IH by (auto; apply pow_lt; auto). ring.
Qed.
(** The logarithm of [p] roundings. *)
Lemma log_fac u p y t : 0 <= u < 1 -> 0 < y -> fac u p t -> Rabs (log10 (y * t) - log10 y) <= INR p * log10 (/ (1 - u)).
Proof.
  intros Hu Hy F. pose proof (fac_pos _ Hu _ _ F) as Pt. rewrite Num.log10_mult by auto.
  replace (log10 y + log10 t - log10 y) with (log10 t) by ring.
  assert (0 < / (1 - u)) by (apply Rinv_0_lt_compat; lra). destruct F as [F1 F2].
  assert (0 < (/ (1 - u)) ^ p) by (apply pow_lt; auto). rewrite <- log_pow by auto.
  apply Rabs_le. split; [|apply log10_le; auto]. rewrite <- log10_inv by auto. apply log10_le; auto. apply Rinv_0_lt_compat; auto.
Qed.
Lemma fac_sqrt u t : 0 <= u < 1 -> fac u 1 t -> fac u 1 (sqrt t).
Proof.
  intros Hu F. pose proof (fac_pos _ Hu _ _ F) as Pt. destruct F as [F1 F2].
  assert (G : 1 <= (/ (1 - u)) ^ 1). { rewrite pow_1. rewrite <- Rinv_1. apply Rinv_le_contravar; lra. }
  unfold fac. set (r := (/ (1 - u)) ^ 1) in *.
  assert (Hs : sqrt t * sqrt t = t) by (apply sqrt_sqrt; lra). pose proof (sqrt_lt_R0 t Pt).
  assert (Pr : 0 < / r) by (apply Rinv_0_lt_compat; lra). assert (/ r <= 1) by (rewrite <- Rinv_1; apply Rinv_le_contravar; lra).
  split; apply Rnot_lt_le; intro C; nra.
Qed.
Lemma cst_zero u N : std_model u N -> rounding N -> @cst R N 0 = 0.
Proof. intros HN [_ C]. rewrite (std_0 _ _ HN) in C. exact C. Qed.
Lemma cst_sign u N x : 0 <= u < 1 -> std_model u N -> x <= 0 -> @cst R N x <= 0.
Proof. intros Hu HN Hx. destruct (rel_fac _ Hu _ _ (std_cst _ _ HN x)) as (t & F & ->). pose proof (fac_pos _ Hu _ _ F). nra. Qed.

(** C117.  The absolute magnitude limit in an arithmetic that rounds: in a band of positive inverse variance it is within the
    roundings of three operations on the flux and six on the magnitude of -2.5 log10(1/sqrt(ivar)) - DM - K, DM being the
    distance modulus of the float32 redshift and K the K-correction computed; in the other bands it is exactly the float for
    -9999. *)
Lemma L_C117_limit : forall u (N : Num R) distmod (K : kcor R) A Ao nb no nt bs k o ks,
  0 <= u < 1 -> std_model u N -> std_log u N -> std_fun u N -> rounding N -> @kready R N K A Ao nb no nt -> @no_ab R N (k_fit K) ->
  kobj_ok nb nt o ->
  @kcorrect R N K (Some (scal (ko_z o))) (Some (vec (ko_c o))) bs = Ok (vec ks) ->
  exists v a, @absmag_object R N distmod K bs false false true k o = Ok a /\ nth_error (parts a) 1 = Some (vec v) /\ length v = no /\
    forall j, (j < no)%nat ->
      let iv := nth (in_band K j) (ko_iv o) 0 in
      let dm := distmod (@cst R N (ko_z o)) in
      (0 < iv ->
        Rabs (nth j v 0 - (- (5 / 2) * log10 (1 / sqrt iv) - dm - nth j ks 0)) <=
          5 / 2 * (3 * log10 (/ (1 - u))) * (1 + growth u 6) +
          growth u 6 * (5 / 2 * Rabs (log10 (1 / sqrt iv)) + Rabs dm + Rabs (nth j ks 0))) /\
      (iv <= 0 -> nth j v 0 = @nlit R N (-(9999) # 1)).
Proof.
  intros u N distmod K A Ao nb no nt bs k o ks Hu HN HL HF HR HK Hab Ho Ek.
  rewrite (@kc_scal R N K A Ao nb no nt _ _ bs HR HK (proj2 (proj2 Ho))) in Ek.
  rewrite (@obj_eq R N distmod K A Ao nb no nt bs false false true k o HR HK Hab Ho). unfold obj_res. cbn [andb].
  destruct (@kbad R N A Ao bs (ko_z o)); [discriminate|]. injection Ek as E1 E2. subst ks.
  set (kk := @kval1 R N K A Ao nb no nt bs (ko_z o) (ko_c o)) in *.
  destruct (@lim_row_nth R N K A Ao nb no nt (map (@cst R N) (ko_iv o)) (@dm_val R N distmod false (ko_z o) (ko_d o)) kk HK) as [L Hn].
  { rewrite map_length. apply Ho. } { auto. }
  exists (@lim_row R N K (map (@cst R N) (ko_iv o)) (@dm_val R N distmod false (ko_z o) (ko_d o)) kk).
  eexists. split; [reflexivity|]. split; [unfold obj_out, am_pack, vec; cbn [orb parts nth_error app]; rewrite L; reflexivity|].
  split; [exact L|]. intros j Hj. cbv zeta. rewrite (nth_error_nth _ _ _ (Hn j 0 Hj)).
  set (iv := nth (in_band K j) (ko_iv o) 0).
  assert (Ei : nth (in_band K j) (map (@cst R N) (ko_iv o)) 0 = @cst R N iv).
  { rewrite <- (cst_zero _ _ HN HR) at 1. apply map_nth. }
  rewrite Ei.
  unfold abslim1, dm_val. rewrite (std_lt _ _ HN), (std_le _ _ HN), (std_0 _ _ HN). split; intro Hi.
  - destruct (rel_fac _ Hu _ _ (std_cst _ _ HN iv)) as (t0 & F0 & ->). pose proof (fac_pos _ Hu _ _ F0) as P0.
    assert (H1 : 0 < iv * t0) by nra. rewrite Rltb_true, Rleb_false by auto. rewrite (std_1 _ _ HN).
    destruct (rel_fac _ Hu _ _ (fun_sqrt _ _ HF (iv * t0) (Rlt_le _ _ H1))) as (t1 & F1 & ->). pose proof (fac_pos _ Hu _ _ F1) as P1.
    rewrite sqrt_mult by lra. pose proof (sqrt_lt_R0 _ Hi) as S1. pose proof (sqrt_lt_R0 _ P0) as S2.
    assert (S3 : 0 < sqrt iv * sqrt t0 * t1) by (repeat apply Rmult_lt_0_compat; auto).
    destruct (rel_fac _ Hu _ _ (std_div _ _ HN 1 (sqrt iv * sqrt t0 * t1) ltac:(lra))) as (t2 & F2 & ->). pose proof (fac_pos _ Hu _ _ F2) as P2.
    assert (Y : 0 < 1 / sqrt iv) by (apply Rdiv_lt_0_compat; lra).
    replace (1 / (sqrt iv * sqrt t0 * t1) * t2) with (1 / sqrt iv * (/ sqrt t0 * (/ t1 * t2))) by (field; lra).
    pose proof (fac_mul _ Hu _ _ _ _ (fac_inv _ Hu _ _ (fac_sqrt _ _ Hu F0)) (fac_mul _ Hu _ _ _ _ (fac_inv _ Hu _ _ F1) F2)) as F3. cbn [Nat.add] in F3.
    apply mag_err; auto.
    + apply Rmult_lt_0_compat; auto. apply (fac_pos _ Hu _ _ F3).
    + replace 3 with (INR 3) by (cbn; lra). apply log_fac; auto.
  - pose proof (cst_sign _ _ _ Hu HN Hi). rewrite Rleb_true by auto. reflexivity.
Qed.
Lemma E_C117_limit : kready r_kcor r_tab r_tab 2 2 1 /\ no_ab (k_fit r_kcor) /\
  (exists ks, @kcorrect R Num_24 r_kcor (Some (scal (/ 2))) (Some (vec [2])) (/ 10) = Ok (vec ks)) /\
  kobj_ok 2 1 {| ko_z := / 2; ko_m := [1; 2]; ko_iv := [4; 0]; ko_c := [2]; ko_d := 0 |} /\
  std_fun (bpow radix2 (-24)) Num_24 /\ growth (bpow radix2 (-24)) 6 <= / 1000000.
Proof.
  destruct E_C83_absmag as (H1 & H2 & H3 & H4). split; [exact H1|]. split; [exact H2|]. split; [exact H3|].
  split; [repeat split|]. split; [apply L_C113_model|exact H4].
Qed.

(** The reconstructed absolute magnitude: if the flux that reconstruct_out computes has relative error at most eta with
    respect to Y > 0 (as L_C83_relative shows), it is within 2.5 log10(1/(1-eta)) plus six roundings of
    -2.5 log10(Y) - DM - K; where the flux computed is not positive it is exactly the float for -9999. *)
Lemma L_C117_reconstructed : forall u (N : Num R) distmod (K : kcor R) A Ao nb no nt bs l k o ks om,
  0 <= u < 1 -> std_model u N -> std_log u N -> rounding N -> @kready R N K A Ao nb no nt -> @no_ab R N (k_fit K) ->
  kobj_ok nb nt o ->
  @kcorrect R N K (Some (scal (ko_z o))) (Some (vec (ko_c o))) bs = Ok (vec ks) ->
  @reconstruct_out R N K (Some (scal (ko_z o))) (Some (vec (ko_c o))) bs = Ok (vec om) ->
  exists v a, @absmag_object R N distmod K bs false true l k o = Ok a /\ nth_error (parts a) 1 = Some (vec v) /\ length v = no /\
    forall j, (j < no)%nat ->
      let dm := distmod (@cst R N (ko_z o)) in
      (forall eta Y, 0 <= eta < 1 -> 0 < Y -> rel eta (nth j om 0) Y ->
        Rabs (nth j v 0 - (- (5 / 2) * log10 Y - dm - nth j ks 0)) <=
          5 / 2 * log10 (/ (1 - eta)) * (1 + growth u 6) +
          growth u 6 * (5 / 2 * Rabs (log10 Y) + Rabs dm + Rabs (nth j ks 0))) /\
      (nth j om 0 <= 0 -> nth j v 0 = @nlit R N (-(9999) # 1)).
Proof.
  intros u N distmod K A Ao nb no nt bs l k o ks om Hu HN HL HR HK Hab Ho Ek Er.
  pose proof HK as ((HA & Hb & Hn & Ht) & HAo & Hto & Hno & Hi & Hf). pose proof Ho as (Hm & Hiv & Hc).
  rewrite (@kc_scal R N K A Ao nb no nt _ _ bs HR HK Hc) in Ek.
  unfold reconstruct_out in Er. rewrite HAo in Er. rewrite (@reconstruct_scal R N _ _ _ _ _ _ _ Hn Hto Hc) in Er.
  rewrite (@obj_eq R N distmod K A Ao nb no nt bs false true l k o HR HK Hab Ho). unfold obj_res. cbn [andb].
  destruct (@kbad R N A Ao bs (ko_z o)); [discriminate|]. injection Ek as E1 E2. subst ks.
  destruct (out_of _ _); [discriminate|]. injection Er as Lo Er. subst om.
  set (kk := @kval1 R N K A Ao nb no nt bs (ko_z o) (ko_c o)) in *. set (om := @recon1 R N Ao no nt bs (@cst R N (ko_z o)) (map (@cst R N) (ko_c o))) in *.
  destruct (@rec_row_nth R N no om (@dm_val R N distmod false (ko_z o) (ko_d o)) kk (eq_sym Lo) (eq_sym E1)) as [L Hr].
  exists (@rec_row R N om (@dm_val R N distmod false (ko_z o) (ko_d o)) kk).
  eexists. split; [reflexivity|]. split; [unfold obj_out, am_pack, vec; cbn [orb parts nth_error app]; fold om; fold kk; rewrite L; reflexivity|].
  split; [exact L|]. intros j Hj. cbv zeta. rewrite (nth_error_nth _ _ _ (Hr j 0 Hj)). set (x := nth j om 0).
  unfold absrec1, dm_val. rewrite (std_lt _ _ HN), (std_le _ _ HN), (std_0 _ _ HN). split.
  - intros eta Y He HY Hx. destruct (rel_fac _ He _ _ Hx) as (t & F & Ex). pose proof (fac_pos _ He _ _ F) as Pt.
    assert (Px : 0 < x) by (rewrite Ex; nra). rewrite Rltb_true, Rleb_false by auto. apply mag_err; auto.
    rewrite Ex. pose proof (log_fac _ _ _ _ He HY F) as X. cbn [INR] in X. lra.
  - intro Hx. rewrite Rleb_true by auto. reflexivity.
Qed.
Lemma E_C117_reconstructed : kready r_kcor r_tab r_tab 2 2 1 /\ no_ab (k_fit r_kcor) /\
  (exists ks, @kcorrect R Num_24 r_kcor (Some (scal (/ 2))) (Some (vec [2])) (/ 10) = Ok (vec ks)) /\
  (exists om, @reconstruct_out R Num_24 r_kcor (Some (scal (/ 2))) (Some (vec [2])) (/ 10) = Ok (vec om)) /\
  kobj_ok 2 1 {| ko_z := / 2; ko_m := [1; 2]; ko_iv := [4; 0]; ko_c := [2]; ko_d := 0 |}.
Proof.
  destruct E_C83_absmag as (H1 & H2 & H3 & _). split; [exact H1|]. split; [exact H2|]. split; [exact H3|]. split; [|repeat split].
  assert (Hu : 0 <= bpow radix2 (-24) < 1) by (cbn; lra). destruct L_C83_model as (HN & HL & HR).
  pose proof r_kready as ((HA & Hb & Hn & Ht) & HAo & Hto & _).
  pose proof (shifted_err (bpow radix2 (-24)) Num_24 (/ 2) (/ 10) Hu HN ltac:(lra) ltac:(lra)) as E.
  pose proof (growth24 5 ltac:(lia)) as G. apply Rabs_le_inv in E.
  destruct (reconstruct_rel (bpow radix2 (-24)) Num_24 (k_fit r_kcor) r_tab 2 1 (/ 2) [2] (/ 10) 3 Hu HN Hn Hto r_grid eq_refl ltac:(lra) ltac:(lra) r_gentle)
    as (m & e & X & _).
  - constructor; [lra|constructor].
  - cbn; lra.
  - set (t := shifted _ _) in *. clearbody t. unfold in_range. cbn. lra.
  - exists m. unfold reconstruct_out. rewrite HAo. exact X.
Qed.

(** With an explicit distance of d > 0 Mpc absmag, in any arithmetic that rounds, is what a cosmology with a constant distance
    modulus D would give, for all flags; and D is within seven roundings of the distance and three of the modulus of
    5 log10(d / 10 pc). *)
Lemma L_C117_distance : forall u (N : Num R) distmod (K : kcor R) A Ao nb no nt bs r l k o,
  0 <= u < 1 -> std_model u N -> std_log u N -> std_fun u N -> rounding N -> @kready R N K A Ao nb no nt -> @no_ab R N (k_fit K) ->
  kobj_ok nb nt o -> 0 < ko_d o ->
  exists D, @absmag_object R N distmod K bs true r l k o = @absmag_object R N (fun _ => D) K bs false r l k o /\
    let exact := 5 * log10 (ko_d o / (1 / 100000)) in
    Rabs (D - exact) <= 5 / 2 * (7 * log10 (/ (1 - u))) * (1 + growth u 3) + growth u 3 * Rabs exact.
Proof.
  intros u N distmod K A Ao nb no nt bs r l k o Hu HN HL HF HR HK Hab Ho Hd.
  exists (@dm_of_distance R N (@cst R N (ko_d o))). split.
  - rewrite !(@obj_eq R N _ K A Ao nb no nt bs _ r l k o HR HK Hab Ho). reflexivity.
  - cbv zeta. set (d := ko_d o) in *. unfold dm_of_distance, dfactor_of, nsq, parsec10.
    destruct (rel_fac _ Hu _ _ (std_cst _ _ HN d)) as (t0 & F0 & ->). pose proof (fac_pos _ Hu _ _ F0) as P0.
    destruct (rel_fac _ Hu _ _ (fun_lit _ _ HF (1 # 100000))) as (t1 & F1 & ->). pose proof (fac_pos _ Hu _ _ F1) as P1.
    destruct (rel_fac _ Hu _ _ (fun_lit _ _ HF (5 # 2))) as (t2 & F2 & ->).
    replace (Q2R (1 # 100000)) with (1 / 100000) by (unfold Q2R; cbn; lra). replace (Q2R (5 # 2)) with (5 / 2) by (unfold Q2R; cbn; lra).
    destruct (rel_fac _ Hu _ _ (std_div _ _ HN (d * t0) (1 / 100000 * t1) ltac:(nra))) as (t3 & F3 & ->). pose proof (fac_pos _ Hu _ _ F3) as P3.
    match goal with |- context [@nlog10 R N (@nmul R N ?a ?b)] => destruct (rel_fac _ Hu _ _ (std_mul _ _ HN a b)) as (t4 & F4 & ->) end.
    pose proof (fac_pos _ Hu _ _ F4) as P4.
    set (q := d / (1 / 100000)). assert (Pq : 0 < q) by (apply Rdiv_lt_0_compat; lra).
    set (s := t0 * (/ t1 * t3)).
    assert (Fs : fac u 3 s) by (unfold s; apply (fac_mul _ Hu 1 2); auto; apply (fac_mul _ Hu 1 1); auto; apply fac_inv; auto).
    assert (Ps := fac_pos _ Hu _ _ Fs).
    replace (d * t0 / (1 / 100000 * t1) * t3) with (q * s) by (unfold q, s; field; lra).
    replace (q * s * (q * s) * t4) with (q * q * (s * (s * t4))) by ring.
    assert (F7 : fac u 7 (s * (s * t4))) by (apply (fac_mul _ Hu 3 4); auto; apply (fac_mul _ Hu 3 1); auto).
    assert (P7 := fac_pos _ Hu _ _ F7). assert (Pqq : 0 < q * q) by nra.
    destruct (rel_fac _ Hu _ _ (std_log10 _ _ HL (q * q * (s * (s * t4))) ltac:(nra))) as (t5 & F5 & ->).
    match goal with |- context [@nmul R N ?a ?b] => destruct (rel_fac _ Hu _ _ (std_mul _ _ HN a b)) as (t6 & F6 & ->) end.
    pose proof (log_fac u 7 (q * q) _ Hu Pqq F7) as E. replace (INR 7) with 7 in E by (cbn; lra).
    rewrite (Num.log10_mult q q) in E by auto. set (lg := log10 (q * q * (s * (s * t4)))) in *.
    pose proof (fac_mul _ Hu _ _ _ _ F2 (fac_mul _ Hu _ _ _ _ F5 F6)) as FT. cbn [Nat.add] in FT.
    assert (E2 : Rabs (5 / 2 * lg - 5 * log10 q) <= 5 / 2 * (7 * log10 (/ (1 - u)))).
    { replace (5 / 2 * lg - 5 * log10 q) with (5 / 2 * (lg - (log10 q + log10 q))) by lra.
      rewrite Rabs_mult, (Rabs_pos_eq (5 / 2)) by lra. apply Rmult_le_compat_l; [lra|exact E]. }
    replace (5 / 2 * t2 * (lg * t5) * t6) with (5 / 2 * lg * (t2 * (t5 * t6))) by ring.
    pose proof (fac_approx _ Hu _ _ _ _ _ _ FT E2 (Rle_refl _)) as X. eapply Rle_trans; [exact X|]. unfold growth. lra.
Qed.
Lemma E_C117_distance : kready r_kcor r_tab r_tab 2 2 1 /\ no_ab (k_fit r_kcor) /\
  kobj_ok 2 1 {| ko_z := / 2; ko_m := [1; 2]; ko_iv := [4; 0]; ko_c := [2]; ko_d := 100 |} /\
  log10 (100 / (1 / 100000)) = 7.
Proof.
  split; [exact r_kready|]. split; [left; reflexivity|]. split; [repeat split|].
  replace (100 / (1 / 100000)) with (10 ^ 7) by lra. rewrite log_pow by lra. assert (L : log10 10 = 1) by (unfold log10; apply Rinv_r, Rgt_not_eq; rewrite <- ln_1; apply ln_increasing; lra). rewrite L. cbn. lra.
Qed.

(** In a band without positive maggies or without positive inverse variance the absolute magnitude is exactly the float for
    -9999, whatever the roundings. *)
Lemma L_C117_missing : forall u (N : Num R) distmod (K : kcor R) A Ao nb no nt bs wd l k o ks,
  0 <= u < 1 -> std_model u N -> rounding N -> @kready R N K A Ao nb no nt -> @no_ab R N (k_fit K) -> kobj_ok nb nt o ->
  @kcorrect R N K (Some (scal (ko_z o))) (Some (vec (ko_c o))) bs = Ok (vec ks) ->
  exists v a, @absmag_object R N distmod K bs wd false l k o = Ok a /\ nth_error (parts a) 0 = Some (vec v) /\ length v = no /\
    forall j, (j < no)%nat -> nth (in_band K j) (ko_m o) 0 <= 0 \/ nth (in_band K j) (ko_iv o) 0 <= 0 ->
      nth j v 0 = @nlit R N (-(9999) # 1).
Proof.
  intros u N distmod K A Ao nb no nt bs wd l k o ks Hu HN HR HK Hab Ho Ek.
  rewrite (@kc_scal R N K A Ao nb no nt _ _ bs HR HK (proj2 (proj2 Ho))) in Ek.
  rewrite (@obj_eq R N distmod K A Ao nb no nt bs wd false l k o HR HK Hab Ho). unfold obj_res. cbn [andb].
  destruct (@kbad R N A Ao bs (ko_z o)); [discriminate|]. injection Ek as E1 E2. subst ks.
  set (kk := @kval1 R N K A Ao nb no nt bs (ko_z o) (ko_c o)) in *.
  destruct (@am_row_nth R N K A Ao nb no nt (map (@cst R N) (ko_m o)) (map (@cst R N) (ko_iv o))
              (@dm_val R N distmod wd (ko_z o) (ko_d o)) kk HK) as [L Hn].
  { rewrite map_length. apply Ho. } { rewrite map_length. apply Ho. } { auto. }
  exists (@am_row R N K (map (@cst R N) (ko_m o)) (map (@cst R N) (ko_iv o)) (@dm_val R N distmod wd (ko_z o) (ko_d o)) kk).
  eexists. split; [reflexivity|]. split; [unfold obj_out; rewrite am_pack_0; unfold vec; rewrite L; reflexivity|].
  split; [exact L|]. intros j Hj Hb. rewrite (nth_error_nth _ _ _ (Hn j 0 Hj)).
  assert (C : forall v, nth (in_band K j) (map (@cst R N) v) 0 = @cst R N (nth (in_band K j) v 0)).
  { intro v. rewrite <- (cst_zero _ _ HN HR) at 1. apply map_nth. }
  rewrite !C. unfold absmag1. rewrite !(std_le _ _ HN), (std_0 _ _ HN).
  destruct Hb as [Hb|Hb]; apply (cst_sign _ _ _ Hu HN) in Hb; rewrite (Rleb_true _ _ Hb); [|rewrite orb_true_r]; reflexivity.
Qed.
Lemma E_C117_missing : kready r_kcor r_tab r_tab 2 2 1 /\ no_ab (k_fit r_kcor) /\
  (exists ks, @kcorrect R Num_24 r_kcor (Some (scal (/ 2))) (Some (vec [2])) (/ 10) = Ok (vec ks)) /\
  kobj_ok 2 1 {| ko_z := / 2; ko_m := [1; -2]; ko_iv := [0; 4]; ko_c := [2]; ko_d := 0 |}.
Proof.
  destruct E_C83_absmag as (H1 & H2 & H3 & _). split; [exact H1|]. split; [exact H2|]. split; [exact H3|]. repeat split.
Qed.
