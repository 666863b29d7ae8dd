(** Theorems about the rounding errors of the photometry utilities (utils.py:115-379). *)
From Coq Require Import List Arith Lia Bool ZArith QArith Qreals Reals Lra.
From Flocq Require Import Core.
From Verif Require Import Base BaseLemmas Num Spec Utils RoundSpec UtilsRoundSpec.
Import ListNotations.
Local Open Scope R_scope.
(* STATEMENTS *)
From Verif Require Import UtilsProofs UtilsReal RoundProofs RoundThms.

(** [x] is [y] times a factor between 1/B and B. *)
Definition apx (B x y : R) : Prop := exists t, / B <= t <= B /\ x = y * t.

Lemma inv_le1 B : 1 <= B -> 0 < / B <= 1.
Proof. intro H. split; [apply Rinv_0_lt_compat; lra|]. rewrite <- Rinv_1. apply Rinv_le_contravar; lra. Qed.
Lemma apx_refl B x : 1 <= B -> apx B x x.
Proof. intro H. exists 1. pose proof (inv_le1 B H). split; lra. Qed.
Lemma apx_mul B C x y x' y' : 1 <= B -> 1 <= C -> apx B x y -> apx C x' y' -> apx (B * C) (x * x') (y * y').
Proof.
  intros HB HC (t & [T1 T2] & ->) (s & [S1 S2] & ->). exists (t * s). pose proof (inv_le1 B HB). pose proof (inv_le1 C HC).
  split; [|ring]. rewrite Rinv_mult. split; apply Rmult_le_compat; lra.
Qed.
Lemma apx_inv B x y : 1 <= B -> apx B x y -> apx B (/ x) (/ y).
Proof.
  intros HB (t & [T1 T2] & ->). pose proof (inv_le1 B HB). exists (/ t). split; [|apply Rinv_mult].
  split; [apply Rinv_le_contravar; lra|]. rewrite <- (Rinv_inv B). apply Rinv_le_contravar; lra.
Qed.
Lemma apx_trans B C x y z : 1 <= B -> 1 <= C -> apx B x y -> apx C y z -> apx (B * C) x z.
Proof.
  intros HB HC (t & [T1 T2] & ->) (s & [S1 S2] & ->). exists (t * s). pose proof (inv_le1 B HB). pose proof (inv_le1 C HC).
  split; [|ring]. rewrite Rinv_mult. split; apply Rmult_le_compat; lra.
Qed.
Lemma apx_weak B C x y : 1 <= B -> B <= C -> apx B x y -> apx C x y.
Proof.
  intros HB HC (t & [T1 T2] & ->). exists t. split; auto. split; [|lra].
  eapply Rle_trans; [|exact T1]. apply Rinv_le_contravar; lra.
Qed.
Lemma apx_err B t : 1 <= B -> / B <= t <= B -> Rabs (t - 1) <= B - 1.
Proof.
  intros HB [T1 T2]. apply Rabs_le. split; [|lra].
  assert (2 - B <= / B); [|lra]. apply Rmult_le_reg_r with B; [lra|]. rewrite Rinv_l by lra. nra.
Qed.
Lemma apx_rel B x y : 1 <= B -> apx B x y -> rel (B - 1) x y.
Proof.
  intros HB (t & T & ->). unfold rel. replace (y * t - y) with ((t - 1) * y) by ring. rewrite Rabs_mult.
  apply Rmult_le_compat_r; [apply Rabs_pos|]. apply apx_err; auto.
Qed.
Lemma apx_pos B x y : 1 <= B -> apx B x y -> 0 < y -> 0 < x.
Proof. intros HB (t & [T1 T2] & ->) Hy. pose proof (inv_le1 B HB). nra. Qed.
Lemma apx_neq0 B x y : 1 <= B -> apx B x y -> y <> 0 -> x <> 0.
Proof. intros HB (t & [T1 T2] & ->) Hy. pose proof (inv_le1 B HB). apply Rmult_integral_contrapositive_currified; lra. Qed.

Lemma ln10_gt1 : 1 < ln 10.
Proof.
  rewrite <- (ln_exp 1). apply ln_increasing; [apply exp_pos|]. pose proof exp_le_3. lra.
Qed.
(** ln t for t near 1. *)
Lemma ln_apx B t : 1 <= B -> / B <= t <= B -> Rabs (ln t) <= B - 1.
Proof.
  intros HB [T1 T2]. pose proof (inv_le1 B HB).
  assert (Hl : forall x, 0 < x -> ln x <= x - 1).
  { intros x Hx. pose proof (exp_ineq1_le (ln x)) as E. rewrite exp_ln in E by auto. lra. }
  apply Rabs_le. split.
  - assert (ln (/ t) <= B - 1).
    { eapply Rle_trans; [apply Hl; apply Rinv_0_lt_compat; lra|].
      assert (/ t <= B); [|lra]. rewrite <- (Rinv_inv B). apply Rinv_le_contravar; lra. }
    rewrite ln_Rinv in * by lra. lra.
  - pose proof (Hl t ltac:(lra)). lra.
Qed.
Lemma pow10_plus a b : pow10 (a + b) = pow10 a * pow10 b.
Proof. unfold pow10. apply Rpower_plus. Qed.
Lemma pow10_le a b : a <= b -> pow10 a <= pow10 b.
Proof. intro H. unfold pow10. destruct (Req_dec a b) as [->|]; [lra|]. apply Rlt_le, Rpower_lt; lra. Qed.
Lemma pow10_opp a : pow10 (- a) = / pow10 a.
Proof. unfold pow10. apply Rpower_Ropp. Qed.
Lemma pow10_ge1 a : 0 <= a -> 1 <= pow10 a.
Proof. intro H. rewrite <- pow10_0. apply pow10_le; auto. Qed.
(** An error of the exponent. *)
Lemma apx_pow10 B x y : 1 <= B -> apx B x y -> apx (pow10 (Rabs y * (B - 1))) (pow10 x) (pow10 y).
Proof.
  intros HB (t & T & ->). exists (pow10 (y * (t - 1))). split; [|rewrite <- pow10_plus; f_equal; ring].
  assert (H : Rabs (y * (t - 1)) <= Rabs y * (B - 1)).
  { rewrite Rabs_mult. apply Rmult_le_compat_l; [apply Rabs_pos|apply apx_err; auto]. }
  apply Rabs_le_inv in H. rewrite <- pow10_opp. split; apply pow10_le; lra.
Qed.

Section Ops.
  Variables (u : R) (N : Num R).
  Hypothesis Hu : 0 <= u < 1.
  Hypothesis HN : std_model u N.
  Hypothesis HF : std_fun u N.
  Let rho := / (1 - u).
  Lemma o_rho : 1 <= rho.
  Proof using Hu. apply rho_ge1; auto. Qed.
  Lemma o_pow k : 1 <= rho ^ k.
  Proof using Hu. apply pow_R1_Rle, o_rho. Qed.
  Lemma o_growth k : 1 + growth u k = rho ^ k.
  Proof. unfold growth, rho. ring. Qed.
  Lemma o_rel x y : rel u x y -> apx rho x y.
  Proof using Hu. intro H. destruct (rel_fac u Hu x y H) as (t & Ht & E). exists t. split; auto. unfold fac in Ht. rewrite pow_1 in Ht. exact Ht. Qed.
  Lemma o_step B x y z : 1 <= B -> rel u x y -> apx B y z -> apx (B * rho) x z.
  Proof using Hu.
    intros HB H1 H2. rewrite Rmult_comm. apply apx_trans with y; auto using o_rho, o_rel.
  Qed.
  Lemma o_cst B x y : 1 <= B -> apx B x y -> apx (B * rho) (@cst R N x) y.
  Proof using Hu HN. intros HB H. eapply o_step; eauto. apply HN. Qed.
  Lemma o_mul B C x y x' y' : 1 <= B -> 1 <= C -> apx B x y -> apx C x' y' -> apx (B * C * rho) (@nmul R N x x') (y * y').
  Proof using Hu HN. intros HB HC H1 H2. eapply o_step; [nra|apply HN|]. apply apx_mul; auto. Qed.
  Lemma o_div B C x y x' y' : 1 <= B -> 1 <= C -> y' <> 0 -> apx B x y -> apx C x' y' -> apx (B * C * rho) (@ndiv R N x x') (y / y').
  Proof using Hu HN.
    intros HB HC Hy H1 H2. eapply o_step; [nra|apply HN; eapply apx_neq0; eauto|]. apply apx_mul; auto. apply apx_inv; auto.
  Qed.
  Lemma o_sq B x y : 1 <= B -> apx B x y -> apx (B * B * rho) (nsq x) (y ^ 2).
  Proof using Hu HN. intros HB H. unfold nsq. replace (y ^ 2) with (y * y) by ring. apply o_mul; auto. Qed.
  Lemma o_lit q y : Q2R q = y -> apx rho (@nlit R N q) y.
  Proof using Hu HF. intros <-. apply o_rel, HF. Qed.
  Lemma o_pow10 B x y : 1 <= B -> apx B x y -> apx (pow10 (Rabs y * (B - 1)) * rho) (@npow10 R N x) (pow10 y).
  Proof using Hu HF.
    intros HB H. eapply o_step; [|apply HF|apply apx_pow10; eauto].
    apply pow10_ge1. pose proof (Rabs_pos y). nra.
  Qed.
  (** Logarithms of numbers with |ln| >= 1. *)
  Lemma o_ln B x y : 1 <= B -> 0 < y -> 1 <= Rabs (ln y) -> apx B x y ->
    exists e, Rabs (e - 1) <= B * rho - 1 /\ @nln R N x = ln y * e.
  Proof using Hu HF.
    intros HB Hy Hl H. pose proof (apx_pos _ _ _ HB H Hy) as Hx. destruct H as (t & T & E).
    destruct (o_rel _ _ (fun_ln _ _ HF x Hx)) as (s & S & Es). fold rho in S. rewrite Es, E. clear Es.
    pose proof (inv_le1 B HB). pose proof o_rho as Hr. pose proof (inv_le1 rho Hr).
    rewrite ln_mult by lra. set (d := ln t / ln y).
    assert (Hn : ln y <> 0) by (intro Z; rewrite Z, Rabs_R0 in Hl; lra).
    assert (Hd : Rabs d <= B - 1).
    { unfold d, Rdiv. rewrite Rabs_mult, Rabs_inv. pose proof (ln_apx B t HB T).
      assert (/ Rabs (ln y) <= 1) by (rewrite <- Rinv_1; apply Rinv_le_contravar; lra).
      assert (0 < / Rabs (ln y)) by (apply Rinv_0_lt_compat; lra). pose proof (Rabs_pos (ln t)). nra. }
    exists ((1 + d) * s). split; [|unfold d; field; auto].
    pose proof (apx_err rho s Hr S) as Hs. replace ((1 + d) * s - 1) with (d * s + (s - 1)) by ring.
    eapply Rle_trans; [apply Rabs_triang|]. rewrite Rabs_mult, (Rabs_pos_eq s) by lra. pose proof (Rabs_pos d). nra.
  Qed.
End Ops.


(** Multiplying and dividing fluxes: products of roundings are at least 1. *)
Lemma ge1_mul a b : 1 <= a -> 1 <= b -> 1 <= a * b.
Proof. intros. nra. Qed.

Lemma nth_error_of {A} (l : list A) j d : (j < length l)%nat -> nth_error l j = Some (nth j l d).
Proof. apply nth_error_nth'. Qed.

(** C113. Rounding every operation to 24-bit significands (float32 without underflow and overflow; the functions exact) meets
    the standard model with u = 2^-24. *)
Lemma L_C113_model : std_model (bpow radix2 (-24)) Num_24 /\ std_fun (bpow radix2 (-24)) Num_24.
Proof.
  split; [apply L_C83_model|].
  assert (H0 : forall x, rel (bpow radix2 (-24)) x x).
  { intro x. unfold rel. replace (x - x) with 0 by ring. rewrite Rabs_R0. apply Rmult_le_pos; [apply bpow_ge_0|apply Rabs_pos]. }
  split; intros; try reflexivity; try apply H0; apply rnd24_rel.
Qed.
Lemma E_C113_model : 0 <= bpow radix2 (-24) < 1 /\ growth (bpow radix2 (-24)) 4 < / 1000000.
Proof. split; [cbn; lra|]. unfold growth. cbn [pow]. replace (bpow radix2 (-24)) with (/ 16777216) by (cbn; lra). 
  replace (/ (1 - / 16777216)) with (16777216 / 16777215) by field. lra. Qed.

(** C113. sdss_ab_correct: every corrected flux is the documented one, maggies * 10^(-0.4 abfix), up to four roundings and the
    three roundings of the exponent; every corrected inverse variance likewise with six roundings, the factor being squared. *)
Lemma L_C113_ab_correct : forall u (N : Num R) (maggies ivar abfix : nd R),
  0 <= u < 1 -> std_model u N -> std_fun u N ->
  wf maggies -> wf ivar -> wf abfix -> shp abfix = [5%nat] -> shp maggies <> [] -> lastd (shp maggies) = 5%nat ->
  shp ivar = shp maggies ->
  exists am ai, @sdss_ab_correct R N maggies (Some ivar) abfix = Ok (am, Some ai) /\
    shp am = shp maggies /\ shp ai = shp maggies /\ wf am /\ wf ai /\
    forall j, (j < size (shp maggies))%nat ->
      let a := nth (j mod 5) (dat abfix) 0 in
      rel (mag_growth u 4 1 a) (nth j (dat am) 0) (nth j (dat maggies) 0 * pow10 (-0.4 * a)) /\
      rel (mag_growth u 6 2 a) (nth j (dat ai) 0) (nth j (dat ivar) 0 / pow10 (-0.4 * a) ^ 2).
Proof.
  intros u N maggies ivar abfix Hu HN HF Wm Wi Wa Sa Hne H5 Si.
  destruct (@sdss_ab_correct_spec R N maggies abfix (Some ivar)) as (am & ai & E & Sm & Wam & Nm & Hai); auto.
  { lia. } { intros iv Ev. injection Ev as <-. auto. }
  destruct Hai as (a1 & -> & Sa1 & Wa1 & Na). exists am, a1. rewrite E. do 5 (split; auto).
  intros j Hj. cbv zeta. rewrite H5 in Nm, Na. specialize (Nm j Hj). specialize (Na j Hj).
  assert (Hk : (j mod 5 < 5)%nat) by (apply Nat.mod_upper_bound; lia).
  rewrite (proj2 (Nat.ltb_lt _ _) Hk) in Nm, Na.
  rewrite (nth_error_of (dat maggies) _ 0) in Nm by (rewrite Wm; auto).
  rewrite (nth_error_of (dat ivar) _ 0) in Na by (rewrite Wi, Si; auto). cbn [option_map] in Nm, Na.
  apply nth_error_nth with (d := 0) in Nm. apply nth_error_nth with (d := 0) in Na. rewrite Nm, Na. clear Nm Na.
  set (a := nth (j mod 5) (dat abfix) 0). set (m := nth j (dat maggies) 0). set (v := nth j (dat ivar) 0).
  set (rho := / (1 - u)). assert (Hr : 1 <= rho) by (apply o_rho; auto).
  set (P := pow10 (0.4 * Rabs a * growth u 3)).
  assert (HP : 1 <= P).
  { apply pow10_ge1. pose proof (Rabs_pos a). pose proof (growth_pos u Hu 3). apply Rmult_le_pos; lra. }
  assert (Hf : apx (P * rho) (@code_abfac R N abfix (j mod 5)) (pow10 (-0.4 * a))).
  { unfold code_abfac. rewrite (std_0 _ _ HN). fold a. unfold P.
    replace (0.4 * Rabs a * growth u 3) with (Rabs (-0.4 * a) * (rho * (1 * rho) * rho - 1)).
    2:{ rewrite Rabs_mult. replace (Rabs (-0.4)) with 0.4 by (rewrite Rabs_left; lra). unfold growth. fold rho. ring. }
    apply (o_pow10 u N); auto; [nra|]. apply (o_mul u N); auto; try nra.
    - apply (o_lit u N); auto. apply lit_m04.
    - apply (o_cst u N); auto; [lra|apply apx_refl; lra]. }
  assert (Hst : forall B x y, 1 <= B -> apx B x y -> apx (B * rho) (@store_if R N (Nat.eqb (ndim maggies) 1) x) y).
  { intros B x y HB H. unfold store_if. destruct (Nat.eqb _ 1); [|apply (o_cst u N); auto].
    apply apx_weak with B; auto. nra. }
  assert (HPr : 1 <= P * rho) by (apply ge1_mul; auto).
  split.
  - replace (mag_growth u 4 1 a) with (1 * rho * (P * rho) * rho * rho - 1).
    2:{ unfold mag_growth. rewrite (o_growth u). fold rho. replace (INR 1 * (0.4 * Rabs a * growth u 3)) with (0.4 * Rabs a * growth u 3) by (cbn; ring).
        fold P. ring. }
    apply apx_rel; [repeat apply ge1_mul; auto; lra|]. apply Hst; [repeat apply ge1_mul; auto; lra|].
    apply (o_mul u N); auto; [nra|]. apply (o_cst u N); auto; [lra|apply apx_refl; lra].
  - replace (mag_growth u 6 2 a) with (1 * rho * (P * rho * (P * rho) * rho) * rho * rho - 1).
    2:{ unfold mag_growth. rewrite (o_growth u). fold rho.
        replace (INR 2 * (0.4 * Rabs a * growth u 3)) with (0.4 * Rabs a * growth u 3 + 0.4 * Rabs a * growth u 3) by (cbn; ring).
        rewrite pow10_plus. fold P. ring. }
    apply apx_rel; [repeat apply ge1_mul; auto; lra|]. apply Hst; [repeat apply ge1_mul; auto; lra|].
    apply (o_div u N); auto; try (repeat apply ge1_mul; auto; lra).
    + pose proof (pow10_pos (-0.4 * a)). nra.
    + apply (o_cst u N); auto; [lra|apply apx_refl; lra].
    + apply (o_sq u N); auto.
Qed.
Lemma E_C113_ab_correct : exists am ai,
  @sdss_ab_correct R Num_24 (vec [1; 2; 3; 4; 5]) (Some (vec [4; 4; 4; 4; 4])) (vec [-0.036; 0.012; 0.010; 0.028; 0.040]) = Ok (am, Some ai) /\
  rel (mag_growth (bpow radix2 (-24)) 4 1 0.010) (nth 2 (dat am) 0) (3 * pow10 (-0.4 * 0.010)) /\
  rel (mag_growth (bpow radix2 (-24)) 6 2 0.010) (nth 2 (dat ai) 0) (4 / pow10 (-0.4 * 0.010) ^ 2).
Proof.
  destruct (L_C113_ab_correct (bpow radix2 (-24)) Num_24 (vec [1; 2; 3; 4; 5]) (vec [4; 4; 4; 4; 4]) (vec [-0.036; 0.012; 0.010; 0.028; 0.040]))
    as (am & ai & E & _ & _ & _ & _ & H); try apply L_C113_model; try reflexivity; try discriminate.
  { cbn; lra. }
  exists am, ai. split; auto. exact (H 2%nat ltac:(cbn; lia)).
Qed.

(** The entries maggies2flambda computes, in both branches. *)
Lemma m2f_spec {T} {N : Num T} (leff : list T) (maggies iv : nd T) (n : nat) :
  shp maggies = [length leff] \/ shp maggies = [n; length leff] -> wf maggies -> wf iv -> shp iv = shp maggies ->
  exists f fi, maggies2flambda_core leff maggies (Some iv) = Ok (map cst leff, f, Some fi) /\
    shp f = shp maggies /\ shp fi = shp maggies /\ wf f /\ wf fi /\
    forall j, (j < size (shp maggies))%nat ->
      let s := sed_ab1 (cst (nth (j mod length leff) leff n0)) in
      let m := nth j (dat maggies) n0 in let v := nth j (dat iv) n0 in
      (nth j (dat f) n0 = nmul s m /\ nth j (dat fi) n0 = ndiv v (nsq s)) \/
      (nth j (dat f) n0 = nmul (nmul n1 s) m /\ nth j (dat fi) n0 = nmul (nmul n1 (ndiv n1 (nsq s))) v).
Proof.
  intros Hs Wm Wi Si. set (nb := length leff) in *. unfold maggies2flambda_core.
  set (m2f := sed_ab (map cst leff)).
  assert (Lf : length m2f = nb) by (unfold m2f, sed_ab; rewrite !map_length; auto).
  assert (Nf : forall k, (k < nb)%nat -> nth k m2f n0 = sed_ab1 (cst (nth k leff n0))).
  { intros k Hk. apply nth_error_nth. unfold m2f, sed_ab. rewrite !nth_error_map, (nth_error_of leff k n0) by auto. reflexivity. }
  destruct Hs as [Es|Es].
  - unfold ndim. rewrite Es. change (Nat.eqb (length [nb]) 1) with true. cbv iota.
    assert (Sz : size [nb] = nb) by (cbn; lia).
    rewrite bin_same; auto using wf_vec; [|cbn [vec shp]; rewrite Lf; auto]. cbn [bind].
    rewrite bin_same; auto using wf_vec; [|cbn [vec shp]; rewrite Si, Es, map_length, Lf; auto]. cbn [bind].
    eexists _, _. split; [reflexivity|]. cbn [shp vec]. rewrite Lf, Si, Es. do 2 (split; auto).
    unfold wf in *. rewrite Si in Wi. rewrite Es, Sz in *. cbn [shp dat vec]. split; [rewrite length_zip, ?Lf, ?Wm, ?Lf, ?Sz; lia|].
    split; [rewrite length_zip, ?Wi, ?map_length, ?Lf, ?Si, ?Es, ?Sz; lia|].
    intros j Hj. cbv zeta. left. rewrite Nat.mod_small by auto. split; apply nth_error_nth; rewrite nth_error_zip.
    + rewrite (nth_error_of m2f j n0), (nth_error_of (dat maggies) j n0) by lia. rewrite Nf by auto. reflexivity.
    + rewrite nth_error_map, (nth_error_of m2f j n0), (nth_error_of (dat iv) j n0) by lia. rewrite Nf by auto. reflexivity.
  - unfold ndim. rewrite Es. change (Nat.eqb (length [n; nb]) 1) with false. cbv iota.
    assert (Sz : size [n; nb] = (n * nb)%nat) by (cbn; lia).
    assert (Ho : forall h : list T, length h = nb -> shp (outer nmul (full [n] n1) (vec h)) = [n; nb] /\ wf (outer nmul (full [n] n1) (vec h)) /\
       forall j, (j < n * nb)%nat -> nth_error (dat (outer nmul (full [n] n1) (vec h))) j = Some (nmul n1 (nth (j mod nb) h n0))).
    { intros h Hh.
      assert (Lr : length (dat (full [n] n1 : nd T)) = n) by (unfold full; cbn [dat]; rewrite repeat_length; cbn; lia).
      assert (Rows : forall l, In l (map (fun x : T => map (fun y => nmul x y) (dat (vec h))) (dat (full [n] n1))) -> length l = nb).
      { intros l Hl. apply in_map_iff in Hl as (x & <- & _). rewrite map_length. exact Hh. }
      assert (Sh : shp (outer nmul (full [n] n1) (vec h)) = [n; nb]).
      { unfold outer; cbn [shp]. rewrite Lr. cbn [vec dat]. rewrite Hh. reflexivity. }
      split; auto. split.
      - unfold wf. rewrite Sh. unfold outer; cbn [dat]. rewrite (length_concat_const (m := nb) _ Rows), map_length, Lr. cbn; lia.
      - intros j Hj. assert (Hp : (0 < nb)%nat) by (destruct nb; lia).
        unfold outer; cbn [dat]. rewrite (@nth_error_concat_flat T nb _ j Rows Hp), nth_error_map.
        assert (Hq : (j / nb < n)%nat) by (apply Nat.div_lt_upper_bound; lia).
        rewrite (nth_error_of _ _ n0) by (rewrite Lr; auto). cbn [option_map].
        assert (E1 : nth (j / nb) (dat (full [n] n1)) n0 = n1 :> T).
        { unfold full; cbn [dat]. apply nth_error_nth. rewrite nth_error_repeat; auto. change (size [n]) with (n * 1)%nat. rewrite Nat.mul_1_r, (proj2 (Nat.ltb_lt _ _) Hq). reflexivity. }
        rewrite E1. cbn [vec dat].
        rewrite nth_error_map, (nth_error_of h _ n0) by (rewrite Hh; apply Nat.mod_upper_bound; lia). reflexivity. }
    destruct (Ho m2f Lf) as (S1 & W1 & N1). destruct (Ho (map (fun f => ndiv n1 (nsq f)) m2f)) as (S2 & W2 & N2); [rewrite map_length; auto|].
    rewrite bin_same by congruence. cbn [bind]. rewrite bin_same by congruence. cbn [bind].
    eexists _, _. split; [reflexivity|]. cbn [shp]. rewrite S1, S2. do 2 (split; auto).
    unfold wf in *. rewrite Si in Wi. rewrite Es in Wm, Wi. rewrite S1 in W1. rewrite S2 in W2. rewrite Sz in *. cbn [shp dat].
    split; [rewrite length_zip, ?S1, ?Sz; lia|]. split; [rewrite length_zip, ?S2, ?Sz; lia|].
    intros j Hj. cbv zeta. right. assert (Hp : (0 < nb)%nat) by (destruct nb; lia).
    assert (Hm : (j mod nb < nb)%nat) by (apply Nat.mod_upper_bound; lia). split; apply nth_error_nth; rewrite nth_error_zip.
    + rewrite N1, (nth_error_of (dat maggies) j n0) by lia. rewrite Nf by auto. reflexivity.
    + rewrite N2, (nth_error_of (dat iv) j n0) by lia.
      assert (En : nth (j mod nb) (map (fun f => ndiv n1 (nsq f)) m2f) n0 = ndiv n1 (nsq (sed_ab1 (cst (nth (j mod nb) leff n0))))).
      { apply nth_error_nth. rewrite nth_error_map, (nth_error_of m2f _ n0) by lia. rewrite Nf by auto. reflexivity. }
      rewrite En. reflexivity.
Qed.
(** C113. maggies2flambda: the flux densities are the documented ones, maggies times the AB spectrum at the effective
    wavelength, up to nine roundings; their inverse variances up to eighteen. *)
Lemma L_C113_flambda : forall u (N : Num R) (leff : list R) (maggies ivar : nd R) (n : nat),
  0 <= u < 1 -> std_model u N -> std_fun u N -> Forall (fun w => w <> 0) leff ->
  shp maggies = [length leff] \/ shp maggies = [n; length leff] -> wf maggies -> wf ivar -> shp ivar = shp maggies ->
  exists wave f fi, @maggies2flambda_core R N leff maggies (Some ivar) = Ok (wave, f, Some fi) /\
    Forall2 (rel u) wave leff /\ shp f = shp maggies /\ shp fi = shp maggies /\
    forall j, (j < size (shp maggies))%nat ->
      let c := ab_flux (nth (j mod length leff) leff 0) in
      rel (growth u 9) (nth j (dat f) 0) (nth j (dat maggies) 0 * c) /\
      rel (growth u 18) (nth j (dat fi) 0) (nth j (dat ivar) 0 / c ^ 2).
Proof.
  intros u N leff maggies ivar n Hu HN HF Hw Hs Wm Wi Si.
  destruct (@m2f_spec R N leff maggies ivar n Hs Wm Wi Si) as (f & fi & E & Sf & Sfi & _ & _ & H).
  exists (map (@cst R N) leff), f, fi. split; auto. split; [|do 2 (split; auto)].
  { clear - HN. induction leff as [|w l IH]; constructor; auto. apply HN. }
  intros j Hj. cbv zeta. specialize (H j Hj). cbv zeta in H. rewrite !(std_0 _ _ HN) in H.
  assert (Hk : (j mod length leff < length leff)%nat).
  { apply Nat.mod_upper_bound. intro Z. rewrite Z in Hs. destruct Hs as [Hs|Hs]; rewrite Hs in Hj; cbn in Hj; lia. }
  set (w := nth (j mod length leff) leff 0) in *.
  assert (Hw0 : w <> 0) by (rewrite Forall_forall in Hw; apply Hw, nth_In; auto).
  set (rho := / (1 - u)). assert (Hr : 1 <= rho) by (apply o_rho; auto).
  assert (Hp : forall k, 1 <= rho ^ k) by (intro; apply pow_R1_Rle; auto).
  assert (Hc : ab_flux w <> 0).
  { unfold ab_flux. apply Rmult_integral_contrapositive_currified; [lra|]. apply Rinv_neq_0_compat. apply pow_nonzero; auto. }
  assert (Hsed : apx (rho ^ 7) (@sed_ab1 R N (@cst R N w)) (ab_flux w)).
  { unfold sed_ab1. replace (ab_flux w) with (Q2R (3631 # 100000) / w ^ 2 * Q2R (299792 # 100000)).
    2:{ unfold ab_flux. rewrite !Q2R_lit. field. auto. }
    replace (rho ^ 7) with (rho * (1 * rho * (1 * rho) * rho) * rho * rho * rho) by ring.
    assert (G : 1 <= 1 * rho * (1 * rho) * rho) by (repeat apply ge1_mul; auto; lra).
    apply (o_mul u N); auto; [repeat apply ge1_mul; auto; lra| |apply (o_lit u N); auto].
    apply (o_div u N); auto; [apply pow_nonzero; auto|apply (o_lit u N); auto|].
    apply (o_sq u N); auto; [nra|]. apply (o_cst u N); auto; [lra|apply apx_refl; lra]. }
  set (s := @sed_ab1 R N (@cst R N w)) in *.
  set (m := nth j (dat maggies) 0) in *. set (v := nth j (dat ivar) 0) in *.
  assert (Hg : forall k, growth u k = rho ^ k - 1) by reflexivity.
  assert (Hq : apx (rho ^ 15) (@nsq R N s) (ab_flux w ^ 2)).
  { replace (rho ^ 15) with (rho ^ 7 * rho ^ 7 * rho) by ring. apply (o_sq u N); auto. }
  assert (Hz : ab_flux w ^ 2 <> 0) by (apply pow_nonzero; auto).
  destruct H as [[-> ->]|[-> ->]]; rewrite !Hg; split; apply apx_rel; auto.
  - rewrite Rmult_comm. apply apx_weak with (rho ^ 7 * 1 * rho); [repeat apply ge1_mul; auto; lra| |].
    + replace (rho ^ 9) with (rho ^ 7 * 1 * rho * rho) by ring. pose proof (Hp 7%nat). assert (0 <= rho ^ 7 * 1 * rho) by nra. nra.
    + apply (o_mul u N); auto; [lra|apply apx_refl; lra].
  - apply apx_weak with (1 * rho ^ 15 * rho); [repeat apply ge1_mul; auto; lra| |].
    + replace (rho ^ 18) with (rho ^ 16 * (rho ^ 2)) by ring. replace (1 * rho ^ 15 * rho) with (rho ^ 16) by ring.
      pose proof (Hp 16%nat). pose proof (Hp 2%nat). nra.
    + apply (o_div u N); auto; [lra|apply apx_refl; lra].
  - rewrite Rmult_comm. replace (rho ^ 9) with (1 * rho ^ 7 * rho * 1 * rho) by ring.
    apply (o_mul u N); auto; [repeat apply ge1_mul; auto; lra|lra| |apply apx_refl; lra].
    rewrite (std_1 _ _ HN). rewrite <- (Rmult_1_l (ab_flux w)). apply (o_mul u N); auto; [lra|apply apx_refl; lra].
  - replace (v / ab_flux w ^ 2) with (1 * (1 / ab_flux w ^ 2) * v) by (field; auto).
    replace (rho ^ 18) with (1 * (1 * rho ^ 15 * rho) * rho * 1 * rho) by ring.
    assert (G : 1 <= 1 * rho ^ 15 * rho) by (repeat apply ge1_mul; auto; lra).
    apply (o_mul u N); auto; [repeat apply ge1_mul; auto; lra|lra| |apply apx_refl; lra].
    rewrite (std_1 _ _ HN). apply (o_mul u N); auto; [lra|apply apx_refl; lra|].
    apply (o_div u N); auto; [lra|apply apx_refl; lra].
Qed.
Lemma E_C113_flambda : exists wave f fi,
  @maggies2flambda_core R Num_24 [4000; 6000] (mk [2; 2]%nat [1; 2; 3; 4]) (Some (mk [2; 2]%nat [4; 4; 4; 4])) = Ok (wave, f, Some fi) /\
  rel (growth (bpow radix2 (-24)) 9) (nth 3 (dat f) 0) (4 * ab_flux 6000).
Proof.
  destruct (L_C113_flambda (bpow radix2 (-24)) Num_24 [4000; 6000] (mk [2; 2]%nat [1; 2; 3; 4]) (mk [2; 2]%nat [4; 4; 4; 4]) 2
    ltac:(cbn; lra) (proj1 L_C113_model) (proj2 L_C113_model)) as (wave & f & fi & E & _ & _ & _ & H); try reflexivity.
  { constructor; [lra|]. constructor; [lra|]. constructor. } { right. reflexivity. }
  exists wave, f, fi. split; auto. exact (proj1 (H 3%nat ltac:(cbn; lia))).
Qed.

(** C113. error_floor: whichever way the comparison with the floor is decided, every inverse variance is the documented one, the
    smaller of the given one and that of the floor, up to eleven roundings. *)
Lemma L_C113_floor : forall u (N : Num R) (store : R -> R) (floor maggies ivar : nd R),
  0 <= u < 1 -> std_model u N -> std_fun u N -> (forall x, rel u (store x) x) ->
  wf floor -> wf maggies -> wf ivar -> shp maggies <> [] -> (ndim maggies <= 2)%nat ->
  shp floor = [lastd (shp maggies)] -> shp ivar = shp maggies ->
  exists out, @error_floor R N store floor maggies ivar = Ok out /\ shp out = shp maggies /\
    forall j, (j < size (shp maggies))%nat ->
      let fl := nth (j mod lastd (shp maggies)) (dat floor) 0 in
      let m := nth j (dat maggies) 0 in let v := nth j (dat ivar) 0 in
      (v <= 0 -> nth j (dat out) 0 = v) /\
      (0 < v -> 0 < fl -> m <> 0 -> rel (growth u 11) (nth j (dat out) 0) (Rmin v (1 / (fl * m) ^ 2))).
Proof.
  intros u N store floor maggies ivar Hu HN HF Hst Wf Wm Wi Hne Hd Sf Si.
  destruct (@error_floor_spec R N store floor maggies ivar Wf Wm Wi Hne Hd Sf Si) as (out & E & So & _ & H).
  exists out. split; auto. split; auto. intros j Hj. cbv zeta. specialize (H j Hj).
  apply nth_error_nth with (d := 0) in H. rewrite !(std_0 _ _ HN) in H. rewrite H. clear H.
  set (fl := nth (j mod lastd (shp maggies)) (dat floor) 0). set (m := nth j (dat maggies) 0). set (v := nth j (dat ivar) 0).
  unfold floor_entry, ngtb. rewrite !(std_lt _ _ HN), (std_0 _ _ HN). split.
  { intro Hv. unfold Rltb. destruct (Rlt_dec 0 v); [lra|reflexivity]. }
  intros Hv Hfl Hm. unfold Rltb at 1. destruct (Rlt_dec 0 v); [|lra]. cbv zeta.
  rewrite (std_1 _ _ HN), (fun_abs _ _ HF).
  assert (Ha : 0 < Rabs m) by (apply Rabs_pos_lt; auto).
  assert (Hm2 : Rabs m * Rabs m = m * m) by (rewrite <- Rabs_mult; apply Rabs_pos_eq; nra).
  set (rho := / (1 - u)). assert (Hr : 1 <= rho) by (apply o_rho; auto).
  assert (Hp : forall k, 1 <= rho ^ k) by (intro; apply pow_R1_Rle; auto).
  change (growth u 11) with (rho ^ 11 - 1).
  pose proof (sqrt_lt_R0 v Hv) as Hq. pose proof (sqrt_def v ltac:(lra)) as Hqq.
  set (F := 1 / (fl * m) ^ 2). set (fe := 1 / (Rabs m * sqrt v)).
  assert (HF0 : 0 < (fl * m) ^ 2) by (rewrite Rpow_mult_distr; apply Rmult_lt_0_compat; nra).
  assert (HFp : 0 < F) by (unfold F; apply Rdiv_lt_0_compat; lra).
  assert (Hfe : 0 < fe) by (unfold fe; apply Rdiv_lt_0_compat; nra).
  assert (Hvf : F * fl ^ 2 = v * fe ^ 2).
  { unfold F, fe. replace ((1 / (Rabs m * sqrt v)) ^ 2) with (1 / (m * m * v)).
    - field. split; auto; lra.
    - rewrite <- Hm2, <- Hqq at 1. field. split; lra. }
  assert (Hfc : apx (rho ^ 3) (@ndiv R N 1 (@nmul R N (Rabs m) (@nsqrt R N v))) fe).
  { replace (rho ^ 3) with (1 * (1 * rho * rho) * rho) by ring. unfold fe.
    apply (o_div u N); auto; [lra|repeat apply ge1_mul; auto; lra|nra|apply apx_refl; lra|].
    apply (o_mul u N); auto; [lra|apply apx_refl; lra|]. apply o_rel; auto. apply HF; lra. }
  destruct Hfc as (t & Ht & Et).
  assert (Ht6 : / rho ^ 6 <= t * t <= rho ^ 6).
  { pose proof (inv_le1 _ (Hp 3%nat)). replace (rho ^ 6) with (rho ^ 3 * rho ^ 3) by ring. rewrite Rinv_mult.
    split; apply Rmult_le_compat; lra. }
  assert (Htp : 0 < t) by (pose proof (inv_le1 _ (Hp 3%nat)); lra).
  unfold Rltb. rewrite Et. destruct (Rlt_dec (fe * t) fl) as [C|C].
  - assert (Hs : apx (rho ^ 5) (store (@ndiv R N 1 (@nsq R N (@nmul R N (Rabs m) fl)))) F).
    { replace (rho ^ 5) with (1 * (1 * 1 * rho * (1 * 1 * rho) * rho) * rho * rho) by ring.
      assert (G : 1 <= 1 * 1 * rho) by (repeat apply ge1_mul; auto; lra).
      eapply o_step; [auto| |apply Hst|]; [repeat apply ge1_mul; auto; lra|]. unfold F.
      replace ((fl * m) ^ 2) with ((Rabs m * fl) ^ 2).
      2:{ rewrite !Rpow_mult_distr. replace (Rabs m ^ 2) with (Rabs m * Rabs m) by ring. rewrite Hm2. ring. }
      apply (o_div u N); auto; [lra|repeat apply ge1_mul; auto; lra|apply pow_nonzero; nra|apply apx_refl; lra|].
      apply (o_sq u N); auto. apply (o_mul u N); auto; try lra; apply apx_refl; lra. }
    unfold Rmin. destruct (Rle_dec v F) as [L|L].
    + apply apx_rel; auto. replace (rho ^ 11) with (rho ^ 5 * rho ^ 6) by ring. apply apx_trans with F; auto.
      exists (F / v). split; [|field; lra]. split.
      * pose proof (inv_le1 _ (Hp 6%nat)). assert (1 <= F / v); [|lra]. apply Rmult_le_reg_r with v; auto. unfold Rdiv. rewrite Rmult_assoc, Rinv_l; lra.
      * assert (C2 : fe ^ 2 * (t * t) <= fl ^ 2).
        { replace (fe ^ 2 * (t * t)) with ((fe * t) ^ 2) by ring. apply pow_incr. split; [apply Rlt_le, Rmult_lt_0_compat; auto|lra]. }
        assert (F * (t * t) <= v).
        { apply Rmult_le_reg_r with (fe ^ 2); [nra|]. rewrite <- Hvf. replace (F * (t * t) * fe ^ 2) with (F * (fe ^ 2 * (t * t))) by ring.
          apply Rmult_le_compat_l; lra. }
        apply Rmult_le_reg_r with (/ rho ^ 6); [apply Rinv_0_lt_compat; pose proof (Hp 6%nat); lra|].
        rewrite Rinv_r by (pose proof (Hp 6%nat); lra).
        apply Rle_trans with (F / v * (t * t)); [apply Rmult_le_compat_l; [apply Rlt_le, Rdiv_lt_0_compat; lra|lra]|].
        apply Rmult_le_reg_r with v; auto. replace (F / v * (t * t) * v) with (F * (t * t)) by (field; lra). lra.
    + apply apx_rel; auto. apply apx_weak with (rho ^ 5); auto. replace (rho ^ 11) with (rho ^ 5 * rho ^ 6) by ring.
      pose proof (Hp 5%nat). pose proof (Hp 6%nat). nra.
  - unfold Rmin. destruct (Rle_dec v F) as [L|L]; apply apx_rel; auto; [apply apx_refl; auto|].
    apply apx_weak with (rho ^ 6); auto; [replace (rho ^ 11) with (rho ^ 6 * rho ^ 5) by ring; pose proof (Hp 5%nat); pose proof (Hp 6%nat); nra|].
    exists (v / F). split; [|field; lra]. split.
    + pose proof (inv_le1 _ (Hp 6%nat)). assert (1 <= v / F); [|lra]. apply Rmult_le_reg_r with F; auto. unfold Rdiv. rewrite Rmult_assoc, Rinv_l; lra.
    + assert (C2 : fl ^ 2 <= fe ^ 2 * (t * t)) by (replace (fe ^ 2 * (t * t)) with ((fe * t) ^ 2) by ring; apply pow_incr; lra).
      assert (v <= F * (t * t)).
      { apply Rmult_le_reg_r with (fe ^ 2); [nra|]. rewrite <- Hvf. replace (F * (t * t) * fe ^ 2) with (F * (fe ^ 2 * (t * t))) by ring.
        apply Rmult_le_compat_l; lra. }
      apply Rle_trans with (t * t); [|lra]. apply Rmult_le_reg_r with F; auto. replace (v / F * F) with v by (field; lra). lra.
Qed.
Lemma E_C113_floor : exists out,
  @error_floor R Num_24 rnd24 (vec [0.02; 0.05]) (vec [1; 2]) (vec [10000; 0]) = Ok out /\
  rel (growth (bpow radix2 (-24)) 11) (nth 0 (dat out) 0) (Rmin 10000 (1 / (0.02 * 1) ^ 2)) /\ nth 1 (dat out) 0 = 0.
Proof.
  destruct (L_C113_floor (bpow radix2 (-24)) Num_24 rnd24 (vec [0.02; 0.05]) (vec [1; 2]) (vec [10000; 0]))
    as (out & E & _ & H); try apply L_C113_model; try apply rnd24_rel; try reflexivity; try discriminate; auto.
  { cbn; lra. }
  exists out. split; auto. split.
  - apply (H 0%nat); cbn; try lia; lra.
  - apply (H 1%nat); cbn; try lia; lra.
Qed.

Lemma soft_pos k : (k < 5)%nat -> 0 < soft k /\ 1 <= Rabs (ln (soft k)) /\ ln (soft k) < 0 /\
  apx 1 (soft k) (Q2R (nth k [14 # 100000000000; 9 # 100000000000; 12 # 100000000000; 18 # 100000000000; 74 # 100000000000] 0%Q)).
Proof.
  intro Hk.
  assert (H : 0 < soft k < / 10 /\ soft k = Q2R (nth k [14 # 100000000000; 9 # 100000000000; 12 # 100000000000; 18 # 100000000000; 74 # 100000000000] 0%Q)).
  { do 5 (destruct k as [|k]; [unfold soft; cbn [nth]; rewrite Q2R_lit; replace (10 ^ 10) with 10000000000 by ring; split; [split|]; lra|]). lia. }
  destruct H as [H E]. split; [lra|].
  assert (ln (soft k) < - 1).
  { replace (-1) with (- (1)) by ring. rewrite <- (ln_exp (- (1))). apply ln_increasing; [lra|]. rewrite exp_Ropp. eapply Rlt_trans; [apply H|].
    apply Rinv_lt_contravar; [|pose proof exp_le_3; lra]. pose proof (exp_pos 1). nra. }
  split; [rewrite Rabs_left; lra|]. split; [lra|]. rewrite <- E. apply apx_refl; lra.
Qed.
Lemma b0_apx u N k : 0 <= u < 1 -> std_model u N -> std_fun u N -> (k < 5)%nat ->
  apx ((/ (1 - u)) ^ 2) (nth k (@b0 R N) 0) (soft k).
Proof.
  intros Hu HN HF Hk. assert (Hr := o_rho u Hu). cbv zeta in Hr.
  destruct (soft_pos k Hk) as (_ & _ & _ & (t & T & E)).
  set (q := nth k [14 # 100000000000; 9 # 100000000000; 12 # 100000000000; 18 # 100000000000; 74 # 100000000000] 0%Q) in *.
  assert (Eb : nth k (@b0 R N) 0 = @cst R N (@nlit R N q)).
  { unfold q. do 5 (destruct k as [|k]; [reflexivity|]). lia. }
  rewrite Eb. replace ((/ (1 - u)) ^ 2) with (/ (1 - u) * / (1 - u)) by ring.
  apply (o_cst u N); auto. apply (o_lit u N); auto. rewrite E. rewrite Rinv_1 in T. replace t with 1 by lra. ring.
Qed.
(** Errors of factors close to one. *)
Lemma near_mul a b A B : Rabs (a - 1) <= A - 1 -> Rabs (b - 1) <= B - 1 -> Rabs (a * b - 1) <= A * B - 1.
Proof.
  intros Ha Hb. replace (a * b - 1) with ((a - 1) * (b - 1) + (a - 1) + (b - 1)) by ring.
  eapply Rle_trans; [apply Rabs_triang|]. pose proof (Rabs_triang ((a - 1) * (b - 1)) (a - 1)). rewrite Rabs_mult in *.
  pose proof (Rabs_pos (a - 1)). pose proof (Rabs_pos (b - 1)).
  assert (Rabs (a - 1) * Rabs (b - 1) <= (A - 1) * (B - 1)) by (apply Rmult_le_compat; auto). nra.
Qed.
Lemma mag0_arg b m : 0.4 * ln 10 * (mag0 b - m) = - ln b - 0.4 * ln 10 * m.
Proof.
  unfold mag0, log10. pose proof ln10_gt1. assert (E : ln b = ln b / ln 10 * ln 10) by (field; lra).
  set (q := ln b / ln 10) in *. rewrite E. lra.
Qed.
(** The argument of sinh and cosh. *)
Lemma arg_near u N k m : 0 <= u < 1 -> std_model u N -> std_fun u N -> (k < 5)%nat ->
  exists m', Rabs (m' - m) <= growth u 7 * (Rabs m + mag0 (soft k)) /\
    @asinh_arg R N (nth k (@b0 R N) 0) (@cst R N m) = 0.4 * ln 10 * (mag0 (soft k) - m').
Proof.
  intros Hu HN HF Hk. set (rho := / (1 - u)). assert (Hr : 1 <= rho) by (apply o_rho; auto).
  assert (Hp : forall j, 1 <= rho ^ j) by (intro; apply pow_R1_Rle; auto).
  destruct (soft_pos k Hk) as (Hb & Hl & Hneg & _). pose proof (b0_apx u N k Hu HN HF Hk) as Hbx. fold rho in Hbx.
  destruct (o_ln u N Hu HF _ _ _ (Hp 2%nat) Hb Hl Hbx) as (e1 & E1 & L1). fold rho in E1.
  replace (rho ^ 2 * rho) with (rho ^ 3) in E1 by ring.
  pose proof ln10_gt1 as H10.
  assert (Hq10 : Q2R (10 # 1) = 10) by (rewrite Q2R_lit; lra).
  destruct (o_ln u N Hu HF rho (@nlit R N (10 # 1)) 10 Hr ltac:(lra) ltac:(rewrite Rabs_pos_eq; lra) (o_lit u N Hu HF _ _ Hq10)) as (e2 & E2 & L2).
  fold rho in E2.
  destruct (o_lit u N Hu HF (2 # 5) _ lit_04) as (t1 & T1 & R1). fold rho in T1.
  destruct (o_rel u Hu _ _ (std_cst _ _ HN m)) as (t2 & T2 & R2). fold rho in T2.
  unfold asinh_arg. rewrite (fun_opp _ _ HF), L1, L2, R1, R2.
  destruct (o_rel u Hu _ _ (std_mul _ _ HN (0.4 * t1) (ln 10 * e2))) as (t3 & T3 & ->). fold rho in T3.
  match goal with |- context [@nmul R N ?a ?b] => destruct (o_rel u Hu _ _ (std_mul _ _ HN a b)) as (t4 & T4 & ->) end. fold rho in T4.
  match goal with |- context [@nsub R N ?a ?b] => destruct (o_rel u Hu _ _ (std_sub _ _ HN a b)) as (t5 & T5 & ->) end. fold rho in T5.
  apply (apx_err rho) in T1; auto. apply (apx_err rho) in T2; auto. apply (apx_err rho) in T3; auto.
  apply (apx_err rho) in T4; auto. apply (apx_err rho) in T5; auto.
  set (f1 := e1 * t5). set (f2 := t1 * e2 * t3 * t2 * t4 * t5).
  assert (F1 : Rabs (f1 - 1) <= growth u 7).
  { apply Rle_trans with (rho ^ 3 * rho - 1); [apply near_mul; auto|].
    unfold growth. fold rho. replace (rho ^ 7) with (rho ^ 3 * rho * rho ^ 3) by ring. pose proof (Hp 3%nat). assert (0 <= rho ^ 3 * rho) by nra. nra. }
  assert (F2 : Rabs (f2 - 1) <= growth u 7).
  { unfold growth. fold rho. replace (rho ^ 7) with (rho * (rho * rho) * rho * rho * rho * rho) by ring. unfold f2. repeat apply near_mul; auto. }
  exists (mag0 (soft k) - (mag0 (soft k) * f1 - m * f2)). split.
  - replace (mag0 (soft k) - (mag0 (soft k) * f1 - m * f2) - m) with (m * (f2 - 1) - mag0 (soft k) * (f1 - 1)) by ring.
    unfold Rminus at 1. eapply Rle_trans; [apply Rabs_triang|]. rewrite Rabs_Ropp, !Rabs_mult.
    assert (Hm0 : 0 <= mag0 (soft k)).
    { unfold mag0, log10. assert (ln (soft k) / ln 10 <= 0); [|lra]. apply Rmult_le_reg_r with (ln 10); [lra|].
      unfold Rdiv. rewrite Rmult_assoc, Rinv_l, Rmult_1_r, Rmult_0_l; lra. }
    rewrite (Rabs_pos_eq (mag0 _)) by auto. pose proof (Rabs_pos m). nra.
  - replace (0.4 * ln 10 * (mag0 (soft k) - (mag0 (soft k) - (mag0 (soft k) * f1 - m * f2))))
      with (0.4 * ln 10 * (mag0 (soft k) - 0) * f1 - 0.4 * ln 10 * m * f2) by ring.
    rewrite mag0_arg. unfold f1, f2. ring.
Qed.
(** C113. sdss_asinh_to_maggies: the fluxes and inverse variances are, up to ten and 29 roundings, those of magnitudes that
    differ from the given ones by at most seven roundings of the magnitude and of the magnitude of no flux. *)
Lemma L_C113_asinh : forall u (N : Num R) (mag err ext : nd R),
  0 <= u <= 1 / 2 -> std_model u N -> std_fun u N ->
  wf mag -> wf err -> wf ext -> shp mag <> [] -> lastd (shp mag) = 5%nat -> shp err = shp mag -> shp ext = shp mag ->
  exists f fi, @sdss_asinh_to_maggies R N mag (Some err) (Some ext) = Ok (f, Some fi) /\ shp f = shp mag /\ shp fi = shp mag /\
    forall j, (j < size (shp mag))%nat ->
      let b := soft (j mod 5) in let m := nth j (dat mag) 0 in let x := nth j (dat ext) 0 in let e := nth j (dat err) 0 in
      exists m', Rabs (m' - m) <= growth u 7 * (Rabs m + mag0 b) /\
        rel (mag_growth u 10 1 x) (nth j (dat f) 0) (asinh_flux b m' * pow10 (0.4 * x)) /\
        (e <> 0 -> rel (growth u 29) (nth j (dat fi) 0) (1 / (asinh_slope b m' * e) ^ 2)).
Proof.
  intros u N mag err ext Hu' HN HF Wm We Wx Hne H5 Se Sx.
  assert (Hu : 0 <= u < 1) by lra.
  destruct (@asinh_spec R N mag (Some err) (Some ext)) as (f & iv & E & Sf & Wf & Nf & Hiv); auto.
  { intros e Ee. injection Ee as <-. auto. } { intros e Ee. injection Ee as <-. auto. }
  destruct Hiv as (v & -> & Sv & Wv & Nv). exists f, v. do 3 (split; auto).
  intros j Hj. cbv zeta. specialize (Nf j Hj). specialize (Nv j Hj).
  apply nth_error_nth with (d := 0) in Nf. apply nth_error_nth with (d := 0) in Nv.
  rewrite !(std_0 _ _ HN) in Nf, Nv. rewrite Nf, Nv. clear Nf Nv.
  set (k := (j mod 5)%nat). assert (Hk : (k < 5)%nat) by (apply Nat.mod_upper_bound; lia).
  set (m := nth j (dat mag) 0). set (x := nth j (dat ext) 0). set (e := nth j (dat err) 0).
  set (rho := / (1 - u)). assert (Hr : 1 <= rho) by (apply o_rho; auto).
  assert (Hp : forall i, 1 <= rho ^ i) by (intro; apply pow_R1_Rle; auto).
  destruct (arg_near u N k m Hu HN HF Hk) as (m' & Hm' & Ea). exists m'. split; auto.
  destruct (soft_pos k Hk) as (Hb & _). pose proof (b0_apx u N k Hu HN HF Hk) as Hbx. fold rho in Hbx.
  set (P := pow10 (0.4 * Rabs x * growth u 3)).
  assert (HP : 1 <= P).
  { apply pow10_ge1. pose proof (Rabs_pos x). pose proof (growth_pos u Hu 3). apply Rmult_le_pos; lra. }
  assert (Hx : apx (P * rho) (@npow10 R N (@nmul R N (@nlit R N (2 # 5)) (@cst R N x))) (pow10 (0.4 * x))).
  { unfold P. replace (0.4 * Rabs x * growth u 3) with (Rabs (0.4 * x) * (rho * (1 * rho) * rho - 1)).
    2:{ rewrite Rabs_mult, (Rabs_pos_eq 0.4) by lra. unfold growth. fold rho. ring. }
    apply (o_pow10 u N); auto; [nra|]. apply (o_mul u N); auto; try nra.
    - apply (o_lit u N); auto. apply lit_04.
    - apply (o_cst u N); auto; [lra|apply apx_refl; lra]. }
  assert (H2b : apx (rho ^ 4) (@nmul R N (@nlit R N (2 # 1)) (nth k (@b0 R N) 0)) (2 * soft k)).
  { replace (rho ^ 4) with (rho * rho ^ 2 * rho) by ring. apply (o_mul u N); auto. apply (o_lit u N); auto. rewrite Q2R_lit. lra. }
  split.
  - unfold asinh_flux_entry, asinh_maggies1, asinh_flux. rewrite Ea.
    replace (mag_growth u 10 1 x) with (rho ^ 4 * rho * rho * rho * (P * rho) * rho * rho - 1).
    2:{ unfold mag_growth. rewrite (o_growth u). fold rho. replace (INR 1 * (0.4 * Rabs x * growth u 3)) with (0.4 * Rabs x * growth u 3) by (cbn; ring).
        fold P. ring. }
    assert (G : 1 <= rho ^ 4 * rho * rho) by (repeat apply ge1_mul; auto; lra).
    assert (G' : 1 <= P * rho) by (repeat apply ge1_mul; auto; lra).
    apply apx_rel; [repeat apply ge1_mul; auto; lra|]. apply (o_cst u N); auto; [repeat apply ge1_mul; auto; lra|].
    apply (o_mul u N); auto; [repeat apply ge1_mul; auto; lra|].
    apply (o_cst u N); auto. apply (o_mul u N); auto. apply o_rel; auto. apply HF.
  - intro He. unfold asinh_ivar1. rewrite Ea, (std_1 _ _ HN). unfold growth. fold rho.
    set (A := 0.4 * ln 10 * (mag0 (soft k) - m')).
    pose proof ln10_gt1 as H10.
    assert (Hln : apx (rho ^ 2) (@nln R N (@nlit R N (10 # 1))) (ln 10)).
    { assert (Hq10 : Q2R (10 # 1) = 10) by (rewrite Q2R_lit; lra).
      destruct (o_lit u N Hu HF _ _ Hq10) as (t & T & Et). fold rho in T. pose proof (inv_le1 rho Hr).
      replace (rho ^ 2) with (rho * rho) by ring. eapply o_step; [auto|auto|apply HF; rewrite Et; nra|].
      rewrite Et, ln_mult by lra. pose proof (ln_apx rho t Hr T) as L. apply Rabs_le_inv in L.
      exists (1 + ln t / ln 10). split; [|field; lra].
      assert (Hr2 : rho <= 2).
      { unfold rho. replace 2 with (/ (1 / 2)) by lra. apply Rinv_le_contravar; lra. }
      assert (H2 : 2 <= ln 10).
      { rewrite <- (ln_exp 2). replace 2 with (1 + 1) by ring. rewrite exp_plus. pose proof exp_le_3. pose proof (exp_pos 1).
        apply Rlt_le, ln_increasing; nra. }
      assert (Hi : 0 < / ln 10 <= / 2) by (split; [apply Rinv_0_lt_compat; lra|apply Rinv_le_contravar; lra]).
      unfold Rdiv. split.
      + apply Rmult_le_reg_r with rho; [lra|]. rewrite Rinv_l by lra.
        assert (D : - ((rho - 1) / 2) <= ln t * / ln 10) by nra.
        assert (D2 : (1 - (rho - 1) / 2) * rho <= (1 + ln t * / ln 10) * rho) by (apply Rmult_le_compat_r; lra). nra.
      + nra. }
    replace (rho ^ 29 - 1) with (1 * (rho ^ 4 * rho * rho * rho * rho * rho ^ 2 * rho * (1 * rho) * rho * (rho ^ 4 * rho * rho * rho * rho * rho ^ 2 * rho * (1 * rho) * rho) * rho) * rho * rho - 1) by ring.
    assert (G : forall a b, 1 <= a -> 1 <= b -> 1 <= a * b) by (apply ge1_mul).
    assert (G1 : 1 <= 1 * rho) by lra.
    assert (Hs : asinh_slope (soft k) m' * e <> 0).
    { unfold asinh_slope. fold A. pose proof (cosh_pos A). apply Rmult_integral_contrapositive_currified; auto.
      apply Rgt_not_eq. apply Rmult_lt_0_compat; [apply Rmult_lt_0_compat; [lra|auto]|lra]. }
    apply apx_rel; [repeat apply G; auto; lra|]. apply (o_cst u N); auto; [repeat apply G; auto; lra|].
    apply (o_div u N); auto; [lra|repeat apply G; auto; lra|apply pow_nonzero; auto|apply apx_refl; lra|].
    apply (o_sq u N); auto; [repeat apply G; auto; lra|].
    apply (o_mul u N); auto; [repeat apply G; auto; lra| |apply (o_cst u N); auto; [lra|apply apx_refl; lra]].
    unfold asinh_slope. fold A. rewrite <- (Rmult_assoc _ 0.4 (ln 10)).
    apply (o_mul u N); auto; try (repeat apply G; auto; lra).
    apply (o_mul u N); auto; try (repeat apply G; auto; lra); [|apply (o_lit u N); auto; apply lit_04].
    apply (o_mul u N); auto. apply o_rel; auto. apply HF.
Qed.
Lemma E_C113_asinh : exists f fi,
  @sdss_asinh_to_maggies R Num_24 (vec [20; 21; 22; 23; 24]) (Some (vec [0.1; 0.1; 0.1; 0.1; 0.1])) (Some (vec [0.2; 0.2; 0.2; 0.2; 0.2])) = Ok (f, Some fi) /\
  exists m', Rabs (m' - 22) <= growth (bpow radix2 (-24)) 7 * (22 + mag0 (1.2 / 10 ^ 10)) /\
    rel (mag_growth (bpow radix2 (-24)) 10 1 0.2) (nth 2 (dat f) 0) (asinh_flux (1.2 / 10 ^ 10) m' * pow10 (0.4 * 0.2)).
Proof.
  assert (Hu : 0 <= bpow radix2 (-24) <= 1 / 2) by (cbn; lra).
  destruct L_C113_model as [HN HF].
  assert (W : forall a b c d e : R, wf (vec [a; b; c; d; e])) by reflexivity.
  assert (S : forall a b c d e : R, shp (vec [a; b; c; d; e]) = [5%nat]) by reflexivity.
  destruct (L_C113_asinh (bpow radix2 (-24)) Num_24 (vec [20; 21; 22; 23; 24]) (vec [0.1; 0.1; 0.1; 0.1; 0.1]) (vec [0.2; 0.2; 0.2; 0.2; 0.2])
    Hu HN HF (W _ _ _ _ _) (W _ _ _ _ _) (W _ _ _ _ _) ltac:(discriminate) eq_refl eq_refl eq_refl) as (f & fi & E & _ & _ & H).
  exists f, fi. split; auto. rewrite S in H. destruct (H 2%nat ltac:(cbn; lia)) as (m' & H1 & H2 & _). exists m'.
  change (2 mod 5)%nat with 2%nat in H1, H2. unfold soft in H1, H2. cbn [nth vec dat] in H1, H2.
  rewrite (Rabs_pos_eq 22) in H1 by lra. split; [exact H1|exact H2].
Qed.
