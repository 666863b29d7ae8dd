(** Facts about the float32 instance. *)
From Coq Require Import ZArith QArith Qreals Reals Lra Lia.
From Flocq Require Import Core IEEE754.BinarySingleNaN.
From Flocq Require Relative.
Import Relative.
From Verif Require Import Num F32.
Open Scope R_scope.

Notation fe := (SpecFloat.fexp 24 128).
#[local] Instance fe_valid : Valid_exp fe := FLT_exp_valid (SpecFloat.emin 24 128) 24.
#[local] Instance fe_mono : Monotone_exp fe := FLT_exp_monotone (SpecFloat.emin 24 128) 24.

Definition big : R := bpow radix2 127.
Lemma big_pos : 0 < big. Proof. apply bpow_gt_0. Qed.
Lemma big_lt : big < bpow radix2 128. Proof. apply bpow_lt. lia. Qed.

Lemma big_format : generic_format radix2 fe big.
Proof. apply generic_format_bpow. vm_compute. discriminate. Qed.

Lemma rnd_le x y : x <= y -> rnd x <= rnd y.
Proof. apply round_le; typeclasses eauto. Qed.
Lemma rnd_format x : generic_format radix2 fe x -> rnd x = x.
Proof. apply round_generic; typeclasses eauto. Qed.
Lemma rnd_0 : rnd 0 = 0.
Proof. apply round_0; typeclasses eauto. Qed.
Lemma rnd_opp x : rnd (- x) = - rnd x.
Proof. unfold rnd. apply round_NE_opp. Qed.
Lemma rnd_abs x : Rabs x <= big -> Rabs (rnd x) <= big.
Proof.
  intro H. apply Rabs_le. apply Rabs_le_inv in H. split.
  - rewrite <- (rnd_format big big_format), <- rnd_opp. apply rnd_le. lra.
  - rewrite <- (rnd_format big big_format). apply rnd_le. lra.
Qed.
Lemma rnd_lt_emax x : Rabs x <= big -> Rlt_bool (Rabs (rnd x)) (bpow radix2 128) = true.
Proof. intro H. apply Rlt_bool_true. generalize (rnd_abs x H) big_lt. lra. Qed.

(** |rnd x - x| <= 2^-24 |x| + 2^-150 *)
Lemma rnd_err x : Rabs (rnd x - x) <= / 16777216 * Rabs x + / 2 * bpow radix2 (-149).
Proof.
  destruct (error_N_FLT radix2 (-149) 24 ltac:(lia) (fun x => negb (Z.even x)) x) as (e & h & He & Hh & _ & E).
  change (round radix2 (FLT_exp (-149) 24) (Znearest (fun x => negb (Z.even x))) x) with (rnd x) in E.
  rewrite E. replace (x * (1 + e) + h - x) with (e * x + h) by ring.
  eapply Rle_trans; [apply Rabs_triang|]. rewrite Rabs_mult. apply Rplus_le_compat; auto.
  apply Rmult_le_compat_r; [apply Rabs_pos|].
  assert (E2 : / 2 * bpow radix2 (-24 + 1) = / 16777216) by (cbn; lra).
  eapply Rle_trans; [exact He|]. apply Req_le. exact E2.
Qed.

(** * Values *)
Lemma val_format b : generic_format radix2 fe (val b).
Proof. apply generic_format_B2R. Qed.
Lemma repr_format x : repr x -> generic_format radix2 fe x.
Proof. intros (b & _ & <-). apply val_format. Qed.
Lemma rnd_val b : rnd (val b) = val b.
Proof. apply rnd_format, val_format. Qed.
Lemma rnd_repr x : repr x -> rnd x = x.
Proof. intro H. apply rnd_format, repr_format; auto. Qed.

Lemma val_add x y : fin32 x = true -> fin32 y = true -> Rabs (val x + val y) <= big ->
  fin32 (add32 x y) = true /\ val (add32 x y) = rnd (val x + val y).
Proof.
  intros Hx Hy H. generalize (Bplus_correct 24 128 _ _ mode_NE x y Hx Hy).
  pose proof (rnd_lt_emax _ H) as E. unfold rnd, val in E. cbn [round_mode]. rewrite E. intros (A & B & _). auto.
Qed.
Lemma val_sub x y : fin32 x = true -> fin32 y = true -> Rabs (val x - val y) <= big ->
  fin32 (sub32 x y) = true /\ val (sub32 x y) = rnd (val x - val y).
Proof.
  intros Hx Hy H. generalize (Bminus_correct 24 128 _ _ mode_NE x y Hx Hy).
  pose proof (rnd_lt_emax _ H) as E. unfold rnd, val in E. cbn [round_mode]. rewrite E. intros (A & B & _). auto.
Qed.
Lemma val_mul x y : fin32 x = true -> fin32 y = true -> Rabs (val x * val y) <= big ->
  fin32 (mul32 x y) = true /\ val (mul32 x y) = rnd (val x * val y).
Proof.
  intros Hx Hy H. generalize (Bmult_correct 24 128 _ _ mode_NE x y).
  pose proof (rnd_lt_emax _ H) as E. unfold rnd, val in E. cbn [round_mode]. rewrite E. intros (A & B & _).
  unfold fin32 in *. split; auto. unfold mul32. rewrite B, Hx, Hy. auto.
Qed.
Lemma val_div x y : fin32 x = true -> val y <> 0 -> Rabs (val x / val y) <= big ->
  fin32 (div32 x y) = true /\ val (div32 x y) = rnd (val x / val y).
Proof.
  intros Hx Hy H. generalize (Bdiv_correct 24 128 _ _ mode_NE x y Hy).
  pose proof (rnd_lt_emax _ H) as E. unfold rnd, val in E. cbn [round_mode]. rewrite E. intros (A & B & _).
  unfold fin32 in *. split; auto. unfold div32. rewrite B. auto.
Qed.

(** Literals are the nearest float32. *)
Lemma q32_val q : Rabs (Q2R q) <= big -> fin32 (q32 q) = true /\ val (q32 q) = rnd (Q2R q).
Proof.
  intro H. destruct q as [[|m|m] d]; unfold q32; cbn [Qnum Qden] in *.
  - split; [reflexivity|]. assert (E : Q2R (0 # d) = 0) by (unfold Q2R; cbn; ring). rewrite E, rnd_0. reflexivity.
  - destruct (Bdiv_correct_aux 24 128 eq_refl eq_refl mode_NE false m 0 false d 0) as (V & C). cbn [proj1].
    assert (E : F2R (Float radix2 (SpecFloat.cond_Zopp false (Zpos m)) 0) / F2R (Float radix2 (SpecFloat.cond_Zopp false (Zpos d)) 0)
                = Q2R (Zpos m # d)).
    { unfold F2R, Q2R; cbn. field. apply IZR_neq. discriminate. }
    pose proof C as C'. rewrite E in C'. cbn [round_mode] in C'. pose proof (rnd_lt_emax _ H) as E1. unfold rnd in E1. rewrite E1 in C'.
    destruct C' as (C1 & C2 & _). split.
    + unfold fin32. rewrite is_finite_SF2B. auto.
    + unfold val. rewrite B2R_SF2B. auto.
  - destruct (Bdiv_correct_aux 24 128 eq_refl eq_refl mode_NE true m 0 false d 0) as (V & C). cbn [proj1].
    assert (E : F2R (Float radix2 (SpecFloat.cond_Zopp true (Zpos m)) 0) / F2R (Float radix2 (SpecFloat.cond_Zopp false (Zpos d)) 0)
                = Q2R (Zneg m # d)).
    { unfold F2R, Q2R; cbn. field. apply IZR_neq. discriminate. }
    pose proof C as C'. rewrite E in C'. cbn [round_mode] in C'. pose proof (rnd_lt_emax _ H) as E1. unfold rnd in E1. rewrite E1 in C'.
    destruct C' as (C1 & C2 & _). split.
    + unfold fin32. rewrite is_finite_SF2B. auto.
    + unfold val. rewrite B2R_SF2B. auto.
Qed.

(** Integers up to 2^24 are float32 values. *)
Lemma int_format k : (Z.abs k <= 2 ^ 24)%Z -> generic_format radix2 fe (IZR k).
Proof.
  intro H. destruct (Z.eq_dec (Z.abs k) (2 ^ 24)) as [E|E].
  - assert (C : generic_format radix2 fe (bpow radix2 24)) by (apply generic_format_bpow; vm_compute; discriminate).
    destruct (Z.abs_spec k) as [[_ A]|[_ A]]; rewrite A in E.
    + rewrite E. exact C.
    + replace k with (- (2 ^ 24))%Z by lia. rewrite opp_IZR. apply generic_format_opp. exact C.
  - apply generic_format_FLT. exists (Float radix2 k 0); cbn.
    + unfold F2R; cbn. ring.
    + change (Z.pow_pos 2 24) with (2 ^ 24)%Z. lia.
    + vm_compute. discriminate.
Qed.
Lemma int_lit k : (Z.abs k <= 2 ^ 24)%Z -> fin32 (q32 (k # 1)) = true /\ val (q32 (k # 1)) = IZR k.
Proof.
  intro H. assert (E : Q2R (k # 1) = IZR k) by (unfold Q2R; cbn; field).
  destruct (q32_val (k # 1)) as (A & B).
  - rewrite E. rewrite <- abs_IZR. apply Rle_trans with (IZR (2 ^ 24)); [apply IZR_le; auto|].
    change (IZR (2 ^ 24)) with (bpow radix2 24). apply bpow_le. lia.
  - split; auto. rewrite B, E. apply rnd_format, int_format; auto.
Qed.
Lemma one_val : fin32 (z32 1) = true /\ val (z32 1) = 1.
Proof.
  split; [reflexivity|]. unfold val, z32. 
  generalize (binary_normalize_correct 24 128 eq_refl eq_refl mode_NE 1 0 false). cbv zeta.
  replace (F2R (Float radix2 1 0)) with 1 by (unfold F2R; cbn; ring).
  assert (H : Rabs 1 <= big). { rewrite Rabs_R1. change 1 with (bpow radix2 0). apply bpow_le. lia. }
  pose proof (rnd_lt_emax _ H) as E1. unfold rnd in E1. cbn [round_mode]. rewrite E1. intros (-> & _).
  apply (rnd_format 1), (int_format 1). lia.
Qed.

Lemma ltb_val x y : fin32 x = true -> fin32 y = true -> Bltb x y = Rltb (val x) (val y).
Proof.
  intros Hx Hy. rewrite (Bltb_correct 24 128 _ _ Hx Hy). unfold Rltb, val.
  destruct (Rlt_dec (B2R x) (B2R y)); [apply Rlt_bool_true|apply Rlt_bool_false]; lra.
Qed.
