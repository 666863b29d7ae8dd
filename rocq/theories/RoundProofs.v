(** Rounding error of the design-matrix arithmetic (C83): error analysis of the operations. *)
From Coq Require Import String List Arith Lia Bool ZArith Reals Lra Sorting.Sorted.
From Flocq Require Import Core.
From Flocq Require Relative.
From Verif Require Import Base BaseLemmas Num Interp InterpReal Spec Fitter FitSpec FitterProofs FitterMC FitReal FitTable FitEx
  FitRealEx FitterThms FitRealThms RoundSpec.
Import ListNotations.
Local Open Scope R_scope.

Section Growth.
  Variable u : R.
  Hypothesis Hu : 0 <= u < 1.
  Let rho := / (1 - u).
  Lemma rho_ge1 : 1 <= rho.
  Proof. unfold rho. rewrite <- Rinv_1. apply Rinv_le_contravar; lra. Qed.
  Lemma rho_pow k : 1 <= rho ^ k.
  Proof. apply pow_R1_Rle, rho_ge1. Qed.
  Lemma growth_pow k : growth u k = rho ^ k - 1. Proof. reflexivity. Qed.
  Lemma growth_pos k : 0 <= growth u k.
  Proof. rewrite growth_pow. pose proof (rho_pow k). lra. Qed.

  (** A factor that [k] roundings produce. *)
  Definition fac (k : nat) (t : R) : Prop := / rho ^ k <= t <= rho ^ k.
  Lemma fac_pos k t : fac k t -> 0 < t.
  Proof. intros [H _]. pose proof (rho_pow k). assert (0 < / rho ^ k) by (apply Rinv_0_lt_compat; lra). lra. Qed.
  Lemma fac_abs k t : fac k t -> Rabs t <= rho ^ k.
  Proof. intros H. rewrite Rabs_pos_eq by (apply Rlt_le, (fac_pos k); auto). apply H. Qed.
  Lemma fac_mul j k s t : fac j s -> fac k t -> fac (j + k) (s * t).
  Proof.
    intros Hs Ht. pose proof (fac_pos _ _ Hs). pose proof (fac_pos _ _ Ht). destruct Hs as [S1 S2], Ht as [T1 T2].
    pose proof (rho_pow j). pose proof (rho_pow k).
    unfold fac. rewrite pow_add. split.
    - rewrite Rinv_mult. apply Rmult_le_compat; auto; apply Rlt_le, Rinv_0_lt_compat; lra.
    - apply Rmult_le_compat; lra.
  Qed.
  Lemma fac_inv k t : fac k t -> fac k (/ t).
  Proof.
    intros H. pose proof (fac_pos _ _ H). destruct H as [H1 H2]. pose proof (rho_pow k). split.
    - apply Rinv_le_contravar; lra.
    - rewrite <- (Rinv_inv (rho ^ k)). apply Rinv_le_contravar; auto. apply Rinv_0_lt_compat; lra.
  Qed.
  Lemma fac_1 : fac 0 1.
  Proof. unfold fac. cbn. rewrite Rinv_1. lra. Qed.
  Lemma fac_weak j k t : (j <= k)%nat -> fac j t -> fac k t.
  Proof.
    intros Hjk [H1 H2]. pose proof (Rle_pow rho j k rho_ge1 Hjk). pose proof (rho_pow j). split; [|lra].
    eapply Rle_trans; [|exact H1]. apply Rinv_le_contravar; lra.
  Qed.
  Lemma fac_err k t : fac k t -> Rabs (t - 1) <= rho ^ k - 1.
  Proof.
    intros [H1 H2]. pose proof (rho_pow k) as H. apply Rabs_le. split; [|lra].
    assert (2 - rho ^ k <= / rho ^ k); [|lra].
    apply Rmult_le_reg_r with (rho ^ k); [lra|]. rewrite Rinv_l by lra. nra.
  Qed.
  Lemma rel_fac x y : rel u x y -> exists t, fac 1 t /\ x = y * t.
  Proof.
    unfold rel. intros H. destruct (Req_dec y 0) as [->|Hy].
    - rewrite Rabs_R0, Rmult_0_r in H. exists 1. split; [apply (fac_weak 0); [lia|apply fac_1]|].
      assert (Rabs (x - 0) = 0) by (pose proof (Rabs_pos (x - 0)); lra).
      destruct (Req_dec (x - 0) 0) as [E|E]; [lra|]. apply Rabs_no_R0 in E. lra.
    - exists (x / y). split; [|field; auto].
      assert (HH : Rabs (x / y - 1) <= u).
      { replace (x / y - 1) with ((x - y) / y) by (field; auto). unfold Rdiv. rewrite Rabs_mult, Rabs_inv.
        apply Rmult_le_reg_r with (Rabs y); [apply Rabs_pos_lt; auto|]. rewrite Rmult_assoc, Rinv_l, Rmult_1_r; auto.
        apply Rabs_no_R0; auto. }
      apply Rabs_le_inv in HH. unfold fac. rewrite pow_1. unfold rho. rewrite Rinv_inv. split; [lra|].
      assert (1 + u <= / (1 - u)); [|lra].
      apply Rmult_le_reg_r with (1 - u); [lra|]. rewrite Rinv_l by lra. nra.
  Qed.
  (** Multiplying an approximation by rounding factors. *)
  Lemma fac_approx k t x y e h : fac k t -> Rabs (x - y) <= e -> Rabs y <= h ->
    Rabs (x * t - y) <= e * rho ^ k + h * (rho ^ k - 1).
  Proof.
    intros Ht Hx Hy. replace (x * t - y) with ((x - y) * t + y * (t - 1)) by ring.
    eapply Rle_trans; [apply Rabs_triang|]. rewrite !Rabs_mult.
    pose proof (fac_abs _ _ Ht). pose proof (fac_err _ _ Ht).
    apply Rplus_le_compat; apply Rmult_le_compat; auto; apply Rabs_pos.
  Qed.

  Section Std.
    Variable N : Num R.
    Hypothesis HN : std_model u N.

    (** One interpolated entry. *)
    Lemma entry_err xlo xhi t ylo yhi h : xlo < xhi -> xlo <= t <= xhi -> Rabs ylo <= h -> Rabs yhi <= h ->
      let y := (yhi - ylo) / (xhi - xlo) * (t - xlo) + ylo in
      Rabs (@nadd R N (@nmul R N (@ndiv R N (@nsub R N yhi ylo) (@nsub R N xhi xlo)) (@nsub R N t xlo)) ylo - y)
        <= 2 * h * growth u 6 /\ Rabs y <= h.
    Proof.
      intros Hx Ht H1 H2 y.
      destruct (rel_fac _ _ (std_sub _ _ HN yhi ylo)) as (t1 & F1 & ->).
      destruct (rel_fac _ _ (std_sub _ _ HN xhi xlo)) as (t2 & F2 & ->).
      destruct (rel_fac _ _ (std_sub _ _ HN t xlo)) as (t3 & F3 & ->).
      pose proof (fac_pos _ _ F2).
      destruct (rel_fac _ _ (std_div _ _ HN ((yhi - ylo) * t1) ((xhi - xlo) * t2) ltac:(nra))) as (t4 & F4 & ->).
      match goal with |- context [@nmul R N ?a ?b] => destruct (rel_fac _ _ (std_mul _ _ HN a b)) as (t5 & F5 & ->) end.
      match goal with |- context [@nadd R N ?a ?b] => destruct (rel_fac _ _ (std_add _ _ HN a b)) as (t6 & F6 & ->) end.
      set (w := (t - xlo) / (xhi - xlo)).
      assert (Hw : 0 <= w <= 1) by (apply weight_01; auto).
      set (D := (yhi - ylo) * w).
      assert (Ey : y = D + ylo) by (unfold y, D, w; field; lra).
      assert (HD : Rabs D <= 2 * h).
      { unfold D. rewrite Rabs_mult, (Rabs_pos_eq w) by lra.
        pose proof (Rabs_triang yhi (- ylo)). rewrite Rabs_Ropp in *. fold (yhi - ylo) in *.
        pose proof (Rabs_pos (yhi - ylo)). nra. }
      assert (Hy : Rabs y <= h).
      { rewrite Ey. unfold D. apply Rabs_le_inv in H1, H2. apply Rabs_le. nra. }
      split; auto.
      replace ((yhi - ylo) * t1 / ((xhi - xlo) * t2) * t4 * ((t - xlo) * t3) * t5 + ylo)
        with (D * (t1 * / t2 * t3 * t4 * t5) + ylo) by (unfold D, w; field; lra).
      pose proof (fac_mul _ _ _ _ (fac_mul _ _ _ _ (fac_mul _ _ _ _ (fac_mul _ _ _ _ F1 (fac_inv _ _ F2)) F3) F4) F5) as FF.
      cbn [Nat.add] in FF. set (T := t1 * / t2 * t3 * t4 * t5) in *.
      assert (E1 : Rabs (D * T + ylo - y) <= 2 * h * (rho ^ 5 - 1)).
      { rewrite Ey. replace (D * T + ylo - (D + ylo)) with (D * (T - 1)) by ring. rewrite Rabs_mult.
        apply Rmult_le_compat; auto using Rabs_pos, fac_err. }
      pose proof (fac_approx _ _ _ _ _ _ F6 E1 Hy) as E2. eapply Rle_trans; [exact E2|].
      rewrite growth_pow. pose proof rho_ge1. pose proof (rho_pow 5). pose proof (Rabs_pos ylo).
      rewrite pow_1. change (rho ^ 6) with (rho * rho ^ 5). nra.
    Qed.

    (** A sum. *)
    Lemma sum_fac l : forall s, exists t0 ts, fac (length l) t0 /\ Forall (fac (length l)) ts /\ length ts = length l /\
      fold_left (@nadd R N) l s = s * t0 + fold_right Rplus 0 (zip Rmult l ts).
    Proof.
      induction l as [|a l IH]; intros s; cbn [fold_left length].
      - exists 1, []. repeat split; auto using fac_1. apply fac_1. apply fac_1. cbn. lra.
      - destruct (rel_fac _ _ (std_add _ _ HN s a)) as (t & Ft & ->).
        destruct (IH ((s + a) * t)) as (t0 & ts & F0 & Fs & L & ->).
        exists (t * t0), (t * t0 :: ts). pose proof (fac_mul _ _ _ _ Ft F0) as FF. split; auto.
        split. { constructor; auto. eapply Forall_impl; [|exact Fs]. intros x. apply fac_weak; lia. }
        split; [cbn; lia|]. cbn [zip fold_right]. ring.
    Qed.

    (** A dot product of approximate entries with rounded coefficients. *)
    Lemma zip_err k (g : R) (Hg : 0 <= g) : forall ys ys' h c ts,
      length ys' = length ys -> length h = length ys -> length c = length ys -> length ts = length ys ->
      Forall (fac k) ts ->
      (forall j, (j < length ys)%nat -> Rabs (nth j ys' 0 - nth j ys 0) <= 2 * nth j h 0 * g /\ Rabs (nth j ys 0) <= nth j h 0) ->
      Rabs (fold_right Rplus 0 (zip Rmult (zip (@nmul R N) ys' (map (@cst R N) c)) ts) - dot ys c)
        <= (2 * g * rho ^ (k + 2) + (rho ^ (k + 2) - 1)) * dot (map Rabs c) h.
    Proof.
      induction ys as [|y ys IH]; intros [|y' ys'] [|a h] [|c cs] [|t ts] L1 L2 L3 L4 Ft Hj; try discriminate.
      - cbn. rewrite Rminus_0_r, Rabs_R0. pose proof (rho_pow (k + 2)). lra.
      - cbn [zip map fold_right]. unfold dot. cbn [zip map fold_right]. fold (dot ys cs). fold (dot (map Rabs cs) h).
        inversion Ft as [|? ? F0 Fs]; subst.
        specialize (IH ys' h cs ts ltac:(cbn in *; lia) ltac:(cbn in *; lia) ltac:(cbn in *; lia) ltac:(cbn in *; lia) Fs).
        destruct (Hj 0%nat ltac:(cbn; lia)) as [J1 J2]. cbn [nth] in J1, J2.
        assert (IH' := IH ltac:(intros j Hlt; apply (Hj (S j)); cbn; lia)). clear IH.
        destruct (rel_fac _ _ (std_cst _ _ HN c)) as (s1 & G1 & ->).
        destruct (rel_fac _ _ (std_mul _ _ HN y' (c * s1))) as (s2 & G2 & ->).
        pose proof (fac_mul _ _ _ _ F0 (fac_mul _ _ _ _ G1 G2)) as FF. cbn [Nat.add] in FF.
        pose proof (fac_approx _ _ _ _ _ _ FF J1 J2) as E.
        replace (y' * (c * s1) * s2 * t) with (c * (y' * (t * (s1 * s2)))) by ring.
        match goal with |- Rabs (?p + ?q - (?r + ?s)) <= _ => replace (p + q - (r + s)) with (c * (y' * (t * (s1 * s2)) - y) + (q - s)) by ring end.
        eapply Rle_trans; [apply Rabs_triang|]. rewrite Rabs_mult.
        pose proof (Rabs_pos c). pose proof (Rmult_le_compat_l _ _ _ H E). lra.
    Qed.
  End Std.
End Growth.
