(** Theorems about how fits change with the photometry (fitter.py:155-232, 354-454; docs/examples.rst:287-309).
    Scope: exact arithmetic. *)
From Coq Require Import String List Arith Lia Bool ZArith QArith Qreals Reals Lra Sorting.Sorted.
From Verif Require Import Base BaseLemmas Num Toy Interp InterpReal Spec Utils Sed Response RespDict LinInterp ResponseEx
  Fitter FitSpec FitterProofs FitterMC FitReal FitTable FitEx FitRealEx FitterThms FitRealThms NnlsSpec NnlsExact NnlsEx
  BlendSpec SparseSpec SparseEx ActiveSpec.
Import ListNotations.
Local Open Scope R_scope.
(* STATEMENTS *)
From Verif Require Import BlendProofs NnlsThms SparseThms.

Lemma wdot_comm iv : forall a b, wdot iv a b = wdot iv b a.
Proof. unfold wdot. induction iv as [|w iv IH]; intros [|x a] [|y b]; cbn [zip fold_right]; auto. rewrite IH. lra. Qed.
Lemma wdot_lin iv s t : forall r x y, length x = length y -> wdot iv r (lincomb s t x y) = s * wdot iv r x + t * wdot iv r y.
Proof.
  unfold wdot, lincomb. induction iv as [|w iv IH]; intros [|r0 r] [|x0 x] [|y0 y] H; try discriminate; cbn [zip fold_right]; try lra.
  rewrite IH by (cbn in H; lia). lra.
Qed.
Lemma wdot_lin_l iv s t r x y : length x = length y -> wdot iv (lincomb s t x y) r = s * wdot iv x r + t * wdot iv y r.
Proof. intro H. rewrite wdot_comm, wdot_lin by auto. rewrite (wdot_comm iv r x), (wdot_comm iv r y). auto. Qed.
Lemma wdot_pos iv : nonneg iv -> forall p, 0 <= wdot iv p p.
Proof.
  unfold wdot. induction 1 as [|w iv Hw H IH]; intros [|x p]; cbn [zip fold_right]; try lra. specialize (IH p).
  pose proof (Rmult_le_pos w (x * x) Hw (Rle_0_sqr x)). lra.
Qed.
Lemma chi2_wdot iv : forall a b, chi2 iv a b = wdot iv (vsub a b) (vsub a b).
Proof. unfold chi2, wdot, vsub. induction iv as [|w iv IH]; intros [|x a] [|y b]; cbn [zip fold_right]; auto. rewrite IH. auto. Qed.
Lemma wdot_cs iv p q : nonneg iv -> length p = length q -> wdot iv p q * wdot iv p q <= wdot iv p p * wdot iv q q.
Proof.
  intros Hi HL. set (r := wdot iv p q). set (P := wdot iv p p). set (Q := wdot iv q q).
  assert (H : forall s t, 0 <= s * s * P + 2 * s * t * r + t * t * Q).
  { intros s t. pose proof (wdot_pos iv Hi (lincomb s t p q)) as H. rewrite wdot_lin, !wdot_lin_l in H by auto.
    rewrite (wdot_comm iv q p) in H. fold P Q r in H. lra. }
  pose proof (wdot_pos iv Hi q) as HQ. fold Q in HQ. destruct HQ as [HQ|HQ].
  - specialize (H Q (- r)). assert (0 <= Q * (P * Q - r * r)) by lra.
    apply Rmult_le_reg_l with Q; auto. lra.
  - rewrite <- HQ. destruct (Req_dec r 0) as [->|Hr]; [lra|]. specialize (H 1 (- (P + 1) / (2 * r))). rewrite <- HQ in H.
    replace (1 * 1 * P + 2 * 1 * (- (P + 1) / (2 * r)) * r + - (P + 1) / (2 * r) * (- (P + 1) / (2 * r)) * 0) with (-1) in H by (field; auto). lra.
Qed.

Lemma shrunk e f : f <= e -> forall c y, nonneg y -> nonneg (lincomb 1 (- e) c y) -> nonneg (lincomb 1 (- f) c y).
Proof.
  intros Hf. unfold nonneg, lincomb. induction c as [|u c IH]; intros [|v y] Hy Hn; cbn [zip] in *; constructor; inversion Hy; inversion Hn; subst; auto.
  assert (f * v <= e * v) by (apply Rmult_le_compat_r; auto). lra.
Qed.
Lemma shrink : forall c y, nonneg c -> nonneg y -> length y = length c -> within c y -> exists e, 0 < e /\ nonneg (lincomb 1 (- e) c y).
Proof.
  induction c as [|a c IH]; intros [|b y] Hc Hy L W; try discriminate; [exists 1; split; [lra|constructor]|].
  inversion Hc; inversion Hy; subst. destruct (IH y) as (e & He & Hn); auto; [intros i Hi; apply (W (S i) Hi)|].
  assert (Wab : a = 0 -> b = 0) by apply (W 0%nat).
  assert (G : exists f, 0 < f <= e /\ 0 <= a - f * b).
  { destruct (Req_dec b 0) as [->|Hb]; [exists e; lra|].
    assert (0 < a) by (destruct (Req_dec a 0); [elim Hb; auto|lra]). assert (0 < b) by lra.
    exists (Rmin e (a / b)). assert (0 < a / b) by (apply Rdiv_lt_0_compat; auto). split.
    - split; [apply Rmin_glb_lt; auto|apply Rmin_l].
    - assert (Rmin e (a / b) * b <= a / b * b) by (apply Rmult_le_compat_r; [lra|apply Rmin_r]).
      replace (a / b * b) with a in * by (field; lra). lra. }
  destruct G as (f & Hf & Hab). exists f. split; [lra|]. unfold lincomb; cbn [zip]. constructor; [lra|].
  apply (shrunk e); auto; lra.
Qed.

Lemma sub_lin a : forall m1 m2 p q : list R, length m2 = length m1 -> length p = length m1 -> length q = length m1 ->
  vsub (lincomb a 1 p q) (lincomb a 1 m1 m2) = lincomb a 1 (vsub p m1) (vsub q m2).
Proof.
  unfold lincomb, vsub. induction m1 as [|x m1 IH]; intros [|y m2] [|u p] [|v q] H1 H2 H3; try discriminate; auto. cbn [zip].
  f_equal; [lra|]. apply IH; cbn in *; lia.
Qed.

Section Active.
  Variables (A : atab R) (nb nt : nat) (z : R) (iv : list R).
  Hypotheses (HA : tab_ok A nb nt) (Hiv : nonneg iv) (Liv : length iv = nb).
  Notation M := (chunks nb nt (arow A z)).
  Notation model c := (mulmv (chunks nb nt (arow A z)) c).
  Notation G m c y := (wdot iv (vsub (model c) m) (model y)).
  Local Notation best := (best A nb nt z iv).

  Lemma best_zero m c y : length m = nb -> best m c -> length y = nt -> nonneg y -> within c y -> G m c y = 0.
  Proof.
    intros Lm B Ly Ny W. pose proof B as (Lc & Nc & _).
    destruct (shrink c y) as (e & He & Hn); auto; [congruence|].
    pose proof (best_self A nb nt z iv m c Hiv Liv Lm B) as S0.
    pose proof (best_vi A nb nt z iv m c y Hiv Liv Lm B Ly Ny) as V1.
    pose proof (best_vi A nb nt z iv m c (lincomb 1 (- e) c y) Hiv Liv Lm B ltac:(rewrite lincomb_length; congruence) Hn) as V2.
    rewrite mulmv_lin, wdot_lin in V2 by (rewrite ?mulmv_length; congruence). rewrite S0 in V1, V2.
    apply Rle_antisym; [|lra]. apply Rmult_le_reg_l with e; auto. lra.
  Qed.
  Lemma residual_close m1 m2 c1 c2 : length m1 = nb -> length m2 = nb -> best m1 c1 -> best m2 c2 ->
    chi2 iv (vsub (model c1) (model c2)) (vsub m1 m2) <= chi2 iv m1 m2.
  Proof.
    intros L1 L2 B1 B2. pose proof B1 as (Lc1 & Nc1 & _). pose proof B2 as (Lc2 & Nc2 & _).
    pose proof (best_vi A nb nt z iv m1 c1 c2 Hiv Liv L1 B1 Lc2 Nc2). pose proof (best_vi A nb nt z iv m2 c2 c1 Hiv Liv L2 B2 Lc1 Nc1).
    pose proof (wdot_diff iv (model c1) (model c2) m1 m2) as Hd. rewrite !(model_length A nb nt) in Hd.
    specialize (Hd (eq_sym Liv) (eq_sym Liv) ltac:(congruence) ltac:(congruence)).
    pose proof (chi2_nonneg iv (model c1) (model c2) Hiv). lra.
  Qed.
  Lemma vsub_swap : forall a b c d : list R, length a = length b -> length c = length d -> length a = length c ->
    vsub (vsub a c) (vsub b d) = lincomb 1 (-1) (vsub a b) (vsub c d).
  Proof.
    unfold vsub, lincomb. induction a as [|x a IH]; intros [|y b] [|u c] [|v d] H1 H2 H3; try discriminate; auto. cbn [zip].
    f_equal; [lra|]. apply IH; cbn in *; lia.
  Qed.
  Lemma unused m1 m2 c1 c2 y : length m1 = nb -> length m2 = nb -> best m1 c1 -> best m2 c2 -> length y = nt -> nonneg y ->
    within c2 y -> G m1 c1 y * G m1 c1 y <= chi2 iv m1 m2 * wdot iv (model y) (model y).
  Proof.
    intros L1 L2 B1 B2 Ly Ny W. pose proof (best_zero m2 c2 y L2 B2 Ly Ny W) as E.
    assert (LM : forall c, length (model c) = nb) by (intro; apply model_length).
    assert (Lv : forall c m, length m = nb -> length (vsub (model c) m) = nb) by (intros; unfold vsub; rewrite length_zip, LM; lia).
    set (d := vsub (vsub (model c1) (model c2)) (vsub m1 m2)).
    assert (D : G m1 c1 y = wdot iv d (model y)).
    { unfold d. rewrite vsub_swap by (rewrite ?LM; congruence). rewrite wdot_lin_l by (rewrite !Lv; auto). rewrite E. lra. }
    rewrite D. eapply Rle_trans; [apply wdot_cs; auto|].
    - unfold d. rewrite vsub_swap by (rewrite ?LM; congruence). rewrite lincomb_length by (rewrite !Lv; auto). rewrite Lv, LM; auto.
    - apply Rmult_le_compat_r; [apply wdot_pos; auto|]. unfold d. rewrite <- chi2_wdot. apply residual_close; auto.
  Qed.

  (** Being the best coefficients, with the templates of [u] in use. *)
  Definition inv u m c : Prop := length m = nb /\ length c = nt /\ nonneg c /\ within u c /\
    (forall y, length y = nt -> nonneg y -> 0 <= G m c y) /\ (forall y, length y = nt -> nonneg y -> within u y -> G m c y = 0).
  Lemma best_inv u m c : length m = nb -> best m c -> within u c -> within c u -> inv u m c.
  Proof.
    intros Lm B W1 W2. pose proof B as (Lc & Nc & _). pose proof (best_self A nb nt z iv m c Hiv Liv Lm B) as S0.
    do 4 (split; auto). split.
    - intros y Ly Ny. pose proof (best_vi A nb nt z iv m c y Hiv Liv Lm B Ly Ny). lra.
    - intros y Ly Ny Wy. apply best_zero; auto. intros i Hi. apply Wy, W2, Hi.
  Qed.
  Lemma inv_best u m c : inv u m c -> best m c.
  Proof. intros (Lm & Lc & Nc & W & V & S0). apply best_of_kkt; auto. Qed.
  Lemma inv_lin u a m1 c1 m2 c2 : 0 <= a -> inv u m1 c1 -> inv u m2 c2 -> inv u (lincomb a 1 m1 m2) (lincomb a 1 c1 c2).
  Proof.
    intros Ha (L1 & K1 & N1 & W1 & V1 & S1) (L2 & K2 & N2 & W2 & V2 & S2).
    assert (LM : forall c, length (model c) = nb) by (intro; apply model_length).
    assert (EG : forall y, G (lincomb a 1 m1 m2) (lincomb a 1 c1 c2) y = a * G m1 c1 y + 1 * G m2 c2 y).
    { intro y. rewrite <- wdot_lin_l by (unfold vsub; rewrite !length_zip, !LM; lia). f_equal.
      rewrite mulmv_lin by congruence. apply sub_lin; rewrite ?LM; congruence. }
    split; [rewrite lincomb_length; congruence|]. split; [rewrite lincomb_length; congruence|]. split.
    { clear - Ha N1 N2. unfold nonneg, lincomb in *. revert c2 N2. induction N1 as [|x c1 Hx N1 IH]; intros [|y c2] N2; cbn [zip]; constructor.
      - inversion N2; subst. pose proof (Rmult_le_pos a x Ha Hx). lra.
      - inversion N2; auto. }
    split.
    { intros i Hi. specialize (W1 i Hi). specialize (W2 i Hi). clear - W1 W2. unfold lincomb. revert i c2 W1 W2.
      induction c1 as [|x c1 IH]; intros i [|y c2] W1 W2; cbn [zip]; try (destruct i; reflexivity).
      destruct i as [|i]; cbn [nth] in *; [rewrite W1, W2; lra|apply IH; auto]. }
    split.
    - intros y Ly Ny. rewrite EG. pose proof (V1 y Ly Ny). pose proof (V2 y Ly Ny). pose proof (Rmult_le_pos _ _ Ha H). lra.
    - intros y Ly Ny Wy. rewrite EG, S1, S2 by auto. lra.
  Qed.

  Lemma zeros_model : model (repeat 0 nt) = repeat 0 nb.
  Proof.
    unfold mulmv. rewrite <- (length_chunks nb nt (arow A z)) at 2. generalize M. intro L. induction L as [|r L IH]; [reflexivity|].
    cbn [map length repeat]. rewrite IH. f_equal. apply dot_zero.
  Qed.
  Lemma inv_zero u : inv u (repeat 0 nb) (repeat 0 nt).
  Proof.
    assert (Z : forall y, G (repeat 0 nb) (repeat 0 nt) y = 0).
    { intro y. rewrite zeros_model. replace (vsub (repeat 0 nb) (repeat 0 nb)) with (repeat 0 nb).
      - rewrite wdot_comm. apply wdot_zeros.
      - unfold vsub. clear. induction nb as [|n IH]; [reflexivity|]. cbn [repeat zip]. rewrite <- IH. f_equal. lra. }
    split; [apply repeat_length|]. split; [apply repeat_length|].
    split; [unfold nonneg; apply Forall_forall; intros x Hx; apply repeat_spec in Hx; lra|].
    split; [intros i _; clear; revert i; induction nt as [|n IH]; intros [|i]; cbn [repeat nth]; auto|].
    split; intros; rewrite Z; lra.
  Qed.
  Lemma combined_nil w c : combined w [] c = repeat 0 w.
  Proof.
    unfold combined. cbn [map]. assert (E : dot c [] = 0) by (unfold dot; destruct c; reflexivity).
    generalize 0%nat as i. induction w as [|w IH]; intro i; [reflexivity|]. cbn [seq map repeat]. f_equal; [exact E|apply IH].
  Qed.
  Lemma inv_combined u : forall ws ms cs, Forall2 (inv u) ms cs -> nonneg ws -> length ws = length ms ->
    inv u (combined nb ms ws) (combined nt cs ws).
  Proof.
    induction ws as [|a ws IH]; intros ms cs H Hw L; inversion H; subst; try discriminate.
    - rewrite !combined_nil. apply inv_zero.
    - inversion Hw; subst. pose proof (proj1 H0) as E1. pose proof (proj1 (proj2 H0)) as E2.
      rewrite !combined_cons by auto. apply inv_lin; auto.
  Qed.
End Active.

(** Coefficients with the same measured fluxes, of templates that tell apart in the measured bands, are the same. *)
Lemma lin_null : forall c c' : list R, length c = length c' -> (forall i, nth i (lincomb 1 (-1) c c') 0 = 0) -> c = c'.
Proof.
  induction c as [|x c IH]; intros [|y c'] LL Z; try discriminate; auto. unfold lincomb in Z; cbn [zip] in Z.
  pose proof (Z 0%nat) as Z0. cbn [nth] in Z0. f_equal; [lra|]. apply IH; auto. intro i. apply (Z (S i)).
Qed.
Lemma same_coefficients (F : fitter R) A nb nt z iv c c' : ready F A nb nt -> in_range (a_x A) z -> length c = nt -> length c' = nt ->
  same_measured iv (mulmv (chunks nb nt (arow A z)) c) (mulmv (chunks nb nt (arow A z)) c') ->
  (forall r, reconstruct F (Some (scal z)) (Some (vec (lincomb 1 (-1) c c'))) 0 = Ok (vec r) -> dark_measured iv r -> lincomb 1 (-1) c c' = repeat 0 nt) -> c = c'.
Proof.
  intros H Hr Lc Lc' [_ Hs] Hd. assert (LL : length (lincomb 1 (-1) c c') = nt) by (rewrite lincomb_length; congruence).
  apply lin_null; [congruence|]. rewrite (Hd (mulmv (chunks nb nt (arow A z)) (lincomb 1 (-1) c c'))).
  - intro i. clear. revert i. induction nt as [|n IH]; intros [|i]; cbn [repeat nth]; auto.
  - apply (model_eq F A nb nt); auto.
  - rewrite mulmv_lin by congruence. intros i w a Hi Hw Ha. unfold lincomb in Ha. rewrite nth_error_zip in Ha.
    destruct (nth_error (mulmv _ c) i) as [u|] eqn:Eu; [|discriminate].
    destruct (nth_error (mulmv _ c') i) as [v|] eqn:Ev; [|discriminate]. injection Ha as <-.
    rewrite (Hs i w u v) by auto. lra.
Qed.

Lemma fit_of_best nnls rng (F : fitter R) A nb nt z iv m c : nnls_contract nnls -> no_ab F -> ready F A nb nt -> nb <> 1%nat ->
  length m = nb -> length iv = nb -> nonneg iv -> in_range (a_x A) z -> fit_of nnls rng F z iv m c -> best A nb nt z iv m c.
Proof.
  intros Hc Hab H H1 Lm Li Hi Hr (cur & cur' & E).
  apply (fit_best F A nb nt H _ _ {| o_z := z; o_m := m; o_iv := iv |} _ _ _ Hc Hab H1 ltac:(split; auto) Hi Hr E).
Qed.
Lemma single_length n j : length (single n j) = n.
Proof. unfold single. rewrite map_length, seq_length. reflexivity. Qed.
Lemma single_nonneg n j : nonneg (single n j).
Proof. unfold single, nonneg. apply Forall_map, Forall_forall. intros i _. destruct (Nat.eqb i j); lra. Qed.
Lemma single_nth n j i : nth i (single n j) 0 = if Nat.eqb i j && Nat.ltb i n then 1 else 0.
Proof.
  unfold single. destruct (Nat.ltb_spec i n) as [L|L].
  - rewrite (nth_indep _ 0 ((fun i => if Nat.eqb i j then 1 else 0) 0%nat)) by (rewrite map_length, seq_length; auto).
    rewrite (map_nth (fun i => if Nat.eqb i j then 1 else 0)), seq_nth by auto. cbn [Nat.add]. rewrite andb_true_r. reflexivity.
  - rewrite andb_false_r. apply nth_overflow. rewrite map_length, seq_length. auto.
Qed.
Lemma single_within n j c : nth j c 0 <> 0 -> within c (single n j).
Proof. intros H i Hi. rewrite single_nth. destruct (Nat.eqb_spec i j); [subst; contradiction|reflexivity]. Qed.

Lemma fits_inv nnls rng (F : fitter R) A nb nt z iv : nnls_contract nnls -> no_ab F -> ready F A nb nt -> nb <> 1%nat ->
  length iv = nb -> nonneg iv -> in_range (a_x A) z -> forall u ms cs,
  Forall2 (fun m c => length m = nb /\ fit_of nnls rng F z iv m c) ms cs -> (forall c, In c cs -> within u c /\ within c u) ->
  Forall2 (inv A nb nt z iv u) ms cs.
Proof.
  intros Hc Hab H H1 Li Hi Hr u ms cs HF HW. pose proof H as (_ & _ & _ & Ht).
  induction HF as [|m c ms cs [Lm E] HF IH]; constructor.
  - destruct (HW c (or_introl eq_refl)) as [W1 W2]. apply best_inv; auto. apply (fit_of_best nnls rng F); auto.
  - apply IH. intros x Hx. apply HW. right. auto.
Qed.

(** A fit of the exact solver, from the optimality conditions. *)
Lemma known_fit rng (F : fitter R) A nb nt z iv m c : no_ab F -> ready F A nb nt -> nb <> 1%nat -> length iv = nb -> nonneg iv -> in_range (a_x A) z ->
  length m = nb -> best A nb nt z iv m c ->
  (forall y r, length y = nt -> reconstruct F (Some (scal z)) (Some (vec y)) 0 = Ok (vec r) -> dark_measured iv r -> y = repeat 0 nt) ->
  fit_of nnls_exact rng F z iv m c.
Proof.
  intros Hab H H1 Li Hi Hr Lm B Hd. exists 0%nat, 0%nat.
  destruct (exact_fit rng F A nb nt {| o_z := z; o_m := m; o_iv := iv |} 0) as (c' & Lc' & E); auto; [split; auto|].
  pose proof (fit_best F A nb nt H _ _ {| o_z := z; o_m := m; o_iv := iv |} _ _ _ nnls_exact_contract Hab H1 ltac:(split; auto) Hi Hr E) as B'.
  cbn [o_z o_m o_iv] in B'. pose proof B as (Lc & _).
  assert (c' = c) as ->; [|exact E]. apply (same_coefficients F A nb nt z iv); auto.
  - apply chi2_null; auto; try (rewrite (model_length A nb nt); congruence).
    eapply Rle_trans; [apply (best_stable A nb nt z iv m m); auto|]. rewrite chi2_self. lra.
  - intros r Er Dr. apply (Hd _ r); auto. rewrite lincomb_length; congruence.
Qed.

(** Two templates with fluxes (1, 1) and (2, 3); photometry with too little flux in the second band for the second. *)
Lemma twin_range : in_range (a_x twin_tab) 1.
Proof. unfold in_range; cbn; lra. Qed.
Lemma twin_rows : chunks 2 2 (arow twin_tab 1) = [[1; 2]; [1; 3]].
Proof.
  rewrite (arow_between twin_tab 2 2 0 1 (proj2 (proj2 (proj2 twin_ready))) twin_grid) by (cbn; lia || lra).
  cbn [a_x twin_tab a_rows nth chunks firstn skipn zip map]. apply f_equal2; [repeat (apply f_equal2; [field|]); reflexivity|]. apply f_equal2; [repeat (apply f_equal2; [field|]); reflexivity|reflexivity].
Qed.
Lemma twin_apart y r : length y = 2%nat -> reconstruct twin_fitter (Some (scal 1)) (Some (vec y)) 0 = Ok (vec r) -> dark_measured [1; 1] r -> y = repeat 0 2.
Proof.
  intros Ly E D. rewrite (model_eq twin_fitter twin_tab 2 2 1 y twin_ready Ly twin_range), twin_rows in E. injection E as _ <-.
  destruct y as [|a [|b [|]]]; try discriminate. unfold mulmv, dot in D; cbn [map zip fold_right] in D.
  pose proof (D 0%nat 1 _ eq_refl ltac:(lra) eq_refl). pose proof (D 1%nat 1 _ eq_refl ltac:(lra) eq_refl).
  cbn [repeat]. apply f_equal2; [lra|apply f_equal2; [lra|reflexivity]].
Qed.
Lemma twin_fit rng a b : b <= a -> 0 <= a + b -> a * 2 + b * 3 <= (a + b) / 2 * 5 -> fit_of nnls_exact rng twin_fitter 1 [1; 1] [a; b] [(a + b) / 2; 0].
Proof.
  intros H1 H2 H3. assert (N1 : nonneg [1; 1]) by (repeat constructor; lra).
  apply (known_fit rng twin_fitter twin_tab 2 2); auto; [left; reflexivity|apply twin_ready|apply twin_range| |apply twin_apart].
  apply best_of_kkt; auto; [constructor; [lra|constructor; [lra|constructor]]| |].
  - rewrite twin_rows. unfold mulmv, dot, wdot, vsub; cbn [map zip fold_right]. field.
  - intros y Ly Ny. rewrite twin_rows. destruct y as [|u [|v [|]]]; try discriminate. inversion Ny as [|? ? Pu Ny']; inversion Ny' as [|? ? Pv _]; subst.
    unfold mulmv, dot, wdot, vsub; cbn [map zip fold_right]. assert (0 <= v * ((a + b) / 2 * 5 - (a * 2 + b * 3))) by (apply Rmult_le_pos; lra). lra.
Qed.

(** C108.  Fits that use the same templates add up: the fluxes of the fit of a combination with nonnegative weights of photometry are the same combination of the fluxes of the
    fits, in every measured band.  The means of the Monte Carlo photometry and coefficients are an example. *)
Lemma L_C108_linear :
  forall nnls rng (F : fitter R) A nb nt z iv ms cs ws c p q,
    nnls_contract nnls -> no_ab F -> ready F A nb nt -> nb <> 1%nat -> length iv = nb -> nonneg iv -> in_range (a_x A) z ->
    Forall2 (fun m c => length m = nb /\ fit_of nnls rng F z iv m c) ms cs -> (forall c c', In c cs -> In c' cs -> within c c') ->
    length ws = length ms -> nonneg ws -> fit_of nnls rng F z iv (combined nb ms ws) c ->
    reconstruct F (Some (scal z)) (Some (vec c)) 0 = Ok (vec p) ->
    reconstruct F (Some (scal z)) (Some (vec (combined nt cs ws))) 0 = Ok (vec q) ->
    same_measured iv p q /\
    ((forall y r, length y = nt -> reconstruct F (Some (scal z)) (Some (vec y)) 0 = Ok (vec r) -> dark_measured iv r -> y = repeat 0 nt) ->
     c = combined nt cs ws).
Proof.
  intros nnls rng F A nb nt z iv ms cs ws c p q Hc Hab H H1 Li Hi Hr HF HW Lw Nw E Ep Eq. pose proof H as (_ & _ & _ & Ht).
  assert (I : inv A nb nt z iv (hd [] cs) (combined nb ms ws) (combined nt cs ws)).
  { apply inv_combined; auto. apply (fits_inv nnls rng F); auto. intros x Hx. destruct cs as [|c0 cs]; [contradiction|]. cbn [hd].
    split; apply HW; auto; left; reflexivity. }
  pose proof (inv_best A nb nt z iv Hi Li _ _ _ I) as B2. destruct I as (Lm & Lc & _).
  pose proof (fit_of_best nnls rng F A nb nt z iv _ c Hc Hab H H1 Lm Li Hi Hr E) as B1. pose proof B1 as (Lc1 & _).
  rewrite (model_eq F A nb nt _ c H Lc1 Hr) in Ep. injection Ep as _ <-.
  rewrite (model_eq F A nb nt _ _ H Lc Hr) in Eq. injection Eq as _ <-.
  assert (S : same_measured iv (mulmv (chunks nb nt (arow A z)) c) (mulmv (chunks nb nt (arow A z)) (combined nt cs ws))).
  { apply chi2_null; auto; try (rewrite (model_length A nb nt); congruence).
    eapply Rle_trans; [apply (best_stable A nb nt z iv (combined nb ms ws) (combined nb ms ws)); auto|]. rewrite chi2_self. lra. }
  split; [exact S|]. intros Hd. apply (same_coefficients F A nb nt z iv); auto.
  intros r Er Dr. apply (Hd _ r); auto. rewrite lincomb_length; congruence.
Qed.

Lemma E_C108_linear :
  no_ab twin_fitter /\ ready twin_fitter twin_tab 2 2 /\ in_range (a_x twin_tab) 1 /\
  fit_of nnls_exact (fun _ => 0) twin_fitter 1 [1; 1] [3; 1] [2; 0] /\ fit_of nnls_exact (fun _ => 0) twin_fitter 1 [1; 1] [5; 4] [9/2; 0] /\
  within [2; 0] [9/2; 0] /\ within [9/2; 0] [2; 0] /\ combined 2 [[3; 1]; [5; 4]] [2; 1] = [11; 6] /\
  fit_of nnls_exact (fun _ => 0) twin_fitter 1 [1; 1] [11; 6] [17/2; 0] /\ combined 2 [[2; 0]; [9/2; 0]] [2; 1] = [17/2; 0].
Proof.
  split; [left; reflexivity|]. split; [apply twin_ready|]. split; [apply twin_range|].
  assert (T : forall a b c, b <= a -> 0 <= a + b -> a * 2 + b * 3 <= (a + b) / 2 * 5 -> c = (a + b) / 2 -> fit_of nnls_exact (fun _ => 0) twin_fitter 1 [1; 1] [a; b] [c; 0])
    by (intros; subst; apply twin_fit; auto).
  split; [apply T; lra|]. split; [apply T; lra|].
  split; [intros [|[|[|i]]]; cbn [nth]; intros; lra|]. split; [intros [|[|[|i]]]; cbn [nth]; intros; lra|].
  unfold combined, dot; cbn [map seq zip fold_right nth]. split; [repeat (apply f_equal2; [field|]); reflexivity|]. split; [apply T; lra|].
  repeat (apply f_equal2; [field|]); reflexivity.
Qed.

(** A template that would make the fit worse stays unused as long as the photometry changes by less, in chi^2, than the square of the derivative of chi^2/2 with its coefficient
    over the signal to noise of its fluxes. *)
Lemma L_C108_unused :
  forall nnls rng (F : fitter R) A nb nt z iv m1 m2 c1 c2 p j q,
    nnls_contract nnls -> no_ab F -> ready F A nb nt -> nb <> 1%nat -> length iv = nb -> nonneg iv -> in_range (a_x A) z ->
    length m1 = nb -> length m2 = nb -> fit_of nnls rng F z iv m1 c1 -> fit_of nnls rng F z iv m2 c2 ->
    reconstruct F (Some (scal z)) (Some (vec c1)) 0 = Ok (vec p) ->
    reconstruct F (Some (scal z)) (Some (vec (single nt j))) 0 = Ok (vec q) ->
    chi2 iv m1 m2 * wdot iv q q < wdot iv (vsub p m1) q * wdot iv (vsub p m1) q -> nth j c2 0 = 0.
Proof.
  intros nnls rng F A nb nt z iv m1 m2 c1 c2 p j q Hc Hab H H1 Li Hi Hr L1 L2 E1 E2 Ep Eq Hlt. pose proof H as (_ & _ & _ & Ht).
  pose proof (fit_of_best nnls rng F A nb nt z iv _ c1 Hc Hab H H1 L1 Li Hi Hr E1) as B1. pose proof B1 as (Lc1 & _).
  pose proof (fit_of_best nnls rng F A nb nt z iv _ c2 Hc Hab H H1 L2 Li Hi Hr E2) as B2. 
  rewrite (model_eq F A nb nt _ c1 H Lc1 Hr) in Ep. injection Ep as _ <-.
  rewrite (model_eq F A nb nt _ _ H (single_length nt j) Hr) in Eq. injection Eq as _ <-.
  destruct (Req_dec (nth j c2 0) 0) as [|N]; auto. exfalso.
  pose proof (unused A nb nt z iv Hi Li m1 m2 c1 c2 (single nt j) L1 L2 B1 B2 (single_length nt j) (single_nonneg nt j) (single_within nt j c2 N)). lra.
Qed.

Lemma E_C108_unused :
  fit_of nnls_exact (fun _ => 0) twin_fitter 1 [1; 1] [3; 1] [2; 0] /\ fit_of nnls_exact (fun _ => 0) twin_fitter 1 [1; 1] [31/10; 1] [41/20; 0] /\
  reconstruct twin_fitter (Some (scal 1)) (Some (vec [2; 0])) 0 = Ok (vec [2; 2]) /\
  reconstruct twin_fitter (Some (scal 1)) (Some (vec (single 2 1))) 0 = Ok (vec [2; 3]) /\
  chi2 [1; 1] [3; 1] [31/10; 1] * wdot [1; 1] [2; 3] [2; 3] < wdot [1; 1] (vsub [2; 2] [3; 1]) [2; 3] * wdot [1; 1] (vsub [2; 2] [3; 1]) [2; 3].
Proof.
  assert (T : forall a b c, b <= a -> 0 <= a + b -> a * 2 + b * 3 <= (a + b) / 2 * 5 -> c = (a + b) / 2 -> fit_of nnls_exact (fun _ => 0) twin_fitter 1 [1; 1] [a; b] [c; 0])
    by (intros; subst; apply twin_fit; auto).
  split; [apply T; lra|]. split; [apply T; lra|].
  rewrite !(model_eq twin_fitter twin_tab 2 2 1 _ twin_ready) by (reflexivity || apply twin_range). rewrite twin_rows.
  unfold single; cbn [seq map Nat.eqb mulmv]. unfold dot; cbn [zip fold_right].
  split; [do 2 f_equal; repeat (apply f_equal2; [field|]); reflexivity|]. split; [do 2 f_equal; repeat (apply f_equal2; [field|]); reflexivity|].
  unfold chi2, wdot, vsub; cbn [zip fold_right]. lra.
Qed.

(** The weights absorbed into the rows of the matrix. *)
Definition weighted (iv : list R) (M : list (list R)) : list (list R) := zip (fun w r => map (Rmult (sqrt w)) r) iv M.
Lemma weighted_rect n : forall iv M, rect n M -> rect n (weighted iv M).
Proof.
  unfold weighted, rect. induction iv as [|w iv IH]; intros M H; [constructor|]. destruct H as [|r M Hr H]; [constructor|]. cbn [zip].
  constructor; [rewrite map_length; auto|auto].
Qed.
Lemma weighted_dot : forall iv M x y, nonneg iv -> dot (mulmv (weighted iv M) x) (mulmv (weighted iv M) y) = wdot iv (mulmv M x) (mulmv M y).
Proof.
  intros iv M x y Hi. revert M. induction Hi as [|w iv Hw Hi IH]; intros [|r M]; try reflexivity.
  unfold weighted, mulmv, wdot. cbn [zip map fold_right]. unfold dot at 1. cbn [zip fold_right].
  rewrite !dot_scale. specialize (IH M). unfold weighted, mulmv, wdot in IH. unfold dot at 1 in IH. rewrite IH.
  pose proof (sqrt_sqrt w Hw) as S. rewrite <- S at 3. ring.
Qed.

Lemma mask_forall (f : nat -> bool) : forall y : list R, (forall i v, nth_error y i = Some v -> f i = false -> v = 0) ->
  Forall2 (fun s v => s = false -> v = 0) (map f (seq 0 (length y))) y.
Proof.
  intro y. revert f. induction y as [|v y IH]; intros f T; [constructor|]. cbn [length seq map]. constructor; [apply (T 0%nat v eq_refl)|].
  rewrite <- seq_shift, map_map. apply (IH (fun i => f (Datatypes.S i))). intros i u Eu. apply (T (Datatypes.S i) u Eu).
Qed.
Lemma mask_nth S y : NnlsExact.within S y -> forall i, nth i S true = false -> nth i y 0 = 0.
Proof. induction 1 as [|s v S y E W IH]; intros [|i] Q; cbn [nth] in *; auto; discriminate. Qed.
Section Away.
  Variables (F : fitter R) (A : atab R) (nb nt : nat) (z : R) (iv : list R).
  Hypotheses (H : ready F A nb nt) (Hi : nonneg iv) (Li : length iv = nb) (Hr : in_range (a_x A) z).
  Notation model c := (mulmv (chunks nb nt (arow A z)) c).
  Lemma away c j : length c = nt -> (j < nt)%nat -> nth j c 0 <> 0 ->
    (forall y q, length y = nt -> within c y -> reconstruct F (Some (scal z)) (Some (vec y)) 0 = Ok (vec q) -> dark_measured iv q -> y = repeat 0 nt) ->
    exists k, 0 < k /\ forall x, length x = nt -> within c x -> k * (nth j x 0 * nth j x 0) <= wdot iv (model x) (model x).
  Proof.
    intros Lc Hj Nj Hd. pose proof H as (_ & _ & _ & Ht).
    set (M := chunks nb nt (arow A z)). assert (RM : rect nt M) by (apply chunks_length_all; auto).
    assert (LM : length M = nb) by apply length_chunks.
    set (N := weighted iv M). assert (RN : rect nt N) by (apply weighted_rect; auto).
    set (e := single nt j). assert (Le : length e = nt) by apply single_length.
    set (S := map (fun i => if Nat.eqb i j then false else if Req_EM_T (nth i c 0) 0 then false else true) (seq 0 nt)).
    assert (LS : length S = nt) by (unfold S; rewrite map_length, seq_length; auto).
    assert (WS : forall y, length y = nt -> within c y -> nth j y 0 = 0 -> NnlsExact.within S y).
    { intros y Ly W Y0. unfold NnlsExact.within, S. rewrite <- Ly. clear - W Y0.
      assert (T : forall i v, nth_error y i = Some v -> (if Nat.eqb i j then false else if Req_EM_T (nth i c 0) 0 then false else true) = false -> v = 0).
      { intros i v Ev. pose proof (nth_error_nth _ _ 0 Ev) as En. destruct (Nat.eqb_spec i j) as [->|]; [intros; congruence|].
        destruct (Req_EM_T (nth i c 0) 0) as [E|]; [|discriminate]. intros _. rewrite <- En. apply W, E. }
      apply mask_forall. exact T. }
    assert (SW : forall y, NnlsExact.within S y -> within c y /\ nth j y 0 = 0).
    { intros y W. assert (T : forall i, (i < nt)%nat -> nth i S true = false -> nth i y 0 = 0).
      { intros i _. apply mask_nth. exact W. }
      assert (TS : forall i, (i < nt)%nat -> nth i S true = if Nat.eqb i j then false else if Req_EM_T (nth i c 0) 0 then false else true).
      { intros i Hi'. unfold S. set (f := fun i => _). rewrite (nth_indep _ true (f 0%nat)) by (rewrite map_length, seq_length; auto).
        rewrite (map_nth f), seq_nth by auto. reflexivity. }
      split.
      - intros i Ei. destruct (Nat.ltb_spec i nt) as [Q|Q].
        + apply T; auto. rewrite TS by auto. destruct (Nat.eqb i j); auto. destruct (Req_EM_T (nth i c 0) 0); auto. contradiction.
        + apply nth_overflow. rewrite (NnlsExact.within_length _ _ W). lia.
      - apply T; auto. rewrite TS by auto. rewrite Nat.eqb_refl. reflexivity. }
    set (al := lsq S N (mulmv N e)). pose proof (lsq_within S N (mulmv N e)) as Wa. fold al in Wa.
    pose proof (NnlsExact.within_length _ _ Wa) as La. rewrite LS in La. destruct (SW al Wa) as [Wal Zal].
    set (rho := lincomb 1 (-1) e al). assert (Lrho : length rho = nt) by (unfold rho; rewrite lincomb_length; congruence).
    assert (O : forall y, NnlsExact.within S y -> wdot iv (mulmv M rho) (mulmv M y) = 0).
    { intros y Wy. rewrite <- weighted_dot by auto. fold N. unfold rho. rewrite mulmv_lin by congruence. apply lsq_orth; auto; [rewrite LS; auto|apply mulmv_length]. }
    assert (NR : forall a b x y i, length x = length y -> nth i (lincomb a b x y) 0 = a * nth i x 0 + b * nth i y 0).
    { clear. intros a b x. unfold lincomb. induction x as [|u x IH]; intros [|v y] i L; try discriminate; cbn [zip]; [destruct i; cbn; lra|].
      destruct i as [|i]; cbn [nth]; auto. }
    assert (Ej : nth j e 0 = 1). { unfold e. rewrite single_nth, Nat.eqb_refl. destruct (Nat.ltb_spec j nt); [reflexivity|lia]. }
    set (k := wdot iv (mulmv M rho) (mulmv M rho)).
    assert (Ek : wdot iv (mulmv M rho) (mulmv M e) = k).
    { unfold k. unfold rho at 3. rewrite mulmv_lin, wdot_lin by (rewrite ?mulmv_length; congruence). rewrite (O al Wa). lra. }
    assert (Pk : 0 < k).
    { pose proof (wdot_pos iv Hi (mulmv M rho)) as [|Z]; auto. exfalso. fold k in Z.
      assert (ER : rho = repeat 0 nt).
      { apply (Hd rho (mulmv M rho)); auto.
        - intros i Ei. unfold rho. rewrite NR by congruence. rewrite (Wal i Ei). unfold e. rewrite (single_within nt j c Nj i Ei). lra.
        - apply (model_eq F A nb nt); auto.
        - assert (C : chi2 iv (mulmv M rho) (repeat 0 nb) <= 0).
          { rewrite chi2_wdot. replace (vsub (mulmv M rho) (repeat 0 nb)) with (mulmv M rho); [fold k; lra|].
            assert (L : length (mulmv M rho) = nb) by (rewrite mulmv_length; auto). revert L. generalize (mulmv M rho). clear. unfold vsub.
            induction nb as [|n IH]; intros [|x l] L; try discriminate; auto. cbn [repeat zip]. rewrite <- IH by (cbn in L; lia). f_equal. lra. }
          destruct (chi2_null iv (mulmv M rho) (repeat 0 nb)) as [_ Q]; auto; [rewrite mulmv_length; congruence|rewrite repeat_length; auto|].
          intros i w a Ew Pw Ea. apply (Q i w a 0); auto.
          assert (i < nb)%nat by (rewrite <- LM, <- (mulmv_length M rho); apply nth_error_Some; congruence).
          rewrite (nth_error_nth' _ 0) by (rewrite repeat_length; auto). f_equal. apply nth_repeat. }
      assert (R1 : nth j rho 0 = 1) by (unfold rho; rewrite NR by congruence; rewrite Zal, Ej; lra).
      rewrite ER, nth_repeat in R1. lra. }
    exists k. split; auto. intros x Lx Wx. set (t := nth j x 0). set (x' := lincomb 1 (- t) x e).
    assert (Wx' : NnlsExact.within S x').
    { apply WS.
      - unfold x'. rewrite lincomb_length; congruence.
      - intros i Ei. unfold x'. rewrite NR by congruence. rewrite (Wx i Ei). unfold e. rewrite (single_within nt j c Nj i Ei). lra.
      - unfold x'. rewrite NR by congruence. rewrite Ej. fold t. lra. }
    pose proof (O x' Wx') as Q. unfold x' in Q. rewrite mulmv_lin, wdot_lin in Q by (rewrite ?mulmv_length; congruence). rewrite Ek in Q.
    assert (Q2 : wdot iv (mulmv M rho) (mulmv M x) = t * k) by lra.
    pose proof (wdot_cs iv (mulmv M rho) (mulmv M x) Hi ltac:(rewrite !mulmv_length; auto)) as CS. rewrite Q2 in CS. fold k in CS.
    apply Rmult_le_reg_l with k; auto. lra.
  Qed.
End Away.

Lemma finite_min (P : nat -> R -> Prop) : forall n, (forall j, (j < n)%nat -> exists d, 0 < d /\ forall e, 0 < e <= d -> P j e) ->
  exists d, 0 < d /\ forall j, (j < n)%nat -> forall e, 0 < e <= d -> P j e.
Proof.
  induction n as [|n IH]; intro H; [exists 1; split; [lra|intros; lia]|].
  destruct IH as (d & Hd & HP); [intros j Hj; apply H; lia|]. destruct (H n ltac:(lia)) as (d' & Hd' & HP').
  exists (Rmin d d'). split; [apply Rmin_glb_lt; auto|]. intros j Hj e [He1 He2].
  pose proof (Rmin_l d d'). pose proof (Rmin_r d d'). destruct (Nat.eq_dec j n) as [->|]; [apply HP'; lra|apply HP; [lia|lra]].
Qed.

(** The fit of nearby photometry: if every unused template would make the fit worse and the used ones tell apart in the measured bands, then the fit of all photometry near enough uses
    the same templates, with coefficients that differ by at most a multiple of the distance of the photometry. *)
Lemma L_C108_nearby :
  forall nnls rng (F : fitter R) A nb nt z iv m1 c1 p,
    nnls_contract nnls -> no_ab F -> ready F A nb nt -> nb <> 1%nat -> length iv = nb -> nonneg iv -> in_range (a_x A) z ->
    length m1 = nb -> fit_of nnls rng F z iv m1 c1 -> reconstruct F (Some (scal z)) (Some (vec c1)) 0 = Ok (vec p) ->
    (forall j q, (j < nt)%nat -> nth j c1 0 = 0 -> reconstruct F (Some (scal z)) (Some (vec (single nt j))) 0 = Ok (vec q) ->
       0 < wdot iv (vsub p m1) q) ->
    (forall y q, length y = nt -> within c1 y -> reconstruct F (Some (scal z)) (Some (vec y)) 0 = Ok (vec q) -> dark_measured iv q -> y = repeat 0 nt) ->
    exists delta kappa, 0 < delta /\ 0 < kappa /\
      forall m2 c2, length m2 = nb -> chi2 iv m1 m2 < delta -> fit_of nnls rng F z iv m2 c2 ->
        within c1 c2 /\ within c2 c1 /\ forall j, (nth j c2 0 - nth j c1 0) ^ 2 <= kappa * chi2 iv m1 m2.
Proof.
  intros nnls rng F A nb nt z iv m1 c1 p Hc Hab H H1 Li Hi Hr L1 E1 Ep Hpos Hd. pose proof H as (_ & _ & _ & Ht).
  pose proof (fit_of_best nnls rng F A nb nt z iv _ c1 Hc Hab H H1 L1 Li Hi Hr E1) as B1. pose proof B1 as (Lc1 & Nc1 & _).
  destruct (finite_min (fun j d => nth j c1 0 = 0 -> forall m2 c2, length m2 = nb -> chi2 iv m1 m2 < d -> fit_of nnls rng F z iv m2 c2 -> nth j c2 0 = 0) nt)
    as (d1 & P1 & D1).
  { intros j Hj. destruct (Req_dec (nth j c1 0) 0) as [Z|Z]; [|exists 1; split; [lra|intros; contradiction]].
    pose proof (model_eq F A nb nt z _ H (single_length nt j) Hr) as Eq. specialize (Hpos j _ Hj Z Eq).
    set (q := mulmv (chunks nb nt (arow A z)) (single nt j)) in *. set (g := wdot iv (vsub p m1) q) in *.
    pose proof (wdot_pos iv Hi q) as Q. assert (0 < g * g) by (apply Rmult_lt_0_compat; auto).
    exists (g * g / (wdot iv q q + 1)). split; [apply Rdiv_lt_0_compat; lra|]. intros e He _ m2 c2 L2 Hlt E2.
    apply (L_C108_unused nnls rng F A nb nt z iv m1 m2 c1 c2 p j q); auto. fold g.
    pose proof (chi2_nonneg iv m1 m2 Hi) as C. apply Rle_lt_trans with (chi2 iv m1 m2 * (wdot iv q q + 1)); [lra|].
    apply Rlt_le_trans with (g * g / (wdot iv q q + 1) * (wdot iv q q + 1)); [apply Rmult_lt_compat_r; lra|]. right. field. lra. }
  destruct (finite_min (fun j d => nth j c1 0 <> 0 -> forall x, length x = nt -> within c1 x ->
      d * (nth j x 0 * nth j x 0) <= wdot iv (mulmv (chunks nb nt (arow A z)) x) (mulmv (chunks nb nt (arow A z)) x)) nt) as (k & Pk & Dk).
  { intros j Hj. destruct (Req_dec (nth j c1 0) 0) as [Z|Z]; [exists 1; split; [lra|intros; contradiction]|].
    destruct (away F A nb nt z iv H Hi Li Hr c1 j Lc1 Hj Z Hd) as (k & Pk & Hk). exists k. split; auto. intros e [_ He] _ x Lx Wx.
    eapply Rle_trans; [|apply (Hk x Lx Wx)]. apply Rmult_le_compat_r; [apply Rle_0_sqr|auto]. }
  destruct (finite_min (fun j d => nth j c1 0 <> 0 -> d <= k * (nth j c1 0 * nth j c1 0)) nt) as (d2 & P2 & D2).
  { intros j Hj. destruct (Req_dec (nth j c1 0) 0) as [Z|Z]; [exists 1; split; [lra|intros; contradiction]|].
    exists (k * (nth j c1 0 * nth j c1 0)). split; [|intros e [_ He] _; lra]. apply Rmult_lt_0_compat; auto. apply Rsqr_pos_lt. auto. }
  exists (Rmin d1 d2), (/ k). split; [apply Rmin_glb_lt; auto|]. split; [apply Rinv_0_lt_compat; auto|].
  intros m2 c2 L2 Hlt E2. pose proof (Rmin_l d1 d2). pose proof (Rmin_r d1 d2).
  pose proof (fit_of_best nnls rng F A nb nt z iv _ c2 Hc Hab H H1 L2 Li Hi Hr E2) as B2. pose proof B2 as (Lc2 & Nc2 & _).
  assert (W : within c1 c2).
  { intros j Z. destruct (Nat.ltb_spec j nt) as [Hj|Hj]; [|apply nth_overflow; lia].
    apply (D1 j Hj d1 ltac:(lra) Z m2); auto; lra. }
  assert (NR : forall x y i, length x = length y -> nth i (lincomb 1 (-1) x y) 0 = nth i x 0 - nth i y 0).
  { clear. unfold lincomb. induction x as [|u x IH]; intros [|v y] i L; try discriminate; cbn [zip]; [destruct i; cbn; lra|].
    destruct i as [|i]; cbn [nth]; auto. lra. }
  assert (K : forall j, (j < nt)%nat -> nth j c1 0 <> 0 -> k * (nth j c2 0 - nth j c1 0) ^ 2 <= chi2 iv m1 m2).
  { intros j Hj Z. pose proof (Dk j Hj k ltac:(lra) Z (lincomb 1 (-1) c2 c1)) as Q. rewrite NR in Q by congruence.
    replace ((nth j c2 0 - nth j c1 0) ^ 2) with ((nth j c2 0 - nth j c1 0) * (nth j c2 0 - nth j c1 0)) by ring.
    eapply Rle_trans; [apply Q|].
    - rewrite lincomb_length; congruence.
    - intros i Ei. rewrite NR by congruence. rewrite (W i Ei), Ei. lra.
    - rewrite mulmv_lin by congruence. rewrite <- vsub_lincomb, <- chi2_wdot.
      eapply Rle_trans; [apply (best_stable A nb nt z iv m2 m1); auto|]. right. clear. rewrite !chi2_wdot. 
      unfold wdot, vsub. revert m1 m2. induction iv as [|w v IH]; intros [|x m1] [|y m2]; cbn [zip fold_right]; auto. rewrite IH. lra. }
  split; auto. split.
  - intros j Z. destruct (Nat.ltb_spec j nt) as [Hj|Hj]; [|apply nth_overflow; lia].
    destruct (Req_dec (nth j c1 0) 0) as [|N]; auto. exfalso. pose proof (K j Hj N) as Q. rewrite Z in Q.
    pose proof (D2 j Hj d2 ltac:(lra) N). assert (k * (0 - nth j c1 0) ^ 2 = k * (nth j c1 0 * nth j c1 0)) by ring. lra.
  - intro j. pose proof (chi2_nonneg iv m1 m2 Hi) as C. assert (0 <= / k * chi2 iv m1 m2) by (apply Rmult_le_pos; auto; left; apply Rinv_0_lt_compat; auto).
    destruct (Nat.ltb_spec j nt) as [Hj|Hj].
    + destruct (Req_dec (nth j c1 0) 0) as [Z|N]; [rewrite (W j Z), Z; lra|].
      apply Rmult_le_reg_l with k; auto. rewrite <- Rmult_assoc, Rinv_r, Rmult_1_l by lra. apply K; auto.
    + rewrite !nth_overflow by lia. lra.
Qed.

Lemma E_C108_nearby :
  fit_of nnls_exact (fun _ => 0) twin_fitter 1 [1; 1] [3; 1] [2; 0] /\
  reconstruct twin_fitter (Some (scal 1)) (Some (vec [2; 0])) 0 = Ok (vec [2; 2]) /\
  (forall j q, (j < 2)%nat -> nth j [2; 0] 0 = 0 -> reconstruct twin_fitter (Some (scal 1)) (Some (vec (single 2 j))) 0 = Ok (vec q) ->
     0 < wdot [1; 1] (vsub [2; 2] [3; 1]) q) /\
  (forall y q, length y = 2%nat -> within [2; 0] y -> reconstruct twin_fitter (Some (scal 1)) (Some (vec y)) 0 = Ok (vec q) -> dark_measured [1; 1] q -> y = repeat 0 2).
Proof.
  destruct E_C108_unused as (E1 & _ & E3 & E4 & _). split; [exact E1|]. split; [exact E3|]. split.
  - intros [|[|j]] q Hj Z E; cbn [nth] in Z; [lra| |lia]. rewrite E4 in E. injection E as _ <-. unfold wdot, vsub; cbn [zip fold_right]. lra.
  - intros y q Ly _ E D. apply (twin_apart y q); auto.
Qed.

(** There, the coefficients are linear in the photometry: those of a combination with nonnegative weights are the combination of the coefficients. *)
Lemma L_C108_nearby_linear :
  forall nnls rng (F : fitter R) A nb nt z iv m1 c1 p,
    nnls_contract nnls -> no_ab F -> ready F A nb nt -> nb <> 1%nat -> length iv = nb -> nonneg iv -> in_range (a_x A) z ->
    length m1 = nb -> fit_of nnls rng F z iv m1 c1 -> reconstruct F (Some (scal z)) (Some (vec c1)) 0 = Ok (vec p) ->
    (forall j q, (j < nt)%nat -> nth j c1 0 = 0 -> reconstruct F (Some (scal z)) (Some (vec (single nt j))) 0 = Ok (vec q) ->
       0 < wdot iv (vsub p m1) q) ->
    (forall y q, length y = nt -> within c1 y -> reconstruct F (Some (scal z)) (Some (vec y)) 0 = Ok (vec q) -> dark_measured iv q -> y = repeat 0 nt) ->
    exists delta, 0 < delta /\
      forall ms cs ws c, Forall2 (fun m c => length m = nb /\ chi2 iv m1 m < delta /\ fit_of nnls rng F z iv m c) ms cs ->
        length ws = length ms -> nonneg ws -> chi2 iv m1 (combined nb ms ws) < delta -> fit_of nnls rng F z iv (combined nb ms ws) c ->
        c = combined nt cs ws.
Proof.
  intros nnls rng F A nb nt z iv m1 c1 p Hc Hab H H1 Li Hi Hr L1 E1 Ep Hpos Hd. pose proof H as (_ & _ & _ & Ht).
  destruct (L_C108_nearby nnls rng F A nb nt z iv m1 c1 p) as (delta & kappa & P & _ & N); auto.
  exists delta. split; auto. intros ms cs ws c HF Lw Nw Hlt E.
  assert (I : inv A nb nt z iv c1 (combined nb ms ws) (combined nt cs ws)).
  { apply inv_combined; auto. apply (fits_inv nnls rng F); auto.
    - clear - HF. induction HF as [|m c ms cs (Q1 & Q2 & Q3)]; constructor; auto.
    - clear - HF N. induction HF as [|m c ms cs (Q1 & Q2 & Q3)]; intros x Hx; [contradiction|]. destruct Hx as [<-|Hx]; [|auto].
      destruct (N m c Q1 Q2 Q3) as (W1 & W2 & _). auto. }
  pose proof (inv_best A nb nt z iv Hi Li _ _ _ I) as B2. destruct I as (Lm & Lc & _ & W2 & _).
  pose proof (fit_of_best nnls rng F A nb nt z iv _ c Hc Hab H H1 Lm Li Hi Hr E) as B1. pose proof B1 as (Lc1 & _).
  destruct (N _ c Lm Hlt E) as (W1 & _).
  apply (same_coefficients F A nb nt z iv); auto.
  - apply chi2_null; auto; try (rewrite (model_length A nb nt); congruence).
    eapply Rle_trans; [apply (best_stable A nb nt z iv (combined nb ms ws) (combined nb ms ws)); auto|]. rewrite chi2_self. lra.
  - intros r Er Dr. assert (LL : length (lincomb 1 (-1) c (combined nt cs ws)) = nt) by (rewrite lincomb_length; congruence).
    apply (Hd _ r); auto. intros i Ei. specialize (W1 i Ei). specialize (W2 i Ei). clear - W1 W2. unfold lincomb. revert i W1 W2. generalize (combined nt cs ws).
    induction c as [|x c IH]; intros [|y l] i W1 W2; cbn [zip]; try (destruct i; reflexivity). destruct i as [|i]; cbn [nth] in *; [rewrite W1, W2; lra|auto].
Qed.

Lemma E_C108_nearby_linear :
  fit_of nnls_exact (fun _ => 0) twin_fitter 1 [1; 1] [3; 1] [2; 0] /\
  (forall t, 0 <= t <= 1 -> combined 2 [[3; 1]; [3; 2]] [t; 1 - t] = [3; 2 - t] /\ fit_of nnls_exact (fun _ => 0) twin_fitter 1 [1; 1] [3; 2 - t] [(5 - t) / 2; 0]).
Proof.
  split; [apply E_C108_unused|]. intros t Ht. split.
  - unfold combined, dot; cbn [map seq zip fold_right nth]. repeat (apply f_equal2; [lra|]); reflexivity.
  - replace ((5 - t) / 2) with ((3 + (2 - t)) / 2) by lra. apply twin_fit; lra.
Qed.

(** The mean of the coefficients of Monte Carlo fits that use the same templates has the fluxes of the fit of the mean of the Monte Carlo photometry. *)
Lemma L_C108_monte_carlo :
  forall nnls rng (F : fitter R) A nb nt mc o cur c cm mm cur' ws cw p q,
    nnls_contract nnls -> nnls_shape nnls -> no_ab F -> ready F A nb nt -> nb <> 1%nat -> obj_ok nb o ->
    nonneg (o_iv o) -> in_range (a_x A) (o_z o) -> mc <> 0%nat ->
    fit_object nnls rng F mc o cur = Ok (Three (vec c) cm mm, cur') ->
    let cs := map (fun i => column nt mc i cm) (seq 0 mc) in
    let ms := map (fun i => column nb mc i mm) (seq 0 mc) in
    (forall c c', In c cs -> In c' cs -> within c c') -> length ws = mc -> nonneg ws ->
    fit_of nnls rng F (o_z o) (o_iv o) (combined nb ms ws) cw ->
    reconstruct F (Some (scal (o_z o))) (Some (vec cw)) 0 = Ok (vec p) ->
    reconstruct F (Some (scal (o_z o))) (Some (vec (combined nt cs ws))) 0 = Ok (vec q) -> same_measured (o_iv o) p q.
Proof.
  intros nnls rng F A nb nt mc o cur c cm mm cur' ws cw p q Hc Hs Hab H H1 Ho Hiv Hr Hmc E cs ms HW Lw Nw Ew Ep Eq.
  pose proof Ho as [Hm Hv].
  eapply (proj1 (L_C108_linear nnls rng F A nb nt (o_z o) (o_iv o) ms cs ws cw p q Hc Hab H H1 Hv Hiv Hr _ HW _ Nw Ew Ep Eq)).
  Unshelve.
  2: { unfold ms. rewrite map_length, seq_length. auto. }
  unfold ms, cs. assert (G : forall i, In i (seq 0 mc) -> (i < mc)%nat) by (intros i Hi; apply in_seq in Hi; lia).
  clear cs ms HW Lw Nw Ew Ep Eq. induction (seq 0 mc) as [|i l IH]; cbn [map]; constructor.
  - split; [unfold column; rewrite map_length, seq_length; auto|].
    destruct (L_C32_coeffs_mc _ _ nnls rng F A nb nt mc o cur _ cm mm cur' Hs Hab H H1 Ho Hmc (fun x => eq_refl) E i 0%nat (G i (or_introl eq_refl)))
      as (ck & EK & Ecol).
    rewrite map_id in Ecol. rewrite Ecol.
    pose proof (fit_object_bare _ _ _ _ _ _ _ _ _ _ _ _ Hs H EK) as (_ & c2 & Ec & Hw & Hsh). injection Ec as <-.
    assert (Ev : ck = vec (dat ck)).
    { destruct ck as [s l']; cbn in *. subst s. unfold wf, size in Hw; cbn in Hw. unfold vec; cbn. f_equal. rewrite Hw. f_equal. lia. }
    exists 0%nat. eexists. rewrite <- Ev. exact EK.
  - apply IH. intros k Hk. apply G. right. auto.
Qed.
Lemma E_C108_monte_carlo : exists c cm mm cur',
  fit_object nnls_exact (fun _ => 0) twin_fitter 3 {| o_z := 1; o_m := [3; 1]; o_iv := [1; 1] |} 0 = Ok (Three (vec c) cm mm, cur') /\
  forall i, (i < 3)%nat -> column 2 3 i cm = c.
Proof.
  assert (N1 : nonneg [1; 1]) by (repeat constructor; lra). assert (AB : no_ab twin_fitter) by (left; reflexivity).
  assert (OK : obj_ok 2 {| o_z := 1; o_m := [3; 1]; o_iv := [1; 1] |}) by (split; reflexivity).
  destruct (exact_mc (fun _ => 0) twin_fitter twin_tab 2 2 3 {| o_z := 1; o_m := [3; 1]; o_iv := [1; 1] |} 0)
    as (c & cm & mm & Lc & E); auto; [apply twin_ready|apply twin_range|].
  exists c, cm, mm. eexists. split; [exact E|]. intros i Hi.
  destruct (L_C81_monte_carlo nnls_exact _ twin_fitter twin_tab 2 2 3 _ _ c cm mm _ _ nnls_exact_contract nnls_exact_shape AB twin_ready ltac:(lia) OK N1 twin_range ltac:(lia) E
    (model_eq twin_fitter twin_tab 2 2 1 c twin_ready Lc twin_range) i Hi) as (q & Eq & Hq). cbn [o_iv o_z] in *.
  assert (Lk : length (column 2 3 i cm) = 2%nat) by (unfold column; rewrite map_length, seq_length; auto).
  rewrite (model_eq twin_fitter twin_tab 2 2 1 _ twin_ready Lk twin_range) in Eq. injection Eq as _ <-.
  symmetry. apply (same_coefficients twin_fitter twin_tab 2 2 1 [1; 1]); auto; [apply twin_ready|apply twin_range| |].
  - apply chi2_null; auto; try (rewrite (model_length twin_tab 2 2); reflexivity). eapply Rle_trans; [apply Hq|]. right.
    match goal with |- context [seq 0 ?k] => generalize (seq 0 k) end. intro l. induction l as [|a l IH]; cbn [map fold_right]; [reflexivity|]. rewrite IH. lra.
  - intros r Er Dr. apply (twin_apart _ r); auto. rewrite lincomb_length; congruence.
Qed.
