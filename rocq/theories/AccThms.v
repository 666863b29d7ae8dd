(** Theorems about the accuracy of the interpolation between the redshifts of the design matrix (fitter.py:76-113, 456-543,
    kcorrect.py:394-467). *)
From Coquelicot Require Import Coquelicot.
From Coq Require Import String List Arith Lia Bool ZArith QArith Qreals Reals Lra Sorting.Sorted Sorting.Permutation.
From Verif Require Import Base BaseLemmas Num Toy Interp InterpReal Spec Utils Sed Response RespDict ResponseObj LinInterp ResponseEx
  Fitter FitSpec FitterProofs FitterMC FitReal FitTable FitEx FitRealEx FitRealThms Kcorrect KSpec KTable KEx KcorrectThms
  BuildSpec BuildProofs BuildTable BuildEx QuadSpec.
Import ListNotations.
Local Open Scope R_scope.
(* STATEMENTS *)
From Verif Require Import BuildThms SteadyProofs QuadProofs PipeEx.

Lemma chord_error M h a b u : a < b -> 0 <= u <= 1 -> curved M h a b ->
  Rabs (((1 - u) * h a + u * h b) - h ((1 - u) * a + u * b)) <= M / 8 * (b - a) ^ 2.
Proof.
  intros Hab Hu (H & H1 & H2 & Eh & D1 & D2 & B). set (t := (1 - u) * a + u * b).
  assert (Ht : a <= t <= b) by (unfold t; nra).
  pose proof (near_chord H H1 H2 M a b t Ht D1 D2 B) as K. rewrite (Eh a), (Eh b), (Eh t) by lra.
  assert (HM : 0 <= M) by (specialize (B a ltac:(lra)); pose proof (Rabs_pos (H2 a)); lra).
  replace (H t * (b - a) - (H a * (b - t) + H b * (t - a))) with (- (((1 - u) * H a + u * H b) - H t) * (b - a)) in K by (unfold t; ring).
  rewrite Rabs_mult, Rabs_Ropp, (Rabs_right (b - a)) in K by lra.
  apply Rmult_le_reg_r in K; [|lra]. eapply Rle_trans; [exact K|].
  replace (M / 2 * (t - a) * (b - t)) with (M / 2 * (u * (1 - u) * (b - a) ^ 2)) by (unfold t; ring).
  replace (M / 8 * (b - a) ^ 2) with (M / 2 * (1 / 4 * (b - a) ^ 2)) by field.
  apply Rmult_le_compat_l; [lra|]. apply Rmult_le_compat_r; [apply pow2_ge_0|]. pose proof (pow2_ge_0 (u - 1 / 2)). nra.
Qed.
Lemma lipschitz_error L h a b u : a < b -> 0 <= u <= 1 -> (forall s t, a <= s <= b -> a <= t <= b -> Rabs (h s - h t) <= L * Rabs (s - t)) ->
  Rabs (((1 - u) * h a + u * h b) - h ((1 - u) * a + u * b)) <= L / 2 * (b - a).
Proof.
  intros Hab Hu HL. set (t := (1 - u) * a + u * b). assert (Ht : a <= t <= b) by (unfold t; nra).
  pose proof (HL a t ltac:(lra) Ht) as A. pose proof (HL b t ltac:(lra) Ht) as B.
  rewrite (Rabs_left1 (a - t)) in A by lra. rewrite (Rabs_right (b - t)) in B by lra.
  assert (L0 : 0 <= L). { pose proof (HL a b ltac:(lra) ltac:(lra)) as C. rewrite (Rabs_left1 (a - b)) in C by lra. pose proof (Rabs_pos (h a - h b)). nra. }
  replace ((1 - u) * h a + u * h b - h t) with ((1 - u) * (h a - h t) + u * (h b - h t)) by ring.
  eapply Rle_trans; [apply Rabs_triang|]. rewrite !Rabs_mult, (Rabs_right (1 - u)), (Rabs_right u) by lra.
  apply Rle_trans with ((1 - u) * (L * - (a - t)) + u * (L * (b - t))).
  - apply Rplus_le_compat; apply Rmult_le_compat_l; lra.
  - replace ((1 - u) * (L * - (a - t)) + u * (L * (b - t))) with (L * (b - a) * (2 * (u * (1 - u)))) by (unfold t; ring).
    replace (L / 2 * (b - a)) with (L * (b - a) * (2 * (1 / 4))) by field. apply Rmult_le_compat_l; [apply Rmult_le_pos; lra|]. pose proof (pow2_ge_0 (u - 1 / 2)). nra.
Qed.

Lemma grid_step (r0 r1 : R) nz i z0 z1 : r0 < r1 -> (2 <= nz)%nat -> nth_error (redshift_grid r0 r1 nz) i = Some z0 ->
  nth_error (redshift_grid r0 r1 nz) (S i) = Some z1 -> z1 - z0 = (r1 - r0) / INR (nz - 1) /\ r0 <= z0 /\ z0 < z1 /\ z1 <= r1.
Proof.
  intros Hr Hn E0 E1. destruct (L_C36_grid r0 r1 nz Hn Hr) as (L & _ & _ & _ & G).
  assert (B : (S i < nz)%nat) by (rewrite <- L; apply nth_error_Some; congruence).
  pose proof (G i ltac:(lia)) as G0. pose proof (G (S i) ltac:(lia)) as G1.
  rewrite (nth_error_nth _ _ _ E0) in G0. rewrite (nth_error_nth _ _ _ E1) in G1. rewrite S_INR in G1.
  assert (P : 0 < INR (nz - 1)) by (apply lt_0_INR; lia).
  assert (Q : INR i + 1 <= INR (nz - 1)). { rewrite <- S_INR. apply le_INR. lia. }
  pose proof (pos_INR i) as I0.
  assert (E : z1 - z0 = (r1 - r0) / INR (nz - 1)) by (rewrite G0, G1; field; lra).
  split; auto.
  assert (S0 : 0 < (r1 - r0) / INR (nz - 1)) by (apply Rdiv_lt_0_compat; lra).
  split; [|split; [lra|]].
  - rewrite G0. assert (0 <= (r1 - r0) * INR i / INR (nz - 1)) by (apply Rmult_le_pos; [apply Rmult_le_pos; lra|left; apply Rinv_0_lt_compat; auto]). lra.
  - rewrite G1. assert (X : (r1 - r0) * (INR i + 1) / INR (nz - 1) <= (r1 - r0) * INR (nz - 1) / INR (nz - 1)).
    { apply Rmult_le_compat_r; [left; apply Rinv_0_lt_compat; auto|]. apply Rmult_le_compat_l; lra. }
    replace ((r1 - r0) * INR (nz - 1) / INR (nz - 1)) with (r1 - r0) in X by (field; lra). lra.
Qed.

Lemma flux_error cub d wave w rows r0 r1 nz n c z x F : r0 < r1 -> (2 <= nz)%nat ->
  model_flux cub d wave w rows (redshift_grid r0 r1 nz) n c z x ->
  (forall i y l, nth_error (redshift_grid r0 r1 nz) i = Some y -> photometry cub d wave w rows n y l -> F y = dot l c) ->
  (forall M, curved M F r0 r1 -> Rabs (x - F z) <= M / 8 * ((r1 - r0) / INR (nz - 1)) ^ 2) /\
  (forall L, (forall s t, r0 <= s <= r1 -> r0 <= t <= r1 -> Rabs (F s - F t) <= L * Rabs (s - t)) ->
     Rabs (x - F z) <= L / 2 * ((r1 - r0) / INR (nz - 1))).
Proof.
  intros Hr Hn (i & z0 & z1 & l0 & l1 & u & E0 & E1 & Hu & -> & P0 & P1 & ->) HF.
  destruct (grid_step r0 r1 nz i z0 z1 Hr Hn E0 E1) as (Es & B0 & Blt & B1).
  rewrite <- (HF _ _ _ E0 P0), <- (HF _ _ _ E1 P1), <- Es. split.
  - intros M HM. apply chord_error; auto. eapply curved_sub; [| |exact HM]; auto.
  - intros L HL. apply lipschitz_error; auto. intros s t Hs Ht. apply HL; lra.
Qed.

(** C104.  Let F be any curve through the fluxes that the templates with coefficients c have, in the band n, at the redshifts of
    the grid: for instance their flux as a function of redshift.  What reconstruct and reconstruct_out give at a combined redshift
    Z = (1+z)(1+shift)-1 differs from F(Z), divided by 1+shift, by at most 1/8 of the second derivative of F times the square of
    the grid step, and by at most half a step times a Lipschitz constant of F. *)
Lemma L_C104_reconstruct :
  forall cub bq sun vega fs d k abc responses s t out map_ (r0 r1 : R) nz d' s' K w rows z c bs,
    Kcorrect cub bq sun vega fs d k abc responses s t out map_ r0 r1 nz = (d', s', Ok K) ->
    s_rflux s = table w rows -> rect w rows -> rows <> [] -> r0 < r1 -> (2 <= nz)%nat ->
    let Z := (1 + z) * (1 + bs) - 1 in
    r0 <= Z <= r1 -> -1 < bs -> length c = length rows ->
    let step := (r1 - r0) / INR (nz - 1) in
    let through_grid n F := forall i y l, nth_error (redshift_grid r0 r1 nz) i = Some y ->
      photometry cub d' (s_rwave s) w rows n y l -> F y = dot l c in
    let accurate names p := forall j n F, nth_error names j = Some n -> through_grid n F ->
      exists x, nth_error p j = Some x /\
        (forall M, curved M F r0 r1 -> Rabs (x - F Z / (1 + bs)) <= M / 8 * step ^ 2 / (1 + bs)) /\
        (forall L, (forall a b, r0 <= a <= r1 -> r0 <= b <= r1 -> Rabs (F a - F b) <= L * Rabs (a - b)) ->
           Rabs (x - F Z / (1 + bs)) <= L / 2 * step / (1 + bs)) in
    exists p q, reconstruct (k_fit K) (Some (scal z)) (Some (vec c)) bs = Ok (vec p) /\ length p = length responses /\
      accurate responses p /\
      reconstruct_out K (Some (scal z)) (Some (vec c)) bs = Ok (vec q) /\ length q = length (k_out K) /\ accurate (k_out K) q.
Proof.
  intros cub bq sun vega fs d k abc responses s t out map_ r0 r1 nz d' s' K w rows z c bs H Hf Hr Hne Hrr Hnz Z HZ Hbs Lc step tg acc.
  destruct (L_C72_reconstruct cub bq sun vega fs d k abc responses s t out map_ r0 r1 nz d' s' K w rows z c bs H Hf Hr Hne Hrr Hnz HZ Lc)
    as [(p & Ep & Lp & Hp) (q & Eq & Lq & Hq)].
  assert (A : forall names p, (forall j n, nth_error names j = Some n ->
      exists x, model_flux cub d' (s_rwave s) w rows (redshift_grid r0 r1 nz) n c Z x /\ nth_error p j = Some (x / (1 + bs))) -> acc names p).
  { intros names p' Hp' j n F Hj HF. destruct (Hp' j n Hj) as (x & Hx & Ex). exists (x / (1 + bs)). split; auto.
    destruct (flux_error _ _ _ _ _ _ _ _ _ _ _ _ F Hrr Hnz Hx HF) as [E1 E2]. fold step in E1, E2.
    assert (I : 0 < / (1 + bs)) by (apply Rinv_0_lt_compat; lra).
    assert (Q : Rabs (x / (1 + bs) - F Z / (1 + bs)) = Rabs (x - F Z) / (1 + bs)).
    { replace (x / (1 + bs) - F Z / (1 + bs)) with ((x - F Z) * / (1 + bs)) by (field; lra). rewrite Rabs_mult, (Rabs_right (/ (1 + bs))) by lra. auto. }
    rewrite Q. split; [intros M HM; specialize (E1 M HM)|intros L HL; specialize (E2 L HL)]; apply Rmult_le_compat_r; auto; lra. }
  exists p, q. repeat split; auto.
Qed.

Lemma ln_near x X e : Rabs (x - X) <= e -> e < X -> 0 < x /\ Rabs (ln (x / X)) <= e / (X - e).
Proof.
  intros Hx He. pose proof (Rabs_pos (x - X)) as P. apply Rabs_le_between in Hx. assert (X0 : 0 < X) by lra. assert (x0 : 0 < x) by lra. split; auto.
  assert (U : forall y, 0 < y -> ln y <= y - 1). { intros y Hy. pose proof (exp_ineq1_le (ln y)) as Q. rewrite exp_ln in Q by auto. lra. }
  assert (I : forall n m, 0 <= n <= e -> X - e <= m -> n / m <= e / (X - e)).
  { intros n m Hn Hm. apply Rle_trans with (e / m); [apply Rmult_le_compat_r; [left; apply Rinv_0_lt_compat|]; lra|].
    apply Rmult_le_compat_l; [lra|]. apply Rinv_le_contravar; lra. }
  apply Rabs_le. split.
  - assert (Q : ln (X / x) <= e / (X - e)).
    { eapply Rle_trans; [apply U; apply Rdiv_lt_0_compat; auto|]. replace (X / x - 1) with ((X - x) / x) by (field; lra).
      destruct (Rle_dec 0 (X - x)); [apply I; lra|]. apply Rle_trans with 0; [|apply Rmult_le_pos; [lra|left; apply Rinv_0_lt_compat; lra]].
      assert (0 < (x - X) / x) by (apply Rdiv_lt_0_compat; lra). replace ((X - x) / x) with (- ((x - X) / x)) by (field; lra). lra. }
    replace (X / x) with (/ (x / X)) in Q by (field; lra). rewrite ln_Rinv in Q by (apply Rdiv_lt_0_compat; auto). lra.
  - eapply Rle_trans; [apply U; apply Rdiv_lt_0_compat; auto|]. replace (x / X - 1) with ((x - X) / X) by (field; lra).
    destruct (Rle_dec 0 (x - X)); [apply I; lra|]. apply Rle_trans with 0; [|apply Rmult_le_pos; [lra|left; apply Rinv_0_lt_compat; lra]].
    assert (0 < (X - x) / X) by (apply Rdiv_lt_0_compat; lra). replace ((x - X) / X) with (- ((X - x) / X)) by (field; lra). lra.
Qed.

(** The K-correction is within the corresponding error of that of the exact fluxes: -2.5 log10 of the flux F(z) in the mapped input
    band over the flux G(shift) in the output band, that one divided by 1+shift, whenever these exceed their errors. *)
Lemma L_C104_kcorrect :
  forall cub bq sun vega fs d k abc responses s t out map_ (r0 r1 : R) nz d' s' K w rows z c bs,
    Kcorrect cub bq sun vega fs d k abc responses s t out map_ r0 r1 nz = (d', s', Ok K) ->
    s_rflux s = table w rows -> rect w rows -> rows <> [] -> r0 < r1 -> (2 <= nz)%nat ->
    r0 <= z <= r1 -> r0 <= bs <= r1 -> -1 < bs -> length c = length rows -> 0 < fold_right Rplus 0 c ->
    let step := (r1 - r0) / INR (nz - 1) in
    let through_grid n F := forall i y l, nth_error (redshift_grid r0 r1 nz) i = Some y ->
      photometry cub d' (s_rwave s) w rows n y l -> F y = dot l c in
    exists v, kcorrect K (Some (scal z)) (Some (vec c)) bs = Ok (vec v) /\ length v = length (k_out K) /\
      forall j n_out n_in F G M, nth_error (k_out K) j = Some n_out -> nth_error (k_map K) j = Some n_in ->
        through_grid n_in F -> through_grid n_out G -> curved M F r0 r1 -> curved M G r0 r1 ->
        let e := M / 8 * step ^ 2 in e < F z -> e < G bs ->
        Rabs (nth j v 0 - -5/2 * log10 (F z / (G bs / (1 + bs)))) <= 5 / 2 / ln 10 * (e / (F z - e) + e / (G bs - e)).
Proof.
  intros cub bq sun vega fs d k abc responses s t out map_ r0 r1 nz d' s' K w rows z c bs H Hf Hr Hne Hrr Hnz Hz Hbs Hb1 Lc Hc step tg.
  destruct (L_C72_kcorrect cub bq sun vega fs d k abc responses s t out map_ r0 r1 nz d' s' K w rows z c bs H Hf Hr Hne Hrr Hnz Hz Hbs Lc Hc)
    as (v & Ev & Lv & Hv). exists v. split; auto. split; auto.
  intros j no ni F G M Hno Hni HF HG CF CG e EF EG. destruct (Hv j no ni Hno Hni) as (x & y & Fx & Fy & Ej).
  destruct (flux_error _ _ _ _ _ _ _ _ _ _ _ _ F Hrr Hnz Fx HF) as [E1 _]. destruct (flux_error _ _ _ _ _ _ _ _ _ _ _ _ G Hrr Hnz Fy HG) as [E2 _].
  specialize (E1 M CF). specialize (E2 M CG). fold step in E1, E2. fold e in E1, E2.
  destruct (ln_near _ _ _ E1 EF) as [x0 Lx]. destruct (ln_near _ _ _ E2 EG) as [y0 Ly].
  pose proof (Rabs_pos (x - F z)) as P1. pose proof (Rabs_pos (y - G bs)) as P2.
  rewrite (nth_error_nth _ _ _ Ej). pose proof ln10_pos as T.
  replace (-5 / 2 * log10 (x / (y / (1 + bs))) - -5 / 2 * log10 (F z / (G bs / (1 + bs)))) with (5 / 2 / ln 10 * (ln (y / G bs) - ln (x / F z))).
  - rewrite Rabs_mult, (Rabs_right (5 / 2 / ln 10)) by (apply Rle_ge, Rmult_le_pos; [lra|left; apply Rinv_0_lt_compat; auto]).
    apply Rmult_le_compat_l; [apply Rmult_le_pos; [lra|left; apply Rinv_0_lt_compat; auto]|].
    unfold Rminus at 1. eapply Rle_trans; [apply Rabs_triang|]. rewrite Rabs_Ropp. lra.
  - unfold log10. assert (D : forall a b, 0 < a -> 0 < b -> ln (a / b) = ln a - ln b).
    { intros a b Ha Hb. unfold Rdiv. rewrite ln_mult by (auto; apply Rinv_0_lt_compat; auto). rewrite ln_Rinv by auto. ring. }
    rewrite !D; try lra; try (apply Rdiv_lt_0_compat; lra).
Qed.

Lemma curve_2 x0 x1 : exists F, F 0 = x0 /\ F 1 = x1 /\ curved 2 F 0 1 /\ F (1 / 2) = (x0 + x1) / 2 + 1 / 4.
Proof.
  exists (fun t => x0 * (1 - t) + x1 * t + t * (1 - t)). split; [ring|]. split; [ring|]. split; [|field].
  exists (fun t => x0 * (1 - t) + x1 * t + t * (1 - t)), (fun t => x1 - x0 + 1 - 2 * t), (fun _ => -2). split; [auto|split; [|split]]; intros t _.
  - auto_derive; auto. ring.
  - auto_derive; auto. ring.
  - rewrite Rabs_left; lra.
Qed.
(** A curve through the two fluxes of the example, with second derivative 2, that bends away from the chord by 1/4, the bound. *)
Lemma E_C104_reconstruct : exists d' s' K F,
  Kcorrect lin bq0 sun0 sun0 r_files [] Plain false ["u"%string] r_sed r_tmpl None None 0 1 2 = (d', s', Ok K) /\
  s_rflux r_sed = table 6 [[1;1;2;2;1;1]; [1;2;3;4;5;6]] /\
  (forall i y l, nth_error (redshift_grid 0 1 2) i = Some y ->
    photometry lin d' (s_rwave r_sed) 6 [[1;1;2;2;1;1]; [1;2;3;4;5;6]] "u" y l -> F y = dot l [1; 1/2]) /\ curved 2 F 0 1 /\
  F (1 / 2) - (F 0 + F 1) / 2 = 2 / 8 * ((1 - 0) / INR (2 - 1)) ^ 2.
Proof.
  destruct r_built as (d' & s' & K & H).
  destruct (L_C72_reconstruct _ _ _ _ _ _ _ _ _ _ _ _ _ _ _ _ _ _ _ 6%nat [[1;1;2;2;1;1]; [1;2;3;4;5;6]] 1 [1; 1/2] 0 H)
    as [(p & _ & _ & Hp) _]; auto; try lra; try discriminate; [repeat constructor|].
  destruct (Hp 0%nat "u"%string eq_refl) as (x & (i & z0 & z1 & l0 & l1 & u & I0 & I1 & _ & _ & P0 & P1 & _) & _).
  assert (G0 : nth_error (redshift_grid 0 1 2) 0 = Some 0) by (unfold redshift_grid, nnat; cbn [seq map nth_error]; rcbn; f_equal; unfold Q2R; cbn; field).
  assert (G1 : nth_error (redshift_grid 0 1 2) 1 = Some 1) by (unfold redshift_grid, nnat; cbn [seq map nth_error]; rcbn; f_equal; unfold Q2R; cbn; field).
  destruct i as [|i]; [|exfalso; destruct i; discriminate I1]. rewrite G0 in I0. rewrite G1 in I1. injection I0 as <-. injection I1 as <-.
  destruct (curve_2 (dot l0 [1; 1/2]) (dot l1 [1; 1/2])) as (F & F0 & F1 & C & Fh).
  exists d', s', K, F. split; auto. split; [reflexivity|]. split; [|split; [exact C|rewrite Fh, F0, F1; cbn; field]].
  assert (Det : forall y l l', photometry lin d' (s_rwave r_sed) 6 [[1;1;2;2;1;1]; [1;2;3;4;5;6]] "u" y l ->
    photometry lin d' (s_rwave r_sed) 6 [[1;1;2;2;1;1]; [1;2;3;4;5;6]] "u" y l' -> l' = l).
  { intros y l l' (r & v & A1 & A2 & A3) (r' & v' & B1 & B2 & B3). congruence. }
  intros i y l Hi Hl. destruct i as [|[|i]]; [rewrite G0 in Hi|rewrite G1 in Hi|exfalso; destruct i; discriminate Hi];
    injection Hi as <-; [rewrite F0, (Det _ _ _ P0 Hl)|rewrite F1, (Det _ _ _ P1 Hl)]; reflexivity.
Qed.
(** The flux x of the example at redshift 0 and a curve with second derivative 2x through its fluxes, so that the error is x/4. *)
Lemma E_C104_kcorrect : exists d d' s' K F x,
  Kcorrect lin bq0 sun0 sun0 r_files d Plain false ["u"; "u"]%string r_sed1 r_tmpl None None 0 1 2 = (d', s', Ok K) /\
  s_rflux r_sed1 = table 6 [[1;1;2;2;1;1]] /\ 0 < fold_right Rplus 0 [1] /\
  nth_error (k_out K) 0 = Some "u"%string /\ nth_error (k_map K) 0 = Some "u"%string /\
  (forall i y l, nth_error (redshift_grid 0 1 2) i = Some y ->
    photometry lin d' (s_rwave r_sed1) 6 [[1;1;2;2;1;1]] "u" y l -> F y = dot l [1]) /\ curved (2 * x) F 0 1 /\
  0 < x /\ 2 * x / 8 * ((1 - 0) / INR (2 - 1)) ^ 2 = x / 4 /\ F 0 = x.
Proof.
  destruct r_object as (r & d' & s' & K & x & _ & H & _ & _ & Hx & (i & z0 & z1 & l0 & l1 & u & I0 & I1 & Hu & Hz & P0 & P1 & Ex)).
  assert (G0 : nth_error (redshift_grid 0 1 2) 0 = Some 0) by (unfold redshift_grid, nnat; cbn [seq map nth_error]; rcbn; f_equal; unfold Q2R; cbn; field).
  assert (G1 : nth_error (redshift_grid 0 1 2) 1 = Some 1) by (unfold redshift_grid, nnat; cbn [seq map nth_error]; rcbn; f_equal; unfold Q2R; cbn; field).
  destruct i as [|i]; [|exfalso; destruct i; discriminate I1]. rewrite G0 in I0. rewrite G1 in I1. injection I0 as <-. injection I1 as <-.
  assert (u = 0) by lra. subst u.
  exists (r_cache r), d', s', K, (fun t => x * (1 - t) + dot l1 [1] * t + x * (t * (1 - t))), x.
  pose proof (L_C40_mapping R Num_R _ _ _ _ _ _ _ _ _ _ _ _ _ _ _ _ _ _ _ H) as (Q1 & Q2 & _).
  split; auto. split; [reflexivity|]. split; [cbn; lra|]. split; [rewrite Q1; reflexivity|]. split; [rewrite Q2; reflexivity|].
  split; [|split; [|split; [auto|split; [cbn; field|ring]]]].
  - assert (Det : forall y l l', photometry lin d' (s_rwave r_sed1) 6 [[1;1;2;2;1;1]] "u" y l ->
      photometry lin d' (s_rwave r_sed1) 6 [[1;1;2;2;1;1]] "u" y l' -> l' = l).
    { intros y l l' (r1 & v & A1 & A2 & A3) (r' & v' & B1 & B2 & B3). congruence. }
    intros i y l Hi Hl. destruct i as [|[|i]]; [rewrite G0 in Hi|rewrite G1 in Hi|exfalso; destruct i; discriminate Hi];
      injection Hi as <-; [rewrite (Det _ _ _ P0 Hl)|rewrite (Det _ _ _ P1 Hl)]; lra.
  - exists (fun t => x * (1 - t) + dot l1 [1] * t + x * (t * (1 - t))), (fun t => dot l1 [1] - 2 * x * t), (fun _ => -2 * x).
    split; [auto|split; [|split]]; intros t _.
    + auto_derive; auto. ring.
    + auto_derive; auto. ring.
    + rewrite Rabs_left; lra.
Qed.
