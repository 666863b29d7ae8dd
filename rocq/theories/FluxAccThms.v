(** Theorems about the accuracy of reconstructed fluxes (fitter.py:76-113, 456-543, kcorrect.py:394-467, response.py:314-411): the sums
    over the samples and the interpolation in redshift together.  Scope: exact arithmetic, responses that end with zeros. *)
From Coquelicot Require Import Coquelicot.
From Coq Require Import String List Arith Lia Bool ZArith QArith Qreals Reals Lra Sorting.Sorted Sorting.Permutation.
From Verif Require Import Base BaseLemmas Num Toy Interp InterpReal Spec Utils Sed Response RespDict ResponseObj LinInterp ResponseEx
  Fitter FitSpec FitterProofs FitterMC FitReal FitTable FitEx FitRealEx FitRealThms Kcorrect KSpec KTable KEx KcorrectThms
  BuildSpec BuildProofs BuildTable BuildEx ShiftSpec Spline SplineSpec QuadSpec FluxAccSpec.
Import ListNotations.
Local Open Scope R_scope.
(* STATEMENTS *)
From Verif Require Import ResponseProofs ResponseThms SplineProofs SplineThms BuildThms ShiftThms SteadyProofs QuadProofs QuadThms AccThms PipeProofs PipeEx.

Lemma seen_sorted z wave : -1 < z -> StronglySorted Rlt wave -> StronglySorted Rlt (seen_wave z wave).
Proof.
  intros Hz Hs. unfold seen_wave. induction Hs as [|a l Hl IH Hf]; cbn [map]; constructor; auto. apply Forall_forall. intros b Hb.
  apply in_map_iff in Hb as (x & <- & Hx). rewrite Forall_forall in Hf. specialize (Hf x Hx). nra.
Qed.
Lemma dot_near (l m c : list R) e : length m = length l -> length c = length l ->
  (forall i, (i < length l)%nat -> Rabs (nth i l 0 - nth i m 0) <= e) -> Rabs (dot l c - dot m c) <= fold_right Rplus 0 (map Rabs c) * e.
Proof.
  revert m c. induction l as [|x l IH]; intros [|y m] [|k c] Lm Lc H; try discriminate; cbn [map fold_right].
  - unfold dot. cbn. rewrite Rminus_0_r, Rabs_R0. lra.
  - specialize (IH m c ltac:(cbn in Lm; lia) ltac:(cbn in Lc; lia)).
    assert (A : Rabs (x - y) <= e) by (apply (H 0%nat); cbn; lia).
    assert (B : Rabs (dot l c - dot m c) <= fold_right Rplus 0 (map Rabs c) * e) by (apply IH; intros i Hi; apply (H (S i)); cbn; lia).
    change (dot (x :: l) (k :: c)) with (x * k + dot l c). change (dot (y :: m) (k :: c)) with (y * k + dot m c).
    replace (x * k + dot l c - (y * k + dot m c)) with ((x - y) * k + (dot l c - dot m c)) by ring.
    eapply Rle_trans; [apply Rabs_triang|]. rewrite Rabs_mult, Rmult_plus_distr_r. apply Rplus_le_compat; auto.
    rewrite Rmult_comm. apply Rmult_le_compat_l; auto. apply Rabs_pos.
Qed.
Lemma close_ratio m I M M' B D e : 0 <= e -> 0 <= M' -> M' * e < D -> Rabs I <= B -> Rabs (m - I) <= (M + Rabs m * M') * e / D ->
  Rabs (m - I) <= (M + B * M') * e / (D - M' * e).
Proof.
  intros He HM' HD HI H. assert (D0 : 0 < D) by nra. set (x := Rabs (m - I)) in *.
  assert (Hm : Rabs m <= B + x). { replace m with (I + (m - I)) by ring. eapply Rle_trans; [apply Rabs_triang|]. unfold x. lra. }
  assert (X : x * D <= (M + (B + x) * M') * e).
  { apply Rle_trans with ((M + Rabs m * M') * e).
    - replace ((M + Rabs m * M') * e) with ((M + Rabs m * M') * e / D * D) by (field; lra). apply Rmult_le_compat_r; lra.
    - apply Rmult_le_compat_r; auto. apply Rplus_le_compat_l, Rmult_le_compat_r; auto. }
  apply Rmult_le_reg_r with (D - M' * e); [lra|]. replace ((M + B * M') * e / (D - M' * e) * (D - M' * e)) with ((M + B * M') * e) by (field; lra).
  nra.
Qed.

(** C106.  The numbers of the design matrix: the photometry of the templates at a redshift z, with coefficients c, is the flux of their
    sum seen at z, up to an amount proportional to the square of the longest step h of the integration grid. *)
Lemma L_C106_photometry :
  forall cub bq sun vega rw y r w yy d n wave rows c z l h M M' B,
    splines cub -> band cub bq sun vega rw y r w yy -> dget d n = Some r ->
    StronglySorted Rlt wave -> (4 <= length wave)%nat -> Forall (fun t => 0 < t) wave -> rect (length wave) rows -> -1 < z ->
    length c = length rows -> sampled_well cub w yy wave rows [z] h M M' B -> photometry cub d wave (length wave) rows n z l ->
    Rabs (dot l c - sum_flux cub w yy wave rows c z) <= sums_error cub w yy c h M M' B.
Proof.
  intros cub bq sun vega rw y r w yy d n wave rows c z l h M M' B Hc HB Hd Hs H4 Hp Hr Hz Lc (E0 & E1 & Hres & HM' & HD) HP.
  destruct (Hres z (or_introl eq_refl)) as (Ho & Hb & HI & g & Hg & Hcell). unfold sums_error.
  set (e := h ^ 2 / 12 * (last w 0 - nth 0 w 0)) in *. set (D := RInt (ab_photons cub w yy) (nth 0 w 0) (last w 0)) in *.
  destruct (photometry_each _ _ _ _ _ _ _ _ HP Hr Hd Hs H4 Hz) as [L T]. unfold seen_rows in L; rewrite map_length in L.
  assert (He : 0 <= e).
  { unfold e. destruct (band_samples _ _ _ _ _ _ _ _ _ HB) as (B1 & B2 & _). pose proof (lo_hi w B1 B2). apply Rmult_le_pos; [|lra].
    apply Rmult_le_pos; [apply pow2_ge_0|lra]. }
  unfold sum_flux. apply dot_near; [rewrite map_length; auto|lia|]. intros i Hi. rewrite L in Hi.
  destruct (nth_error rows i) as [f|] eqn:Ef; [|apply nth_error_None in Ef; lia].
  assert (Inf : In f rows) by (eapply nth_error_In; eauto).
  assert (Lf : length f = length wave). { unfold rect in Hr. rewrite Forall_forall in Hr. apply Hr; auto. }
  rewrite (nth_error_nth (map (fun f => band_flux cub w yy wave f z) rows) i 0 (x := band_flux cub w yy wave f z))
    by (rewrite nth_error_map, Ef; reflexivity).
  specialize (T i (map (fun f => f / (1 + z)) f)). unfold seen_rows in T. rewrite nth_error_map, Ef in T. destruct (T eq_refl) as (s & HS & Em).
  assert (Es : forall t, spline cub (seen_wave z wave) (map (fun f => f / (1 + z)) f) t = spline cub wave f (t / (1 + z)) / (1 + z)).
  { intro t. unfold seen_wave. replace t with (t / (1 + z) * (1 + z)) at 1 by (field; lra).
    replace (map (fun f => f / (1 + z)) f) with (map (fun v => / (1 + z) * v) f) by (apply map_ext; intro; unfold Rdiv; ring).
    rewrite L_C78_scaling by (auto; lra). unfold Rdiv. ring. }
  assert (SP : spectrum (seen_wave z wave) (map (fun f => f / (1 + z)) f) s).
  { split; [apply seen_sorted; auto|]. split; auto. unfold seen_wave. apply Forall_map. eapply Forall_impl; [|exact Hp]. cbn. intros; nra. }
  destruct (L_C103_error cub bq sun vega rw y r w yy (seen_wave z wave) (map (fun f => f / (1 + z)) f) s g M M' h Hc HB SP Ho Hb Hg E0 E1) as (_ & _ & X).
  { intros a b Ha La Lb. destruct (Hcell a b Ha La Lb) as (? & ? & Hf). split; [|split; auto].
    apply (curved_ext M (photons cub w yy wave f z)); [|apply Hf; auto]. intros t _. unfold photons. rewrite Es. reflexivity. }
  destruct (X HD) as (m & Em' & Bm). rewrite Em in Em'. injection Em' as <-. clear X.
  apply close_ratio; auto. unfold band_flux.
  replace (RInt (photons cub w yy wave f z) (nth 0 w 0) (last w 0)) with
    (RInt (fun t => spline cub (seen_wave z wave) (map (fun f => f / (1 + z)) f) t * spline cub w yy t * t) (nth 0 w 0) (last w 0)); [exact Bm|].
  apply RInt_ext. intros t _. unfold photons. rewrite Es. reflexivity.
Qed.

Lemma flux_near cub d wave w rows r0 r1 nz n c z x F E : r0 < r1 -> (2 <= nz)%nat ->
  model_flux cub d wave w rows (redshift_grid r0 r1 nz) n c z x ->
  (forall y l, In y (redshift_grid r0 r1 nz) -> photometry cub d wave w rows n y l -> Rabs (dot l c - F y) <= E) ->
  forall M, curved M F r0 r1 -> Rabs (x - F z) <= M / 8 * ((r1 - r0) / INR (nz - 1)) ^ 2 + E.
Proof.
  intros Hr Hn (i & z0 & z1 & l0 & l1 & u & E0 & E1 & Hu & -> & P0 & P1 & ->) HF M HM.
  destruct (grid_step r0 r1 nz i z0 z1 Hr Hn E0 E1) as (Es & B0 & Blt & B1).
  pose proof (HF _ _ (nth_error_In _ _ E0) P0) as A0. pose proof (HF _ _ (nth_error_In _ _ E1) P1) as A1. rewrite <- Es.
  assert (C : Rabs ((1 - u) * F z0 + u * F z1 - F ((1 - u) * z0 + u * z1)) <= M / 8 * (z1 - z0) ^ 2).
  { apply chord_error; auto. eapply curved_sub; [| |exact HM]; auto. }
  apply Rabs_le_between in A0, A1, C. apply Rabs_le. split; nra.
Qed.

Lemma bounded_error cub bq sun vega rw y r w yy d n wave rows c r0 r1 nz z x E :
  splines cub -> band cub bq sun vega rw y r w yy -> dget d n = Some r ->
  StronglySorted Rlt wave -> (4 <= length wave)%nat -> Forall (fun t => 0 < t) wave -> rect (length wave) rows -> -1 < r0 < r1 -> (2 <= nz)%nat ->
  length c = length rows -> error_bound cub w yy wave rows c (redshift_grid r0 r1 nz) r0 r1 ((r1 - r0) / INR (nz - 1)) E ->
  model_flux cub d wave (length wave) rows (redshift_grid r0 r1 nz) n c z x -> Rabs (x - sum_flux cub w yy wave rows c z) <= E.
Proof.
  intros Hc HB Hd Hs H4 Hp Hr Hrr Hnz Lc (Mz & h & M & M' & B & HMz & (E0 & E1 & Hres & HM' & HD) & ->) Hx.
  eapply flux_near; [apply Hrr|exact Hnz|exact Hx| |exact HMz].
  intros u l Hu Hl. destruct (L_C36_grid r0 r1 nz Hnz (proj2 Hrr)) as (Lg & _ & _ & _ & G3).
  apply (L_C106_photometry cub bq sun vega rw y r w yy d n wave rows c u l h M M' B); auto.
  - assert (r0 <= u); [|lra]. destruct (In_nth _ _ 0 Hu) as (i & Hi & <-). rewrite Lg in Hi. rewrite G3 by auto.
    assert (0 <= (r1 - r0) * INR i / INR (nz - 1)); [|lra].
    apply Rmult_le_pos; [apply Rmult_le_pos; [lra|apply pos_INR]|left; apply Rinv_0_lt_compat, lt_0_INR; lia].
  - split; auto. split; auto. split; [intros v [<-|[]]; auto|]. auto.
Qed.

(** The reconstructed fluxes: reconstruct and reconstruct_out at the combined redshift Z = (1+z)(1+shift)-1 give the flux of the sum
    of the templates seen at Z, divided by 1+shift.  The error is at most that of the interpolation plus that of the sums. *)
Lemma L_C106_reconstruct :
  forall cub bq sun vega fs d k abc responses s t out map_ (r0 r1 : R) nz d' s' K rows z c bs,
    let wave := s_rwave s in
    splines cub -> Kcorrect cub bq sun vega fs d k abc responses s t out map_ r0 r1 nz = (d', s', Ok K) ->
    s_rflux s = table (length wave) rows -> rect (length wave) rows -> rows <> [] -> -1 < r0 < r1 -> (2 <= nz)%nat ->
    StronglySorted Rlt wave -> (4 <= length wave)%nat -> Forall (fun t => 0 < t) wave ->
    let Z := (1 + z) * (1 + bs) - 1 in
    r0 <= Z <= r1 -> -1 < bs -> length c = length rows ->
    let step := (r1 - r0) / INR (nz - 1) in
    let accurate names p := forall j n r rw y w yy E,
      nth_error names j = Some n -> dget d' n = Some r -> band cub bq sun vega rw y r w yy ->
      error_bound cub w yy wave rows c (redshift_grid r0 r1 nz) r0 r1 step E ->
      exists x, nth_error p j = Some x /\ Rabs (x - sum_flux cub w yy wave rows c Z / (1 + bs)) <= E / (1 + bs) in
    exists p q, reconstruct (k_fit K) (Some (scal z)) (Some (vec c)) bs = Ok (vec p) /\ accurate responses p /\
      reconstruct_out K (Some (scal z)) (Some (vec c)) bs = Ok (vec q) /\ accurate (k_out K) q.
Proof.
  intros cub bq sun vega fs d k abc responses s t out map_ r0 r1 nz d' s' K rows z c bs wave Hc H Hf Hr Hne Hrr Hnz Hs H4 Hp Z HZ Hbs Lc step acc.
  destruct (L_C72_reconstruct cub bq sun vega fs d k abc responses s t out map_ r0 r1 nz d' s' K _ rows z c bs H Hf Hr Hne (proj2 Hrr) Hnz HZ Lc)
    as [(p & Ep & Lp & Hp') (q & Eq & Lq & Hq)].
  assert (A : forall names p, (forall j n, nth_error names j = Some n ->
      exists x, model_flux cub d' (s_rwave s) (length wave) rows (redshift_grid r0 r1 nz) n c Z x /\ nth_error p j = Some (x / (1 + bs))) -> acc names p).
  { intros names p' Hpp j n r rw y w yy E Hj Hd HB HE.
    destruct (Hpp j n Hj) as (x & Hx & Ex). exists (x / (1 + bs)). split; auto.
    assert (I : 0 < / (1 + bs)) by (apply Rinv_0_lt_compat; lra). set (F := sum_flux cub w yy wave rows c).
    replace (x / (1 + bs) - F Z / (1 + bs)) with ((x - F Z) * / (1 + bs)) by (field; lra). rewrite Rabs_mult, (Rabs_right (/ (1 + bs))) by lra.
    apply Rmult_le_compat_r; [lra|]. eapply bounded_error; eauto. }
  exists p, q. split; auto.
Qed.

(** The K-correction is -2.5 log10 of the flux seen at z in the mapped input band over the flux at the band shift in the output band,
    divided by 1+shift, up to these errors relative to the fluxes. *)
Lemma L_C106_kcorrect :
  forall cub bq sun vega fs d k abc responses s t out map_ (r0 r1 : R) nz d' s' K rows z c bs,
    let wave := s_rwave s in
    splines cub -> Kcorrect cub bq sun vega fs d k abc responses s t out map_ r0 r1 nz = (d', s', Ok K) ->
    s_rflux s = table (length wave) rows -> rect (length wave) rows -> rows <> [] -> -1 < r0 < r1 -> (2 <= nz)%nat ->
    StronglySorted Rlt wave -> (4 <= length wave)%nat -> Forall (fun t => 0 < t) wave ->
    r0 <= z <= r1 -> r0 <= bs <= r1 -> length c = length rows -> 0 < fold_right Rplus 0 c ->
    let step := (r1 - r0) / INR (nz - 1) in
    let bound n F E := exists r rw y w yy, dget d' n = Some r /\ band cub bq sun vega rw y r w yy /\ F = sum_flux cub w yy wave rows c /\
      error_bound cub w yy wave rows c (redshift_grid r0 r1 nz) r0 r1 step E in
    exists v, kcorrect K (Some (scal z)) (Some (vec c)) bs = Ok (vec v) /\ length v = length (k_out K) /\
      forall j n_out n_in F G e e', nth_error (k_out K) j = Some n_out -> nth_error (k_map K) j = Some n_in ->
        bound n_in F e -> bound n_out G e' -> e < F z -> e' < G bs ->
        Rabs (nth j v 0 - -5/2 * log10 (F z / (G bs / (1 + bs)))) <= 5 / 2 / ln 10 * (e / (F z - e) + e' / (G bs - e')).
Proof.
  intros cub bq sun vega fs d k abc responses s t out map_ r0 r1 nz d' s' K rows z c bs wave Hcub H Hf Hr Hne Hrr Hnz Hs H4 Hp Hz Hbs Lc Hc step bound.
  destruct (L_C72_kcorrect cub bq sun vega fs d k abc responses s t out map_ r0 r1 nz d' s' K _ rows z c bs H Hf Hr Hne (proj2 Hrr) Hnz Hz Hbs Lc Hc)
    as (v & Ev & Lv & Hv). exists v. split; auto. split; auto.
  intros j no ni F G e e' Hno Hni HF HG EF EG. destruct (Hv j no ni Hno Hni) as (x & y & Fx & Fy & Ej).
  assert (E1 : Rabs (x - F z) <= e). { destruct HF as (r & rw & y' & w & yy & Hd & HB & -> & HE). eapply bounded_error; eauto. }
  assert (E2 : Rabs (y - G bs) <= e'). { destruct HG as (r & rw & y' & w & yy & Hd & HB & -> & HE). eapply bounded_error; eauto. }
  destruct (ln_near _ _ _ E1 EF) as [x0 Lx]. destruct (ln_near _ _ _ E2 EG) as [y0 Ly].
  pose proof (Rabs_pos (x - F z)) as P1. pose proof (Rabs_pos (y - G bs)) as P2.
  rewrite (nth_error_nth _ _ _ Ej). pose proof ln10_pos as T.
  replace (-5 / 2 * log10 (x / (y / (1 + bs))) - -5 / 2 * log10 (F z / (G bs / (1 + bs)))) with (5 / 2 / ln 10 * (ln (y / G bs) - ln (x / F z))).
  - rewrite Rabs_mult, (Rabs_right (5 / 2 / ln 10)) by (apply Rle_ge, Rmult_le_pos; [lra|left; apply Rinv_0_lt_compat; auto]).
    apply Rmult_le_compat_l; [apply Rmult_le_pos; [lra|left; apply Rinv_0_lt_compat; auto]|].
    unfold Rminus at 1. eapply Rle_trans; [apply Rabs_triang|]. rewrite Rabs_Ropp. lra.
  - unfold log10. assert (D : forall a b, 0 < a -> 0 < b -> ln (a / b) = ln a - ln b).
    { intros a b Ha Hb. unfold Rdiv. rewrite ln_mult by (auto; apply Rinv_0_lt_compat; auto). rewrite ln_Rinv by auto. ring. }
    rewrite !D; try lra; try (apply Rdiv_lt_0_compat; lra).
Qed.

Lemma curved_scale K k h a b : Rabs k <= 1 -> curved K h a b -> curved K (fun t => k * h t) a b.
Proof.
  intros Hk (H & H1 & H2 & A & B & C & D). exists (fun t => k * H t), (fun t => k * H1 t), (fun t => k * H2 t). split; [|split; [|split]]; intros t Ht.
  - rewrite A by auto. auto.
  - apply (is_derive_scal H t k). auto.
  - apply (is_derive_scal H1 t k). auto.
  - rewrite Rabs_mult. specialize (D t Ht). pose proof (Rabs_pos (H2 t)). pose proof (Rabs_pos k). nra.
Qed.
Lemma adjacent_seen z wave a b : -1 < z -> adjacent (seen_wave z wave) a b -> adjacent wave (a / (1 + z)) (b / (1 + z)).
Proof.
  intros Hz (Ha & Hb & Hab & Hn). apply in_map_iff in Ha as (x & <- & Hx). apply in_map_iff in Hb as (v & <- & Hv).
  replace (x * (1 + z) / (1 + z)) with x by (field; lra). replace (v * (1 + z) / (1 + z)) with v by (field; lra).
  split; auto. split; auto. split; [nra|]. intros t Ht. destruct (Hn (t * (1 + z))) as [L|L]; [apply in_map_iff; exists t; auto|left; nra|right; nra].
Qed.

(* A template of constant flux, sampled finely between 1/2 and 5, and the response 0,1,1,0 at 1,2,3,4; redshifts 0 and 1/2. *)
Lemma finely_sampled : exists bq r d d' s s' K w yy rows Mz h M M' B,
  splines notaknot /\ Kcorrect notaknot bq sun0 sun0 r_files d Plain false ["u"%string] s r_tmpl None None 0 (1/2) 2 = (d', s', Ok K) /\
  s_rflux s = table (length (s_rwave s)) rows /\ rect (length (s_rwave s)) rows /\ rows <> [] /\ StronglySorted Rlt (s_rwave s) /\
  (4 <= length (s_rwave s))%nat /\ Forall (fun t => 0 < t) (s_rwave s) /\ length [2] = length rows /\
  dget d' "u"%string = Some r /\ band notaknot bq sun0 sun0 w yy r w yy /\
  curved Mz (sum_flux notaknot w yy (s_rwave s) rows [2]) 0 (1/2) /\
  sampled_well notaknot w yy (s_rwave s) rows (redshift_grid 0 (1/2) 2) h M M' B /\
  0 < B /\ Mz = 4 * B /\ (forall z, 0 <= z <= 1/2 -> sum_flux notaknot w yy (s_rwave s) rows [2] z = 2 * B / (1 + z)) /\
  sums_error notaknot w yy [2] h M M' B <= B / 100.
Proof.
  destruct (band_example notaknot (bisect (1/1000)) (1/1000) [0;1;1;0]) as [r HB]; auto using L_C78_exists.
  { apply bisect_root_finder. lra. }
  { apply Exists_cons_tl, Exists_cons_hd. lra. }
  set (q := {| q0 := -2; q1 := 5/2; q2 := -1/2; q3 := 0 |}).
  assert (Eq : forall t, 1 <= t <= 4 -> spline notaknot [1;2;3;4] [0;1;1;0] t = peval q t).
  { intros t Ht. replace [0;1;1;0] with (map (peval q) [1;2;3;4]) by (cbn [map]; do 4 (apply f_equal2; [unfold peval; cbn; lra|]); reflexivity).
    apply L_C78_cubics; [exact L_C78_exists|repeat constructor; lra|cbn; lia|cbn; lra]. }
  destruct (cubic_curved q 1 4) as (Kq & Pq & Cq); [lra|].
  destruct (ab_curved 1 4) as (Ka & Pa & Ca); [lra|lra|].
  destruct (curved_mult _ _ _ _ 1 4 ltac:(lra) Ca Cq) as (M' & PM' & CM').
  destruct (curved_mult _ _ _ _ 1 4 ltac:(lra) Cq (curved_pow1 1 4)) as (M & PM & CM).
  pose proof ab_positive as HD. fold (ab_photons notaknot [1;2;3;4] [0;1;1;0]) in HD. set (D := RInt (ab_photons notaknot [1;2;3;4] [0;1;1;0]) 1 4) in *.
  set (A := RInt (fun t => peval q t * t) 1 4).
  assert (PA : 0 < A).
  { apply RInt_gt_0; [lra| |].
    - intros t Ht. apply Rmult_lt_0_compat; [unfold peval; cbn; nra|lra].
    - intros t _. apply (ex_derive_continuous (fun t => peval q t * t)). unfold peval. auto_derive. auto. }
  assert (PB : 0 < A / D) by (apply Rdiv_lt_0_compat; auto). set (B := A / D) in *. set (J := M + B * M').
  assert (PJ : 0 <= J) by (unfold J; nra).
  set (h := Rmin 1 (Rmin (D / (M' + 1)) (B / 100 * D / (J + 1)))).
  assert (Hh : 0 < h).
  { apply Rmin_pos; [lra|]. apply Rmin_pos; apply Rdiv_lt_0_compat; try lra. apply Rmult_lt_0_compat; lra. }
  assert (Hh1 : h <= 1) by apply Rmin_l.
  assert (Hh2 : h ^ 2 <= D / (M' + 1)). { assert (h <= D / (M' + 1)) by (eapply Rle_trans; [apply Rmin_r|apply Rmin_l]). nra. }
  assert (Hh3 : h ^ 2 <= B / 100 * D / (J + 1)). { assert (h <= B / 100 * D / (J + 1)) by (eapply Rle_trans; [apply Rmin_r|apply Rmin_r]). nra. }
  assert (T : forall a b, 0 <= a -> 0 <= b -> a * (b / (a + 1)) <= b).
  { intros a b Ha Hb. apply Rle_trans with ((a + 1) * (b / (a + 1))); [apply Rmult_le_compat_r; [apply Rmult_le_pos; [lra|left; apply Rinv_0_lt_compat; lra]|lra]|right; field; lra]. }
  assert (Hh4 : M' * h ^ 2 <= D). { eapply Rle_trans; [apply Rmult_le_compat_l; [lra|exact Hh2]|]. apply T; lra. }
  assert (Hh5 : J * h ^ 2 <= B / 100 * D). { eapply Rle_trans; [apply Rmult_le_compat_l; [lra|exact Hh3]|]. apply T; auto. apply Rmult_le_pos; lra. }
  destruct (equal_steps (h / 2) ltac:(lra)) as (sw & Hs & H4 & Hp & I0 & I1 & I5 & N0 & N1 & Hst).
  set (f := map (fun _ => 1) sw). set (s := {| s_rwave := sw; s_rflux := table (length sw) [f]; s_wave := sw; s_flux := table (length sw) [f]; s_z := 0;
    s_flag := false; s_interp := None; s_bin := false |}).
  assert (Hr : rect (length (s_rwave s)) [f]) by (constructor; [apply map_length|constructor]).
  destruct (real_build notaknot (bisect (1/1000)) sun0 sun0 r_files (r_cache r) Plain false ["u"%string] s r_tmpl None None 0 (1/2) 2 [f])
    as (d' & s' & K & HK); auto; try lra; try discriminate.
  { intros n Hn. assert (n = "u"%string) as -> by (cbn in Hn; intuition). left. exists r. split; [reflexivity|]. eapply Response_curve. apply HB. }
  assert (Hflat : forall z t, 0 <= z <= 1/2 -> 1 <= t <= 4 -> photons notaknot [1;2;3;4] [0;1;1;0] sw f z t = / (1 + z) * (peval q t * t)).
  { intros z t Hz Ht. unfold photons. rewrite Eq by auto.
    assert (E1 : spline notaknot sw f (t / (1 + z)) = 1).
    { set (q1 := {| q0 := 1; q1 := 0; q2 := 0; q3 := 0 |}). replace f with (map (peval q1) sw) by (apply map_ext; intro; unfold peval; cbn; ring).
      rewrite L_C78_cubics; auto using L_C78_exists; [unfold peval; cbn; ring|]. rewrite N0, N1.
      split; apply Rmult_le_reg_r with (1 + z); try lra; unfold Rdiv; rewrite (Rmult_assoc t), Rinv_l by lra; nra. }
    rewrite E1. unfold Rdiv. ring. }
  assert (EA : forall z, 0 <= z <= 1/2 -> band_flux notaknot [1;2;3;4] [0;1;1;0] sw f z = / (1 + z) * B).
  { intros z Hz. unfold band_flux. cbn [nth last]. fold D.
    assert (EX : is_RInt (fun t => peval q t * t) 1 4 A).
    { apply (RInt_correct (V := R_CompleteNormedModule)). apply (ex_RInt_continuous (V := R_CompleteNormedModule) (fun t => peval q t * t)).
      intros t _. apply (ex_derive_continuous (fun t => peval q t * t)). unfold peval. auto_derive. auto. }
    apply (is_RInt_scal _ _ _ (/ (1 + z))) in EX. change (Hierarchy.scal (/ (1 + z)) A) with (/ (1 + z) * A) in EX.
    rewrite (is_RInt_unique (V := R_CompleteNormedModule) (photons notaknot [1;2;3;4] [0;1;1;0] sw f z) 1 4 (/ (1 + z) * A)).
    - unfold B, Rdiv. apply Rmult_assoc.
    - eapply is_RInt_ext; [|exact EX]. intros t Ht. rewrite Rmin_left, Rmax_right in Ht by lra. symmetry. apply Hflat; lra. }
  assert (HI : forall z, 0 <= z <= 1 / 2 -> Rabs (/ (1 + z)) <= 1).
  { intros z Hz. rewrite Rabs_right by (apply Rle_ge; left; apply Rinv_0_lt_compat; lra). rewrite <- Rinv_1. apply Rinv_le_contravar; lra. }
  exists (bisect (1/1000)), r, (r_cache r), d', s, s', K, [1;2;3;4], [0;1;1;0], [f], (4 * B), h, M, M', B.
  split; [exact L_C78_exists|]. split; [exact HK|]. split; [reflexivity|]. split; [exact Hr|]. split; [discriminate|]. split; [exact Hs|].
  split; [exact H4|]. split; [exact Hp|]. split; [reflexivity|]. split.
  { destruct (built_after _ _ _ _ _ _ _ _ _ _ _ _ _ _ _ _ _ _ _ HK) as [He _]. apply He. reflexivity. }
  split; [exact HB|]. split; [|split; [split; [reflexivity|split; [reflexivity|split; [|split; [auto|]]]]|split; [auto|split; [auto|split]]]].
  - exists (fun z => 2 * B * / (1 + z)), (fun z => - (2 * B) * / (1 + z) ^ 2), (fun z => 4 * B * / (1 + z) ^ 3).
    split; [|split; [|split]]; intros z Hz.
    + unfold sum_flux, dot. cbn [map zip fold_right]. change (s_rwave s) with sw. rewrite EA by auto. ring.
    + auto_derive; [lra|]. field. lra.
    + auto_derive; [repeat split; try nra; apply pow_nonzero; lra|]. field. lra.
    + rewrite Rabs_mult, (Rabs_right (4 * B)) by lra. rewrite <- (Rmult_1_r (4 * B)) at 2. apply Rmult_le_compat_l; [lra|].
      rewrite Rabs_right by (apply Rle_ge; left; apply Rinv_0_lt_compat, pow_lt; lra). rewrite <- Rinv_1. apply Rinv_le_contravar; [lra|]. nra.
  - intros u Hu. assert (Bu : 0 <= u <= 1/2).
    { destruct (In_nth _ _ 0 Hu) as (i & Hi & <-). destruct (L_C36_grid 0 (1/2) 2 (le_n 2) ltac:(lra)) as (L & _ & _ & _ & G). rewrite L in Hi. rewrite G by auto.
      destruct i as [|[|i]]; [cbn; lra|cbn; lra|lia]. }
    change (s_rwave s) with sw. unfold resolved. cbn [nth last].
    assert (Br : brackets [1;2;3;4] (seen_wave u sw)).
    { split; [exists (1/2 * (1 + u))|exists (5 * (1 + u))]; split; try (apply in_map_iff; eauto); cbn; lra. }
    assert (Ov : overlaps [1;2;3;4] (seen_wave u sw)). { exists (1 * (1 + u)). split; [apply in_map_iff; eauto|cbn; lra]. }
    split; auto. split; auto. split.
    + intros f0 [<-|[]]. rewrite EA by auto. rewrite Rabs_mult, (Rabs_right B) by lra. pose proof (HI u Bu). nra.
    + pose proof (seen_sorted u sw ltac:(lra) Hs) as Ss. destruct (L_C21_grid [1;2;3;4] (seen_wave u sw) Ss Ov) as [Hg _].
      exists (grid_of [1;2;3;4] (seen_wave u sw)). split; auto. intros a b Had La Lb.
      destruct (in_cell [1;2;3;4] (seen_wave u sw) _ Ss Br Hg a b Had La Lb) as (C1 & C2 & Hab & Q1 & Q2).
      destruct (locate (seen_wave u sw) a b Ss Hab Q1 Q2 C2) as (k & Lk & Ak & Bk & Adk).
      apply adjacent_seen in Adk; [|lra]. apply Hst in Adk. split; [|split].
      * set (x0 := nth k (seen_wave u sw) 0) in *. set (x1 := nth (S k) (seen_wave u sw) 0) in *.
        assert (x1 - x0 <= h / 2 * (1 + u)). { replace (x1 - x0) with ((x1 / (1 + u) - x0 / (1 + u)) * (1 + u)) by (field; lra). apply Rmult_le_compat_r; lra. }
        nra.
      * eapply curved_ext; [|eapply curved_sub; [exact La|exact Lb|exact CM']]. intros t Ht. unfold ab_photons. rewrite Eq by lra. cbn beta. ring.
      * intros f0 [<-|[]]. eapply curved_ext; [|eapply curved_sub; [exact La|exact Lb|apply (curved_scale _ (/ (1 + u)) _ 1 4 (HI u Bu) CM)]].
        intros t Ht. apply Hflat; lra.
  - cbn [nth last]. fold D. nra.
  - intros z Hz. unfold sum_flux, dot. cbn [map zip fold_right]. change (s_rwave s) with sw. rewrite EA by auto. unfold Rdiv. ring.
  - unfold sums_error. cbn [nth last map fold_right]. fold D J. rewrite (Rabs_right 2) by lra.
    apply Rmult_le_reg_r with (D - M' * (h ^ 2 / 12 * (4 - 1))); [nra|].
    replace ((2 + 0) * (J * (h ^ 2 / 12 * (4 - 1)) / (D - M' * (h ^ 2 / 12 * (4 - 1)))) * (D - M' * (h ^ 2 / 12 * (4 - 1)))) with (1 / 2 * (J * h ^ 2))
      by (field; nra).
    nra.
Qed.

Lemma E_C106_photometry : exists bq r d w yy wave rows z l h M M' B,
  splines notaknot /\ band notaknot bq sun0 sun0 w yy r w yy /\ dget d "u"%string = Some r /\
  StronglySorted Rlt wave /\ (4 <= length wave)%nat /\ Forall (fun t => 0 < t) wave /\ rect (length wave) rows /\ -1 < z /\
  length [2] = length rows /\ sampled_well notaknot w yy wave rows [z] h M M' B /\ photometry notaknot d wave (length wave) rows "u" z l /\
  sums_error notaknot w yy [2] h M M' B <= 1 / 75 * sum_flux notaknot w yy wave rows [2] z.
Proof.
  destruct finely_sampled as (bq & r & d & d' & s & s' & K & w & yy & rows & Mz & h & M & M' & B & Hc & HK & Hf & Hr & Hne & Hs & H4 & Hp & Lc & Hd & HB & _ & HW & PB & _ & HF & HE).
  destruct (L_C72_reconstruct _ _ _ _ _ _ _ _ _ _ _ _ _ _ _ _ _ _ _ _ rows 0 [2] 0 HK Hf Hr Hne) as [(p & _ & _ & Hpp) _]; auto; try lra.
  destruct (Hpp 0%nat "u"%string eq_refl) as (x & (i & z0 & z1 & l0 & l1 & u & G0 & G1 & _ & _ & P0 & _) & _). destruct HW as (W1 & W2 & W3 & W4).
  destruct (grid_step 0 (1/2) 2 i z0 z1) as (_ & Z0 & Z1 & Z2); auto; try lra.
  exists bq, r, d', w, yy, (s_rwave s), rows, z0, l0, h, M, M', B. do 7 (split; auto). split; [lra|].
  split; auto. split; [|split; auto].
  - split; auto. split; auto. split; auto. intros v [<-|[]]. apply W3. eapply nth_error_In; eauto.
  - rewrite HF by lra. eapply Rle_trans; [exact HE|]. apply Rmult_le_reg_r with (1 + z0); [lra|].
    replace (1 / 75 * (2 * B / (1 + z0)) * (1 + z0)) with (2 / 75 * B) by (field; lra). nra.
Qed.
Lemma E_C106_reconstruct : exists bq r d d' s s' K w yy rows E,
  splines notaknot /\ Kcorrect notaknot bq sun0 sun0 r_files d Plain false ["u"%string] s r_tmpl None None 0 (1/2) 2 = (d', s', Ok K) /\
  s_rflux s = table (length (s_rwave s)) rows /\ rect (length (s_rwave s)) rows /\ rows <> [] /\ StronglySorted Rlt (s_rwave s) /\
  (4 <= length (s_rwave s))%nat /\ Forall (fun t => 0 < t) (s_rwave s) /\ length [2] = length rows /\
  dget d' "u"%string = Some r /\ band notaknot bq sun0 sun0 w yy r w yy /\
  error_bound notaknot w yy (s_rwave s) rows [2] (redshift_grid 0 (1/2) 2) 0 (1/2) ((1/2 - 0) / INR (2 - 1)) E /\
  forall z, 0 <= z <= 1/2 -> E <= 1/8 * sum_flux notaknot w yy (s_rwave s) rows [2] z.
Proof.
  destruct finely_sampled as (bq & r & d & d' & s & s' & K & w & yy & rows & Mz & h & M & M' & B & Hc & HK & Hf & Hr & Hne & Hs & H4 & Hp & Lc & Hd & HB & HMz & HW & PB & EMz & HF & HE).
  exists bq, r, d, d', s, s', K, w, yy, rows, (Mz / 8 * ((1/2 - 0) / INR (2 - 1)) ^ 2 + sums_error notaknot w yy [2] h M M' B). do 11 (split; auto). split.
  - exists Mz, h, M, M', B. auto.
  - intros z Hz. rewrite HF by auto. replace (INR (2 - 1)) with 1 by reflexivity. rewrite EMz.
    apply Rle_trans with (B / 8 + B / 100); [replace (4 * B / 8 * ((1 / 2 - 0) / 1) ^ 2) with (B / 8) by field; lra|].
    apply Rmult_le_reg_r with (1 + z); [lra|]. replace (1 / 8 * (2 * B / (1 + z)) * (1 + z)) with (1 / 4 * B) by (field; lra). nra.
Qed.
Lemma E_C106_kcorrect : exists bq r d d' s s' K w yy rows E,
  splines notaknot /\ Kcorrect notaknot bq sun0 sun0 r_files d Plain false ["u"%string] s r_tmpl None None 0 (1/2) 2 = (d', s', Ok K) /\
  s_rflux s = table (length (s_rwave s)) rows /\ rect (length (s_rwave s)) rows /\ StronglySorted Rlt (s_rwave s) /\
  nth_error (k_out K) 0 = Some "u"%string /\ nth_error (k_map K) 0 = Some "u"%string /\
  dget d' "u"%string = Some r /\ band notaknot bq sun0 sun0 w yy r w yy /\
  error_bound notaknot w yy (s_rwave s) rows [2] (redshift_grid 0 (1/2) 2) 0 (1/2) ((1/2 - 0) / INR (2 - 1)) E /\
  forall z, 0 <= z <= 1/2 -> 8 * E <= sum_flux notaknot w yy (s_rwave s) rows [2] z /\ 0 < sum_flux notaknot w yy (s_rwave s) rows [2] z.
Proof.
  destruct finely_sampled as (bq & r & d & d' & s & s' & K & w & yy & rows & Mz & h & M & M' & B & Hc & HK & Hf & Hr & Hne & Hs & H4 & Hp & Lc & Hd & HB & HMz & HW & PB & EMz & HF & HE).
  pose proof (L_C40_mapping R Num_R _ _ _ _ _ _ _ _ _ _ _ _ _ _ _ _ _ _ _ HK) as (Q1 & Q2 & _).
  set (E := Mz / 8 * ((1/2 - 0) / INR (2 - 1)) ^ 2 + sums_error notaknot w yy [2] h M M' B).
  exists bq, r, d, d', s, s', K, w, yy, rows, E. do 5 (split; auto). split; [rewrite Q1; reflexivity|]. split; [rewrite Q2; reflexivity|]. do 2 (split; auto). split.
  - exists Mz, h, M, M', B. auto.
  - intros z Hz. rewrite HF by auto. unfold E. replace (INR (2 - 1)) with 1 by reflexivity. rewrite EMz.
    replace (4 * B / 8 * ((1 / 2 - 0) / 1) ^ 2) with (B / 8) by field.
    assert (0 < B / (1 + z)) by (apply Rdiv_lt_0_compat; lra). split; [|unfold Rdiv in *; lra].
    apply Rle_trans with (108 / 100 * B); [lra|]. apply Rmult_le_reg_r with (1 + z); [lra|]. replace (2 * B / (1 + z) * (1 + z)) with (2 * B) by (field; lra). nra.
Qed.

(** The absolute magnitudes of measured bands have the same error: with the true K-correction they would be m - DM - K. *)
Lemma L_C106_absmag :
  forall cub bq sun vega fs d k responses s t out map_ (r0 r1 : R) nz d' s' K rows z c bs distmod lim kc m iv dist,
    let wave := s_rwave s in
    splines cub -> Kcorrect cub bq sun vega fs d k false responses s t out map_ r0 r1 nz = (d', s', Ok K) ->
    s_rflux s = table (length wave) rows -> rect (length wave) rows -> rows <> [] -> -1 < r0 < r1 -> (2 <= nz)%nat ->
    StronglySorted Rlt wave -> (4 <= length wave)%nat -> Forall (fun t => 0 < t) wave ->
    r0 <= z <= r1 -> r0 <= bs <= r1 -> length c = length rows -> 0 < fold_right Rplus 0 c ->
    length m = length responses -> length iv = length responses ->
    let step := (r1 - r0) / INR (nz - 1) in
    let bound n F E := exists r rw y w yy, dget d' n = Some r /\ band cub bq sun vega rw y r w yy /\ F = sum_flux cub w yy wave rows c /\
      error_bound cub w yy wave rows c (redshift_grid r0 r1 nz) r0 r1 step E in
    exists v a, absmag_object distmod K bs false false lim kc {| ko_z := z; ko_m := m; ko_iv := iv; ko_c := c; ko_d := dist |} = Ok a /\
      nth_error (parts a) 0 = Some (vec v) /\ length v = length (k_out K) /\
      forall j n_out n_in F G e e', nth_error (k_out K) j = Some n_out -> nth_error (k_map K) j = Some n_in ->
        bound n_in F e -> bound n_out G e' -> e < F z -> e' < G bs ->
        exists i, nth_error responses i = Some n_in /\
          forall mi vi, nth_error m i = Some mi -> nth_error iv i = Some vi -> 0 < mi -> 0 < vi ->
            Rabs (nth j v 0 - (-5/2 * log10 mi - distmod z - -5/2 * log10 (F z / (G bs / (1 + bs))))) <=
              5 / 2 / ln 10 * (e / (F z - e) + e' / (G bs - e')).
Proof.
  intros cub bq sun vega fs d k responses s t out map_ r0 r1 nz d' s' K rows z c bs distmod lim kc m iv dist wave Hcub H Hf Hr Hne Hrr Hnz Hs H4 Hp
    Hz Hbs Lc Hc Lm Liv step bound.
  destruct (L_C106_kcorrect cub bq sun vega fs d k false responses s t out map_ r0 r1 nz d' s' K rows z c bs Hcub H Hf Hr Hne Hrr Hnz Hs H4 Hp Hz Hbs Lc Hc)
    as (ks & Ek & Lk & Hk).
  destruct (built_absmag cub bq sun vega fs d k false responses s t out map_ r0 r1 nz d' s' K _ rows H Hf Hr Hne (proj2 Hrr) Hnz distmod lim kc z c m iv dist bs)
    as (ks' & v & a & Ek' & Ea & Ha & Lv & Hv); auto.
  rewrite Ek in Ek'. injection Ek' as _ <-.
  exists v, a. split; [exact Ea|]. split; [exact Ha|]. split; [exact Lv|].
  intros j no ni F G e e' Ho Hn HF HG EF EG. pose proof (Hk j no ni F G e e' Ho Hn HF HG EF EG) as B.
  destruct (Hv j no ni Ho Hn) as (i & x & y & kj & _ & Hi & _ & _ & Ekj & _ & Hm).
  exists i. split; auto. intros mi vi Em Ev P Q. destruct (Hm mi vi Em Ev) as [E _]. specialize (E P Q).
  rewrite (nth_error_nth _ _ 0 E). rewrite (nth_error_nth _ _ 0 Ekj) in B.
  rewrite <- Rabs_Ropp in B. eapply Rle_trans; [|exact B]. right. f_equal. ring.
Qed.
Lemma E_C106_absmag : exists bq r d d' s s' K w yy rows E,
  splines notaknot /\ Kcorrect notaknot bq sun0 sun0 r_files d Plain false ["u"%string] s r_tmpl None None 0 (1/2) 2 = (d', s', Ok K) /\
  s_rflux s = table (length (s_rwave s)) rows /\ rect (length (s_rwave s)) rows /\ StronglySorted Rlt (s_rwave s) /\
  nth_error (k_out K) 0 = Some "u"%string /\ nth_error (k_map K) 0 = Some "u"%string /\
  dget d' "u"%string = Some r /\ band notaknot bq sun0 sun0 w yy r w yy /\
  error_bound notaknot w yy (s_rwave s) rows [2] (redshift_grid 0 (1/2) 2) 0 (1/2) ((1/2 - 0) / INR (2 - 1)) E /\
  forall z, 0 <= z <= 1/2 -> 8 * E <= sum_flux notaknot w yy (s_rwave s) rows [2] z /\ 0 < sum_flux notaknot w yy (s_rwave s) rows [2] z.
Proof. exact E_C106_kcorrect. Qed.
