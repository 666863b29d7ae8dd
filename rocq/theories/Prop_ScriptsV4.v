(** Property theorems; proofs are in ScriptsV4Thms.v.  Generated by tools/gen_prop.py. *)
From Coq Require Import String List Arith Lia Bool ZArith QArith Qreals Reals Lra Sorting.Sorted Sorting.Permutation.
From Verif Require Import Base BaseLemmas Num Toy Interp InterpReal Spec Utils UtilsReal Sed Response RespDict ResponseObj ResponseProofs LinInterp ResponseThms ResponseEx
  Fitter FitSpec FitterProofs FitReal FitTable FitEx FitRealEx FitRealThms Kcorrect KSpec KTable AbsmagProofs AbsmagThms
  AbThms UtilsThms RespDictThms PersistThms BuildSpec BuildProofs BuildTable BuildEx BuildThms NnlsSpec NnlsExact NnlsThms
  Spline SplineSpec SplineProofs SplineThms ShiftSpec ShiftThms PipeSpec PipeProofs PipeEx BlendSpec BlendProofs BlendEx PlotThms Scripts ScriptsV4 ScriptsV4Proofs ScriptsV4Ex.
Import ListNotations.
Local Open Scope R_scope.

Lemma mapM_total {A B} (f : A -> res B) l : (forall x, In x l -> exists y, f x = Ok y) -> exists ys, mapM f l = Ok ys.
Proof.
  induction l as [|x l IH]; intro H; [eexists; reflexivity|]. destruct (H x (or_introl eq_refl)) as [y Ey].
  destruct IH as [ys E]; [intros; apply H; cbn; auto|]. cbn [mapM]. rewrite Ey, E. cbn [bind]. eauto.
Qed.
Lemma ok_inj {A} (a b : A) : Ok a = Ok b -> a = b.
Proof. congruence. Qed.
(** Scaling coefficients scales fluxes. *)
Lemma scaled_flux t cub d wave w rows grid n c z x : model_flux cub d wave w rows grid n c z x ->
  model_flux cub d wave w rows grid n (map (Rmult t) c) z (t * x).
Proof.
  intros (i & z0 & z1 & l0 & l1 & u & G0 & G1 & Hu & Hz & P0 & P1 & ->). exists i, z0, z1, l0, l1, u.
  assert (D : forall l : list R, dot l (map (Rmult t) c) = t * dot l c).
  { intro l. revert c. induction l as [|a l IH]; intros [|b c]; unfold dot in *; cbn [map zip fold_right]; try lra. rewrite IH. ring. }
  rewrite !D. repeat (split; [auto|]). ring.
Qed.
From Verif Require Import ScriptsV4Thms.

(** Its redshifts are the midpoints of nz equal steps between 0 and 0.55, in increasing order. *)
Theorem C98_redshifts :
  forall nz i, (i < nz)%nat ->
    (color_z nz i : R) = 0.55 * (INR i + 1 / 2) / INR nz /\ 0 < color_z nz i < 0.55 /\
    ((S i < nz)%nat -> color_z nz (S i) - color_z nz i = 0.55 / INR nz) /\
    length (color_zs (T := R) nz) = nz.
Proof. exact L_C98_redshifts. Qed.
Print Assumptions C98_redshifts.

Example ex_C98_redshifts : (0 < 2)%nat /\ (color_z 2 0 : R) = 0.1375 /\ (color_z 2 1 : R) = 0.4125.
Proof. exact E_C98_redshifts. Qed.

(** It completes for any SED object with one spectrum, interpolated, on at least four distinct wavelengths, if the responses can be had. *)
Theorem C98_runs :
  forall cub bq sun vega fs d (s : sed R) nz f,
    (forall n, In n sdss_responses -> obtainable cub bq sun vega fs d n) ->
    StronglySorted Rlt (s_rwave s) -> (4 <= length (s_rwave s))%nat -> s_flag s = true ->
    s_rflux s = table (length (s_rwave s)) [f] -> length f = length (s_rwave s) ->
    exists d' s' cols, lrg1_colors cub bq sun vega fs d s nz = (d', s', Ok cols).
Proof. exact L_C98_runs. Qed.
Print Assumptions C98_runs.

Example ex_C98_runs : exists r, (forall n, In n sdss_responses -> obtainable notaknot (bisect (1/1000)) sun0 sun0 (fun _ => None) (v_cache r) n) /\
  StronglySorted Rlt (s_rwave (v_sed [repeat 1 6])) /\ (4 <= length (s_rwave (v_sed [repeat 1%R 6])))%nat /\ s_flag (v_sed [repeat 1 6]) = true.
Proof. exact E_C98_runs. Qed.

(** What k_plot_test_v4_lrg1_colors plots: at redshift i of its grid, the colour of adjacent SDSS bands is -2.5 log10 of the ratio of the
    photometry of the spectrum seen at that redshift.  The SED object keeps its rest-frame spectrum and cached responses stay. *)
Theorem C98_colours :
  forall cub bq sun vega fs d (s : sed R) nz d' s' cols w f,
    lrg1_colors cub bq sun vega fs d s nz = (d', s', Ok cols) -> s_flag s = true -> s_rflux s = table w [f] -> rect w [f] ->
    extends d d' /\ same_rest s s' /\ length cols = 4%nat /\
    forall j n1 n2 i z, (j < 4)%nat -> nth_error sdss_responses j = Some n1 -> nth_error sdss_responses (S j) = Some n2 ->
      (i < nz)%nat -> z = color_z nz i ->
      exists m1 m2 c, photometry cub d' (s_rwave s) w [f] n1 z [m1] /\ photometry cub d' (s_rwave s) w [f] n2 z [m2] /\
        nth_error cols j = Some (vec c) /\ length c = nz /\ nth_error c i = Some (-2.5 * log10 (m1 / m2)).
Proof. exact L_C98_colours. Qed.
Print Assumptions C98_colours.

Example ex_C98_colours : exists r d' s' cols,
  lrg1_colors notaknot (bisect (1/1000)) sun0 sun0 (fun _ => None) (v_cache r) (v_sed [repeat 1 6]) 3 = (d', s', Ok cols) /\
  s_flag (v_sed [repeat 1 6]) = true /\ s_rflux (v_sed [repeat 1 6]) = table 6 [repeat 1 6] /\ rect 6 [repeat 1 6].
Proof. exact E_C98_colours. Qed.

(** The colours do not depend on the normalisation of the spectrum. *)
Theorem C98_normalisation :
  forall cub bq sun vega fs d (s1 s2 : sed R) nz d1 d2 s1' s2' cols1 cols2 f k, splines cub -> k <> 0 ->
    StronglySorted Rlt (s_rwave s1) -> (4 <= length (s_rwave s1))%nat -> s_flag s1 = true -> s_flag s2 = true -> s_rwave s2 = s_rwave s1 ->
    s_rflux s1 = table (length (s_rwave s1)) [f] -> s_rflux s2 = table (length (s_rwave s1)) [map (Rmult k) f] -> length f = length (s_rwave s1) ->
    lrg1_colors cub bq sun vega fs d s1 nz = (d1, s1', Ok cols1) -> lrg1_colors cub bq sun vega fs d s2 nz = (d2, s2', Ok cols2) ->
    (forall n i m, In n sdss_responses -> (i < nz)%nat -> photometry cub d1 (s_rwave s1) (length (s_rwave s1)) [f] n (color_z nz i) [m] -> m <> 0) ->
    cols2 = cols1.
Proof. exact L_C98_normalisation. Qed.
Print Assumptions C98_normalisation.

Example ex_C98_normalisation : exists r d1 d2 s1 s2 cols1 cols2, splines notaknot /\
  lrg1_colors notaknot (bisect (1/1000)) sun0 sun0 (fun _ => None) (v_cache r) (v_sed [repeat 1 6]) 3 = (d1, s1, Ok cols1) /\
  lrg1_colors notaknot (bisect (1/1000)) sun0 sun0 (fun _ => None) (v_cache r) (v_sed [map (Rmult 2) (repeat 1 6)]) 3 = (d2, s2, Ok cols2) /\
  forall n i m, In n sdss_responses -> (i < 3)%nat -> photometry notaknot d1 b_wave 6 [repeat 1 6] n (color_z 3 i) [m] -> m <> 0.
Proof. exact E_C98_normalisation. Qed.

(** Bounds on the colours: if the spectrum lies between a and b times that of an AB source, no colour exceeds 2.5 log10 (b/a); an AB source
    has colours 0 at every redshift. *)
Theorem C98_limits :
  forall cub bq sun vega fs d (s : sed R) nz d' s' cols f a b, splines cub ->
    StronglySorted Rlt (s_rwave s) -> (4 <= length (s_rwave s))%nat -> Forall (fun t => 0 < t) (s_rwave s) -> s_flag s = true ->
    s_rflux s = table (length (s_rwave s)) [f] -> length f = length (s_rwave s) ->
    lrg1_colors cub bq sun vega fs d s nz = (d', s', Ok cols) ->
    (forall n, In n sdss_responses -> exists r x y w yy, dget d' n = Some r /\ band cub bq sun vega x y r w yy /\
       (forall t, nth 0 w 0 <= t <= last w 0 -> 0 <= spline cub w yy t) /\ (exists t, In t w /\ 0 < spline cub w yy t) /\
       forall z, 0 < z < 0.55 -> overlaps w (seen_wave z (s_rwave s)) /\ brackets w (seen_wave z (s_rwave s))) ->
    0 < a ->
    (forall t, nth 0 (s_rwave s) 0 <= t <= last (s_rwave s) 0 -> a * ab_flux t <= spline cub (s_rwave s) f t <= b * ab_flux t) ->
    forall j c i x, nth_error cols j = Some (vec c) -> nth_error c i = Some x -> Rabs x <= 2.5 * log10 (b / a).
Proof. exact L_C98_limits. Qed.
Print Assumptions C98_limits.

Example ex_C98_limits : exists r d' s' cols a b, splines notaknot /\
  lrg1_colors notaknot (bisect (1/1000)) sun0 sun0 (fun _ => None) (v_cache r) (v_sed [repeat 1 6]) 3 = (d', s', Ok cols) /\
  (forall n, In n sdss_responses -> exists r x y w yy, dget d' n = Some r /\ band notaknot (bisect (1/1000)) sun0 sun0 x y r w yy /\
     (forall t, nth 0 w 0 <= t <= last w 0 -> 0 <= spline notaknot w yy t) /\ (exists t, In t w /\ 0 < spline notaknot w yy t) /\
     forall z, 0 < z < 0.55 -> overlaps w (seen_wave z b_wave) /\ brackets w (seen_wave z b_wave)) /\ 0 < a /\
  (forall t, nth 0 b_wave 0 <= t <= last b_wave 0 -> a * ab_flux t <= spline notaknot b_wave (repeat 1 6) t <= b * ab_flux t).
Proof. exact E_C98_limits. Qed.

(** An SED file with several spectra is not handled: if the first band overlaps the spectra, storing the photometry fails. *)
Theorem C98_several :
  forall cub bq sun vega fs d (s : sed R) nz d' w rows, (0 < nz)%nat ->
    load_all cub bq sun vega fs sdss_responses d = (d', None) ->
    s_flag s = true -> s_rflux s = table w rows -> (1 < length rows)%nat ->
    sampled_at (s_rwave s) (s_rflux s) (color_z nz 0) ->
    (exists r pw ri, dget d' "sdss_u0"%string = Some r /\ p_wave r = Some pw /\ p_interp r = Some ri /\ overlaps pw (seen_wave (color_z nz 0) (s_rwave s))) ->
    exists s', lrg1_colors cub bq sun vega fs d s nz = (d', s', Raise ValueError).
Proof. exact L_C98_several. Qed.
Print Assumptions C98_several.

Example ex_C98_several : exists r d', let s := v_sed [repeat 1 6; repeat 2 6] in
  load_all notaknot (bisect (1/1000)) sun0 sun0 (fun _ => None) sdss_responses (v_cache r) = (d', None) /\ s_flag s = true /\ s_rflux s = table 6 [repeat 1 6; repeat 2 6] /\
  sampled_at (s_rwave s) (s_rflux s) (color_z 3 0) /\
  exists r pw ri, dget d' "sdss_u0"%string = Some r /\ p_wave r = Some pw /\ p_interp r = Some ri /\ overlaps pw (seen_wave (color_z 3 0) (s_rwave s)).
Proof. exact E_C98_several. Qed.

(** The programs complete if the responses can be had and the solver always returns coefficients. *)
Theorem C99_runs :
  forall cub bq sun vega nnls rng fs d (s : sed R) cur rows,
    (forall n, In n v4_names -> obtainable cub bq sun vega fs d n) ->
    StronglySorted Rlt (s_rwave s) -> (4 <= length (s_rwave s))%nat ->
    s_rflux s = table (length (s_rwave s)) rows -> rect (length (s_rwave s)) rows -> rows <> [] ->
    nnls_shape nnls -> (forall mi n A b, exists x, nnls mi n A b = Some x) ->
    exists d' P, v4_fit cub bq sun vega nnls rng fs d s cur = (d', Ok P).
Proof. exact L_C99_runs. Qed.
Print Assumptions C99_runs.

Example ex_C99_runs : exists r, (forall n, In n v4_names -> obtainable notaknot (bisect (1/1000)) sun0 sun0 (fun _ => None) (v_cache r) n) /\
  StronglySorted Rlt (s_rwave (v_sed [repeat 1 6; [1;2;3;4;5;6]])) /\ nnls_shape nnls_exact /\ forall mi n A b, exists x, nnls_exact mi n A b = Some x.
Proof. exact E_C99_runs. Qed.

(** What k_plot_test_v4_default_fit and k_plot_test_v4_lrg1_fit plot, for a solver that solves the nonnegative least squares problem.  The
    coefficients are nonnegative and no other nonnegative coefficients have model fluxes closer to 1 maggy in the seven bands.  The curve is
    the spectrum of the coefficients in the rest frame over that of an AB source; the observed points are at 0, the fitted ones at the
    logarithms of the model fluxes at redshift 0.0532. *)
Theorem C99_fit :
  forall cub bq sun vega nnls rng fs d (s : sed R) cur d' P w rows,
    v4_fit cub bq sun vega nnls rng fs d s cur = (d', Ok P) -> nnls_contract nnls ->
    s_rflux s = table w rows -> rect w rows -> rows <> [] -> Forall (fun t => 0 < t) (s_rwave s) ->
    let fluxes c p := length p = 7%nat /\ forall j n x, nth_error v4_names j = Some n -> nth_error p j = Some x ->
      model_flux cub d' (s_rwave s) w rows (redshift_grid 0 0.1 100) n c 0.0532 x in
    let misfit p := chi2 (repeat 1 7) (repeat 1 7) p in
    exists c p, v_coeffs P = vec c /\ length c = length rows /\ nonneg c /\ fluxes c p /\
      (forall y, length y = length rows -> nonneg y -> exists q, fluxes y q /\ misfit p <= misfit q) /\
      v_curve P = zip (fun t v => (log10 t, log10 (v / ab_flux t))) (s_rwave s) (combined w rows c) /\
      forall j n r l x, nth_error v4_names j = Some n -> dget d' n = Some r -> p_leff r = Some l -> nth_error p j = Some x ->
        nth_error (v_observed P) j = Some (log10 l, 0) /\ nth_error (v_fit P) j = Some (log10 l, log10 x).
Proof. exact L_C99_fit. Qed.
Print Assumptions C99_fit.

Example ex_C99_fit : exists r d' P, let rows := [repeat 1 6; [1;2;3;4;5;6]] in
  v4_fit notaknot (bisect (1/1000)) sun0 sun0 nnls_exact (fun _ => 0) (fun _ => None) (v_cache r) (v_sed rows) 0 = (d', Ok P) /\ nnls_contract nnls_exact /\
  s_rflux (v_sed rows) = table 6 rows /\ rect 6 rows /\ rows <> [] /\ Forall (fun t => 0 < t) (s_rwave (v_sed rows)).
Proof. exact E_C99_fit. Qed.

(** The fit cannot be improved by scaling it: the sum of the fluxes equals the sum of their squares, so the total model flux is at most 7
    maggies, and the misfit is 7 minus that sum. *)
Theorem C99_mean :
  forall cub bq sun vega nnls rng fs d (s : sed R) cur d' P w rows,
    v4_fit cub bq sun vega nnls rng fs d s cur = (d', Ok P) -> nnls_contract nnls ->
    s_rflux s = table w rows -> rect w rows -> rows <> [] -> Forall (fun t => 0 < t) (s_rwave s) ->
    exists c p, v_coeffs P = vec c /\ length p = 7%nat /\
      (forall j n x, nth_error v4_names j = Some n -> nth_error p j = Some x ->
         model_flux cub d' (s_rwave s) w rows (redshift_grid 0 0.1 100) n c 0.0532 x) /\
      let total := fold_right Rplus 0 p in
      total = fold_right Rplus 0 (map (fun x => x ^ 2) p) /\ 0 <= total <= 7 /\ chi2 (repeat 1 7) (repeat 1 7) p = 7 - total.
Proof. exact L_C99_mean. Qed.
Print Assumptions C99_mean.

Example ex_C99_mean : exists r d' P, let rows := [repeat 1 6; [1;2;3;4;5;6]] in
  v4_fit notaknot (bisect (1/1000)) sun0 sun0 nnls_exact (fun _ => 0) (fun _ => None) (v_cache r) (v_sed rows) 0 = (d', Ok P) /\ nnls_contract nnls_exact /\
  s_rflux (v_sed rows) = table 6 rows /\ rect 6 rows /\ rows <> [] /\ Forall (fun t => 0 < t) (s_rwave (v_sed rows)).
Proof. exact E_C99_mean. Qed.

(** Where the fitted points are relative to the curve: if the plotted curve lies between log10 a and log10 b (the spectrum of the
    coefficients between a and b times that of an AB source), the fitted points lie between log10 a + log10 1.0532 and
    log10 b + log10 1.0532.  The curve is in the rest frame and the points are not, so a flat curve and its points differ by log10 (1 + z). *)
Theorem C99_offset :
  forall cub bq sun vega nnls rng fs d (s : sed R) cur d' P rows a b, splines cub ->
    v4_fit cub bq sun vega nnls rng fs d s cur = (d', Ok P) -> nnls_contract nnls ->
    StronglySorted Rlt (s_rwave s) -> (4 <= length (s_rwave s))%nat -> Forall (fun t => 0 < t) (s_rwave s) ->
    s_rflux s = table (length (s_rwave s)) rows -> rect (length (s_rwave s)) rows -> rows <> [] -> 0 < a ->
    (forall c t, v_coeffs P = vec c -> nth 0 (s_rwave s) 0 <= t <= last (s_rwave s) 0 ->
       a * ab_flux t <= spline cub (s_rwave s) (combined (length (s_rwave s)) rows c) t <= b * ab_flux t) ->
    forall j n r l x y w yy, nth_error v4_names j = Some n -> dget d' n = Some r -> band cub bq sun vega x y r w yy -> p_leff r = Some l ->
      (forall t, nth 0 w 0 <= t <= last w 0 -> 0 <= spline cub w yy t) -> (exists t, In t w /\ 0 < spline cub w yy t) ->
      (forall z, 0 <= z <= 0.1 -> overlaps w (seen_wave z (s_rwave s)) /\ brackets w (seen_wave z (s_rwave s))) ->
      exists u, nth_error (v_fit P) j = Some (log10 l, u) /\ log10 a + log10 1.0532 <= u <= log10 b + log10 1.0532.
Proof. exact L_C99_offset. Qed.
Print Assumptions C99_offset.

Example ex_C99_offset : exists r d' P a b c, splines notaknot /\
  v4_fit notaknot (bisect (1/1000)) sun0 sun0 nnls_exact (fun _ => 0) (fun _ => None) (v_cache r) (v_sed [repeat 1 6]) 0 = (d', Ok P) /\ nnls_contract nnls_exact /\ 0 < a /\
  v_coeffs P = vec c /\
  (forall t, nth 0 b_wave 0 <= t <= last b_wave 0 ->
     a * ab_flux t <= spline notaknot b_wave (combined 6 [repeat 1 6] c) t <= b * ab_flux t) /\
  band notaknot (bisect (1/1000)) sun0 sun0 [1;2;3;4] [0;1;1;0] r [1;2;3;4] [0;1;1;0] /\ (exists l, p_leff r = Some l) /\
  (forall n, In n v4_names -> dget d' n = Some r) /\
  (forall z, 0 <= z <= 0.1 -> overlaps [1;2;3;4] (seen_wave z b_wave) /\ brackets [1;2;3;4] (seen_wave z b_wave)).
Proof. exact E_C99_offset. Qed.
