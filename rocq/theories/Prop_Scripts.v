(** Property theorems; proofs are in ScriptsThms.v.  Generated by tools/gen_prop.py. *)
From Coq Require Import String List Arith Lia Bool ZArith QArith Qreals Reals Lra.
From Verif Require Import Base BaseLemmas Num Interp Spec Utils UtilsProofs UtilsReal Sed Response Fitter FitSpec FitterProofs FitterThms FitRealThms AbThms
  FitEx Scripts ScriptsSpec ScriptsEx ScriptsProofs ScriptsReal.
Import ListNotations.
Local Open Scope R_scope.
From Verif Require Import ScriptsThms.

(** Whatever the catalogue contains (flags, NaN, infinities, negative inverse variances), k_plot_test_gst prepares photometry in which every
    band is acceptable to the solver. *)
Theorem C94_gst_usable :
  forall vj vh vk (rows : list (gst_row xr)), Forall five_bands rows ->
    exists m iv nbad, gst_photometry vj vh vk rows = Ok (table 10 m, table 10 iv, nbad) /\
      length m = length rows /\ length iv = length rows /\ rect 10 m /\ rect 10 iv /\
      forall i k a v, entry m i k a -> entry iv i k v -> usable a v.
Proof. exact L_C94_gst_usable. Qed.
Print Assumptions C94_gst_usable.

Example ex_C94_gst_usable : exists r : gst_row xr, five_bands r /\ g_fuv r = NaN /\ In NaN (g_model_ivar r).
Proof. exact E_C94_gst_usable. Qed.

(** So its fit returns coefficients for every object, or raises the RuntimeError of a solver that does not converge; no other exception. *)
Theorem C94_gst_fit :
  forall nnls rng (F : fitter xr) A x tab nt vj vh vk (rows : list (gst_row xr)) cur,
    nnls_shape nnls -> no_ab F -> ready F A 10 nt -> a_x A = map Fin x -> a_rows A = map (map Fin) tab -> grid_ok x ->
    Forall five_bands rows -> Forall (fun r => g_z r <> NaN) rows ->
    (exists c, length c = length rows /\ rect nt c /\ gst_coeffs nnls rng F vj vh vk rows cur = Ok (Bare (table nt c), cur)) \/
    gst_coeffs nnls rng F vj vh vk rows cur = Raise RuntimeError.
Proof. exact L_C94_gst_fit. Qed.
Print Assumptions C94_gst_fit.

Example ex_C94_gst_fit :
  nnls_shape (T := xr) ex_nnls /\ no_ab gst_fitter /\ ready gst_fitter gst_tab 10 1 /\ a_x gst_tab = map Fin [0; 1] /\
  a_rows gst_tab = map (map Fin) (repeat [1; 2; 3; 4; 5; 6; 7; 8; 9; 10] 2) /\ grid_ok [0; 1] /\
  Forall five_bands [nan_row; nan_row] /\ Forall (fun r => g_z r <> NaN) [nan_row; nan_row] /\ g_fuv nan_row = NaN.
Proof. exact E_C94_gst_fit. Qed.

(** The same for k_plot_test_mtol; objects with a redshift that is NaN are not selected, so nothing has to be assumed about the redshifts. *)
Theorem C94_mtol_fit :
  forall nnls rng (F : fitter xr) A x tab nt (post : list (xr * nat)) (im : list (im_row xr)) cur,
    nnls_shape nnls -> no_ab F -> ready F A 5 nt -> a_x A = map Fin x -> a_rows A = map (map Fin) tab -> grid_ok x ->
    Forall five_bands_im im -> Forall (fun p => (snd p < length im)%nat) post ->
    (exists c, rect nt c /\ length c = Nat.min (100 * 100) (length (filter (fun p => nltb (fst p) (nlit (1 # 5))) post)) /\
       mtol_coeffs nnls rng F post im cur = Ok (Bare (table nt c), cur)) \/
    mtol_coeffs nnls rng F post im cur = Raise RuntimeError.
Proof. exact L_C94_mtol_fit. Qed.
Print Assumptions C94_mtol_fit.

Example ex_C94_mtol_fit :
  nnls_shape (T := xr) ex_nnls /\ no_ab (five_fitter Plain false) /\ ready (five_fitter Plain false) five_tab 5 1 /\ a_x five_tab = map Fin [0; 1] /\
  a_rows five_tab = map (map Fin) (repeat [1; 2; 3; 4; 5] 2) /\ grid_ok [0; 1] /\
  Forall five_bands_im [nan_im; nan_im] /\ Forall (fun p => (snd p < length [nan_im; nan_im])%nat) [(Fin 0.1, 1%nat); (NaN, 0%nat); (Fin 0, 1%nat)] /\
  length (filter (fun p => nltb (fst p) (nlit (1 # 5))) [(Fin 0.1, 1%nat); (NaN, 0%nat); (Fin 0, 1%nat)]) = 2%nat.
Proof. exact E_C94_mtol_fit. Qed.

(** k_plot_test_sdss does not clean its photometry: one flux that is NaN, of an object in the redshift range, ends the program with an exception. *)
Theorem C94_sdss_raises :
  forall nnls rng (F : fitter xr) A nt (zs : list xr) (rows : list (im_row xr)) cur i k z r,
    nnls_shape nnls -> f_kind F = SDSS -> f_abc F = true -> ready F A 5 nt -> length zs = length rows -> Forall five_bands_im rows ->
    nth_error zs i = Some z -> nth_error rows i = Some r -> ~ outside A z -> nth_error (i_flux r) k = Some NaN ->
    exists e, sdss_coeffs nnls rng F zs rows cur = Raise e.
Proof. exact L_C94_sdss_raises. Qed.
Print Assumptions C94_sdss_raises.

Example ex_C94_sdss_raises :
  nnls_shape (T := xr) ex_nnls /\ f_kind (five_fitter SDSS true) = SDSS /\ f_abc (five_fitter SDSS true) = true /\ ready (five_fitter SDSS true) five_tab 5 1 /\
  Forall five_bands_im [nan_im] /\ ~ outside five_tab (Fin (1 / 2)) /\ nth_error (i_flux nan_im) 2 = Some NaN.
Proof. exact E_C94_sdss_raises. Qed.

(** On a catalogue of finite numbers k_plot_test_gst passes to the fit, in every band, the AB magnitude of the catalogue corrected for extinction,
    with the relative error of the catalogue or the floor, whichever is larger; bands that are not measured get inverse variance 0; and the
    number it reports as nbad is 0 unless the catalogue has negative inverse variances. *)
Theorem C95_gst_values :
  forall vj vh vk (rows : list (gst_row R)), Forall five_bands rows ->
    exists m iv nbad, gst_photometry (Fin vj) (Fin vh) (Fin vk) (map fin_row rows) = Ok (table 10 m, table 10 iv, nbad) /\
      (Forall (fun r => Forall (Rle 0) (g_model_ivar r)) rows -> nbad = 0%nat) /\
      forall i k r, nth_error rows i = Some r -> (k < 10)%nat ->
        exists x y, entry m i k x /\ entry iv i k y /\
          let fl := nth k floors10 0 in let A := ext_mag r k in
          ((k < 2)%nat -> let '(zp, f, e) := galex_col r k in
             (~ galex_measured f e -> x = Fin 0 /\ y = Fin 0) /\
             (galex_measured f e -> stands_for x y (f * pow10 (-0.4 * (zp - A))) (Rmax fl (Rabs (e / f))))) /\
          ((2 <= k < 7)%nat -> 
             let f := nth (k - 2) (g_model r) 0 in let w := nth (k - 2) (g_model_ivar r) 0 in let a := nth (k - 2) abfix 0 in
             let F := f * 1e-9 * pow10 (-0.4 * (a - A)) in
             (w < 0 -> x = Fin 0 /\ y = Fin 0) /\ (0 <= w -> x = Fin F) /\ (w = 0 -> y = Fin 0) /\
             (0 < w -> f <> 0 -> stands_for x y F (Rmax fl (rel_error f w)))) /\
          ((7 <= k)%nat -> let '(v, mag, sig) := tmass_col vj vh vk r k in
             (~ tmass_measured mag sig -> x = Fin 0 /\ y = Fin 0) /\
             (tmass_measured mag sig -> stands_for x y (pow10 (-0.4 * (mag + v - A))) (Rmax fl (ln 10 / 2.5 * sig)))).
Proof. exact L_C95_gst_values. Qed.
Print Assumptions C95_gst_values.

Example ex_C95_gst_values : exists r : gst_row R, five_bands r /\ Forall (Rle 0) (g_model_ivar r) /\ galex_measured (g_fuv r) (g_fuverr r) /\ ~ galex_measured (g_nuv r) (g_nuverr r) /\
  tmass_measured (g_j r) (g_jsig r).
Proof. exact E_C95_gst_values. Qed.

(** The same for k_plot_test_mtol. *)
Theorem C95_mtol_values :
  forall (rows : list (im_row R)), Forall five_bands_im rows ->
    exists m iv nbad, mtol_photometry (map fin_im rows) = Ok (table 5 m, table 5 iv, nbad) /\
      (Forall (fun r => Forall (Rle 0) (i_ivar r)) rows -> nbad = 0%nat) /\
      forall i k r, nth_error rows i = Some r -> (k < 5)%nat ->
        exists x y, entry m i k x /\ entry iv i k y /\
          let fl := nth k floors5 0 in let f := nth k (i_flux r) 0 in let w := nth k (i_ivar r) 0 in
          let F := f * 1e-9 * pow10 (-0.4 * (nth k abfix 0 - nth k (i_ext r) 0)) in
          (w < 0 -> x = Fin 0 /\ y = Fin 0) /\ (0 <= w -> x = Fin F) /\ (w = 0 -> y = Fin 0) /\
          (0 < w -> f <> 0 -> stands_for x y F (Rmax fl (rel_error f w))).
Proof. exact L_C95_mtol_values. Qed.
Print Assumptions C95_mtol_values.

Example ex_C95_mtol_values : exists r : im_row R, five_bands_im r /\ Forall (Rle 0) (i_ivar r).
Proof. exact E_C95_mtol_values. Qed.

(** In k_plot_test_sdss the photometry that is fit is the flux of the catalogue corrected for extinction and to the AB system, with the relative
    error of the catalogue. *)
Theorem C95_sdss_values :
  forall (rows : list (im_row R)), Forall five_bands_im rows ->
    let P := sdss_photometry (map fin_im rows) in
    exists m iv, sdss_ab_correct (fst P) (Some (snd P)) default_abfix = Ok (table 5 m, Some (table 5 iv)) /\
      forall i k r, nth_error rows i = Some r -> (k < 5)%nat ->
        exists x y, entry m i k x /\ entry iv i k y /\
          let f := nth k (i_flux r) 0 in let w := nth k (i_ivar r) 0 in
          let F := f * pow10 (-0.4 * (nth k abfix 0 - nth k (i_ext r) 0)) in
          x = Fin F /\ (w = 0 -> y = Fin 0) /\ (0 < w -> f <> 0 -> stands_for x y F (rel_error f w)).
Proof. exact L_C95_sdss_values. Qed.
Print Assumptions C95_sdss_values.

Example ex_C95_sdss_values : exists r : im_row R, five_bands_im r /\ Forall (Rlt 0) (i_ivar r) /\ Forall (Rlt 0) (i_flux r).
Proof. exact E_C95_sdss_values. Qed.

(** In k_plot_test_sdss the photometry that the residuals are taken from is exactly the photometry that the fit uses: the fit is that of an
    object without AB correction to it. *)
Theorem C96_sdss_fit :
  forall nnls rng (F : fitter xr) (zs : list xr) (rows : list (im_row xr)) cur,
    f_kind F = SDSS -> f_abc F = true -> length (f_resp F) = 5%nat -> length zs = length rows -> Forall five_bands_im rows ->
    exists om oiv, sdss_ab_correct (fst (sdss_photometry rows)) None default_abfix = Ok (table 5 om, None) /\
      sdss_ab_correct (fst (sdss_photometry rows)) (Some (snd (sdss_photometry rows))) default_abfix = Ok (table 5 om, Some (table 5 oiv)) /\
      length om = length rows /\ rect 5 om /\ rect 5 oiv /\
      sdss_coeffs nnls rng F zs rows cur =
      fit_coeffs nnls rng (without_ab F) (Some (vec zs)) (Some (table 5 om)) (Some (table 5 oiv)) 0 cur.
Proof. exact L_C96_sdss_fit. Qed.
Print Assumptions C96_sdss_fit.

Example ex_C96_sdss_fit : f_kind (five_fitter SDSS true) = SDSS /\ f_abc (five_fitter SDSS true) = true /\ length (f_resp (five_fitter SDSS true)) = 5%nat /\
  Forall five_bands_im [nan_im; {| i_flux := repeat (Fin 1) 5; i_ivar := repeat (Fin 1) 5; i_ext := repeat (Fin 0.1) 5 |}].
Proof. exact E_C96_sdss_fit. Qed.

(** The plotted residual of an object in a band is the difference of the magnitudes of that photometry and of the reconstructed one, and that
    of a colour is the difference of the residuals of its two bands. *)
Theorem C96_residuals :
  forall (maggies : nd xr) (om rm : list (list R)) (i : nat),
    sdss_ab_correct maggies None default_abfix = Ok (table 5 (map (map Fin) om), None) ->
    rect 5 om -> rect 5 rm -> length rm = length om -> Forall (Forall (Rlt 0)) om -> Forall (Forall (Rlt 0)) rm -> (i < 5)%nat ->
    let res := fun k j => magnitude (nth k (nth j om []) 0) - magnitude (nth k (nth j rm []) 0) in
    sdss_residual maggies (table 5 (map (map Fin) rm)) i = Ok (vec (map (fun j => Fin (res i j)) (seq 0 (length om)))) /\
    ((S i < 5)%nat -> 
     sdss_colour_residual maggies (table 5 (map (map Fin) rm)) i = Ok (vec (map (fun j => Fin (res i j - res (S i) j)) (seq 0 (length om))))).
Proof. exact L_C96_residuals. Qed.
Print Assumptions C96_residuals.

Example ex_C96_residuals : exists m : nd xr, sdss_ab_correct m None default_abfix =
  Ok (table 5 (map (map Fin) [map (fun a => pow10 (-0.4 * a)) abfix]), None).
Proof. exact E_C96_residuals. Qed.

(** A mass-to-light ratio in solar units does not depend on the photometric system, whether the absolute magnitudes of the galaxy and of the Sun are
    both AB or both Vega; the value plotted by k_plot_test_gst and k_plot_test_mtol is lower by 0.4 vega2ab in the logarithm, so it is the
    logarithm of the mass-to-light ratio only if vega2ab is 0. *)
Theorem C97_plotted_mtol :
  forall mass mag sun v : R, 0 < mass ->
    let ml := fun m s => mass / pow10 (-0.4 * (m - s)) in
    ml (mag - v) (sun - v) = ml mag sun /\
    plotted_mtol (Fin (ml mag sun)) (Fin v) = Fin (log10 (ml mag sun) - 0.4 * v).
Proof. exact L_C97_plotted_mtol. Qed.
Print Assumptions C97_plotted_mtol.

Example ex_C97_plotted_mtol : 0 < 1e10.
Proof. exact E_C97_plotted_mtol. Qed.

Theorem C97_solar_units_refuted :
  exists mass mag sun v : R, 0 < mass /\
    plotted_mtol (Fin (mass / pow10 (-0.4 * (mag - sun)))) (Fin v) <> Fin (log10 (mass / pow10 (-0.4 * (mag - sun)))).
Proof. exact L_C97_solar_units_refuted. Qed.
Print Assumptions C97_solar_units_refuted.

(** The plotted colour is that in the Vega system: with AB magnitudes of the object and vega2ab the AB magnitudes of Vega, it
    is -2.5 log10 of the ratio, between the bands, of the flux in units of that of Vega; 0 for an object with the colour of
    Vega. *)
Theorem C97_colour :
  forall fB fV gB gV : R, 0 < fB -> 0 < fV -> 0 < gB -> 0 < gV ->
    let ab := fun f => -2.5 * log10 f in
    plotted_bmv (Fin (ab fB)) (Fin (ab fV)) (Fin (ab gB)) (Fin (ab gV)) = Fin (-2.5 * log10 ((fB / gB) / (fV / gV))).
Proof. exact L_C97_colour. Qed.
Print Assumptions C97_colour.

Example ex_C97_colour : 0 < 1e-9 /\ 0 < 2e-9.
Proof. exact E_C97_colour. Qed.
