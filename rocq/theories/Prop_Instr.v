(** Property theorems; proofs are in InstrThms.v.  Generated by tools/gen_prop.py. *)
From Coq Require Import String List Arith Lia Bool ZArith QArith Qreals Reals Lra Sorting.Sorted.
From Verif Require Import Base BaseLemmas Num Toy Interp InterpReal Spec Utils Sed Response RespDict LinInterp ResponseEx
  Fitter FitSpec FitterProofs FitterMC FitReal FitTable FitEx FitRealEx FitterThms FitRealThms Kcorrect KSpec NnlsSpec NnlsExact NnlsEx
  NnlsThms BuildSpec BuildEx PipeSpec PipeEx CatSpec InstrSpec InstrEx.
Import ListNotations.
Local Open Scope R_scope.
From Verif Require Import InstrThms.

(** C110.  The coefficients that fit_coeffs of an object with abcorrect=True returns are nonnegative and the best ones in
    the system of the instrument: chi^2 of the photometry as given and the fluxes of the templates converted to that system
    is minimal. *)
Theorem C110_optimal :
  forall nnls rng (F : fitter R) A nb nt o cur c cur',
    nnls_contract nnls -> f_abc F = true -> ab_bands (f_kind F) nb -> ready F A nb nt -> nb <> 1%nat -> obj_ok nb o ->
    nonneg (o_iv o) -> in_range (a_x A) (o_z o) ->
    fit_object nnls rng F 0 o cur = Ok (Bare (vec c), cur') ->
    length c = nt /\ nonneg c /\
    exists p, reconstruct F (Some (scal (o_z o))) (Some (vec c)) 0 = Ok (vec p) /\
      forall y, length y = nt -> nonneg y ->
        exists q, reconstruct F (Some (scal (o_z o))) (Some (vec y)) 0 = Ok (vec q) /\
                  chi2 (o_iv o) (o_m o) (in_system (f_kind F) p) <= chi2 (o_iv o) (o_m o) (in_system (f_kind F) q).
Proof. exact L_C110_optimal. Qed.
Print Assumptions C110_optimal.

Example ex_C110_optimal : exists c,
  nnls_contract nnls_exact /\ f_abc s_fitter = true /\ ab_bands (f_kind s_fitter) 5 /\ ready s_fitter s_tab 5 1 /\
  obj_ok 5 {| o_z := 1 / 2; o_m := [2; 6; 1; 3; 0]; o_iv := [1; 4; 0; 2; 1] |} /\ in_range (a_x s_tab) (1 / 2) /\
  fit_object nnls_exact (fun _ => 0) s_fitter 0 {| o_z := 1 / 2; o_m := [2; 6; 1; 3; 0]; o_iv := [1; 4; 0; 2; 1] |} 0 = Ok (Bare (vec c), 0%nat).
Proof. exact E_C110_optimal. Qed.

(** The fluxes of the fit in the measured bands do not depend on which exact solver is used. *)
Theorem C110_unique :
  forall nnls nnls' rng rng' (F : fitter R) A nb nt o cur cur1 c cur1' c' cur' p p',
    nnls_contract nnls -> nnls_contract nnls' -> f_abc F = true -> ab_bands (f_kind F) nb -> ready F A nb nt -> nb <> 1%nat -> obj_ok nb o ->
    nonneg (o_iv o) -> in_range (a_x A) (o_z o) ->
    fit_object nnls rng F 0 o cur = Ok (Bare (vec c), cur1) ->
    fit_object nnls' rng' F 0 o cur1' = Ok (Bare (vec c'), cur') ->
    reconstruct F (Some (scal (o_z o))) (Some (vec c)) 0 = Ok (vec p) ->
    reconstruct F (Some (scal (o_z o))) (Some (vec c')) 0 = Ok (vec p') ->
    same_measured (o_iv o) p p'.
Proof. exact L_C110_unique. Qed.
Print Assumptions C110_unique.

Example ex_C110_unique : exists c c',
  let o := {| o_z := 1 / 2; o_m := [2; 6; 1; 3; 0]; o_iv := [1; 4; 0; 2; 1] |} in
  nnls_contract nnls_exact /\ nnls_contract nnls1 /\ f_abc s_fitter = true /\ ab_bands (f_kind s_fitter) 5 /\ ready s_fitter s_tab 5 1 /\
  fit_object nnls_exact (fun _ => 0) s_fitter 0 o 0 = Ok (Bare (vec c), 0%nat) /\
  fit_object nnls1 (fun _ => 0) s_fitter 0 o 0 = Ok (Bare (vec c'), 0%nat).
Proof. exact E_C110_unique. Qed.

(** The fit is stable in the system of the instrument: chi^2 of the fluxes of two fits, with the same redshift and inverse
    variances, is at most that of the photometry. *)
Theorem C110_stable :
  forall nnls rng (F : fitter R) A nb nt z iv m1 m2 cur1 c1 cur1' cur2 c2 cur2' p1 p2,
    nnls_contract nnls -> f_abc F = true -> ab_bands (f_kind F) nb -> ready F A nb nt -> nb <> 1%nat ->
    length m1 = nb -> length m2 = nb -> length iv = nb -> nonneg iv -> in_range (a_x A) z ->
    fit_object nnls rng F 0 {| o_z := z; o_m := m1; o_iv := iv |} cur1 = Ok (Bare (vec c1), cur1') ->
    fit_object nnls rng F 0 {| o_z := z; o_m := m2; o_iv := iv |} cur2 = Ok (Bare (vec c2), cur2') ->
    reconstruct F (Some (scal z)) (Some (vec c1)) 0 = Ok (vec p1) ->
    reconstruct F (Some (scal z)) (Some (vec c2)) 0 = Ok (vec p2) ->
    chi2 iv (in_system (f_kind F) p1) (in_system (f_kind F) p2) <= chi2 iv m1 m2.
Proof. exact L_C110_stable. Qed.
Print Assumptions C110_stable.

Example ex_C110_stable : exists c1 c2,
  fit_object nnls_exact (fun _ => 0) s_fitter 0 {| o_z := 1 / 2; o_m := [2; 6; 1; 3; 0]; o_iv := [1; 4; 0; 2; 1] |} 0 = Ok (Bare (vec c1), 0%nat) /\
  fit_object nnls_exact (fun _ => 0) s_fitter 0 {| o_z := 1 / 2; o_m := [1; 6; 9; 3; 0]; o_iv := [1; 4; 0; 2; 1] |} 0 = Ok (Bare (vec c2), 0%nat) /\
  nonneg [1; 4; 0; 2; 1] /\ chi2 [1; 4; 0; 2; 1] [2; 6; 1; 3; 0] [1; 6; 9; 3; 0] = 1.
Proof. exact E_C110_stable. Qed.

(** If the photometry, in the system of the instrument, is exactly that of a nonnegative combination of the templates, the
    fit reproduces it; and if the measured bands tell the templates apart, it is that combination. *)
Theorem C110_recovered :
  forall cub bq sun vega fs d k (s : sed R) t out map_ r0 r1 nz d' s' K w rows nnls rng z l c0 cur c cur',
    Kcorrect cub bq sun vega fs d k true (map o_name l) s t out map_ r0 r1 nz = (d', s', Ok K) -> ab_bands k (length l) ->
    s_rflux s = table w rows -> rect w rows -> rows <> [] -> r0 < r1 -> (2 <= nz)%nat -> r0 <= z <= r1 ->
    length l <> 1%nat -> nnls_contract nnls -> Forall (fun b => 0 <= o_ivar b) l ->
    let flux := model_flux cub d' (s_rwave s) w rows (redshift_grid r0 r1 nz) in
    length c0 = length rows -> nonneg c0 ->
    (forall j b, nth_error l j = Some b -> 0 < o_ivar b -> flux (o_name b) c0 z (o_mag b * pow10 (-0.4 * ab_offsets k j))) ->
    fit_object nnls rng (k_fit K) 0 (observed z l) cur = Ok (Bare (vec c), cur') ->
    (forall j b, nth_error l j = Some b -> 0 < o_ivar b -> flux (o_name b) c z (o_mag b * pow10 (-0.4 * ab_offsets k j))) /\
    (told_apart flux (length rows) z l -> c = c0).
Proof. exact L_C110_recovered. Qed.
Print Assumptions C110_recovered.

Example ex_C110_recovered : exists d0 s0 d s K x c,
  let m := fun j => 2 * x / pow10 (-0.4 * ab_offsets SDSS j) in
  let l := map (fun j => ("u"%string, (m j, 1))) (seq 0 5) in
  let flux := model_flux lin d (s_rwave r_sed1) 6 [[1;1;2;2;1;1]] (redshift_grid 0 1 2) in
  Kcorrect lin bq0 sun0 sun0 r_files d0 SDSS true (map o_name l) s0 r_tmpl None None 0 1 2 = (d, s, Ok K) /\ ab_bands SDSS (length l) /\
  s_rwave s0 = s_rwave r_sed1 /\ s_rflux s0 = table 6 [[1;1;2;2;1;1]] /\
  nnls_contract nnls_exact /\ Forall (fun b => 0 < o_mag b /\ 0 < o_ivar b) l /\ nonneg [2] /\
  (forall j b, nth_error l j = Some b -> flux (o_name b) [2] 0 (o_mag b * pow10 (-0.4 * ab_offsets SDSS j))) /\ told_apart flux 1 0 l /\
  fit_object nnls_exact (fun _ => 0) (k_fit K) 0 (observed 0 l) 0 = Ok (Bare (vec c), 0%nat).
Proof. exact E_C110_recovered. Qed.

(** ... and then the absolute magnitudes of KcorrectSDSS and KcorrectGST are the true AB ones: -2.5 log10 of the flux of
    [c0] in the output band at redshift band_shift over 1+band_shift, minus the distance modulus. *)
Theorem C110_absmag :
  forall cub bq sun vega fs d k (s : sed R) t out map_ r0 r1 nz d' s' K w rows nnls rng z l c0 cur c cur' distmod lim kc dist bs,
    Kcorrect cub bq sun vega fs d k true (map o_name l) s t out map_ r0 r1 nz = (d', s', Ok K) -> ab_bands k (length l) ->
    s_rflux s = table w rows -> rect w rows -> rows <> [] -> r0 < r1 -> (2 <= nz)%nat -> r0 <= z <= r1 ->
    length l <> 1%nat -> nnls_contract nnls -> Forall (fun b => 0 < o_mag b /\ 0 < o_ivar b) l ->
    let flux := model_flux cub d' (s_rwave s) w rows (redshift_grid r0 r1 nz) in
    length c0 = length rows -> nonneg c0 ->
    (forall j b, nth_error l j = Some b -> flux (o_name b) c0 z (o_mag b * pow10 (-0.4 * ab_offsets k j))) ->
    told_apart flux (length rows) z l -> 0 < fold_right Rplus 0 c0 -> r0 <= bs <= r1 -> -1 < bs ->
    fit_object nnls rng (k_fit K) 0 (observed z l) cur = Ok (Bare (vec c), cur') ->
    exists v a,
      absmag_object distmod K bs false false lim kc
        {| ko_z := z; ko_m := map o_mag l; ko_iv := map o_ivar l; ko_c := c; ko_d := dist |} = Ok a /\
      nth_error (parts a) 0 = Some (vec v) /\ length v = length (k_out K) /\
      forall j n, nth_error (k_out K) j = Some n -> exists y, flux n c0 bs y /\
        (0 < y -> nth_error v j = Some (-5/2 * log10 (y / (1 + bs)) - distmod z)).
Proof. exact L_C110_absmag. Qed.
Print Assumptions C110_absmag.

Example ex_C110_absmag : 0 < fold_right Rplus 0 [2] /\ exists d0 s0 d s K x c,
  let m := fun j => 2 * x / pow10 (-0.4 * ab_offsets SDSS j) in
  let l := map (fun j => ("u"%string, (m j, 1))) (seq 0 5) in
  let flux := model_flux lin d (s_rwave r_sed1) 6 [[1;1;2;2;1;1]] (redshift_grid 0 1 2) in
  Kcorrect lin bq0 sun0 sun0 r_files d0 SDSS true (map o_name l) s0 r_tmpl None None 0 1 2 = (d, s, Ok K) /\ ab_bands SDSS (length l) /\
  s_rwave s0 = s_rwave r_sed1 /\ s_rflux s0 = table 6 [[1;1;2;2;1;1]] /\
  nnls_contract nnls_exact /\ Forall (fun b => 0 < o_mag b /\ 0 < o_ivar b) l /\ nonneg [2] /\
  (forall j b, nth_error l j = Some b -> flux (o_name b) [2] 0 (o_mag b * pow10 (-0.4 * ab_offsets SDSS j))) /\ told_apart flux 1 0 l /\
  fit_object nnls_exact (fun _ => 0) (k_fit K) 0 (observed 0 l) 0 = Ok (Bare (vec c), 0%nat).
Proof. exact E_C110_absmag. Qed.
