(** Property theorems; proofs are in ResponseThms.v.  Generated by tools/gen_prop.py. *)
From Coq Require Import List Arith Lia Bool ZArith QArith Qreals Reals Lra Classical_Prop Sorting.Sorted Sorting.Permutation.
From Verif Require Import Base BaseLemmas Num Toy Interp InterpReal Spec Utils Sed Response ResponseProofs
  ResponseObj ResponseFwhm LinInterp ResponseEx.
Import ListNotations.
Local Open Scope R_scope.
From Verif Require Import ResponseThms.

(** C11. A Basel file with two or more models cannot be turned into a reference spectrum. *)
Theorem C11_many_models_fail :
  forall (T : Type) (N : Num T) (scale : T) (wave : list T) (models : list (basel_unit T)),
    (2 <= length models)%nat -> basel_sed scale (wave, models) = Raise ValueError.
Proof. exact L_C11_many_models_fail. Qed.
Print Assumptions C11_many_models_fail.

Example ex_C11_many_models_fail :
  let u := {| b_modelno := 1; b_teff := 1; b_logg := 1; b_mh := 1; b_vturb := 1; b_xh := 1; b_flux := [1;1;1;1] |}%Z in
  (2 <= length [u; u])%nat.
Proof. exact E_C11_many_models_fail. Qed.

(** ... so no Response object can be built with such a solar file, whatever the curve. *)
Theorem C11_many_models_no_response :
  forall cub bq (wave : list R) (models : list (basel_unit R)) vega (w y : list R) r,
    (2 <= length models)%nat -> Response cub bq (Ok (wave, models)) vega w y <> Ok r.
Proof. exact L_C11_many_models_no_response. Qed.
Print Assumptions C11_many_models_no_response.

Example ex_C11_many_models_no_response :
  let u := {| b_modelno := 1; b_teff := 1; b_logg := 1; b_mh := 1; b_vturb := 1; b_xh := 1; b_flux := [1;1;1;1] |} in
  (2 <= length [u; u])%nat /\
  (exists r, Response lin bq0 (Ok ([100;200;300;400], [u])) (Ok ([100;200;300;400], [u])) [1;2;3;4] [0;1;1;0] = Ok r) /\
  forall r, Response lin bq0 (Ok ([100;200;300;400], [u; u])) (Ok ([100;200;300;400], [u])) [1;2;3;4] [0;1;1;0] <> Ok r.
Proof. exact E_C11_many_models_no_response. Qed.

(** With exactly one model the flux is scaled by 4 pi c / lambda^2 (R/d)^2, wavelengths in Angstrom being
    10 times those in the file. *)
Theorem C11_one_model :
  forall (scale : R) (wave : list R) (u : basel_unit R),
    length (b_flux _ u) = length wave -> Forall (fun w => 0 < w) wave ->
    basel_sed scale (wave, [u]) =
    SED (map (fun w => w * 10) wave)
        (mk [1%nat; length wave]
            (map (fun k => 4 * PI * nth k (b_flux _ u) 0 * (299792 * 10 ^ 13) / (10 * nth k wave 0) ^ 2 * scale)
                 (seq 0 (length wave)))) true.
Proof. exact L_C11_one_model. Qed.
Print Assumptions C11_one_model.

Example ex_C11_one_model :
  let u := {| b_modelno := 1; b_teff := 1; b_logg := 1; b_mh := 1; b_vturb := 1; b_xh := 1; b_flux := [1;1;1;1] |} in
  length (b_flux _ u) = length [100; 200; 300; 400] /\ Forall (fun w => 0 < w) [100; 200; 300; 400].
Proof. exact E_C11_one_model. Qed.

(** C15. *)
Theorem C15_sorted_samples :
  forall cub bq sun vega (wave y : list R) r, length y = length wave ->
    Response cub bq sun vega wave y = Ok r ->
    exists w yy, p_wave r = Some w /\ p_resp r = Some yy /\ sorted_samples wave y w yy.
Proof. exact L_C15_sorted_samples. Qed.
Print Assumptions C15_sorted_samples.

Example ex_C15_sorted_samples : exists r, length [0;1;1;0] = length [1;2;3;4] /\
  Response lin bq0 sun0 sun0 [1;2;3;4] [0;1;1;0] = Ok r /\ sorted_samples [4;3;2;1] [5;6;7;8] [1;2;3;4] [8;7;6;5].
Proof. exact E_C15_sorted_samples. Qed.

(** Two orders of the same samples give the same object, or the same exception. *)
Theorem C15_order_irrelevant :
  forall cub bq sun vega (wave y wave' y' : list R), length y = length wave -> length y' = length wave' ->
    NoDup wave -> Permutation (combine wave y) (combine wave' y') ->
    Response cub bq sun vega wave y = Response cub bq sun vega wave' y'.
Proof. exact L_C15_order_irrelevant. Qed.
Print Assumptions C15_order_irrelevant.

Example ex_C15_order_irrelevant :
  length [5;6;7;8] = length [4;3;2;1] /\ NoDup [4;3;2;1] /\
  Permutation (combine [4;3;2;1] [5;6;7;8]) (combine [1;2;3;4] [8;7;6;5]).
Proof. exact E_C15_order_irrelevant. Qed.

(** C18. What project computes for one SED. *)
Theorem C18_projection_formula :
  forall cub bq sun vega wave y r w yy sw f s,
    band cub bq sun vega wave y r w yy -> spectrum sw f s -> overlaps w sw ->
    forall g, is_grid w sw g ->
    project_sed cub r s = Ok (scal (boundary_minus (fun t => spline cub sw f t * spline cub w yy t * t) g /
                                    boundary_minus (fun t => ab_flux t * spline cub w yy t * t) g)).
Proof. exact L_C18_projection_formula. Qed.
Print Assumptions C18_projection_formula.

(** When the SED has samples beyond both ends of the band the boundary terms vanish and the maggies are the
    proper ratio of trapezoid integrals. *)
Theorem C18_proper_when_bracketed :
  forall cub bq sun vega wave y r w yy sw f s,
    band cub bq sun vega wave y r w yy -> spectrum sw f s -> overlaps w sw -> brackets w sw ->
    forall g, is_grid w sw g ->
    project_sed cub r s = Ok (scal (trapezoid (fun t => spline cub sw f t * spline cub w yy t * t) g /
                                    trapezoid (fun t => ab_flux t * spline cub w yy t * t) g)).
Proof. exact L_C18_proper_when_bracketed. Qed.
Print Assumptions C18_proper_when_bracketed.

(** The integration grid always exists and is unique. *)
Theorem C21_grid :
  forall w sw, StronglySorted Rlt sw -> overlaps w sw ->
    is_grid w sw (grid_of w sw) /\ forall g, is_grid w sw g -> g = grid_of w sw.
Proof. exact L_C21_grid. Qed.
Print Assumptions C21_grid.

Example ex_C21_grid : StronglySorted Rlt [1;2;3;4] /\ overlaps [2;3;4;5] [1;2;3;4].
Proof. exact E_C21_grid. Qed.

Example ex_C18_projection_formula :
  exists bq sun vega r s g, band lin bq sun vega [1;2;3;4] [0;1;1;0] r [1;2;3;4] [0;1;1;0] /\
    spectrum [3/2;2;5/2;3] [1;1;2;2] s /\ overlaps [1;2;3;4] [3/2;2;5/2;3] /\
    is_grid [1;2;3;4] [3/2;2;5/2;3] g.
Proof. exact E_C18_projection_formula. Qed.

(** C21. No sample in the band: the projection is 0, whatever the spectrum. *)
Theorem C21_zero_without_sample :
  forall cub bq sun vega wave y r w yy (s : sed R),
    band cub bq sun vega wave y r w yy -> ~ overlaps w (s_wave s) -> project_sed cub r s = Ok (scal 0).
Proof. exact L_C21_zero_without_sample. Qed.
Print Assumptions C21_zero_without_sample.

Example ex_C21_zero_without_sample :
  exists bq sun vega r s, band lin bq sun vega [1;2;3;4] [0;1;1;0] r [1;2;3;4] [0;1;1;0] /\
    spectrum [1/4;1/2;5;6] [1;1;1;1] s /\ ~ overlaps [1;2;3;4] (s_wave s).
Proof. exact E_C21_zero_without_sample. Qed.

Theorem C16_ab_source :
  forall cub bq sun vega wave y r w yy sw f s,
    band cub bq sun vega wave y r w yy -> spectrum sw f s -> overlaps w sw ->
    (forall t, In t sw \/ In t w -> spline cub sw f t = ab_flux t) ->
    forall g, is_grid w sw g -> boundary_minus (fun t => ab_flux t * spline cub w yy t * t) g <> 0 ->
    project_sed cub r s = Ok (scal 1).
Proof. exact L_C16_ab_source. Qed.
Print Assumptions C16_ab_source.

Example ex_C16_ab_source :
  exists bq sun vega r s, band lin bq sun vega [1;2;3;4] [0;1;1;0] r [1;2;3;4] [0;1;1;0] /\
    spectrum [1;2;3;4] (map ab_flux [1;2;3;4]) s /\ overlaps [1;2;3;4] [1;2;3;4] /\
    (forall t, In t [1;2;3;4] \/ In t [1;2;3;4] -> spline lin [1;2;3;4] (map ab_flux [1;2;3;4]) t = ab_flux t) /\
    is_grid [1;2;3;4] [1;2;3;4] [1;2;3;4] /\
    boundary_minus (fun t => ab_flux t * spline lin [1;2;3;4] [0;1;1;0] t * t) [1;2;3;4] <> 0.
Proof. exact E_C16_ab_source. Qed.

(** ... in particular through every nonnegative response bracketed by the SED. *)
Theorem C16_ab_source_bracketed :
  forall cub bq sun vega wave y r w yy sw f s,
    band cub bq sun vega wave y r w yy -> spectrum sw f s -> overlaps w sw -> brackets w sw ->
    (forall t, In t sw \/ In t w -> spline cub sw f t = ab_flux t) ->
    (forall t, In t sw \/ In t w -> 0 <= spline cub w yy t) ->
    (exists t, In t w /\ 0 < spline cub w yy t) ->
    project_sed cub r s = Ok (scal 1).
Proof. exact L_C16_ab_source_bracketed. Qed.
Print Assumptions C16_ab_source_bracketed.

Theorem C17_linear :
  forall cub bq sun vega wave y r w yy sw f1 f2 a b s1 s2 s12,
    (forall xs ys zs t, length ys = length zs ->
       cub xs (zip (fun u v => a * u + b * v) ys zs) t = a * cub xs ys t + b * cub xs zs t) ->
    band cub bq sun vega wave y r w yy ->
    spectrum sw f1 s1 -> spectrum sw f2 s2 -> spectrum sw (zip (fun u v => a * u + b * v) f1 f2) s12 ->
    length f1 = length f2 ->
    exists m1 m2, project_sed cub r s1 = Ok (scal m1) /\ project_sed cub r s2 = Ok (scal m2) /\
                  project_sed cub r s12 = Ok (scal (a * m1 + b * m2)).
Proof. exact L_C17_linear. Qed.
Print Assumptions C17_linear.

Theorem C17_each_sed :
  forall cub bq sun vega wave y r w yy sw flux n s k sk,
    band cub bq sun vega wave y r w yy -> overlaps w sw ->
    wf flux -> shp flux = [n; length sw] -> n <> 1%nat -> SED sw flux true = Ok s ->
    (k < n)%nat -> SED sw (vec (nth k (lrows flux) [])) true = Ok sk ->
    exists ms m, project_sed cub r s = Ok (mk [n] ms) /\ length ms = n /\
                 nth_error ms k = Some m /\ project_sed cub r sk = Ok (scal m).
Proof. exact L_C17_each_sed. Qed.
Print Assumptions C17_each_sed.

(** Projecting arrays is the same as projecting an SED object holding them. *)
Theorem C17_array_call :
  forall cub (r : resp R) sw (flux : nd R) s,
    wf flux -> (ndim flux = 1 \/ ndim flux = 2)%nat -> SED sw flux true = Ok s ->
    lastd (shp flux) = length sw ->
    project_arr cub r (vec sw) flux = project_sed cub r s.
Proof. exact L_C17_array_call. Qed.
Print Assumptions C17_array_call.

Example ex_C17_array_call :
  exists s, wf (mk [2%nat; 4%nat] [1;1;1;1; 2;3;4;5]) /\ ndim (mk [2%nat; 4%nat] [1;1;1;1; 2;3;4;5]) = 2%nat /\
    SED [1;2;3;4] (mk [2%nat; 4%nat] [1;1;1;1; 2;3;4;5]) true = Ok s /\
    lastd (shp (mk [2%nat; 4%nat] [1;1;1;1; 2;3;4;5])) = length [1;2;3;4].
Proof. exact E_C17_array_call. Qed.

Example ex_C18_proper_when_bracketed :
  exists bq sun vega r s g, band lin bq sun vega [1;2;3;4] [0;1;1;0] r [1;2;3;4] [0;1;1;0] /\
    spectrum [1/2;1;2;3;4;5] [1;1;2;2;1;1] s /\ overlaps [1;2;3;4] [1/2;1;2;3;4;5] /\
    brackets [1;2;3;4] [1/2;1;2;3;4;5] /\ is_grid [1;2;3;4] [1/2;1;2;3;4;5] g.
Proof. exact E_C18_proper_when_bracketed. Qed.

(** C18 fails without the bracketing: a flat band and a flat spectrum sampled on the same grid give
    negative maggies, although the spectrum and the response are positive everywhere. *)
Theorem C18_proper_always_refuted :
  exists cub bq sun vega wave y r w yy sw f s g m,
    band cub bq sun vega wave y r w yy /\ spectrum sw f s /\ overlaps w sw /\ is_grid w sw g /\
    (forall t, In t g -> 0 < spline cub sw f t /\ 0 < spline cub w yy t) /\
    project_sed cub r s = Ok (scal m) /\ m < 0 /\
    0 < trapezoid (fun t => spline cub sw f t * spline cub w yy t * t) g /
        trapezoid (fun t => ab_flux t * spline cub w yy t * t) g.
Proof. exact L_C18_proper_always_refuted. Qed.
Print Assumptions C18_proper_always_refuted.

Example ex_C16_ab_source_bracketed :
  exists bq sun vega r s, band lin bq sun vega [1;2;3;4] [0;1;1;0] r [1;2;3;4] [0;1;1;0] /\
    spectrum [1/2;1;2;3;4;5] (map ab_flux [1/2;1;2;3;4;5]) s /\
    overlaps [1;2;3;4] [1/2;1;2;3;4;5] /\ brackets [1;2;3;4] [1/2;1;2;3;4;5] /\
    (forall t, In t [1/2;1;2;3;4;5] \/ In t [1;2;3;4] ->
       spline lin [1/2;1;2;3;4;5] (map ab_flux [1/2;1;2;3;4;5]) t = ab_flux t) /\
    (forall t, In t [1/2;1;2;3;4;5] \/ In t [1;2;3;4] -> 0 <= spline lin [1;2;3;4] [0;1;1;0] t) /\
    (exists t, In t [1;2;3;4] /\ 0 < spline lin [1;2;3;4] [0;1;1;0] t).
Proof. exact E_C16_ab_source_bracketed. Qed.

Example ex_C17_linear :
  exists bq sun vega r s1 s2 s12,
    (forall xs ys zs t, length ys = length zs ->
       lin xs (zip (fun u v => 2 * u + 3 * v) ys zs) t = 2 * lin xs ys t + 3 * lin xs zs t) /\
    band lin bq sun vega [1;2;3;4] [0;1;1;0] r [1;2;3;4] [0;1;1;0] /\
    spectrum [1/2;1;2;3;4;5] [1;1;2;2;1;1] s1 /\ spectrum [1/2;1;2;3;4;5] [1;2;3;4;5;6] s2 /\
    spectrum [1/2;1;2;3;4;5] (zip (fun u v => 2 * u + 3 * v) [1;1;2;2;1;1] [1;2;3;4;5;6]) s12.
Proof. exact E_C17_linear. Qed.

Example ex_C17_each_sed :
  exists bq sun vega r s s1, band lin bq sun vega [1;2;3;4] [0;1;1;0] r [1;2;3;4] [0;1;1;0] /\
    SED [1;2;3;4] (mk [2%nat; 4%nat] [1;1;1;1; 2;3;4;5]) true = Ok s /\
    SED [1;2;3;4] (vec (nth 1 (lrows (mk [2%nat; 4%nat] [1;1;1;1; 2;3;4;5])) [])) true = Ok s1.
Proof. exact E_C17_each_sed. Qed.

(** The spectrum can cover the whole band and still project to 0. *)
Theorem C21_straddling :
  exists cub bq sun vega wave y r w yy sw f s,
    band cub bq sun vega wave y r w yy /\ spectrum sw f s /\ brackets w sw /\
    (forall t, 0 < t -> nth 0 sw 0 <= t <= last sw 0 -> spline cub sw f t = 1) /\
    (exists t, In t w /\ 0 < spline cub w yy t) /\ project_sed cub r s = Ok (scal 0).
Proof. exact L_C21_straddling. Qed.
Print Assumptions C21_straddling.

(** ** C20 *)
Theorem C20_fwhm_bracketed :
  forall cub bq (w yy : list R) M, StronglySorted Rlt w -> w <> [] ->
    let c := spline cub w yy in
    (exists t, In t w /\ c t = M) -> (forall t, In t w -> c t <= M) -> 0 < M ->
    (forall f a b, (forall x, f x = c x / M - 1 / 2) -> In a w -> In b w -> a < b -> f a * f b <= 0 ->
       exists x, bq f a b = Ok x /\ a <= x <= b /\ f x = 0) ->
    exists lo hi, fwhm_limits cub bq w {| ix := w; iys := [yy] |} = Ok (lo, hi, hi - lo) /\
      nth 0 w 0 <= lo <= hi /\ hi <= last w 0 /\
      (lo <> nth 0 w 0 -> c lo = M / 2) /\ (hi <> last w 0 -> c hi = M / 2) /\
      (forall t, In t w -> t < lo -> c t <= M / 2) /\ (forall t, In t w -> hi < t -> c t < M / 2).
Proof. exact L_C20_fwhm_bracketed. Qed.
Print Assumptions C20_fwhm_bracketed.

Example ex_C20_fwhm_bracketed :
  let c := spline lin [1;2;3;4] [0;1;1;0] in
  (exists t, In t [1;2;3;4] /\ c t = 1) /\ (forall t, In t [1;2;3;4] -> c t <= 1) /\ 0 < 1 /\
  (forall f a b, (forall x, f x = c x / 1 - 1 / 2) -> In a [1;2;3;4] -> In b [1;2;3;4] -> a < b -> f a * f b <= 0 ->
     exists x, bq0 f a b = Ok x /\ a <= x <= b /\ f x = 0) /\ c (3 / 2) = 1 / 2 /\ c (7 / 2) = 1 / 2.
Proof. exact E_C20_fwhm_bracketed. Qed.

(** The attributes fwhm_low, fwhm_high, fwhm of a Response object. *)
Theorem C20_fwhm_attributes :
  forall cub bq sun vega wave y r w yy M, band cub bq sun vega wave y r w yy ->
    let c := spline cub w yy in
    (exists t, In t w /\ c t = M) -> (forall t, In t w -> c t <= M) -> 0 < M ->
    (forall f a b, (forall x, f x = c x / M - 1 / 2) -> In a w -> In b w -> a < b -> f a * f b <= 0 ->
       exists x, bq f a b = Ok x /\ a <= x <= b /\ f x = 0) ->
    exists lo hi, p_fwhm r = Some (lo, hi, hi - lo) /\ 0 <= hi - lo /\
      nth 0 w 0 <= lo <= hi /\ hi <= last w 0 /\
      (lo <> nth 0 w 0 -> c lo = M / 2) /\ (hi <> last w 0 -> c hi = M / 2).
Proof. exact L_C20_fwhm_attributes. Qed.
Print Assumptions C20_fwhm_attributes.

Example ex_C20_fwhm_attributes :
  exists r, band lin bq0 sun0 sun0 [1;2;3;4] [0;1;1;0] r [1;2;3;4] [0;1;1;0] /\
    let c := spline lin [1;2;3;4] [0;1;1;0] in
    (exists t, In t [1;2;3;4] /\ c t = 1) /\ (forall t, In t [1;2;3;4] -> c t <= 1) /\
    (forall f a b, (forall x, f x = c x / 1 - 1 / 2) -> In a [1;2;3;4] -> In b [1;2;3;4] -> a < b -> f a * f b <= 0 ->
       exists x, bq0 f a b = Ok x /\ a <= x <= b /\ f x = 0).
Proof. exact E_C20_fwhm_attributes. Qed.

(** C19. The effective wavelength of any Response, as computed. *)
Theorem C19_formula :
  forall cub bq sun vega wave y r w yy (rho : R -> R), band cub bq sun vega wave y r w yy -> map rho w = yy ->
    p_leff r = Some (exp (boundary_minus (fun t => ln t * rho t / t) w / boundary_minus (fun t => rho t / t) w)).
Proof. exact L_C19_formula. Qed.
Print Assumptions C19_formula.

(** For a nonnegative, not identically zero response vanishing at both ends it is the response-weighted
    geometric mean and lies within the band. *)
Theorem C19_inside_band :
  forall cub bq sun vega wave y r w yy (rho : R -> R), band cub bq sun vega wave y r w yy -> map rho w = yy ->
    (forall t, In t w -> 0 <= rho t) -> (exists t, In t w /\ 0 < rho t) ->
    rho (nth 0 w 0) = 0 -> rho (last w 0) = 0 ->
    exists le, p_leff r = Some le /\ nth 0 w 0 <= le <= last w 0 /\
      le = exp (trapezoid (fun t => ln t * rho t / t) w / trapezoid (fun t => rho t / t) w).
Proof. exact L_C19_inside_band. Qed.
Print Assumptions C19_inside_band.

Example ex_C19_inside_band :
  let rho := fun t : R => if Req_EM_T t 2 then 1 else if Req_EM_T t 3 then 1 else 0 in
  (exists r, band lin bq0 sun0 sun0 [1;2;3;4] [0;1;1;0] r [1;2;3;4] [0;1;1;0]) /\ map rho [1;2;3;4] = [0;1;1;0] /\
  (forall t, In t [1;2;3;4] -> 0 <= rho t) /\ (exists t, In t [1;2;3;4] /\ 0 < rho t).
Proof. exact E_C19_inside_band. Qed.

Example ex_C19_formula :
  let rho := fun t : R => if Req_EM_T t 2 then 1 else if Req_EM_T t 3 then 1 else 0 in
  (exists r, band lin bq0 sun0 sun0 [1;2;3;4] [0;1;1;0] r [1;2;3;4] [0;1;1;0]) /\ map rho [1;2;3;4] = [0;1;1;0].
Proof. exact E_C19_formula. Qed.

(** It fails for responses that do not vanish at their ends: a flat response on [1, 4] has an effective
    wavelength below 1. *)
Theorem C19_inside_band_refuted :
  exists cub bq sun vega wave y r w yy le,
    band cub bq sun vega wave y r w yy /\ (forall v, In v yy -> 0 < v) /\
    p_leff r = Some le /\ le < nth 0 w 0.
Proof. exact L_C19_inside_band_refuted. Qed.
Print Assumptions C19_inside_band_refuted.

(** The reference spectrum built from a one-model Basel file: fluxes times 4 pi c / lambda^2 (R/d)^2. *)
Theorem C57_solar_and_vega :
  forall cub bq (wave1 wave2 : list R) (u1 u2 : basel_unit R) wave y r,
    length y = length wave ->
    length (b_flux _ u1) = length wave1 -> Forall (fun w => 0 < w) wave1 ->
    length (b_flux _ u2) = length wave2 -> Forall (fun w => 0 < w) wave2 ->
    Response cub bq (Ok (wave1, [u1])) (Ok (wave2, [u2])) wave y = Ok r ->
    exists sun vega m1 m2,
      SED (map (fun w => w * 10) wave1) (mk [1%nat; length wave1]
        (map (fun k => 4 * PI * nth k (b_flux _ u1) 0 * (299792 * 10 ^ 13) / (10 * nth k wave1 0) ^ 2 *
                       (6.960e10 / (10 * 3.086e18)) ^ 2) (seq 0 (length wave1)))) true = Ok sun /\
      SED (map (fun w => w * 10) wave2) (mk [1%nat; length wave2]
        (map (fun k => 4 * PI * nth k (b_flux _ u2) 0 * (299792 * 10 ^ 13) / (10 * nth k wave2 0) ^ 2 *
                       (1.91144e11 / (7.68 * 3.086e18)) ^ 2) (seq 0 (length wave2)))) true = Ok vega /\
      project_sed cub r sun = Ok (scal m1) /\ project_sed cub r vega = Ok (scal m2) /\
      (0 < m1 -> p_solar r = Some (magnitude m1)) /\ (m1 <= 0 -> p_solar r = None) /\
      (0 < m2 -> p_vega2ab r = Some (magnitude m2)) /\ (m2 <= 0 -> p_vega2ab r = None).
Proof. exact L_C57_solar_and_vega. Qed.
Print Assumptions C57_solar_and_vega.

Example ex_C57_solar_and_vega :
  let u := {| b_modelno := 1; b_teff := 1; b_logg := 1; b_mh := 1; b_vturb := 1; b_xh := 1; b_flux := [1;1;1;1] |} in
  Forall (fun w => 0 < w) [100;200;300;400] /\
  exists r, Response lin bq0 (Ok ([100;200;300;400], [u])) (Ok ([100;200;300;400], [u])) [1;2;3;4] [0;1;1;0] = Ok r.
Proof. exact E_C57_solar_and_vega. Qed.
