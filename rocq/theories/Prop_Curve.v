(** Property theorems; proofs are in CurveThms.v.  Generated by tools/gen_prop.py. *)
From Coq Require Import List Arith Lia Bool ZArith QArith Qreals Reals Lra Classical_Prop FunctionalExtensionality Sorting.Sorted Sorting.Permutation.
From Verif Require Import Base BaseLemmas Num Interp InterpReal Spec Utils Sed Response ResponseObj ResponseEx SplineSpec.
Import ListNotations.
Local Open Scope R_scope.
From Verif Require Import CurveThms.

(** C78.  Responses and projections do not depend on how the spline is computed: any two correct algorithms give the same
    Response (or the same exception), with the same effective wavelength, magnitudes and width, and the same projections of SED
    objects and of arrays. *)
Theorem C78_any_algorithm :
  forall cub cub' bq sun vega wave y, splines cub -> splines cub' ->
    Response cub bq sun vega wave y = Response cub' bq sun vega wave y /\
    forall r, Response cub bq sun vega wave y = Ok r ->
      (forall sw fl b s, SED sw fl b = Ok s -> project_sed cub r s = project_sed cub' r s) /\
      (forall sw fl, project_arr cub r sw fl = project_arr cub' r sw fl).
Proof. exact L_C78_any_algorithm. Qed.
Print Assumptions C78_any_algorithm.

Example ex_C78_any_algorithm : exists cub bq r, splines cub /\ Response cub bq sun0 sun0 [1;2;3;4] [0;1;1;0] = Ok r.
Proof. exact E_C78_any_algorithm. Qed.

(** C18 for the spline: positive spectrum and response on the same samples give negative maggies. *)
Theorem C18_proper_spline_refuted :
  forall cub bq tol, splines cub -> root_finder tol bq ->
  exists sun vega wave y r w yy sw f s g m,
    band cub bq sun vega wave y r w yy /\ spectrum sw f s /\ overlaps w sw /\ is_grid w sw g /\
    (forall t, nth 0 w 0 <= t <= last w 0 -> 0 < spline cub sw f t /\ 0 < spline cub w yy t) /\
    project_sed cub r s = Ok (scal m) /\ m < 0 /\
    0 < trapezoid (fun t => spline cub sw f t * spline cub w yy t * t) g /
        trapezoid (fun t => ab_flux t * spline cub w yy t * t) g.
Proof. exact L_C18_proper_spline_refuted. Qed.
Print Assumptions C18_proper_spline_refuted.

(** Even when the spectrum extends beyond the band and all samples are positive the maggies can be negative: the spline of positive
    samples dips below zero. *)
Theorem C18_positive_spline_refuted :
  forall cub bq tol, splines cub -> root_finder tol bq ->
  exists sun vega wave y r w yy sw f s m,
    band cub bq sun vega wave y r w yy /\ spectrum sw f s /\ overlaps w sw /\ brackets w sw /\
    Forall (fun v => 0 < v) f /\ Forall (fun v => 0 < v) yy /\ project_sed cub r s = Ok (scal m) /\ m < 0.
Proof. exact L_C18_positive_spline_refuted. Qed.
Print Assumptions C18_positive_spline_refuted.

(** C19 for the spline. *)
Theorem C19_inside_band_spline_refuted :
  forall cub bq tol, splines cub -> root_finder tol bq ->
  exists sun vega wave y r w yy le,
    band cub bq sun vega wave y r w yy /\ (forall v, In v yy -> 0 < v) /\ p_leff r = Some le /\ le < nth 0 w 0.
Proof. exact L_C19_inside_band_spline_refuted. Qed.
Print Assumptions C19_inside_band_spline_refuted.

(** C21 for the spline: a spectrum that is 1 throughout the band and beyond projects to 0 when none of its samples falls in the band. *)
Theorem C21_straddling_spline :
  forall cub bq tol, splines cub -> root_finder tol bq ->
  exists sun vega wave y r w yy sw f s,
    band cub bq sun vega wave y r w yy /\ spectrum sw f s /\ brackets w sw /\
    (forall t, nth 0 w 0 <= t <= last w 0 -> spline cub sw f t = 1) /\
    (exists t, In t w /\ 0 < spline cub w yy t) /\ project_sed cub r s = Ok (scal 0).
Proof. exact L_C21_straddling_spline. Qed.
Print Assumptions C21_straddling_spline.
