(** Property theorems; proofs are in QuadThms.v.  Generated by tools/gen_prop.py. *)
From Coquelicot Require Import Coquelicot.
From Coq Require Import List Arith Lia Bool ZArith QArith Qreals Reals Lra Classical_Prop FunctionalExtensionality Sorting.Sorted Sorting.Permutation.
From Verif Require Import Base BaseLemmas Num Toy Interp InterpReal Spec Utils Sed Response ResponseProofs
  ResponseObj ResponseFwhm LinInterp ResponseEx Spline SplineSpec QuadSpec.
Import ListNotations.
Local Open Scope R_scope.
From Verif Require Import QuadThms.

(** C103.  Accuracy of a projection: with M bounding the second derivatives of the integrands over the steps of the integration
    grid inside the band, and d the largest such step, maggies differ from the ratio of the integrals by at most an amount
    proportional to d^2, for a response that ends with zeros and lies inside the spectrum. *)
Theorem C103_error :
  forall cub bq sun vega wave y r w yy sw f s g M M' d,
    splines cub -> band cub bq sun vega wave y r w yy -> spectrum sw f s -> overlaps w sw -> brackets w sw -> is_grid w sw g ->
    nth 0 yy 0 = 0 -> last yy 0 = 0 ->
    let lo := nth 0 w 0 in let hi := last w 0 in
    let light t := spline cub sw f t * spline cub w yy t * t in
    let ab t := ab_flux t * spline cub w yy t * t in
    let e := d ^ 2 / 12 * (hi - lo) in
    (forall a b, adjacent g a b -> lo <= a -> b <= hi -> curved M light a b /\ curved M' ab a b /\ b - a <= d) ->
    ex_RInt light lo hi /\ ex_RInt ab lo hi /\
    (M' * e < RInt ab lo hi ->
      exists m, project_sed cub r s = Ok (scal m) /\
        Rabs (m - RInt light lo hi / RInt ab lo hi) <= (M + Rabs m * M') * e / RInt ab lo hi).
Proof. exact L_C103_error. Qed.
Print Assumptions C103_error.

Example ex_C103_error : exists bq r s, splines notaknot /\ band notaknot bq sun0 sun0 [1;2;3;4] [0;1;1;0] r [1;2;3;4] [0;1;1;0] /\
  spectrum [1/2;1;2;3;4;5] [1;1;2;2;1;1] s /\ overlaps [1;2;3;4] [1/2;1;2;3;4;5] /\ brackets [1;2;3;4] [1/2;1;2;3;4;5] /\
  is_grid [1;2;3;4] [1/2;1;2;3;4;5] [1/2;1;2;3;4;5].
Proof. exact E_C103_error. Qed.

(** Bounds on the second derivatives exist for every response and every spectrum around it, because the curves are splines. *)
Theorem C103_curvature :
  forall cub bq sun vega wave y r w yy sw f s g,
    splines cub -> band cub bq sun vega wave y r w yy -> spectrum sw f s -> brackets w sw -> is_grid w sw g ->
    exists M, 0 <= M /\ forall a b, adjacent g a b -> nth 0 w 0 <= a -> b <= last w 0 ->
      curved M (fun t => spline cub sw f t * spline cub w yy t * t) a b /\ curved M (fun t => ab_flux t * spline cub w yy t * t) a b.
Proof. exact L_C103_curvature. Qed.
Print Assumptions C103_curvature.

Example ex_C103_curvature : exists bq r s M, splines notaknot /\ band notaknot bq sun0 sun0 [1;2;3;4] [0;1;1;0] r [1;2;3;4] [0;1;1;0] /\
  spectrum [1/2;1;2;3;4;5] [1;1;2;2;1;1] s /\ brackets [1;2;3;4] [1/2;1;2;3;4;5] /\
  is_grid [1;2;3;4] [1/2;1;2;3;4;5] [1/2;1;2;3;4;5] /\ adjacent [1/2;1;2;3;4;5] 2 3 /\
  curved M (fun t => spline notaknot [1/2;1;2;3;4;5] [1;1;2;2;1;1] t * spline notaknot [1;2;3;4] [0;1;1;0] t * t) 2 3.
Proof. exact E_C103_curvature. Qed.

(** Projections converge: there is a C, depending on the response and on the spectrum between its ends only, such that sampling the
    spectrum with steps of at most d gives maggies within C d^2 of the ratio of the integrals.  (S is the spectrum; the curve through
    the samples is assumed to be S inside the band, as it is for a cubic by C78_cubics.) *)
Theorem C103_converges :
  forall cub bq sun vega wave y r w yy (S : R -> R) K,
    splines cub -> band cub bq sun vega wave y r w yy -> nth 0 yy 0 = 0 -> last yy 0 = 0 ->
    let lo := nth 0 w 0 in let hi := last w 0 in
    let light t := S t * spline cub w yy t * t in
    let ab t := ab_flux t * spline cub w yy t * t in
    curved K S lo hi -> 0 < RInt ab lo hi ->
    exists C d0, 0 < d0 /\ forall sw f s d,
      spectrum sw f s -> overlaps w sw -> brackets w sw -> (forall t, lo <= t <= hi -> spline cub sw f t = S t) ->
      (forall a b, adjacent sw a b -> b - a <= d) -> d <= d0 ->
      exists m, project_sed cub r s = Ok (scal m) /\ Rabs (m - RInt light lo hi / RInt ab lo hi) <= C * d ^ 2.
Proof. exact L_C103_converges. Qed.
Print Assumptions C103_converges.

(** Samplings as fine as needed of a spectrum that is reproduced between the samples. *)
Example ex_C103_converges : exists bq r, splines notaknot /\ band notaknot bq sun0 sun0 [1;2;3;4] [0;1;1;0] r [1;2;3;4] [0;1;1;0] /\
  curved 0 (fun t => 1 + 2 * t) 1 4 /\ 0 < RInt (fun t => ab_flux t * spline notaknot [1;2;3;4] [0;1;1;0] t * t) 1 4 /\
  forall d0, 0 < d0 -> exists sw s, spectrum sw (map (fun t => 1 + 2 * t) sw) s /\ overlaps [1;2;3;4] sw /\ brackets [1;2;3;4] sw /\
    (forall t, 1 <= t <= 4 -> spline notaknot sw (map (fun t => 1 + 2 * t) sw) t = 1 + 2 * t) /\
    forall a b, adjacent sw a b -> b - a <= d0.
Proof. exact E_C103_converges. Qed.

(** C13 for the curve between the samples: after any calls and set_redshift z, z > -1, the integral of the interpolated spectrum over
    the wavelengths sampled is that of the rest-frame one. *)
Theorem C13_integral :
  forall cub sw f (s0 : sed R), splines cub -> spectrum sw f s0 ->
    forall ops z, -1 < z ->
      let s := fst (sed_step (sed_run s0 ops) (SetRedshift z)) in
      let rest := spline cub sw f in
      let seen := spline cub (s_wave s) (hd [] (lrows (s_flux s))) in
      ex_RInt rest (nth 0 sw 0) (last sw 0) /\
      is_RInt seen (nth 0 (s_wave s) 0) (last (s_wave s) 0) (RInt rest (nth 0 sw 0) (last sw 0)).
Proof. exact L_C13_integral. Qed.
Print Assumptions C13_integral.

Example ex_C13_integral : exists s, splines notaknot /\ spectrum [1/2;1;2;3;4;5] [1;1;2;2;1;1] s /\ -1 < 1/2.
Proof. exact E_C13_integral. Qed.
