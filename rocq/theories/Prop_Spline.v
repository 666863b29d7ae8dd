(** Property theorems; proofs are in SplineThms.v.  Generated by tools/gen_prop.py. *)
From Coq Require Import List Arith Lia Bool ZArith QArith Qreals Reals Lra Classical_Prop FunctionalExtensionality Sorting.Sorted Sorting.Permutation.
From Verif Require Import Base BaseLemmas Num Toy Interp InterpReal Spec Utils Sed Response ResponseProofs
  ResponseObj ResponseFwhm LinInterp ResponseEx Spline SplineSpec.
Import ListNotations.
Local Open Scope R_scope.
From Verif Require Import SplineThms.

(** C78.  The not-a-knot spline exists for every increasing sample list of four or more samples: the model's [notaknot]
    computes it. *)
Theorem C78_exists : splines notaknot.
Proof. exact L_C78_exists. Qed.
Print Assumptions C78_exists.

(** ... and is unique within the sampled range (outside interp1d returns 0 anyway). *)
Theorem C78_unique :
  forall cub cub' xs ys t, splines cub -> splines cub' -> StronglySorted Rlt xs -> (4 <= length xs)%nat -> length ys = length xs ->
    spline cub xs ys t = spline cub' xs ys t.
Proof. exact L_C78_unique. Qed.
Print Assumptions C78_unique.

Example ex_C78_unique : splines notaknot /\ StronglySorted Rlt [1;2;3;4] /\ length [0;1;1;0] = length [1;2;3;4].
Proof. exact E_C78_unique. Qed.

(** The interpolated curve passes through its samples. *)
Theorem C78_at_samples :
  forall cub xs ys k, splines cub -> StronglySorted Rlt xs -> (4 <= length xs)%nat -> length ys = length xs -> (k < length xs)%nat ->
    spline cub xs ys (nth k xs 0) = nth k ys 0.
Proof. exact L_C78_at_samples. Qed.
Print Assumptions C78_at_samples.

Example ex_C78_at_samples : splines notaknot /\ StronglySorted Rlt [1;2;4;5;9] /\ (4 <= length [1;2;4;5;9])%nat /\
  length [0;3;-1;2;7] = length [1;2;4;5;9] /\ (2 < length [1;2;4;5;9])%nat.
Proof. exact E_C78_at_samples. Qed.

(** The curve of a cubic polynomial is that polynomial. *)
Theorem C78_cubics :
  forall cub xs q t, splines cub -> StronglySorted Rlt xs -> (4 <= length xs)%nat -> nth 0 xs 0 <= t <= last xs 0 ->
    spline cub xs (map (peval q) xs) t = peval q t.
Proof. exact L_C78_cubics. Qed.
Print Assumptions C78_cubics.

Example ex_C78_cubics : splines notaknot /\ StronglySorted Rlt [1;2;4;5;9] /\ (4 <= length [1;2;4;5;9])%nat /\
  nth 0 [1;2;4;5;9] 0 <= 7 / 2 <= last [1;2;4;5;9] 0.
Proof. exact E_C78_cubics. Qed.

(** Changing the unit of wavelength and of flux: what set_redshift does with s = 1+z and c = 1/(1+z). *)
Theorem C78_scaling :
  forall cub xs ys s c t, splines cub -> StronglySorted Rlt xs -> (4 <= length xs)%nat -> length ys = length xs -> 0 < s ->
    spline cub (map (fun x => x * s) xs) (map (fun v => c * v) ys) (t * s) = c * spline cub xs ys t.
Proof. exact L_C78_scaling. Qed.
Print Assumptions C78_scaling.

Example ex_C78_scaling : splines notaknot /\ StronglySorted Rlt [1;2;3;4] /\ 0 < 1 + 1 / 2.
Proof. exact E_C78_scaling. Qed.

(** C20.  FWHM limits for the spline and a root finder with tolerance [tol] (brentq: xtol + rtol times the root): they lie in
    the band, in order, and within [tol] of points where the interpolated curve is half the largest sample, unless they are the
    ends of the band; all samples further out are at or below half maximum. *)
Theorem C20_tolerance :
  forall cub bq tol sun vega wave y r w yy M, splines cub -> root_finder tol bq ->
    band cub bq sun vega wave y r w yy -> In M yy -> (forall v, In v yy -> v <= M) -> 0 < M ->
    let c := spline cub w yy in
    let half_max_near x := exists t, Rabs (x - t) <= tol /\ nth 0 w 0 <= t <= last w 0 /\ c t = M / 2 in
    exists lo hi, p_fwhm r = Some (lo, hi, hi - lo) /\ nth 0 w 0 <= lo <= hi /\ hi <= last w 0 /\
      (lo <> nth 0 w 0 -> half_max_near lo) /\ (hi <> last w 0 -> half_max_near hi) /\
      (forall k, (k < length w)%nat -> nth k w 0 < lo -> nth k yy 0 <= M / 2) /\
      (forall k, (k < length w)%nat -> hi < nth k w 0 -> nth k yy 0 < M / 2).
Proof. exact L_C20_tolerance. Qed.
Print Assumptions C20_tolerance.

(** C15.  The constructor of Response succeeds on any four or more samples at different wavelengths, not all zero or negative, given
    usable solar and Vega files. *)
Theorem C15_constructs :
  forall cub bq tol sun vega (wave y : list R), splines cub -> root_finder tol bq -> reference_file sun -> reference_file vega ->
    length y = length wave -> NoDup wave -> (4 <= length wave)%nat -> Exists (fun v => 0 < v) y ->
    exists r w yy, Response cub bq sun vega wave y = Ok r /\ p_wave r = Some w /\ p_resp r = Some yy /\ sorted_samples wave y w yy.
Proof. exact L_C15_constructs. Qed.
Print Assumptions C15_constructs.

Example ex_C15_constructs : splines notaknot /\ (exists bq, root_finder (1 / 1000) bq) /\ reference_file sun0 /\
  NoDup [4;3;2;1] /\ Exists (fun v => 0 < v) [0;1;1;0].
Proof. exact E_C15_constructs. Qed.

(** C17.  project is linear in the flux, with no assumption on the spline. *)
Theorem C17_linear_spline :
  forall cub bq sun vega wave y r w yy sw f1 f2 a b s1 s2 s12, splines cub ->
    band cub bq sun vega wave y r w yy ->
    spectrum sw f1 s1 -> spectrum sw f2 s2 -> spectrum sw (zip (fun u v => a * u + b * v) f1 f2) s12 ->
    exists m1 m2, project_sed cub r s1 = Ok (scal m1) /\ project_sed cub r s2 = Ok (scal m2) /\
                  project_sed cub r s12 = Ok (scal (a * m1 + b * m2)).
Proof. exact L_C17_linear_spline. Qed.
Print Assumptions C17_linear_spline.

Example ex_C17_linear_spline : exists bq r s1 s2 s12, splines notaknot /\ band notaknot bq sun0 sun0 [1;2;3;4] [0;1;1;0] r [1;2;3;4] [0;1;1;0] /\
  spectrum [1;2;3;4] [1;2;2;5] s1 /\ spectrum [1;2;3;4] [3;1;4;1] s2 /\
  spectrum [1;2;3;4] (zip (fun u v => 2 * u + -1 * v) [1;2;2;5] [3;1;4;1]) s12.
Proof. exact E_C17_linear_spline. Qed.

(** C16.  An AB source sampled at the wavelengths of the response within its band, and beyond it on both sides, projects to exactly
    1 through every response with nonnegative samples that are not all zero. *)
Theorem C16_same_samples :
  forall cub bq sun vega wave y r w yy sw s, splines cub ->
    band cub bq sun vega wave y r w yy -> spectrum sw (map ab_flux sw) s -> brackets w sw ->
    (forall t, nth 0 w 0 <= t <= last w 0 -> (In t w <-> In t sw)) ->
    Forall (fun v => 0 <= v) yy -> Exists (fun v => 0 < v) yy ->
    project_sed cub r s = Ok (scal 1).
Proof. exact L_C16_same_samples. Qed.
Print Assumptions C16_same_samples.

Example ex_C16_same_samples : exists bq r s, splines notaknot /\ band notaknot bq sun0 sun0 [1;2;3;4] [0;1;1;0] r [1;2;3;4] [0;1;1;0] /\
  spectrum [1/2;1;2;3;4;5] (map ab_flux [1/2;1;2;3;4;5]) s /\ brackets [1;2;3;4] [1/2;1;2;3;4;5] /\
  (forall t, 1 <= t <= 4 -> (In t [1;2;3;4] <-> In t [1/2;1;2;3;4;5])).
Proof. exact E_C16_same_samples. Qed.

Example ex_C20_tolerance : exists bq r, splines notaknot /\ root_finder (1/1000) bq /\
  band notaknot bq sun0 sun0 [1;2;3;4] [0;1;1;0] r [1;2;3;4] [0;1;1;0] /\ In 1 [0;1;1;0].
Proof. exact E_C20_tolerance. Qed.
