(** Property theorems; proofs are in ApproxThms.v.  Generated by tools/gen_prop.py. *)
From Coq Require Import String List Arith Lia Bool ZArith QArith Qreals Reals Lra Sorting.Sorted.
From Verif Require Import Base BaseLemmas Num Toy Interp InterpReal Spec Utils Sed Response RespDict LinInterp ResponseEx
  Fitter FitSpec FitterProofs FitterMC FitReal FitTable FitEx FitRealEx FitterThms FitRealThms NnlsSpec NnlsExact NnlsEx NnlsThms
  ApproxSpec.
Import ListNotations.
Local Open Scope R_scope.
From Verif Require Import ApproxThms.

(** C84.  The contract of C28 is the case eps = 0. *)
Theorem C84_exact : forall nnls, nnls_contract nnls <-> nnls_within 0 nnls.
Proof. exact L_C84_exact. Qed.
Print Assumptions C84_exact.

Example ex_C84_exact : nnls_within 0 nnls_exact.
Proof. exact E_C84_exact. Qed.

(** C84.  A solver whose answers are too small by a fraction d misses the minimum by at most d^2. *)
Theorem C84_shrunk : forall nnls d, nnls_contract nnls -> 0 <= d <= 1 -> nnls_within (d * d) (shrunk d nnls).
Proof. exact L_C84_shrunk. Qed.
Print Assumptions C84_shrunk.

Example ex_C84_shrunk :
  nnls_within (1 / 100 * (1 / 100)) (shrunk (1 / 100) nnls1) /\
  shrunk (1 / 100) nnls1 None 1 [[1]; [2]] [1; 3] = Some [1386 / 1000].
Proof. exact E_C84_shrunk. Qed.

(** C84.  The fit of one object by such a solver: no other nonnegative coefficients predict fluxes with a chi^2 that is lower
    by more than eps times the squared signal to noise ratio of the photometry. *)
Theorem C84_optimal :
  forall nnls eps rng (F : fitter R) A nb nt o cur c cur',
    nnls_within eps nnls -> no_ab F -> ready F A nb nt -> nb <> 1%nat -> obj_ok nb o ->
    nonneg (o_iv o) -> in_range (a_x A) (o_z o) ->
    fit_object nnls rng F 0 o cur = Ok (Bare (vec c), cur') ->
    length c = nt /\ nonneg c /\
    exists p, reconstruct F (Some (scal (o_z o))) (Some (vec c)) 0 = Ok (vec p) /\
      forall y, length y = nt -> nonneg y ->
        exists q, reconstruct F (Some (scal (o_z o))) (Some (vec y)) 0 = Ok (vec q) /\
                  chi2 (o_iv o) (o_m o) p <= chi2 (o_iv o) (o_m o) q + eps * signal2 (o_iv o) (o_m o).
Proof. exact L_C84_optimal. Qed.
Print Assumptions C84_optimal.

(** C84.  Its fluxes are near those of the exact fit: the inverse variance weighted sum of their squared differences is at
    most eps times the squared signal to noise ratio. *)
Theorem C84_near :
  forall nnls nnls' eps rng rng' (F : fitter R) A nb nt o cur cur1 c cur1' c' cur' p p',
    nnls_within eps nnls -> nnls_contract nnls' -> no_ab F -> ready F A nb nt -> nb <> 1%nat -> obj_ok nb o ->
    nonneg (o_iv o) -> in_range (a_x A) (o_z o) ->
    fit_object nnls rng F 0 o cur = Ok (Bare (vec c), cur1) ->
    fit_object nnls' rng' F 0 o cur1' = Ok (Bare (vec c'), cur') ->
    reconstruct F (Some (scal (o_z o))) (Some (vec c)) 0 = Ok (vec p) ->
    reconstruct F (Some (scal (o_z o))) (Some (vec c')) 0 = Ok (vec p') ->
    chi2 (o_iv o) p p' <= eps * signal2 (o_iv o) (o_m o) /\
    forall i v a b, nth_error (o_iv o) i = Some v -> nth_error p i = Some a -> nth_error p' i = Some b ->
      v * ((a - b) * (a - b)) <= eps * signal2 (o_iv o) (o_m o).
Proof. exact L_C84_near. Qed.
Print Assumptions C84_near.

Example ex_C84_optimal :
  nnls_within (1 / 10 * (1 / 10)) (shrunk (1 / 10) nnls1) /\ ready r_fitter r_tab 2 1 /\
  fit_object (shrunk (1 / 10) nnls1) (fun _ => 0) r_fitter 0 {| o_z := 1 / 2; o_m := [2; 6]; o_iv := [1; 4] |} 0 =
  Ok (Bare (vec [171 / 100]), 0%nat) /\
  signal2 [1; 4] [2; 6] = 148.
Proof. exact E_C84_optimal. Qed.

Example ex_C84_near :
  nnls_contract nnls1 /\ nnls_within (1 / 10 * (1 / 10)) (shrunk (1 / 10) nnls1) /\
  chi2 [1; 4] [171 / 50; 513 / 100] [19 / 5; 57 / 10] = 1444 / 1000 /\ 1444 / 1000 <= 1 / 10 * (1 / 10) * signal2 [1; 4] [2; 6].
Proof. exact E_C84_near. Qed.

(** C84.  Two fits of the same bands at the same redshift, by any two such solvers: in units of the errors, the fitted fluxes
    differ by no more than the photometry does, plus the two solvers' errors. *)
Theorem C84_stable :
  forall nnls1 nnls2 e1 e2 rng1 rng2 (F : fitter R) A nb nt z iv m1 m2 cur1 c1 cur1' cur2 c2 cur2' p1 p2,
    nnls_within e1 nnls1 -> nnls_within e2 nnls2 -> no_ab F -> ready F A nb nt -> nb <> 1%nat ->
    length m1 = nb -> length m2 = nb -> length iv = nb -> nonneg iv -> in_range (a_x A) z ->
    fit_object nnls1 rng1 F 0 {| o_z := z; o_m := m1; o_iv := iv |} cur1 = Ok (Bare (vec c1), cur1') ->
    fit_object nnls2 rng2 F 0 {| o_z := z; o_m := m2; o_iv := iv |} cur2 = Ok (Bare (vec c2), cur2') ->
    reconstruct F (Some (scal z)) (Some (vec c1)) 0 = Ok (vec p1) ->
    reconstruct F (Some (scal z)) (Some (vec c2)) 0 = Ok (vec p2) ->
    sqrt (chi2 iv p1 p2) <= sqrt (chi2 iv m1 m2) + sqrt (e1 * signal2 iv m1) + sqrt (e2 * signal2 iv m2).
Proof. exact L_C84_stable. Qed.
Print Assumptions C84_stable.

Example ex_C84_stable :
  nnls_within (1 / 10 * (1 / 10)) (shrunk (1 / 10) nnls1) /\ nnls_within 0 nnls1 /\
  fit_object (shrunk (1 / 10) nnls1) (fun _ => 0) r_fitter 0 {| o_z := 1 / 2; o_m := [2; 6]; o_iv := [1; 4] |} 0 =
  Ok (Bare (vec [171 / 100]), 0%nat) /\
  fit_object nnls1 (fun _ => 0) r_fitter 0 {| o_z := 1 / 2; o_m := [4; 6]; o_iv := [1; 4] |} 0 = Ok (Bare (vec [2]), 0%nat).
Proof. exact E_C84_stable. Qed.

(** C84.  Photometry that nonnegative coefficients reproduce exactly is recovered up to the solver's error. *)
Theorem C84_recover :
  forall nnls eps rng (F : fitter R) A nb nt z iv m c0 cur c cur' p,
    nnls_within eps nnls -> no_ab F -> ready F A nb nt -> nb <> 1%nat -> length m = nb -> length iv = nb -> nonneg iv -> in_range (a_x A) z ->
    length c0 = nt -> nonneg c0 -> reconstruct F (Some (scal z)) (Some (vec c0)) 0 = Ok (vec m) ->
    fit_object nnls rng F 0 {| o_z := z; o_m := m; o_iv := iv |} cur = Ok (Bare (vec c), cur') ->
    reconstruct F (Some (scal z)) (Some (vec c)) 0 = Ok (vec p) ->
    chi2 iv m p <= eps * signal2 iv m.
Proof. exact L_C84_recover. Qed.
Print Assumptions C84_recover.

Example ex_C84_recover :
  no_ab r_fitter /\ ready r_fitter r_tab 2 1 /\ nonneg [1; 4] /\ in_range (a_x r_tab) (1 / 2) /\ nonneg [2] /\
  reconstruct r_fitter (Some (scal (1 / 2))) (Some (vec [2])) 0 = Ok (vec [4; 6]) /\
  nnls_within (1 / 10 * (1 / 10)) (shrunk (1 / 10) nnls1) /\
  exists c, fit_object (shrunk (1 / 10) nnls1) (fun _ => 0) r_fitter 0 {| o_z := 1 / 2; o_m := [4; 6]; o_iv := [1; 4] |} 0 = Ok (Bare (vec c), 0%nat).
Proof. exact E_C84_recover. Qed.
