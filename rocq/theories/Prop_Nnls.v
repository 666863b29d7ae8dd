(** Property theorems; proofs are in NnlsThms.v.  Generated by tools/gen_prop.py. *)
From Coq Require Import String List Arith Lia Bool ZArith QArith Qreals Reals Lra Sorting.Sorted.
From Verif Require Import Base BaseLemmas Num Toy Interp InterpReal Spec Utils Sed Response RespDict LinInterp ResponseEx
  Fitter FitSpec FitterProofs FitterMC FitReal FitTable FitEx FitRealEx FitterThms FitRealThms NnlsSpec NnlsExact NnlsEx.
Import ListNotations.
Local Open Scope R_scope.
From Verif Require Import NnlsThms.

(** C80.  There is a solver that meets the contract and never fails. *)
Theorem C80_solver :
  exists nnls, nnls_contract nnls /\ nnls_shape nnls /\ forall mi n A b, exists x, nnls mi n A b = Some x.
Proof. exact L_C80_solver. Qed.
Print Assumptions C80_solver.

Example ex_C80_solver : nnls_exact None 1 [[2]; [6]] [2; 12] = Some [19 / 10].
Proof. exact E_C80_solver. Qed.

(** With that solver the fit of every object in range returns coefficients. *)
Theorem C80_fit_returns :
  exists nnls, nnls_contract nnls /\ nnls_shape nnls /\
    forall rng (F : fitter R) A nb nt o cur,
      no_ab F -> ready F A nb nt -> nb <> 1%nat -> obj_ok nb o -> in_range (a_x A) (o_z o) ->
      exists c, length c = nt /\ fit_object nnls rng F 0 o cur = Ok (Bare (vec c), cur).
Proof. exact L_C80_fit_returns. Qed.
Print Assumptions C80_fit_returns.

Example ex_C80_fit_returns : ready r_fitter r_tab 2 1 /\ in_range (a_x r_tab) (1 / 2) /\
  obj_ok 2 {| o_z := 1 / 2; o_m := [2; 6]; o_iv := [1; 4] |}.
Proof. exact E_C80_fit_returns. Qed.

(** ... and so do all its Monte Carlo fits. *)
Theorem C80_monte_carlo_returns :
  exists nnls, nnls_contract nnls /\ nnls_shape nnls /\
    forall rng (F : fitter R) A nb nt mc o cur,
      no_ab F -> ready F A nb nt -> nb <> 1%nat -> obj_ok nb o -> in_range (a_x A) (o_z o) -> nonneg (o_iv o) -> mc <> 0%nat ->
      exists c cm mm cur', length c = nt /\ fit_object nnls rng F mc o cur = Ok (Three (vec c) cm mm, cur').
Proof. exact L_C80_monte_carlo_returns. Qed.
Print Assumptions C80_monte_carlo_returns.

Example ex_C80_monte_carlo_returns : ready r_fitter r_tab 2 1 /\ in_range (a_x r_tab) (1 / 2) /\ nonneg [1; 4].
Proof. exact E_C80_monte_carlo_returns. Qed.

(** Whatever the solver: nonnegative coefficients of least chi^2 exist for every object in range. *)
Theorem C80_best_exists :
  forall (F : fitter R) A nb nt z m iv,
    no_ab F -> ready F A nb nt -> nb <> 1%nat -> length m = nb -> length iv = nb -> nonneg iv -> in_range (a_x A) z ->
    exists c p, length c = nt /\ nonneg c /\ reconstruct F (Some (scal z)) (Some (vec c)) 0 = Ok (vec p) /\
      forall y q, length y = nt -> nonneg y -> reconstruct F (Some (scal z)) (Some (vec y)) 0 = Ok (vec q) ->
        chi2 iv m p <= chi2 iv m q.
Proof. exact L_C80_best_exists. Qed.
Print Assumptions C80_best_exists.

Example ex_C80_best_exists : ready r_fitter r_tab 2 1 /\ nonneg [1; 4] /\ in_range (a_x r_tab) (1 / 2).
Proof. exact E_C80_best_exists. Qed.

(** C81.  The optimality conditions of the fit: the weighted residual is orthogonal to the fitted fluxes and no
    nonnegative combination of templates can reduce it. *)
Theorem C81_conditions :
  forall nnls rng (F : fitter R) A nb nt o cur c cur' p,
    nnls_contract nnls -> no_ab F -> ready F A nb nt -> nb <> 1%nat -> obj_ok nb o ->
    nonneg (o_iv o) -> in_range (a_x A) (o_z o) ->
    fit_object nnls rng F 0 o cur = Ok (Bare (vec c), cur') ->
    reconstruct F (Some (scal (o_z o))) (Some (vec c)) 0 = Ok (vec p) ->
    wdot (o_iv o) (vsub p (o_m o)) p = 0 /\
    forall y q, length y = nt -> nonneg y -> reconstruct F (Some (scal (o_z o))) (Some (vec y)) 0 = Ok (vec q) ->
      0 <= wdot (o_iv o) (vsub p (o_m o)) q.
Proof. exact L_C81_conditions. Qed.
Print Assumptions C81_conditions.

Example ex_C81_conditions :
  nnls_contract nnls1 /\
  fit_object nnls1 (fun _ => 0) r_fitter 0 {| o_z := 1 / 2; o_m := [2; 6]; o_iv := [1; 4] |} 0 = Ok (Bare (vec [19 / 10]), 0%nat) /\
  reconstruct r_fitter (Some (scal (1 / 2))) (Some (vec [19 / 10])) 0 = Ok (vec [19 / 5; 57 / 10]) /\
  wdot [1; 4] (vsub [19 / 5; 57 / 10] [2; 6]) [2; 3] = 0.
Proof. exact E_C81_conditions. Qed.

(** ... and they suffice: nonnegative coefficients that satisfy them predict the fluxes of the fit in every
    measured band and have its chi^2. *)
Theorem C81_sufficient :
  forall nnls rng (F : fitter R) A nb nt o cur c cur' p x px,
    nnls_contract nnls -> no_ab F -> ready F A nb nt -> nb <> 1%nat -> obj_ok nb o ->
    nonneg (o_iv o) -> in_range (a_x A) (o_z o) ->
    fit_object nnls rng F 0 o cur = Ok (Bare (vec c), cur') ->
    reconstruct F (Some (scal (o_z o))) (Some (vec c)) 0 = Ok (vec p) ->
    length x = nt -> nonneg x -> reconstruct F (Some (scal (o_z o))) (Some (vec x)) 0 = Ok (vec px) ->
    wdot (o_iv o) (vsub px (o_m o)) px = 0 ->
    (forall y q, length y = nt -> nonneg y -> reconstruct F (Some (scal (o_z o))) (Some (vec y)) 0 = Ok (vec q) ->
      0 <= wdot (o_iv o) (vsub px (o_m o)) q) ->
    same_measured (o_iv o) p px /\ chi2 (o_iv o) (o_m o) p = chi2 (o_iv o) (o_m o) px.
Proof. exact L_C81_sufficient. Qed.
Print Assumptions C81_sufficient.

Example ex_C81_sufficient :
  wdot [1; 4] (vsub [19 / 5; 57 / 10] [2; 6]) [19 / 5; 57 / 10] = 0 /\
  (forall t, 0 <= t -> 0 <= wdot [1; 4] (vsub [19 / 5; 57 / 10] [2; 6]) [2 * t; 3 * t]) /\
  same_measured [1; 0] [3; 4] [3; 5].
Proof. exact E_C81_sufficient. Qed.

(** chi^2 of the photometry against no light at all is the chi^2 of the fit plus that of the fitted fluxes: the fit
    never does worse than no light. *)
Theorem C81_pythagoras :
  forall nnls rng (F : fitter R) A nb nt o cur c cur' p,
    nnls_contract nnls -> no_ab F -> ready F A nb nt -> nb <> 1%nat -> obj_ok nb o ->
    nonneg (o_iv o) -> in_range (a_x A) (o_z o) ->
    fit_object nnls rng F 0 o cur = Ok (Bare (vec c), cur') ->
    reconstruct F (Some (scal (o_z o))) (Some (vec c)) 0 = Ok (vec p) ->
    chi2 (o_iv o) (o_m o) (repeat 0 nb) = chi2 (o_iv o) (o_m o) p + chi2 (o_iv o) p (repeat 0 nb).
Proof. exact L_C81_pythagoras. Qed.
Print Assumptions C81_pythagoras.

Example ex_C81_pythagoras :
  nnls_contract nnls1 /\ no_ab r_fitter /\ ready r_fitter r_tab 2 1 /\ nonneg [1; 4] /\ in_range (a_x r_tab) (1 / 2) /\
  fit_object nnls1 (fun _ => 0) r_fitter 0 {| o_z := 1 / 2; o_m := [2; 6]; o_iv := [1; 4] |} 0 = Ok (Bare (vec [19 / 10]), 0%nat) /\
  reconstruct r_fitter (Some (scal (1 / 2))) (Some (vec [19 / 10])) 0 = Ok (vec [19 / 5; 57 / 10]) /\
  chi2 [1; 4] [2; 6] [0; 0] = 148 /\ chi2 [1; 4] [2; 6] [19 / 5; 57 / 10] = 18 / 5 /\
  chi2 [1; 4] [19 / 5; 57 / 10] [0; 0] = 722 / 5.
Proof. exact E_C81_pythagoras. Qed.

(** The fluxes of the fit do not depend on the solver: two solvers that meet the contract give fits that agree in every
    measured band. *)
Theorem C81_unique :
  forall nnls nnls' rng rng' (F : fitter R) A nb nt o cur cur1 c cur1' c' cur' p p',
    nnls_contract nnls -> nnls_contract nnls' -> no_ab F -> ready F A nb nt -> nb <> 1%nat -> obj_ok nb o ->
    nonneg (o_iv o) -> in_range (a_x A) (o_z o) ->
    fit_object nnls rng F 0 o cur = Ok (Bare (vec c), cur1) ->
    fit_object nnls' rng' F 0 o cur1' = Ok (Bare (vec c'), cur') ->
    reconstruct F (Some (scal (o_z o))) (Some (vec c)) 0 = Ok (vec p) ->
    reconstruct F (Some (scal (o_z o))) (Some (vec c')) 0 = Ok (vec p') ->
    same_measured (o_iv o) p p'.
Proof. exact L_C81_unique. Qed.
Print Assumptions C81_unique.

Example ex_C81_unique : nnls_contract nnls1 /\ nnls_contract nnls_exact /\ nnls_contract (prefer [1; 2]) /\
  no_ab r_fitter /\ ready r_fitter r_tab 2 1 /\ nonneg [1; 4] /\ in_range (a_x r_tab) (1 / 2) /\
  (exists c, fit_object nnls1 (fun _ => 0) r_fitter 0 {| o_z := 1 / 2; o_m := [2; 6]; o_iv := [1; 4] |} 0 = Ok (Bare (vec c), 0%nat)) /\
  (exists c, fit_object nnls_exact (fun _ => 0) r_fitter 0 {| o_z := 1 / 2; o_m := [2; 6]; o_iv := [1; 4] |} 0 = Ok (Bare (vec c), 0%nat)).
Proof. exact E_C81_unique. Qed.

(** If no combination of templates is dark in every measured band, neither do the coefficients. *)
Theorem C81_coefficients :
  forall nnls nnls' rng rng' (F : fitter R) A nb nt o cur cur1 c cur1' c' cur',
    nnls_contract nnls -> nnls_contract nnls' -> no_ab F -> ready F A nb nt -> nb <> 1%nat -> obj_ok nb o ->
    nonneg (o_iv o) -> in_range (a_x A) (o_z o) ->
    (forall y q, length y = nt -> reconstruct F (Some (scal (o_z o))) (Some (vec y)) 0 = Ok (vec q) ->
       dark_measured (o_iv o) q -> y = repeat 0 nt) ->
    fit_object nnls rng F 0 o cur = Ok (Bare (vec c), cur1) ->
    fit_object nnls' rng' F 0 o cur1' = Ok (Bare (vec c'), cur') ->
    c = c'.
Proof. exact L_C81_coefficients. Qed.
Print Assumptions C81_coefficients.

Example ex_C81_coefficients :
  nnls_contract nnls1 /\ nnls_contract nnls_exact /\ no_ab r_fitter /\ ready r_fitter r_tab 2 1 /\ nonneg [1; 4] /\ in_range (a_x r_tab) (1 / 2) /\
  forall y q, length y = 1%nat -> reconstruct r_fitter (Some (scal (1 / 2))) (Some (vec y)) 0 = Ok (vec q) ->
    dark_measured [1; 4] q -> y = repeat 0 1.
Proof. exact E_C81_coefficients. Qed.

(** The coefficients themselves, and with them the fluxes at any other redshift, may depend on the solver. *)
Theorem C81_other_redshift_refuted :
  exists nnls nnls' rng (F : fitter R) A o c c' p p',
    nnls_contract nnls /\ nnls_contract nnls' /\ no_ab F /\ ready F A 2 2 /\ obj_ok 2 o /\ Forall (Rlt 0) (o_iv o) /\
    in_range (a_x A) (o_z o) /\
    fit_object nnls rng F 0 o 0 = Ok (Bare (vec c), 0%nat) /\ fit_object nnls' rng F 0 o 0 = Ok (Bare (vec c'), 0%nat) /\
    reconstruct F (Some (scal 1)) (Some (vec c)) 0 = Ok (vec p) /\
    reconstruct F (Some (scal 1)) (Some (vec c')) 0 = Ok (vec p') /\ ~ same_measured (o_iv o) p p'.
Proof. exact L_C81_other_redshift_refuted. Qed.
Print Assumptions C81_other_redshift_refuted.

(** The fit is stable: at the same redshift with the same inverse variances, the fitted fluxes of two objects are no
    further apart, in chi^2, than their photometry. *)
Theorem C81_stable :
  forall nnls rng (F : fitter R) A nb nt z iv m1 m2 cur1 c1 cur1' cur2 c2 cur2' p1 p2,
    nnls_contract nnls -> no_ab F -> ready F A nb nt -> nb <> 1%nat ->
    length m1 = nb -> length m2 = nb -> length iv = nb -> nonneg iv -> in_range (a_x A) z ->
    fit_object nnls rng F 0 {| o_z := z; o_m := m1; o_iv := iv |} cur1 = Ok (Bare (vec c1), cur1') ->
    fit_object nnls rng F 0 {| o_z := z; o_m := m2; o_iv := iv |} cur2 = Ok (Bare (vec c2), cur2') ->
    reconstruct F (Some (scal z)) (Some (vec c1)) 0 = Ok (vec p1) ->
    reconstruct F (Some (scal z)) (Some (vec c2)) 0 = Ok (vec p2) ->
    chi2 iv p1 p2 <= chi2 iv m1 m2.
Proof. exact L_C81_stable. Qed.
Print Assumptions C81_stable.

Example ex_C81_stable :
  fit_object nnls1 (fun _ => 0) r_fitter 0 {| o_z := 1 / 2; o_m := [2; 6]; o_iv := [1; 4] |} 0 = Ok (Bare (vec [19 / 10]), 0%nat) /\
  fit_object nnls1 (fun _ => 0) r_fitter 0 {| o_z := 1 / 2; o_m := [4; 6]; o_iv := [1; 4] |} 0 = Ok (Bare (vec [2]), 0%nat) /\
  chi2 [1; 4] [19 / 5; 57 / 10] [4; 6] = 2 / 5 /\ chi2 [1; 4] [2; 6] [4; 6] = 4.
Proof. exact E_C81_stable. Qed.

(** Photometry in other units (k > 0) with errors in the same units: the fitted fluxes are in those units. *)
Theorem C81_units :
  forall nnls rng (F : fitter R) A nb nt z iv m k cur1 c1 cur1' cur2 c2 cur2' p1 p2,
    nnls_contract nnls -> no_ab F -> ready F A nb nt -> nb <> 1%nat ->
    length m = nb -> length iv = nb -> nonneg iv -> in_range (a_x A) z -> 0 < k ->
    fit_object nnls rng F 0 {| o_z := z; o_m := m; o_iv := iv |} cur1 = Ok (Bare (vec c1), cur1') ->
    fit_object nnls rng F 0 {| o_z := z; o_m := map (Rmult k) m; o_iv := map (fun v => v / (k * k)) iv |} cur2 =
      Ok (Bare (vec c2), cur2') ->
    reconstruct F (Some (scal z)) (Some (vec c1)) 0 = Ok (vec p1) ->
    reconstruct F (Some (scal z)) (Some (vec c2)) 0 = Ok (vec p2) ->
    same_measured iv (map (Rmult k) p1) p2.
Proof. exact L_C81_units. Qed.
Print Assumptions C81_units.

Example ex_C81_units :
  nnls_contract nnls_exact /\ no_ab r_fitter /\ ready r_fitter r_tab 2 1 /\ nonneg [1; 4] /\ in_range (a_x r_tab) (1 / 2) /\
  map (Rmult 10) [2; 6] = [20; 60] /\ map (fun v => v / (10 * 10)) [1; 4] = [1 / 100; 1 / 25] /\
  (exists c, fit_object nnls_exact (fun _ => 0) r_fitter 0 {| o_z := 1 / 2; o_m := [2; 6]; o_iv := [1; 4] |} 0 = Ok (Bare (vec c), 0%nat)) /\
  (exists c, fit_object nnls_exact (fun _ => 0) r_fitter 0 {| o_z := 1 / 2; o_m := [20; 60]; o_iv := [1 / 100; 1 / 25] |} 0 = Ok (Bare (vec c), 0%nat)).
Proof. exact E_C81_units. Qed.

(** The fluxes of a Monte Carlo fit are no further in chi^2 from those of the fit than the sum of the squares of its
    normal variates, one per measured band. *)
Theorem C81_monte_carlo :
  forall nnls rng (F : fitter R) A nb nt mc o cur c cm mm cur' p,
    nnls_contract nnls -> nnls_shape nnls -> no_ab F -> ready F A nb nt -> nb <> 1%nat -> obj_ok nb o ->
    nonneg (o_iv o) -> in_range (a_x A) (o_z o) -> mc <> 0%nat ->
    fit_object nnls rng F mc o cur = Ok (Three (vec c) cm mm, cur') ->
    reconstruct F (Some (scal (o_z o))) (Some (vec c)) 0 = Ok (vec p) ->
    forall i, (i < mc)%nat ->
      let k := length (filter (fun v => if Rlt_dec 0 v then true else false) (o_iv o)) in
      exists q, reconstruct F (Some (scal (o_z o))) (Some (vec (column nt mc i cm))) 0 = Ok (vec q) /\
        chi2 (o_iv o) p q <= fold_right Rplus 0 (map (fun j => rng (cur + i * k + j)%nat * rng (cur + i * k + j)%nat) (seq 0 k)).
Proof. exact L_C81_monte_carlo. Qed.
Print Assumptions C81_monte_carlo.

Example ex_C81_monte_carlo : exists c cm mm p,
  fit_object nnls_exact (fun _ => 1 / 2) r_fitter 3 {| o_z := 1 / 2; o_m := [2; 6]; o_iv := [1; 4] |} 0 = Ok (Three (vec c) cm mm, 6%nat) /\
  reconstruct r_fitter (Some (scal (1 / 2))) (Some (vec c)) 0 = Ok (vec p).
Proof. exact E_C81_monte_carlo. Qed.

Example ex_C28_monte_carlo : exists c cm mm,
  nnls_contract nnls_exact /\ nnls_shape nnls_exact /\ no_ab r_fitter /\ ready r_fitter r_tab 2 1 /\
  obj_ok 2 {| o_z := 1 / 2; o_m := [2; 6]; o_iv := [1; 4] |} /\ nonneg [1; 4] /\ in_range (a_x r_tab) (1 / 2) /\
  fit_object nnls_exact (fun _ => 1 / 2) r_fitter 3 {| o_z := 1 / 2; o_m := [2; 6]; o_iv := [1; 4] |} 0 = Ok (Three (vec c) cm mm, 6%nat).
Proof. exact E_C28_monte_carlo. Qed.
