(** Property theorems; proofs are in ActiveThms.v.  Generated by tools/gen_prop.py. *)
From Coq Require Import String List Arith Lia Bool ZArith QArith Qreals Reals Lra Sorting.Sorted.
From Verif Require Import Base BaseLemmas Num Toy Interp InterpReal Spec Utils Sed Response RespDict LinInterp ResponseEx
  Fitter FitSpec FitterProofs FitterMC FitReal FitTable FitEx FitRealEx FitterThms FitRealThms NnlsSpec NnlsExact NnlsEx
  BlendSpec SparseSpec SparseEx ActiveSpec.
Import ListNotations.
Local Open Scope R_scope.
From Verif Require Import ActiveThms.

(** C108.  Fits that use the same templates add up: the fluxes of the fit of a combination with nonnegative weights of photometry are the same combination of the fluxes of the
    fits, in every measured band.  The means of the Monte Carlo photometry and coefficients are an example. *)
Theorem C108_linear :
  forall nnls rng (F : fitter R) A nb nt z iv ms cs ws c p q,
    nnls_contract nnls -> no_ab F -> ready F A nb nt -> nb <> 1%nat -> length iv = nb -> nonneg iv -> in_range (a_x A) z ->
    Forall2 (fun m c => length m = nb /\ fit_of nnls rng F z iv m c) ms cs -> (forall c c', In c cs -> In c' cs -> within c c') ->
    length ws = length ms -> nonneg ws -> fit_of nnls rng F z iv (combined nb ms ws) c ->
    reconstruct F (Some (scal z)) (Some (vec c)) 0 = Ok (vec p) ->
    reconstruct F (Some (scal z)) (Some (vec (combined nt cs ws))) 0 = Ok (vec q) ->
    same_measured iv p q /\
    ((forall y r, length y = nt -> reconstruct F (Some (scal z)) (Some (vec y)) 0 = Ok (vec r) -> dark_measured iv r -> y = repeat 0 nt) ->
     c = combined nt cs ws).
Proof. exact L_C108_linear. Qed.
Print Assumptions C108_linear.

Example ex_C108_linear :
  no_ab twin_fitter /\ ready twin_fitter twin_tab 2 2 /\ in_range (a_x twin_tab) 1 /\
  fit_of nnls_exact (fun _ => 0) twin_fitter 1 [1; 1] [3; 1] [2; 0] /\ fit_of nnls_exact (fun _ => 0) twin_fitter 1 [1; 1] [5; 4] [9/2; 0] /\
  within [2; 0] [9/2; 0] /\ within [9/2; 0] [2; 0] /\ combined 2 [[3; 1]; [5; 4]] [2; 1] = [11; 6] /\
  fit_of nnls_exact (fun _ => 0) twin_fitter 1 [1; 1] [11; 6] [17/2; 0] /\ combined 2 [[2; 0]; [9/2; 0]] [2; 1] = [17/2; 0].
Proof. exact E_C108_linear. Qed.

(** A template that would make the fit worse stays unused as long as the photometry changes by less, in chi^2, than the square of the derivative of chi^2/2 with its coefficient
    over the signal to noise of its fluxes. *)
Theorem C108_unused :
  forall nnls rng (F : fitter R) A nb nt z iv m1 m2 c1 c2 p j q,
    nnls_contract nnls -> no_ab F -> ready F A nb nt -> nb <> 1%nat -> length iv = nb -> nonneg iv -> in_range (a_x A) z ->
    length m1 = nb -> length m2 = nb -> fit_of nnls rng F z iv m1 c1 -> fit_of nnls rng F z iv m2 c2 ->
    reconstruct F (Some (scal z)) (Some (vec c1)) 0 = Ok (vec p) ->
    reconstruct F (Some (scal z)) (Some (vec (single nt j))) 0 = Ok (vec q) ->
    chi2 iv m1 m2 * wdot iv q q < wdot iv (vsub p m1) q * wdot iv (vsub p m1) q -> nth j c2 0 = 0.
Proof. exact L_C108_unused. Qed.
Print Assumptions C108_unused.

Example ex_C108_unused :
  fit_of nnls_exact (fun _ => 0) twin_fitter 1 [1; 1] [3; 1] [2; 0] /\ fit_of nnls_exact (fun _ => 0) twin_fitter 1 [1; 1] [31/10; 1] [41/20; 0] /\
  reconstruct twin_fitter (Some (scal 1)) (Some (vec [2; 0])) 0 = Ok (vec [2; 2]) /\
  reconstruct twin_fitter (Some (scal 1)) (Some (vec (single 2 1))) 0 = Ok (vec [2; 3]) /\
  chi2 [1; 1] [3; 1] [31/10; 1] * wdot [1; 1] [2; 3] [2; 3] < wdot [1; 1] (vsub [2; 2] [3; 1]) [2; 3] * wdot [1; 1] (vsub [2; 2] [3; 1]) [2; 3].
Proof. exact E_C108_unused. Qed.

(** The fit of nearby photometry: if every unused template would make the fit worse and the used ones tell apart in the measured bands, then the fit of all photometry near enough uses
    the same templates, with coefficients that differ by at most a multiple of the distance of the photometry. *)
Theorem C108_nearby :
  forall nnls rng (F : fitter R) A nb nt z iv m1 c1 p,
    nnls_contract nnls -> no_ab F -> ready F A nb nt -> nb <> 1%nat -> length iv = nb -> nonneg iv -> in_range (a_x A) z ->
    length m1 = nb -> fit_of nnls rng F z iv m1 c1 -> reconstruct F (Some (scal z)) (Some (vec c1)) 0 = Ok (vec p) ->
    (forall j q, (j < nt)%nat -> nth j c1 0 = 0 -> reconstruct F (Some (scal z)) (Some (vec (single nt j))) 0 = Ok (vec q) ->
       0 < wdot iv (vsub p m1) q) ->
    (forall y q, length y = nt -> within c1 y -> reconstruct F (Some (scal z)) (Some (vec y)) 0 = Ok (vec q) -> dark_measured iv q -> y = repeat 0 nt) ->
    exists delta kappa, 0 < delta /\ 0 < kappa /\
      forall m2 c2, length m2 = nb -> chi2 iv m1 m2 < delta -> fit_of nnls rng F z iv m2 c2 ->
        within c1 c2 /\ within c2 c1 /\ forall j, (nth j c2 0 - nth j c1 0) ^ 2 <= kappa * chi2 iv m1 m2.
Proof. exact L_C108_nearby. Qed.
Print Assumptions C108_nearby.

Example ex_C108_nearby :
  fit_of nnls_exact (fun _ => 0) twin_fitter 1 [1; 1] [3; 1] [2; 0] /\
  reconstruct twin_fitter (Some (scal 1)) (Some (vec [2; 0])) 0 = Ok (vec [2; 2]) /\
  (forall j q, (j < 2)%nat -> nth j [2; 0] 0 = 0 -> reconstruct twin_fitter (Some (scal 1)) (Some (vec (single 2 j))) 0 = Ok (vec q) ->
     0 < wdot [1; 1] (vsub [2; 2] [3; 1]) q) /\
  (forall y q, length y = 2%nat -> within [2; 0] y -> reconstruct twin_fitter (Some (scal 1)) (Some (vec y)) 0 = Ok (vec q) -> dark_measured [1; 1] q -> y = repeat 0 2).
Proof. exact E_C108_nearby. Qed.

(** There, the coefficients are linear in the photometry: those of a combination with nonnegative weights are the combination of the coefficients. *)
Theorem C108_nearby_linear :
  forall nnls rng (F : fitter R) A nb nt z iv m1 c1 p,
    nnls_contract nnls -> no_ab F -> ready F A nb nt -> nb <> 1%nat -> length iv = nb -> nonneg iv -> in_range (a_x A) z ->
    length m1 = nb -> fit_of nnls rng F z iv m1 c1 -> reconstruct F (Some (scal z)) (Some (vec c1)) 0 = Ok (vec p) ->
    (forall j q, (j < nt)%nat -> nth j c1 0 = 0 -> reconstruct F (Some (scal z)) (Some (vec (single nt j))) 0 = Ok (vec q) ->
       0 < wdot iv (vsub p m1) q) ->
    (forall y q, length y = nt -> within c1 y -> reconstruct F (Some (scal z)) (Some (vec y)) 0 = Ok (vec q) -> dark_measured iv q -> y = repeat 0 nt) ->
    exists delta, 0 < delta /\
      forall ms cs ws c, Forall2 (fun m c => length m = nb /\ chi2 iv m1 m < delta /\ fit_of nnls rng F z iv m c) ms cs ->
        length ws = length ms -> nonneg ws -> chi2 iv m1 (combined nb ms ws) < delta -> fit_of nnls rng F z iv (combined nb ms ws) c ->
        c = combined nt cs ws.
Proof. exact L_C108_nearby_linear. Qed.
Print Assumptions C108_nearby_linear.

Example ex_C108_nearby_linear :
  fit_of nnls_exact (fun _ => 0) twin_fitter 1 [1; 1] [3; 1] [2; 0] /\
  (forall t, 0 <= t <= 1 -> combined 2 [[3; 1]; [3; 2]] [t; 1 - t] = [3; 2 - t] /\ fit_of nnls_exact (fun _ => 0) twin_fitter 1 [1; 1] [3; 2 - t] [(5 - t) / 2; 0]).
Proof. exact E_C108_nearby_linear. Qed.

(** The mean of the coefficients of Monte Carlo fits that use the same templates has the fluxes of the fit of the mean of the Monte Carlo photometry. *)
Theorem C108_monte_carlo :
  forall nnls rng (F : fitter R) A nb nt mc o cur c cm mm cur' ws cw p q,
    nnls_contract nnls -> nnls_shape nnls -> no_ab F -> ready F A nb nt -> nb <> 1%nat -> obj_ok nb o ->
    nonneg (o_iv o) -> in_range (a_x A) (o_z o) -> mc <> 0%nat ->
    fit_object nnls rng F mc o cur = Ok (Three (vec c) cm mm, cur') ->
    let cs := map (fun i => column nt mc i cm) (seq 0 mc) in
    let ms := map (fun i => column nb mc i mm) (seq 0 mc) in
    (forall c c', In c cs -> In c' cs -> within c c') -> length ws = mc -> nonneg ws ->
    fit_of nnls rng F (o_z o) (o_iv o) (combined nb ms ws) cw ->
    reconstruct F (Some (scal (o_z o))) (Some (vec cw)) 0 = Ok (vec p) ->
    reconstruct F (Some (scal (o_z o))) (Some (vec (combined nt cs ws))) 0 = Ok (vec q) -> same_measured (o_iv o) p q.
Proof. exact L_C108_monte_carlo. Qed.
Print Assumptions C108_monte_carlo.

Example ex_C108_monte_carlo : exists c cm mm cur',
  fit_object nnls_exact (fun _ => 0) twin_fitter 3 {| o_z := 1; o_m := [3; 1]; o_iv := [1; 1] |} 0 = Ok (Three (vec c) cm mm, cur') /\
  forall i, (i < 3)%nat -> column 2 3 i cm = c.
Proof. exact E_C108_monte_carlo. Qed.
