(** Property theorems; proofs are in FitRoundThms.v.  Generated by tools/gen_prop.py. *)
From Coq Require Import String List Arith Lia Bool ZArith QArith Qreals Reals Lra Sorting.Sorted.
From Flocq Require Import Core.
From Verif Require Import Base BaseLemmas Num Toy Interp InterpReal Spec Utils Sed Response RespDict LinInterp ResponseEx
  Fitter FitSpec FitterProofs FitterMC FitReal FitTable FitEx FitRealEx FitterThms FitRealThms NnlsSpec NnlsExact NnlsEx NnlsThms
  ApproxSpec ApproxThms RoundSpec RoundProofs RoundThms FitRoundSpec FitRoundProofs.
Import ListNotations.
Local Open Scope R_scope.
From Verif Require Import FitRoundThms.

(** C100.  A fit in an arithmetic that rounds, with photometry, redshift and design matrix rounded before they reach the
    solver: in exact arithmetic, at the rounded redshift, no nonnegative coefficients have a sqrt(chi^2) that is lower by more
    than 10 eta + 2 sqrt(eps) times the signal to noise ratio, where eta is the error of an entry of the design matrix and
    eps that of the solver.  This is also true for the coefficients stored in a float32 array. *)
Theorem C100_optimal :
  forall u kappa (N : Num R) nnls eps rng (F : fitter R) A nb nt o cur c cur' c',
    0 <= u < 1 -> std_model u N -> std_sqrt u N -> 1 <= kappa -> matrix_error u kappa <= 1 / 10 ->
    nnls_within eps nnls -> 0 <= eps <= 1 / 100 ->
    @no_ab R N F -> ready F A nb nt -> grid_ok (a_x A) -> gentle kappa A nb nt -> nb <> 1%nat -> obj_ok nb o -> nonneg (o_iv o) ->
    let z' := @cst R N (o_z o) in
    in_range (a_x A) z' ->
    @fit_object R N nnls rng F 0 o cur = Ok (Bare (vec c), cur') -> stored u c c' ->
    rel u z' (o_z o) /\ near_best F nt z' (o_m o) (o_iv o) (fit_loss u kappa eps) c'.
Proof. exact L_C100_optimal. Qed.
Print Assumptions C100_optimal.

Example ex_C100_optimal :
  std_model (bpow radix2 (-24)) Num_24 /\ std_sqrt (bpow radix2 (-24)) Num_24 /\ nnls_within 0 nnls_exact /\
  fit_loss (bpow radix2 (-24)) 3 0 <= 6 / 100000 /\
  ready r_fitter r_tab 2 1 /\ grid_ok (a_x r_tab) /\ gentle 3 r_tab 2 1 /\ in_range (a_x r_tab) (@cst R Num_24 (1 / 2)) /\
  exists c, @fit_object R Num_24 nnls_exact (fun _ => 0) r_fitter 0 {| o_z := 1 / 2; o_m := [2; 6]; o_iv := [1; 4] |} 0 =
            Ok (Bare (vec c), 0%nat) /\
    stored (bpow radix2 (-24)) c (map rnd24 c).
Proof. exact E_C100_optimal. Qed.

(** C100.  The same for every object of a batch, whose coefficients are stored in float32. *)
Theorem C100_batch :
  forall u kappa (N : Num R) nnls eps rng (F : fitter R) A nb nt objs cur a cur',
    0 <= u < 1 -> std_model u N -> std_sqrt u N -> 1 <= kappa -> matrix_error u kappa <= 1 / 10 ->
    nnls_within eps nnls -> nnls_shape nnls -> 0 <= eps <= 1 / 100 ->
    @no_ab R N F -> ready F A nb nt -> grid_ok (a_x A) -> gentle kappa A nb nt -> nb <> 1%nat -> length objs <> 1%nat ->
    Forall (fun o => obj_ok nb o /\ nonneg (o_iv o) /\ in_range (a_x A) (@cst R N (o_z o))) objs ->
    @fit_objects R N nnls rng F nb 0 objs cur = Ok (Bare a, cur') ->
    forall i o, nth_error objs i = Some o ->
      exists c, row i a = vec c /\ near_best F nt (@cst R N (o_z o)) (o_m o) (o_iv o) (fit_loss u kappa eps) c.
Proof. exact L_C100_batch. Qed.
Print Assumptions C100_batch.

Example ex_C100_batch :
  nnls_shape nnls_exact /\
  (let o := {| o_z := 1 / 2; o_m := [2; 6]; o_iv := [1; 4] |} in
   obj_ok 2 o /\ nonneg (o_iv o) /\ in_range (a_x r_tab) (@cst R Num_24 (o_z o)) /\
   exists a, @fit_objects R Num_24 nnls_exact (fun _ => 0) r_fitter 2 0 [o; o] 0 = Ok (Bare a, 0%nat)).
Proof. exact E_C100_batch. Qed.

(** C100.  Photometry that the templates reproduce exactly at the rounded redshift is recovered within a fraction of
    10 eta + 2 sqrt(eps) of the signal to noise ratio. *)
Theorem C100_recover :
  forall u kappa (N : Num R) nnls eps rng (F : fitter R) A nb nt o cur c cur' c' c0 p,
    0 <= u < 1 -> std_model u N -> std_sqrt u N -> 1 <= kappa -> matrix_error u kappa <= 1 / 10 ->
    nnls_within eps nnls -> 0 <= eps <= 1 / 100 ->
    @no_ab R N F -> ready F A nb nt -> grid_ok (a_x A) -> gentle kappa A nb nt -> nb <> 1%nat -> obj_ok nb o -> nonneg (o_iv o) ->
    let z' := @cst R N (o_z o) in
    in_range (a_x A) z' ->
    @fit_object R N nnls rng F 0 o cur = Ok (Bare (vec c), cur') -> stored u c c' ->
    length c0 = nt -> nonneg c0 -> @reconstruct R Num_R F (Some (scal z')) (Some (vec c0)) 0 = Ok (vec (o_m o)) ->
    @reconstruct R Num_R F (Some (scal z')) (Some (vec c')) 0 = Ok (vec p) ->
    sqrt (chi2 (o_iv o) (o_m o) p) <= fit_loss u kappa eps * sqrt (signal2 (o_iv o) (o_m o)) /\
    forall i v a b, nth_error (o_iv o) i = Some v -> nth_error (o_m o) i = Some a -> nth_error p i = Some b ->
      sqrt v * Rabs (a - b) <= fit_loss u kappa eps * sqrt (signal2 (o_iv o) (o_m o)).
Proof. exact L_C100_recover. Qed.
Print Assumptions C100_recover.

Example ex_C100_recover :
  nonneg [2] /\
  @reconstruct R Num_R r_fitter (Some (scal (@cst R Num_24 (1 / 2)))) (Some (vec [2])) 0 = Ok (vec [4; 6]) /\
  exists c p, @fit_object R Num_24 nnls_exact (fun _ => 0) r_fitter 0 {| o_z := 1 / 2; o_m := [4; 6]; o_iv := [1; 4] |} 0 =
              Ok (Bare (vec c), 0%nat) /\
    @reconstruct R Num_R r_fitter (Some (scal (@cst R Num_24 (1 / 2)))) (Some (vec c)) 0 = Ok (vec p).
Proof. exact E_C100_recover. Qed.

(** C100.  The fluxes of the fit are near those of an exact fit at the rounded redshift. *)
Theorem C100_near :
  forall u kappa (N : Num R) nnls nnls' eps rng rng' (F : fitter R) A nb nt o cur c cur1 c' cs cur2 cur3 p q,
    0 <= u < 1 -> std_model u N -> std_sqrt u N -> 1 <= kappa -> matrix_error u kappa <= 1 / 10 ->
    nnls_within eps nnls -> nnls_contract nnls' -> 0 <= eps <= 1 / 100 ->
    @no_ab R N F -> ready F A nb nt -> grid_ok (a_x A) -> gentle kappa A nb nt -> nb <> 1%nat -> obj_ok nb o -> nonneg (o_iv o) ->
    let z' := @cst R N (o_z o) in
    in_range (a_x A) z' ->
    @fit_object R N nnls rng F 0 o cur = Ok (Bare (vec c), cur1) -> stored u c c' ->
    @fit_object R Num_R nnls' rng' F 0 {| o_z := z'; o_m := o_m o; o_iv := o_iv o |} cur2 = Ok (Bare (vec cs), cur3) ->
    @reconstruct R Num_R F (Some (scal z')) (Some (vec c')) 0 = Ok (vec p) ->
    @reconstruct R Num_R F (Some (scal z')) (Some (vec cs)) 0 = Ok (vec q) ->
    let delta := fit_loss u kappa eps in
    chi2 (o_iv o) p q <= (2 * delta + delta * delta) * signal2 (o_iv o) (o_m o).
Proof. exact L_C100_near. Qed.
Print Assumptions C100_near.

Example ex_C100_near :
  nnls_contract nnls_exact /\ in_range (a_x r_tab) (@cst R Num_24 (1 / 2)) /\
  exists c cs p q,
    @fit_object R Num_24 nnls_exact (fun _ => 0) r_fitter 0 {| o_z := 1 / 2; o_m := [2; 6]; o_iv := [1; 4] |} 0 = Ok (Bare (vec c), 0%nat) /\
    @fit_object R Num_R nnls_exact (fun _ => 0) r_fitter 0 {| o_z := @cst R Num_24 (1 / 2); o_m := [2; 6]; o_iv := [1; 4] |} 0 =
      Ok (Bare (vec cs), 0%nat) /\
    @reconstruct R Num_R r_fitter (Some (scal (@cst R Num_24 (1 / 2)))) (Some (vec c)) 0 = Ok (vec p) /\
    @reconstruct R Num_R r_fitter (Some (scal (@cst R Num_24 (1 / 2)))) (Some (vec cs)) 0 = Ok (vec q).
Proof. exact E_C100_near. Qed.
