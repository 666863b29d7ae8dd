(** Vocabulary for the rounding errors of fits (C100). *)
From Coq Require Import List Arith Reals.
From Verif Require Import Base Num Fitter FitSpec ApproxSpec RoundSpec.
Import ListNotations.
Local Open Scope R_scope.

(** The square root has a relative error of at most [u], and no number is infinite or NaN (no overflow). *)
Record std_sqrt (u : R) (N : Num R) : Prop := {
  std_root : forall a, 0 <= a -> rel u (@nsqrt R N a) (sqrt a);
  std_fin : forall a, @nfin R N a = true
}.

(** The relative error of an entry of the weighted design matrix that is passed to the solver: 9 roundings; the interpolation
    between grid redshifts with fluxes that differ by a factor of at most [kappa] amplifies them by at most 2 [kappa]. *)
Definition matrix_error (u kappa : R) : R := 2 * kappa * growth u 9.

(** [c'] is [c] with relative errors of at most [u]: c itself, or c stored in a float32 array. *)
Definition stored (u : R) (c c' : list R) : Prop :=
  length c' = length c /\ forall j, (j < length c)%nat -> rel u (nth j c' 0) (nth j c 0).

(** The nonnegative coefficients [c] predict, in exact arithmetic at redshift [z], the fluxes [m] of inverse variances [iv] with
    a sqrt(chi^2) that no other nonnegative coefficients undercut by more than [delta] times the signal to noise ratio. *)
Definition near_best (F : fitter R) (nt : nat) (z : R) (m iv : list R) (delta : R) (c : list R) : Prop :=
  length c = nt /\ nonneg c /\
  exists p, reconstruct F (Some (scal z)) (Some (vec c)) 0 = Ok (vec p) /\
    forall y, length y = nt -> nonneg y ->
      exists q, reconstruct F (Some (scal z)) (Some (vec y)) 0 = Ok (vec q) /\
        sqrt (chi2 iv m p) <= sqrt (chi2 iv m q) + delta * sqrt (signal2 iv m).
(** The loss of a fit: [eps] is the error of the solver. *)
Definition fit_loss (u kappa eps : R) : R := 10 * matrix_error u kappa + 2 * sqrt eps.
