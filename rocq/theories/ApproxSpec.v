(** Solvers that only come close to the minimum (for C84).  scipy.optimize.nnls iterates in double precision, so what it
    returns is a minimiser only up to an error; fitter.py:155-232 does not check it. *)
From Coq Require Import List Reals.
From Verif Require Import Base Num FitSpec.
Import ListNotations.
Local Open Scope R_scope.

(** Whatever the solver returns is nonnegative and misses the least sum of squares by at most a fraction eps of the sum
    of squares of the data (the objective at x = 0). *)
Definition nnls_within (eps : R) (nnls : option nat -> nat -> list (list R) -> list R -> option (list R)) : Prop :=
  forall mi n A b x, rect n A -> length A = length b -> nnls mi n A b = Some x ->
    length x = n /\ nonneg x /\
    forall y, length y = n -> nonneg y -> sumsq (vsub (mulmv A x) b) <= sumsq (vsub (mulmv A y) b) + eps * sumsq b.

(** The squared signal to noise ratio of the photometry: chi^2 of predicting no flux. *)
Definition signal2 (iv m : list R) : R := chi2 iv m (repeat 0 (length m)).

(** A solver whose answers are all too small by a fraction d. *)
Definition shrunk (d : R) (nnls : option nat -> nat -> list (list R) -> list R -> option (list R)) :
  option nat -> nat -> list (list R) -> list R -> option (list R) :=
  fun mi n A b => option_map (map (Rmult (1 - d))) (nnls mi n A b).
