(** What a cubic not-a-knot spline is; nothing here is taken from the code model. *)
From Coq Require Import List Arith Reals Sorting.Sorted.
From Verif Require Base Utils.
Import ListNotations.
Local Open Scope R_scope.

(** A cubic polynomial and its derivatives. *)
Record cubic := { q0 : R; q1 : R; q2 : R; q3 : R }.
Definition peval (p : cubic) (t : R) : R := q0 p + q1 p * t + q2 p * t ^ 2 + q3 p * t ^ 3.
Definition pd1 (p : cubic) (t : R) : R := q1 p + 2 * q2 p * t + 3 * q3 p * t ^ 2.
Definition pd2 (p : cubic) (t : R) : R := 2 * q2 p + 6 * q3 p * t.
Definition pd3 (p : cubic) : R := 6 * q3 p.

(** [p i] are the cubics of the spline through the samples (x i, y i), i < n: they meet the samples, have equal first and
    second derivatives at the inner samples and equal third derivatives at the second and the last but one sample. *)
Record pieces (n : nat) (x y : nat -> R) (p : nat -> cubic) : Prop := {
  pc_left : forall i, (S i < n)%nat -> peval (p i) (x i) = y i;
  pc_right : forall i, (S i < n)%nat -> peval (p i) (x (S i)) = y (S i);
  pc_d1 : forall i, (S (S i) < n)%nat -> pd1 (p i) (x (S i)) = pd1 (p (S i)) (x (S i));
  pc_d2 : forall i, (S (S i) < n)%nat -> pd2 (p i) (x (S i)) = pd2 (p (S i)) (x (S i));
  pc_first : pd3 (p 0%nat) = pd3 (p 1%nat);
  pc_last : pd3 (p (n - 3)%nat) = pd3 (p (n - 2)%nat) }.

(** [f] is the not-a-knot cubic spline through the samples. *)
Definition is_spline (xs ys : list R) (f : R -> R) : Prop :=
  exists p, pieces (length xs) (fun k => nth k xs 0) (fun k => nth k ys 0) p /\
    forall i t, (S i < length xs)%nat -> nth i xs 0 <= t <= nth (S i) xs 0 -> f t = peval (p i) t.

(** [cub] computes the not-a-knot spline of every increasing sample list that interp1d accepts. *)
Definition splines (cub : list R -> list R -> R -> R) : Prop :=
  forall xs ys, StronglySorted Rlt xs -> (4 <= length xs)%nat -> length ys = length xs ->
    is_spline xs ys (cub xs ys).

(** A root finder with tolerance [tol]: for a function continuous on [a, b] with a sign change it returns a point of [a, b]
    within [tol] of a zero. *)
Definition root_finder (tol : R) (bq : (R -> R) -> R -> R -> Base.res R) : Prop :=
  forall f a b, a < b -> (exists g, continuity g /\ forall t, a <= t <= b -> f t = g t) -> f a * f b <= 0 ->
    exists x x0, bq f a b = Base.Ok x /\ a <= x <= b /\ a <= x0 <= b /\ f x0 = 0 /\ Rabs (x - x0) <= tol.

(** A usable Basel file: one model, four or more positive increasing wavelengths, as many fluxes. *)
Definition reference_file (file : Base.res (list R * list (Utils.basel_unit R))) : Prop :=
  exists wave u, file = Base.Ok (wave, [u]) /\ length (Utils.b_flux R u) = length wave /\ (4 <= length wave)%nat /\
    StronglySorted Rlt wave /\ Forall (fun t => 0 < t) wave.
