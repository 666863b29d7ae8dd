(** Integrals and the curvature of the curves that are integrated; nothing here is taken from the code model. *)
From Coq Require Import List Reals.
From Coquelicot Require Import Coquelicot.
Import ListNotations.
Local Open Scope R_scope.

(** On [a, b] the function [h] is a twice differentiable function whose second derivative is at most [M] in size. *)
Definition curved (M : R) (h : R -> R) (a b : R) : Prop :=
  exists H H1 H2 : R -> R,
    (forall t, a <= t <= b -> h t = H t) /\ (forall t, a <= t <= b -> is_derive H t (H1 t)) /\
    (forall t, a <= t <= b -> is_derive H1 t (H2 t)) /\ (forall t, a <= t <= b -> Rabs (H2 t) <= M).

(** [a] and [b] are neighbours in the increasing list [g]. *)
Definition adjacent (g : list R) (a b : R) : Prop := In a g /\ In b g /\ a < b /\ forall t, In t g -> t <= a \/ b <= t.
