(** Vocabulary for C92: how fast the design matrix changes with redshift. *)
From Coq Require Import List Arith Reals.
From Verif Require Import Base Num Fitter.
Import ListNotations.
Local Open Scope R_scope.

(** The entries of the table are positive and between neighbouring grid redshifts each changes by at most the fraction [L] times
    the difference of the redshifts. *)
Definition steady (L : R) (A : atab R) (nb nt : nat) : Prop :=
  forall k i, (S k < length (a_x A))%nat -> (i < nb * nt)%nat ->
    let y := nth i (nth k (a_rows A) []) 0 in
    let y' := nth i (nth (S k) (a_rows A) []) 0 in
    0 < y /\ 0 < y' /\ Rabs (y' - y) <= L * (nth (S k) (a_x A) 0 - nth k (a_x A) 0) * Rmin y y'.
