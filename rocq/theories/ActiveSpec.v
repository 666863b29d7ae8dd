(** Vocabulary for C108: single templates. *)
From Coq Require Import List Arith Reals.
From Verif Require Import Base Num Fitter FitSpec.
Import ListNotations.
Local Open Scope R_scope.

(** The coefficients of template [j] alone, of [n]. *)
Definition single (n j : nat) : list R := map (fun i => if Nat.eqb i j then 1 else 0) (seq 0 n).
(** [c] are the coefficients that fit_coeffs (fitter.py:354-454) returns for fluxes [m] with inverse variances [iv] at redshift [z]. *)
Definition fit_of nnls (rng : nat -> R) (F : fitter R) (z : R) (iv m c : list R) : Prop :=
  exists cur cur', fit_object nnls rng F 0 {| o_z := z; o_m := m; o_iv := iv |} cur = Ok (Bare (vec c), cur').
