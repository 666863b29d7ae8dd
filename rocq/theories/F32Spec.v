(** Vocabulary for the float32 theorems. *)
From Coq Require Import String List ZArith Reals Sorting.Sorted.
From Flocq Require Import Core.
From Verif Require Import Base Num F32 Sed Response RespDict Fitter FitSpec.
Import ListNotations.
Open Scope R_scope.

(** 2^e *)
Definition two (e : Z) : R := bpow radix2 e.

(** A redshift range r0 <= r1 of float32 values of at most 2^100, and a number of grid points that a
    float32 can count. *)
Definition ok_range (r0 r1 : b32) (n : nat) : Prop :=
  fin32 r0 = true /\ fin32 r1 = true /\ val r0 <= val r1 /\
  Rabs (val r0) <= two 100 /\ Rabs (val r1) <= two 100 /\ (2 <= Z.of_nat n <= 2 ^ 24)%Z.

(** The grid of Fitter(redshift_range=[r0, r1], nredshift=n), its point [k], and the exact point. *)
Definition grid32 (L : libm) (r0 r1 : b32) (n : nat) : list b32 := @redshift_grid b32 (Num_b32 L) r0 r1 n.
Definition point (L : libm) (r0 r1 : b32) (n k : nat) : R := val (nth k (grid32 L r0 r1 n) nan32).
Definition exact_point (r0 r1 : b32) (n k : nat) : R :=
  val r0 + (val r1 - val r0) * INR k / INR (n - 1).
Definition grid_error (r0 r1 : b32) : R := two (-21) * (Rabs (val r0) + Rabs (val r1)) + two (-147).

(** [F] is Fitter(responses, templates, [r0, r1], n) after a set_Amatrix() that succeeded; the templates
    hold at least one spectrum, one row of equal length per spectrum. *)
Definition fitter32 (L : libm) (k : abkind) (abc : bool) (names : list string) (r0 r1 : b32) (n nt : nat)
    (F : fitter b32) : Prop :=
  exists cub bq sun vega fs d d' (s : sed b32) w rows,
    s_rflux s = table w rows /\ rect w rows /\ length rows = nt /\ nt <> 0%nat /\
    @set_Amatrix b32 (Num_b32 L) cub bq sun vega fs d (@Fitter b32 (Num_b32 L) k abc names s r0 r1 n) = (d', F, None).
