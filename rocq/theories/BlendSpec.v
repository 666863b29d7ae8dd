(** Vocabulary for C90: the spectrum that a set of templates and coefficients stand for. *)
From Coq Require Import List Arith Reals.
From Verif Require Import Base Num FitSpec.
Import ListNotations.
Local Open Scope R_scope.

(** The samples of the spectrum of coefficients [c] of the templates [rows], each with [w] samples: sum_k c_k f_k[i]. *)
Definition combined (w : nat) (rows : list (list R)) (c : list R) : list R :=
  map (fun i => dot c (map (fun f => nth i f 0) rows)) (seq 0 w).

(** Every nonnegative combination of [rows1] is one of [rows2]. *)
Definition spans (w : nat) (rows1 rows2 : list (list R)) : Prop :=
  forall c1, length c1 = length rows1 -> nonneg c1 ->
    exists c2, length c2 = length rows2 /\ nonneg c2 /\ combined w rows2 c2 = combined w rows1 c1.

(** The two template sets can combine to the same spectra. *)
Definition same_spectra (w : nat) (rows1 rows2 : list (list R)) : Prop := spans w rows1 rows2 /\ spans w rows2 rows1.
