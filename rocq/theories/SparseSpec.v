(** Vocabulary for C102: how many templates a set of coefficients uses. *)
From Coq Require Import List Arith Reals.
From Verif Require Import Base.
Import ListNotations.
Local Open Scope R_scope.

(** The number of coefficients that are not zero. *)
Definition used (c : list R) : nat := length (filter (fun x => if Req_EM_T x 0 then false else true) c).
(** The number of measured bands, those of positive inverse variance. *)
Definition measured (iv : list R) : nat := length (filter (fun w => if Rlt_dec 0 w then true else false) iv).
(** [x] uses only templates that [c] uses. *)
Definition within (c x : list R) : Prop := forall i, nth i c 0 = 0 -> nth i x 0 = 0.
