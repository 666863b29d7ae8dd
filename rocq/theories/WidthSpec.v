(** Objects with any number of bands, for the examples about unusual band sets. *)
From Coq Require Import String List Arith QArith.
From Verif Require Import Base Num Toy Sed Fitter FitEx Kcorrect KEx.
Import ListNotations.
Local Open Scope nat_scope.

(** An instrument object with nb input bands, whose output bands are mapped to the first and to the last input band; two templates. *)
Definition q_wide (k : abkind) (nb : nat) : kcor Q :=
  {| k_fit := ex_fitter k true (repeat "b"%string nb) 2 [0; 1]%Q [repeat 1%Q (nb * 2); repeat 2%Q (nb * 2)];
     k_tmpl := ex_tmpl [1; 1]%Q [1; 1]%Q [1; 1]%Q [1; 1]%Q [1; 1]%Q [1; 1]%Q; k_out := ["x"; "y"]%string; k_map := ["b"; "b"]%string;
     k_Aout := Some {| a_x := [0; 1]%Q; a_rows := [[1; 1; 1; 1]; [2; 2; 2; 2]]%Q; a_shape := [2; 2] |}; k_imap := [0; nb - 1]; k_rr := (0, 1)%Q |}.
