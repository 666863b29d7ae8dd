(** Objects and catalogue rows for the examples about the example programs. *)
From Coq Require Import String List Arith Lia Reals Lra.
From Verif Require Import Base BaseLemmas Num Interp Fitter FitSpec FitEx Scripts ScriptsSpec.
Import ListNotations.
Local Open Scope R_scope.

(** Ten bands, one template, grid 0, 1. *)
Definition gst_fitter : fitter xr :=
  ex_fitter Plain false ["F"; "N"; "u"; "g"; "r"; "i"; "z"; "J"; "H"; "K"]%string 1 [Fin 0; Fin 1] (repeat (map Fin [1; 2; 3; 4; 5; 6; 7; 8; 9; 10]) 2).
Definition gst_tab : atab xr := {| a_x := [Fin 0; Fin 1]; a_rows := repeat (map Fin [1; 2; 3; 4; 5; 6; 7; 8; 9; 10]) 2; a_shape := [10; 1]%nat |}.
Lemma gst_ready : ready gst_fitter gst_tab 10 1.
Proof. unfold ready, tab_ok, rect; cbn. repeat split; auto; repeat constructor. Qed.
(** Five bands; [abc] is abcorrect. *)
Definition five_fitter (k : abkind) (abc : bool) : fitter xr :=
  ex_fitter k abc ["u"; "g"; "r"; "i"; "z"]%string 1 [Fin 0; Fin 1] (repeat (map Fin [1; 2; 3; 4; 5]) 2).
Definition five_tab : atab xr := {| a_x := [Fin 0; Fin 1]; a_rows := repeat (map Fin [1; 2; 3; 4; 5]) 2; a_shape := [5; 1]%nat |}.
Lemma five_ready k abc : ready (five_fitter k abc) five_tab 5 1.
Proof. unfold ready, tab_ok, rect; cbn. repeat split; auto; repeat constructor. Qed.
(** An image row with values that cannot be used. *)
Definition nan_im : im_row xr := {| i_flux := [Fin 1; Fin 2; NaN; PInf; Fin 3]; i_ivar := [Fin 1; PInf; Fin 1; Fin (-1); Fin 2]; i_ext := repeat (Fin 0) 5 |}.
