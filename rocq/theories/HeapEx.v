(** A KcorrectGST-like object with seven bands, and photometry in memory, for the examples of Prop_Heap.v. *)
From Coq Require Import String List Arith Lia Bool ZArith QArith Qreals Reals Lra.
From Verif Require Import Base Num Toy Spec Interp Sed Response RespDict Fitter FitSpec FitEx Kcorrect KSpec KEx Heap HeapSpec.
Import ListNotations.
Local Open Scope R_scope.

Definition x_rows7 : list (list xr) :=
  [[Fin 1; Fin 2; Fin 3; Fin 4; Fin 5; Fin 6; Fin 7]; [Fin 2; Fin 2; Fin 2; Fin 1; Fin 1; Fin 1; Fin 1]].
Definition x_tab7 : atab xr := {| a_x := [Fin 0; Fin 1]; a_rows := x_rows7; a_shape := [7%nat; 1%nat] |}.
Definition x_names7 : list string := ["F"; "N"; "u"; "g"; "r"; "i"; "z"]%string.
Definition x_kcor7 : kcor xr :=
  {| k_fit := ex_fitter GST true x_names7 1 [Fin 0; Fin 1] x_rows7;
     k_tmpl := ex_tmpl [Fin 2] [Fin 1] [Fin (1/50)] [Fin (1/4)] [Fin (1/2)] [Fin 1];
     k_out := x_names7; k_map := x_names7; k_Aout := Some x_tab7;
     k_imap := [0; 1; 2; 3; 4; 5; 6]%nat; k_rr := (Fin 0, Fin 1) |}.

(** Cells 0..6 hold maggies, 7..13 inverse variances, 20..33 two Monte Carlo draws of the maggies. *)
Definition x_mem : heap xr := fun c => Fin (INR c + 1).
Definition x_vm : view := {| v_shape := [7%nat]; v_cells := seq 0 7; v_f32 := true |}.
Definition x_vi : view := {| v_shape := [7%nat]; v_cells := seq 7 7; v_f32 := true |}.
Definition x_vm64 : view := {| v_shape := [7%nat]; v_cells := seq 0 7; v_f32 := false |}.
Definition x_vmc : view := {| v_shape := [7%nat; 2%nat]; v_cells := seq 20 14; v_f32 := true |}.
