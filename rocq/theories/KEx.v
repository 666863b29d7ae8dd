(** Concrete Kcorrect objects used by the examples. *)
From Coq Require Import String List Arith Bool Lia QArith Reals Lra.
From Verif Require Import Base BaseLemmas Num Toy Interp Sed Response RespDict Fitter FitSpec FitEx FitRealEx Kcorrect KSpec.
Import ListNotations.
Local Open Scope nat_scope.

Definition ex_tmpl {T} (a b c d e f : list T) : tmpl T :=
  {| t_intsfh := a; t_mremain := b; t_mets := c; t_m50 := d; t_m300 := e; t_m1000 := f |}.

(** Two input bands u, g; output bands x (from g) and y (from u); three templates. *)
Definition q_out : atab Q :=
  {| a_x := [0; 1; 2]%Q; a_rows := [[1; 1; 1; 2; 2; 2]; [1; 2; 1; 2; 1; 2]; [3; 3; 3; 1; 1; 1]]%Q; a_shape := [2; 3] |}.
Definition q_kcor : kcor Q :=
  {| k_fit := q_fitter; k_tmpl := ex_tmpl [1; 2; 3]%Q [1; 1; 2]%Q [1; 2; 3]%Q [0; 1; 1]%Q [1; 1; 1]%Q [1; 2; 2]%Q;
     k_out := ["x"; "y"]%string; k_map := ["g"; "u"]%string; k_Aout := Some q_out; k_imap := [1; 0];
     k_rr := (0, 2)%Q |}.
Lemma q_kready : kready q_kcor q_tab q_out 2 2 3.
Proof.
  unfold kready. repeat split; auto; try (unfold rect; repeat constructor).
Qed.
(** One output band y (from u). *)
Definition q_out1 : atab Q := {| a_x := [0; 1; 2]%Q; a_rows := [[1; 1; 1]; [1; 2; 1]; [3; 3; 3]]%Q; a_shape := [1; 3] |}.
Definition q_kcor1 : kcor Q :=
  {| k_fit := q_fitter; k_tmpl := k_tmpl q_kcor; k_out := ["y"]%string; k_map := ["u"]%string; k_Aout := Some q_out1;
     k_imap := [0]; k_rr := (0, 2)%Q |}.
Lemma q_kready1 : kready q_kcor1 q_tab q_out1 2 1 3.
Proof. unfold kready. repeat split; auto; try (unfold rect; repeat constructor). Qed.
Lemma rounding_Q : rounding Num_Q.
Proof. split; reflexivity. Qed.

(** Over the reals: two bands, also the output bands; one template. *)
Definition r_kcor : kcor R :=
  {| k_fit := r_fitter; k_tmpl := (ex_tmpl [2] [1] [1/50] [1/4] [1/2] [1])%R;
     k_out := ["u"; "g"]%string; k_map := ["u"; "g"]%string; k_Aout := Some r_tab; k_imap := [0; 1];
     k_rr := (0, 1)%R |}.
Lemma r_kready : kready r_kcor r_tab r_tab 2 2 1.
Proof. unfold kready. repeat split; auto; try (unfold rect; repeat constructor). Qed.
Lemma rounding_R : rounding Num_R.
Proof. split; reflexivity. Qed.

(** The same with special values: the extended reals. *)
Definition x_tab : atab xr := {| a_x := [Fin 0; Fin 1]; a_rows := [[Fin 1; Fin 2]; [Fin 3; Fin 4]]; a_shape := [2; 1] |}.
Definition x_fitter : fitter xr :=
  ex_fitter Plain false ["u"; "g"]%string 1 [Fin 0; Fin 1] [[Fin 1; Fin 2]; [Fin 3; Fin 4]].
Definition x_kcor : kcor xr :=
  {| k_fit := x_fitter; k_tmpl := ex_tmpl [Fin 2] [Fin 1] [Fin (1/50)] [Fin (1/4)] [Fin (1/2)] [Fin 1];
     k_out := ["u"; "g"]%string; k_map := ["u"; "g"]%string; k_Aout := Some x_tab; k_imap := [0; 1];
     k_rr := (Fin 0, Fin 1) |}.
Lemma x_kready : kready x_kcor x_tab x_tab 2 2 1.
Proof. unfold kready. repeat split; auto; try (unfold rect; repeat constructor). Qed.
(** KcorrectSDSS with the corrections on: five bands, also the output bands; one template. *)
Definition x_rows5 : list (list xr) := [[Fin 1; Fin 2; Fin 3; Fin 4; Fin 5]; [Fin 2; Fin 2; Fin 2; Fin 1; Fin 1]].
Definition x_tab5 : atab xr := {| a_x := [Fin 0; Fin 1]; a_rows := x_rows5; a_shape := [5; 1] |}.
Definition x_kcor5 : kcor xr :=
  {| k_fit := ex_fitter SDSS true ["u"; "g"; "r"; "i"; "z"]%string 1 [Fin 0; Fin 1] x_rows5;
     k_tmpl := ex_tmpl [Fin 2] [Fin 1] [Fin (1/50)] [Fin (1/4)] [Fin (1/2)] [Fin 1];
     k_out := ["u"; "g"; "r"; "i"; "z"]%string; k_map := ["u"; "g"; "r"; "i"; "z"]%string; k_Aout := Some x_tab5;
     k_imap := [0; 1; 2; 3; 4]; k_rr := (Fin 0, Fin 1) |}.
Lemma x_kready5 : kready x_kcor5 x_tab5 x_tab5 5 5 1.
Proof. unfold kready. repeat split; auto; try (unfold rect; repeat constructor). Qed.
Lemma rounding_xr : rounding Num_xr.
Proof. split; reflexivity. Qed.

(** Construction from two cached responses u, g, for two templates and the grid 0, 1. *)
Definition q_cache : dict (resp Q) := [("u", q_resp); ("g", faint_resp)]%string.
Definition q_build (out map_ : option (list string)) : dict (resp Q) * sed Q * res (kcor Q) :=
  Kcorrect q_lin (fun _ _ _ => Raise Unmodelled) (Raise Unmodelled) (Raise Unmodelled) (fun _ => None) q_cache Plain false
           ["u"; "g"]%string (q_sed false) (ex_tmpl [1; 2] [1; 1] [1; 2] [0; 1] [1; 1] [1; 2])%Q out map_ 0%Q 1%Q 2.

(** Responses x, y with solar magnitudes 5 and 4. *)
Definition sol_resp {T} (s : T) : resp T :=
  {| p_wave := None; p_resp := None; p_interp := None; p_leff := None; p_solar := Some s; p_vega2ab := None; p_fwhm := None |}.
Definition q_solar : dict (resp Q) := [("x", sol_resp 5%Q); ("y", sol_resp 4%Q)]%string.
Definition x_solar : dict (resp xr) := [("u", sol_resp (Fin 5)); ("g", sol_resp (Fin 4))]%string.
Definition r_solar : dict (resp R) := [("u", sol_resp 5%R); ("g", sol_resp 4%R)]%string.
