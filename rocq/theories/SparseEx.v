(** Examples for C102. *)
From Coq Require Import String List Arith Lia Bool ZArith Reals Lra.
From Verif Require Import Base BaseLemmas Num Fitter FitSpec FitReal FitEx FitRealEx Kcorrect KSpec KEx.
Import ListNotations.
Local Open Scope R_scope.

(** Two bands and three templates, the same at redshift 0 but for their brightness. *)
Definition trio_fitter : fitter R := ex_fitter Plain false ["u"; "g"]%string 3 [0; 1] [[1; 2; 3; 2; 4; 6]; [1; 2; 1; 3; 1; 2]].
Definition trio_tab : atab R := {| a_x := [0; 1]; a_rows := [[1; 2; 3; 2; 4; 6]; [1; 2; 1; 3; 1; 2]]; a_shape := [2; 3]%nat |}.
Lemma trio_ready : ready trio_fitter trio_tab 2 3.
Proof. unfold ready, tab_ok, rect; cbn. repeat split; auto; repeat constructor. Qed.
Lemma trio_grid : grid_ok (a_x trio_tab).
Proof. repeat constructor; lra. Qed.

(** One band and twelve templates. *)
Definition dozen (f : R -> R) : list R := map (fun i => f (INR i)) (seq 1 12).
Definition dozen_rows : list (list R) := [dozen (fun x => x); dozen (fun x => x * x)].
Definition dozen_tab : atab R := {| a_x := [0; 1]; a_rows := dozen_rows; a_shape := [1; 12]%nat |}.
Definition dozen_kcor : kcor R :=
  {| k_fit := ex_fitter Plain false ["u"]%string 12 [0; 1] dozen_rows;
     k_tmpl := ex_tmpl (dozen (fun x => x)) (dozen (fun x => x / 2)) (dozen (fun x => 1 / 50)) (dozen (fun x => x / 9)) (dozen (fun x => x / 8)) (dozen (fun x => x / 7));
     k_out := ["g"]%string; k_map := ["u"]%string; k_Aout := Some dozen_tab; k_imap := [0]%nat; k_rr := (0, 1) |}.
Lemma dozen_ready : kready dozen_kcor dozen_tab dozen_tab 1 1 12.
Proof. unfold kready, ready, tab_ok, rect; cbn [k_fit k_imap k_out k_Aout dozen_kcor f_A ex_fitter f_resp length a_x a_rows a_shape dozen_tab dozen_rows dozen].
  repeat split; auto; repeat constructor. Qed.
Lemma dozen_tmpl : tmpl_shape dozen_kcor 12.
Proof. unfold tmpl_shape. repeat constructor. Qed.
