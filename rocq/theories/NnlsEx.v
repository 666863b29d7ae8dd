(** Examples for C80 and C81: solvers that prefer a given answer, and a fitter whose two templates look alike at redshift 0. *)
From Coq Require Import String List Arith Lia Bool ZArith QArith Qreals Reals Lra Sorting.Sorted.
From Verif Require Import Base BaseLemmas Num Fitter FitSpec FitEx NnlsSpec NnlsExact.
Import ListNotations.
Local Open Scope R_scope.

(** A solver that returns [x] whenever [x] fits perfectly. *)
Definition prefer (x : list R) (mi : option nat) (n : nat) (A : list (list R)) (b : list R) : option (list R) :=
  if Nat.eqb (length x) n && nonnegb x && (if Req_EM_T (sumsq (vsub (mulmv A x) b)) 0 then true else false)
  then Some x else nnls_exact mi n A b.
Lemma prefer_contract x : nnls_contract (prefer x).
Proof.
  intros mi n A b y HR HL H. unfold prefer in H.
  destruct (Nat.eqb_spec (length x) n) as [E|]; [|exact (nnls_exact_contract mi n A b y HR HL H)].
  destruct (nonnegb x) eqn:Hn; [|exact (nnls_exact_contract mi n A b y HR HL H)].
  destruct (Req_EM_T _ _) as [Hz|]; [|exact (nnls_exact_contract mi n A b y HR HL H)].
  cbn [andb] in H. injection H as <-. split; auto. split; [apply nonnegb_iff; auto|]. intros y _ _. rewrite Hz.
  rewrite sumsq_dot. apply dot_self_nonneg.
Qed.

(** Two bands, two templates with the same fluxes at redshift 0 and different fluxes at redshift 1. *)
Definition twin_fitter : fitter R := ex_fitter Plain false ["u"; "g"]%string 2 [0; 1] [[1; 1; 2; 2]; [1; 2; 1; 3]].
Definition twin_tab : atab R := {| a_x := [0; 1]; a_rows := [[1; 1; 2; 2]; [1; 2; 1; 3]]; a_shape := [2; 2]%nat |}.
Lemma twin_ready : ready twin_fitter twin_tab 2 2.
Proof. unfold ready, tab_ok, rect; cbn. repeat split; auto; repeat constructor. Qed.
Lemma twin_grid : grid_ok (a_x twin_tab).
Proof. repeat constructor; lra. Qed.
