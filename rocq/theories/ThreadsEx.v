(** Concrete memories and files for the examples on threads. *)
From Coq Require Import String List Arith Bool ZArith QArith.
From Verif Require Import Base Num Toy Interp Utils Sed Response RespDict Fitter FitEx Threads.
Import ListNotations.
Local Open Scope nat_scope.

(** A spectrum of the Sun (or Vega) outside the band of the responses below, so that the magnitudes are None. *)
Definition q_basel : res (list Q * list (basel_unit Q)) :=
  Ok ([100; 200; 300; 400]%Q, [{| b_modelno := 1%Z; b_teff := 1%Q; b_logg := 1%Q; b_mh := 1%Q; b_vturb := 1%Q; b_xh := 1%Q; b_flux := [1; 1; 1; 1]%Q |}]).
Definition q_mid (_ : Q -> Q) (a b : Q) : res Q := Ok (Qred ((a + b) / 2)).
(** Two response curves. *)
Definition q_fs : @fsys Q := fun n =>
  if String.eqb n "u.dat" then Some (Ok ([2; 3; 4; 5]%Q, [0; 1; 1; 0]%Q))
  else if String.eqb n "g.dat" then Some (Ok ([3; 4; 5; 6]%Q, [0; 1; 1; 0]%Q)) else None.
Definition q_none : sed Q := q_sed false.
Definition q_job : job Q -> prog Q (res (option (atab Q))) := t_job q_none q_lin q_mid q_basel q_basel q_fs.
(** An empty singleton dictionary, and one with a response; two Template objects. *)
Definition q_mem : mem Q := {| m_inst := Some 0; m_dicts := [[]]; m_objs := []; m_seds := [q_sed true; q_sed false] |}.
Definition q_mem1 : mem Q :=
  {| m_inst := Some 0; m_dicts := [[("u"%string, 0)]]; m_objs := [{| o_name := "u"; o_by := 0; o_resp := q_resp |}];
     m_seds := [q_sed true; q_sed false] |}.
(** No ResponseDict has been made. *)
Definition q_start : mem Q := {| m_inst := None; m_dicts := []; m_objs := []; m_seds := [] |}.

Definition done {T A} (p : prog T A) : bool := match p with Ret _ => true | Act _ _ => false end.
Lemma done_all {T A} (ps : list (prog T A)) : all_done ps -> forallb done ps = true.
Proof. intro H. apply forallb_forall. intros p Hp. unfold all_done in H. rewrite Forall_forall in H. destruct (H p Hp) as [a ->]. reflexivity. Qed.
Lemma all_done_of {T A} (ps : list (prog T A)) : forallb done ps = true -> all_done ps.
Proof.
  intro H. apply Forall_forall. intros p Hp. rewrite forallb_forall in H. specialize (H p Hp). destruct p as [a|]; [exists a; auto|discriminate].
Qed.
