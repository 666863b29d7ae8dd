(** Concrete fitters and solvers used by the examples. *)
From Coq Require Import String List Arith Bool Lia QArith.
From Verif Require Import Base BaseLemmas Num Toy Interp Sed Response Fitter FitSpec.
Import ListNotations.
Local Open Scope nat_scope.

Section Ex.
  Context {T : Type} {N : Num T}.
  (** [nt] templates without samples. *)
  Definition ex_sed (nt : nat) : sed T :=
    {| s_rwave := []; s_rflux := mk [nt; 0] []; s_wave := []; s_flux := mk [nt; 0] []; s_z := n0;
       s_flag := false; s_interp := None; s_bin := false |}.
  Definition ex_fitter (k : abkind) (abc : bool) (names : list string) (nt : nat) (x : list T) (rows : list (list T))
    : fitter T :=
    {| f_kind := k; f_abc := abc; f_resp := names; f_sed := ex_sed nt; f_zs := x;
       f_A := Some {| a_x := x; a_rows := rows; a_shape := [length names; nt] |} |}.
  (** A "solver" of the right shape: it returns the first entries of b. *)
  Definition ex_nnls (_ : option nat) (n : nat) (_ : list (list T)) (b : list T) : option (list T) :=
    Some (firstn n (b ++ repeat n0 n)).
  Lemma ex_nnls_shape : nnls_shape ex_nnls.
  Proof.
    intros mi n A b x H. injection H as <-. rewrite firstn_length, app_length, repeat_length. lia.
  Qed.
  (** A solver that needs more iterations than the default allows. *)
  Definition slow_nnls (mi : option nat) (n : nat) (A : list (list T)) (b : list T) : option (list T) :=
    match mi with None => None | Some _ => ex_nnls mi n A b end.
End Ex.

(** Two bands, three templates, grid 0, 1, 2. *)
Definition q_fitter : fitter Q :=
  ex_fitter Plain false ["u"; "g"]%string 3 [0; 1; 2]%Q [[1; 2; 3; 4; 5; 6]; [2; 3; 4; 5; 6; 7]; [3; 4; 5; 6; 7; 8]]%Q.
Definition q_tab : atab Q :=
  {| a_x := [0; 1; 2]%Q; a_rows := [[1; 2; 3; 4; 5; 6]; [2; 3; 4; 5; 6; 7]; [3; 4; 5; 6; 7; 8]]%Q; a_shape := [2; 3] |}.
Lemma q_ready : ready q_fitter q_tab 2 3.
Proof. unfold ready, tab_ok, rect; cbn. repeat split; auto; repeat constructor. Qed.
(** One band, one template. *)
Definition q1_fitter : fitter Q := ex_fitter Plain false ["u"]%string 1 [0; 1]%Q [[1]; [2]]%Q.
Definition q1_tab : atab Q := {| a_x := [0; 1]%Q; a_rows := [[1]; [2]]%Q; a_shape := [1; 1] |}.
Lemma q1_ready : ready q1_fitter q1_tab 1 1.
Proof. unfold ready, tab_ok, rect; cbn. repeat split; auto; repeat constructor. Qed.
Definition q_obj (z a b : Q) : obj Q := {| o_z := z; o_m := [a; b]; o_iv := [1; 4]%Q |}.

(** A fitter before set_Amatrix: two templates with five samples each, one cached response, grid 0, 1. *)
Fixpoint q_lin (xs ys : list Q) (t : Q) : Q :=
  match xs, ys with
  | x0 :: xr, y0 :: yr =>
      match xr, yr with
      | x1 :: _, y1 :: _ =>
        if Qle_bool t x1 then Qred (y0 + (y1 - y0) * ((t - x0) / (x1 - x0)))%Q else q_lin xr yr t
      | _, _ => y0
      end
  | _, _ => 0%Q
  end.
Definition q_resp : resp Q :=
  {| p_wave := Some [2; 3; 4; 5]%Q; p_resp := Some [0; 1; 1; 0]%Q;
     p_interp := Some {| ix := [2; 3; 4; 5]%Q; iys := [[0; 1; 1; 0]]%Q |};
     p_leff := None; p_solar := None; p_vega2ab := None; p_fwhm := None |}.
Definition q_sed (flag : bool) : sed Q :=
  let w := [1; 2; 3; 4; 6]%Q in
  let f := mk [2; 5] [1; 1; 1; 1; 1; 2; 3; 4; 5; 6]%Q in
  {| s_rwave := w; s_rflux := f; s_wave := w; s_flux := f; s_z := 0%Q; s_flag := flag; s_interp := None; s_bin := false |}.
Definition q_new (flag : bool) : fitter Q :=
  {| f_kind := Plain; f_abc := false; f_resp := ["u"]%string; f_sed := q_sed flag; f_zs := [0; 1]%Q; f_A := None |}.

(** 1001 templates of constant flux 1, and a response of at most 1/100. *)
Definition many_rows : list (list Q) := repeat [1; 1; 1; 1; 1]%Q 1001.
Definition many_sed : sed Q :=
  let w := [1; 2; 3; 4; 6]%Q in
  {| s_rwave := w; s_rflux := table 5 many_rows; s_wave := w; s_flux := table 5 many_rows; s_z := 0%Q;
     s_flag := false; s_interp := None; s_bin := false |}.
Definition faint_resp : resp Q :=
  {| p_wave := Some [2; 3; 4; 5]%Q; p_resp := Some [0; 1 # 100; 1 # 100; 0]%Q;
     p_interp := Some {| ix := [2; 3; 4; 5]%Q; iys := [[0; 1 # 100; 1 # 100; 0]]%Q |};
     p_leff := None; p_solar := None; p_vega2ab := None; p_fwhm := None |}.
