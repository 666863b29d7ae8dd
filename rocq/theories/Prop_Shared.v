(** Property theorems; proofs are in SharedThms.v.  Generated by tools/gen_prop.py. *)
From Coq Require Import String List Arith Lia Bool ZArith QArith.
From Verif Require Import Base BaseLemmas Num Toy Interp Utils Sed Response RespDict RespDictThms Fitter FitSpec FitEx Kcorrect KSpec KEx Persist PersistSpec
  PersistProofs BuildSpec BuildProofs BuildEx SharedSpec SharedProofs.
Import ListNotations.
Local Open Scope nat_scope.
From Verif Require Import SharedThms.

(** C101.  An object built in a program stays as it is.  Whatever the program does afterwards with the templates it was
    built from, with the response cache and with other objects, every call of its methods and the file tofits writes are
    as they were directly after the construction. *)
Theorem C101_later :
  forall (T : Type) (N : Num T) cub bq sun vega (t : tmpl T) w0 ops1 fs a ops2 d1 s1 K,
    let w1 := w_run cub bq sun vega t w0 ops1 in
    construct cub bq sun vega fs a t (w_d w1) (w_s w1) = (d1, s1, Ok K) ->
    let w := w_run cub bq sun vega t w0 (ops1 ++ Build fs a :: ops2) in
    nth_error (w_objs w) (length (w_objs w1)) = Some K /\
    same_results (seen w K) K /\
    (forall trunc, kcor_file trunc (seen w K) = kcor_file trunc K) /\
    (forall distmod z c bs dist, derived distmod (w_d w) (seen w K) z c bs dist = derived distmod d1 K z c bs dist) /\
    (forall distmod z c bs dist, derived_mc distmod (w_d w) (seen w K) z c bs dist = derived_mc distmod d1 K z c bs dist).
Proof. exact L_C101_later. Qed.
Print Assumptions C101_later.

Example ex_C101_later :
  let run := w_run q_lin (fun _ _ _ => Raise Unmodelled) (Raise Unmodelled) (Raise Unmodelled) q_tmpl in
  let args r := {| b_kind := Plain; b_abc := false; b_responses := r; b_out := None; b_map := None; b_r0 := 0%Q; b_r1 := 1%Q; b_nz := 2 |} in
  let w0 := {| w_d := q_cache; w_s := q_sed false; w_objs := [] |} in
  exists d1 s1 K,
    construct q_lin (fun _ _ _ => Raise Unmodelled) (Raise Unmodelled) (Raise Unmodelled) (fun _ => None) (args ["u"; "g"]%string) q_tmpl
      (w_d (run w0 [Touch (SetRedshift 2%Q)])) (w_s (run w0 [Touch (SetRedshift 2%Q)])) = (d1, s1, Ok K) /\
    let w := run w0 ([Touch (SetRedshift 2%Q)] ++ Build (fun _ => None) (args ["u"; "g"]%string) ::
                       [Build (fun _ => None) (args ["g"]%string); Touch (SetRedshift 1%Q); Touch SetInterp]) in
    length (w_objs w) = 2 /\ s_z (w_s w) = 1%Q /\ s_flag (w_s w) = true /\ seen w K <> K.
Proof. exact E_C101_later. Qed.

(** Building it again at any later time gives the same object, whatever files there are then, unless set_interp has been
    called on templates that were made without interpolation. *)
Theorem C101_again :
  forall (T : Type) (N : Num T) cub bq sun vega (t : tmpl T) w0 ops1 fs a ops2 d1 s1 K,
    let w1 := w_run cub bq sun vega t w0 ops1 in
    construct cub bq sun vega fs a t (w_d w1) (w_s w1) = (d1, s1, Ok K) -> same_mode s1 ops2 ->
    let w := w_run cub bq sun vega t w0 (ops1 ++ Build fs a :: ops2) in
    forall fs', construct cub bq sun vega fs' a t (w_d w) (w_s w) = (w_d w, s1, Ok K).
Proof. exact L_C101_again. Qed.
Print Assumptions C101_again.

Example ex_C101_again :
  let run := w_run q_lin (fun _ _ _ => Raise Unmodelled) (Raise Unmodelled) (Raise Unmodelled) q_tmpl in
  let args r := {| b_kind := Plain; b_abc := false; b_responses := r; b_out := None; b_map := None; b_r0 := 0%Q; b_r1 := 1%Q; b_nz := 2 |} in
  exists d1 s1 K,
    construct q_lin (fun _ _ _ => Raise Unmodelled) (Raise Unmodelled) (Raise Unmodelled) (fun _ => None) (args ["u"; "g"]%string) q_tmpl
      q_cache (q_sed true) = (d1, s1, Ok K) /\
    same_mode s1 [Touch (SetRedshift 1%Q); Touch SetInterp; Build (fun _ => None) (args ["x"]%string)] /\
    same_mode (q_sed false) [Touch (SetRedshift 1%Q); Build (fun _ => None) (args ["x"]%string)].
Proof. exact E_C101_again. Qed.

(** What a program builds is what it would build first: with the same files, an object that can be built from the
    initial state is built, the same, after any other work. *)
Theorem C101_alone :
  forall (T : Type) (N : Num T) cub bq sun vega (t : tmpl T) w0 fs a ops d1 s1 K,
    construct cub bq sun vega fs a t (w_d w0) (w_s w0) = (d1, s1, Ok K) -> files_of fs ops -> same_mode (w_s w0) ops ->
    let w := w_run cub bq sun vega t w0 ops in
    exists d2, construct cub bq sun vega fs a t (w_d w) (w_s w) = (d2, s1, Ok K).
Proof. exact L_C101_alone. Qed.
Print Assumptions C101_alone.

Example ex_C101_alone :
  let fs := fun n => if String.eqb n "x.dat" then Some (Ok ([2; 3; 4; 5], [0; 1; 1; 0])%Q) else None in
  let args r := {| b_kind := Plain; b_abc := false; b_responses := r; b_out := None; b_map := None; b_r0 := 0%Q; b_r1 := 1%Q; b_nz := 2 |} in
  exists d1 s1 K,
    construct q_lin (fun _ a _ => Ok a) (Raise OSError) (Raise OSError)
      fs (args ["u"; "g"]%string) q_tmpl q_cache (q_sed false) = (d1, s1, Ok K) /\
    files_of fs [Touch (SetRedshift 1%Q); LoadResponse fs "x"%string; Build fs (args ["x"]%string)] /\
    same_mode (q_sed false) [Touch (SetRedshift 1%Q); LoadResponse fs "x"%string; Build fs (args ["x"]%string)].
Proof. exact E_C101_alone. Qed.

(** The converse is false: a construction that raises because a response cannot be set up (here the solar spectrum
    cannot be read) leaves this response in the cache, and succeeds when it is tried again. *)
Theorem C101_first_refuted :
  exists sun (fs : @fsys Q) a e d1 s1 d2 s2 K,
    let con := construct q_lin (fun _ _ _ => Raise ValueError) sun (Raise ValueError) fs a q_tmpl in
    con [] (q_sed false) = (d1, s1, Raise e) /\ con d1 s1 = (d2, s2, Ok K).
Proof. exact L_C101_first_refuted. Qed.
Print Assumptions C101_first_refuted.
