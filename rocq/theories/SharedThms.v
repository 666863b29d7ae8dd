(** Properties of programs that build several objects from one set of templates (C101): the proofs.  Prop_Shared.v
    restates them. *)
From Coq Require Import String List Arith Lia Bool ZArith QArith.
From Verif Require Import Base BaseLemmas Num Toy Interp Utils Sed Response RespDict RespDictThms Fitter FitSpec FitEx Kcorrect KSpec KEx Persist PersistSpec
  PersistProofs BuildSpec BuildProofs BuildEx SharedSpec SharedProofs.
Import ListNotations.
Local Open Scope nat_scope.
(* STATEMENTS *)

(** C101.  An object built in a program stays as it is.  Whatever the program does afterwards with the templates it was
    built from, with the response cache and with other objects, every call of its methods and the file tofits writes are
    as they were directly after the construction. *)
Lemma L_C101_later :
  forall (T : Type) (N : Num T) cub bq sun vega (t : tmpl T) w0 ops1 fs a ops2 d1 s1 K,
    let w1 := w_run cub bq sun vega t w0 ops1 in
    construct cub bq sun vega fs a t (w_d w1) (w_s w1) = (d1, s1, Ok K) ->
    let w := w_run cub bq sun vega t w0 (ops1 ++ Build fs a :: ops2) in
    nth_error (w_objs w) (length (w_objs w1)) = Some K /\
    same_results (seen w K) K /\
    (forall trunc, kcor_file trunc (seen w K) = kcor_file trunc K) /\
    (forall distmod z c bs dist, derived distmod (w_d w) (seen w K) z c bs dist = derived distmod d1 K z c bs dist) /\
    (forall distmod z c bs dist, derived_mc distmod (w_d w) (seen w K) z c bs dist = derived_mc distmod d1 K z c bs dist).
Proof.
  intros T N cub bq sun vega t w0 ops1 fs a ops2 d1 s1 K w1 E w.
  set (w2 := {| w_d := d1; w_s := s1; w_objs := w_objs w1 ++ [K] |}).
  assert (Ew : w = w_run cub bq sun vega t w2 ops2).
  { unfold w, w_run. rewrite fold_left_app. cbn [fold_left]. change (fold_left _ ops1 w0) with w1. cbn [w_step]. rewrite E. reflexivity. }
  destruct (run_kept cub bq sun vega t ops2 w2) as (R1 & R2 & l & R3). rewrite <- Ew in *. cbn [w2 w_s w_d w_objs] in *.
  destruct (construct_out cub bq sun vega t fs a _ _ _ _ _ E) as [X1 X2].
  assert (HS : same_results (seen w K) K).
  { apply seen_same. rewrite X1. apply R1. }
  assert (HD : forall distmod z c bs dist, derived distmod (w_d w) (seen w K) z c bs dist = derived distmod d1 K z c bs dist).
  { intros. destruct HS as (_ & _ & _ & _ & _ & _ & HD & _). rewrite HD. apply derived_ext; auto. }
  split; [rewrite R3, <- app_assoc, nth_error_app2, Nat.sub_diag by lia; reflexivity|]. split; [exact HS|].
  split; [intro trunc; apply seen_file; rewrite X1; exact R1|]. split; [exact HD|].
  intros. unfold derived_mc. destruct (shp c); auto. apply foldM_ext2. intros s x. unfold derived_mc_step.
  destruct (get_last x n0 c); auto. cbn [bind]. rewrite HD. reflexivity.
Qed.
Lemma E_C101_later :
  let run := w_run q_lin (fun _ _ _ => Raise Unmodelled) (Raise Unmodelled) (Raise Unmodelled) q_tmpl in
  let args r := {| b_kind := Plain; b_abc := false; b_responses := r; b_out := None; b_map := None; b_r0 := 0%Q; b_r1 := 1%Q; b_nz := 2 |} in
  let w0 := {| w_d := q_cache; w_s := q_sed false; w_objs := [] |} in
  exists d1 s1 K,
    construct q_lin (fun _ _ _ => Raise Unmodelled) (Raise Unmodelled) (Raise Unmodelled) (fun _ => None) (args ["u"; "g"]%string) q_tmpl
      (w_d (run w0 [Touch (SetRedshift 2%Q)])) (w_s (run w0 [Touch (SetRedshift 2%Q)])) = (d1, s1, Ok K) /\
    let w := run w0 ([Touch (SetRedshift 2%Q)] ++ Build (fun _ => None) (args ["u"; "g"]%string) ::
                       [Build (fun _ => None) (args ["g"]%string); Touch (SetRedshift 1%Q); Touch SetInterp]) in
    length (w_objs w) = 2 /\ s_z (w_s w) = 1%Q /\ s_flag (w_s w) = true /\ seen w K <> K.
Proof.
  cbv zeta. eexists; eexists; eexists. split; [vm_compute; reflexivity|]. split; [vm_compute; reflexivity|]. split; [vm_compute; reflexivity|].
  split; [vm_compute; reflexivity|]. intro H. apply (f_equal (fun k => s_flag (f_sed (k_fit k)))) in H. vm_compute in H. discriminate.
Qed.

(** Building it again at any later time gives the same object, whatever files there are then, unless set_interp has been
    called on templates that were made without interpolation. *)
Lemma L_C101_again :
  forall (T : Type) (N : Num T) cub bq sun vega (t : tmpl T) w0 ops1 fs a ops2 d1 s1 K,
    let w1 := w_run cub bq sun vega t w0 ops1 in
    construct cub bq sun vega fs a t (w_d w1) (w_s w1) = (d1, s1, Ok K) -> same_mode s1 ops2 ->
    let w := w_run cub bq sun vega t w0 (ops1 ++ Build fs a :: ops2) in
    forall fs', construct cub bq sun vega fs' a t (w_d w) (w_s w) = (w_d w, s1, Ok K).
Proof.
  intros T N cub bq sun vega t w0 ops1 fs a ops2 d1 s1 K w1 E Hm w fs'.
  set (w2 := {| w_d := d1; w_s := s1; w_objs := w_objs w1 ++ [K] |}).
  assert (Ew : w = w_run cub bq sun vega t w2 ops2).
  { unfold w, w_run. rewrite fold_left_app. cbn [fold_left]. change (fold_left _ ops1 w0) with w1. cbn [w_step]. rewrite E. reflexivity. }
  destruct (run_kept cub bq sun vega t ops2 w2) as (_ & R2 & _). pose proof (run_same cub bq sun vega t ops2 w2 Hm) as R1.
  rewrite <- Ew in *. cbn [w2 w_s w_d] in *. unfold construct in *.
  eapply Kcorrect_again with (s := w_s w1) (d := w_d w1); eauto.
Qed.
Lemma E_C101_again :
  let run := w_run q_lin (fun _ _ _ => Raise Unmodelled) (Raise Unmodelled) (Raise Unmodelled) q_tmpl in
  let args r := {| b_kind := Plain; b_abc := false; b_responses := r; b_out := None; b_map := None; b_r0 := 0%Q; b_r1 := 1%Q; b_nz := 2 |} in
  exists d1 s1 K,
    construct q_lin (fun _ _ _ => Raise Unmodelled) (Raise Unmodelled) (Raise Unmodelled) (fun _ => None) (args ["u"; "g"]%string) q_tmpl
      q_cache (q_sed true) = (d1, s1, Ok K) /\
    same_mode s1 [Touch (SetRedshift 1%Q); Touch SetInterp; Build (fun _ => None) (args ["x"]%string)] /\
    same_mode (q_sed false) [Touch (SetRedshift 1%Q); Build (fun _ => None) (args ["x"]%string)].
Proof.
  cbv zeta. eexists; eexists; eexists. split; [vm_compute; reflexivity|]. split; [left; reflexivity|right].
  cbn [In]. intros [H|[H|[]]]; discriminate.
Qed.

(** What a program builds is what it would build first: with the same files, an object that can be built from the
    initial state is built, the same, after any other work. *)
Lemma L_C101_alone :
  forall (T : Type) (N : Num T) cub bq sun vega (t : tmpl T) w0 fs a ops d1 s1 K,
    construct cub bq sun vega fs a t (w_d w0) (w_s w0) = (d1, s1, Ok K) -> files_of fs ops -> same_mode (w_s w0) ops ->
    let w := w_run cub bq sun vega t w0 ops in
    exists d2, construct cub bq sun vega fs a t (w_d w) (w_s w) = (d2, s1, Ok K).
Proof.
  intros T N cub bq sun vega t w0 fs a ops d1 s1 K E Hf Hm w.
  eapply construct_alone with (d0 := w_d w0) (a := w_d w0) (s := w_s w0); eauto.
  - apply grown_start.
  - apply run_grown; auto. apply grown_start.
  - apply run_same; auto.
Qed.
Lemma E_C101_alone :
  let fs := fun n => if String.eqb n "x.dat" then Some (Ok ([2; 3; 4; 5], [0; 1; 1; 0])%Q) else None in
  let args r := {| b_kind := Plain; b_abc := false; b_responses := r; b_out := None; b_map := None; b_r0 := 0%Q; b_r1 := 1%Q; b_nz := 2 |} in
  exists d1 s1 K,
    construct q_lin (fun _ a _ => Ok a) (Raise OSError) (Raise OSError)
      fs (args ["u"; "g"]%string) q_tmpl q_cache (q_sed false) = (d1, s1, Ok K) /\
    files_of fs [Touch (SetRedshift 1%Q); LoadResponse fs "x"%string; Build fs (args ["x"]%string)] /\
    same_mode (q_sed false) [Touch (SetRedshift 1%Q); LoadResponse fs "x"%string; Build fs (args ["x"]%string)].
Proof.
  cbv zeta. eexists; eexists; eexists. split; [vm_compute; reflexivity|]. split; [repeat constructor|right].
  cbn [In]. intros [H|[H|[H|[]]]]; discriminate.
Qed.

(** The converse is false: a construction that raises because a response cannot be set up (here the solar spectrum
    cannot be read) leaves this response in the cache, and succeeds when it is tried again. *)
Lemma L_C101_first_refuted :
  exists sun (fs : @fsys Q) a e d1 s1 d2 s2 K,
    let con := construct q_lin (fun _ _ _ => Raise ValueError) sun (Raise ValueError) fs a q_tmpl in
    con [] (q_sed false) = (d1, s1, Raise e) /\ con d1 s1 = (d2, s2, Ok K).
Proof.
  exists (Raise OSError), (fun n => if String.eqb n "u.dat" then Some (Ok ([2; 3; 4; 5], [0; 1; 1; 0])%Q) else None),
    {| b_kind := Plain; b_abc := false; b_responses := ["u"]%string; b_out := None; b_map := None; b_r0 := 0%Q; b_r1 := 1%Q; b_nz := 2 |}.
  exists OSError. do 5 eexists. cbv zeta. split; [vm_compute; reflexivity|vm_compute; reflexivity].
Qed.
