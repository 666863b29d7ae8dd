(** Programs that build several Kcorrect objects from one set of templates. *)
From Coq Require Import String List Arith Bool ZArith QArith.
From Verif Require Import Base Num Interp Utils Sed Response RespDict Fitter Kcorrect Persist.
Import ListNotations.

Section Shared.
  Context {T : Type} {N : Num T}.
  Variable cub : list T -> list T -> T -> T.
  Variable bq : (T -> T) -> T -> T -> res T.
  Variable sun vega : res (list T * list (basel_unit T)).

  (** The arguments of a constructor, the templates apart (kcorrect.py:129-185). *)
  Record build_args := {
    b_kind : abkind; b_abc : bool; b_responses : list string; b_out : option (list string); b_map : option (list string);
    b_r0 : T; b_r1 : T; b_nz : nat }.
  Definition construct (fs : @fsys T) (a : build_args) (t : tmpl T) (d : dict (resp T)) (s : sed T)
    : dict (resp T) * sed T * res (kcor T) :=
    Kcorrect cub bq sun vega fs d (b_kind a) (b_abc a) (b_responses a) s t (b_out a) (b_map a) (b_r0 a) (b_r1 a) (b_nz a).

  (** The state of a program: the response cache (response.py:81-95, one in a process), the template object, and the
      objects built.  All of these refer to the one template object (fitter.py:66, self.templates = templates: no copy is
      made), so the spectra in the record of an object are those at the time of its construction and [seen] puts the
      present ones in their place. *)
  Record world := { w_d : dict (resp T); w_s : sed T; w_objs : list (kcor T) }.
  Definition seen (w : world) (K : kcor T) : kcor T := set_tmpl K (w_s w) (k_tmpl K).

  (** What a program does: set_redshift or set_interp of the templates (template.py:226-245, 127-139), load_response
      (response.py:97-113), or a construction.  Exceptions are caught and the program goes on; a construction that raises
      gives no object but leaves its marks on the cache and the templates.  The files may differ from step to step. *)
  Inductive wop :=
  | Touch (o : sed_op T)
  | LoadResponse (fs : @fsys T) (name : string)
  | Build (fs : @fsys T) (a : build_args).
  Variable t : tmpl T.
  Definition w_step (w : world) (o : wop) : world :=
    match o with
    | Touch o => {| w_d := w_d w; w_s := fst (sed_step (w_s w) o); w_objs := w_objs w |}
    | LoadResponse fs n => {| w_d := fst (load_response cub bq sun vega fs (w_d w) n false); w_s := w_s w; w_objs := w_objs w |}
    | Build fs a =>
      let '(d, s, r) := construct fs a t (w_d w) (w_s w) in
      {| w_d := d; w_s := s; w_objs := w_objs w ++ match r with Ok K => [K] | Raise _ => [] end |}
    end.
  Definition w_run (w : world) (ops : list wop) : world := fold_left w_step ops w.

  (** The templates were made with interpolate=True, or set_interp is not called on them. *)
  Definition same_mode (s : sed T) (ops : list wop) : Prop := s_flag s = true \/ ~ In (Touch SetInterp) ops.
  (** Files are read from [fs] only. *)
  Definition files_of (fs : @fsys T) (ops : list wop) : Prop :=
    Forall (fun o => match o with Touch _ => True | LoadResponse f _ => f = fs | Build f _ => f = fs end) ops.
End Shared.
Arguments build_args : clear implicits.
Arguments world : clear implicits.
Arguments wop : clear implicits.
