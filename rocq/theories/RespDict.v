(** Model of ResponseDict and all_responses of response.py, and the response look-up of
    utils.maggies2flambda. *)
From Coq Require Import String Ascii List Arith Bool QArith.
From Verif Require Import Base Num Interp Utils Sed Response.
Import ListNotations.
Local Open Scope num_scope.

(** str.endswith / the captured group of a greedy match followed by suf: [s = p ++ suf] gives Some p. *)
Fixpoint strip_suffix (suf s : string) : option string :=
  if String.eqb s suf then Some ""%string
  else match s with
       | ""%string => None
       | String c r => option_map (String c) (strip_suffix suf r)
       end.
Definition newline : ascii := Ascii.ascii_of_nat 10.
Fixpoint has_newline (s : string) : bool :=
  match s with ""%string => false | String c r => Ascii.eqb c newline || has_newline r end.

(** response.py:66: the match of a capture group of any characters, then the suffix .dat, then '$'.  The group does not match a newline; '$' also matches
    before a newline that ends the string. *)
Definition dat_name (filename : string) : option string :=
  match strip_suffix ".dat" filename with
  | Some p => if has_newline p then None else Some p
  | None => match strip_suffix (".dat" ++ String newline "") filename with
            | Some p => if has_newline p then None else Some p
            | None => None
            end
  end.

(** Python dict with string keys: entries in insertion order. *)
Section Dict.
  Context {A : Type}.
  Definition dict := list (string * A).
  Fixpoint dget (d : dict) (k : string) : option A :=
    match d with [] => None | (k', v) :: r => if String.eqb k' k then Some v else dget r k end.
  Definition dmem (d : dict) (k : string) : bool := match dget d k with Some _ => true | None => false end.
  Fixpoint dset (d : dict) (k : string) (v : A) : dict :=
    match d with
    | [] => [(k, v)]
    | (k', v') :: r => if String.eqb k' k then (k', v) :: r else (k', v') :: dset r k v
    end.
End Dict.
Arguments dict : clear implicits.

Section RespDict.
  Context {T : Type} {N : Num T}.
  Variable cub : list T -> list T -> T -> T.
  Variable bq : (T -> T) -> T -> T -> res T.
  Variable sun vega : res (list T * list (basel_unit T)).

  (** The content of the package's response directory (or of the file system, for absolute names): the
      parsed table of a file, see [fromdat]. *)
  Definition fsys := string -> option (res (list T * list T)).

  (** response.py:97-113 [load_response]: the new entry is stored before it is read.  ResponseDict is a singleton
      (response.py:81-95), so there is one dictionary in a process; it is passed from call to call here. *)
  Definition load_response (fs : fsys) (d : dict (resp T)) (name : string) (reload : bool)
    : dict (resp T) * option exn :=
    if dmem d name && negb reload then (d, None)
    else let (r, e) := fromdat cub bq sun vega blank (fs (name ++ ".dat")%string) in (dset d name r, e).

  (** A sequence of calls; the file system may change between them and the caller survives exceptions. *)
  Record load_op := { l_fs : fsys; l_name : string; l_reload : bool }.
  Definition load_step (d : dict (resp T)) (o : load_op) : dict (resp T) :=
    fst (load_response (l_fs o) d (l_name o) (l_reload o)).
  Definition load_run (d : dict (resp T)) (ops : list load_op) : dict (resp T) := fold_left load_step ops d.

  (** response.py:24-77 [all_responses].  [files] is os.listdir of the directory with os.path.isfile of each
      entry; None if listdir fails. *)
  Fixpoint all_loop (fs : fsys) (check_ : bool) (files : list (string * bool)) (d : dict (resp T))
    : dict (resp T) * list string :=
    match files with
    | [] => (d, [])
    | (f, isfile) :: r =>
      match (if isfile then dat_name f else None) with
      | None => all_loop fs check_ r d
      | Some name =>
        if check_
        then let (d1, e) := load_response fs d name false in
             let (d2, l) := all_loop fs check_ r d1 in
             (d2, match e with None => name :: l | Some _ => l end)
        else let (d2, l) := all_loop fs check_ r d in (d2, name :: l)
      end
    end.
  Definition all_responses (fs : fsys) (check_ : bool) (files : option (list (string * bool))) (d : dict (resp T))
    : dict (resp T) * res (list string) :=
    match files with
    | None => (d, Raise OSError)
    | Some l => let (d', r) := all_loop fs check_ l d in (d', Ok r)
    end.

  (** `for response in responses: if(response not in r): r.load_response(response)`
      (utils.py:357-359). *)
  Fixpoint load_missing (fs : fsys) (names : list string) (d : dict (resp T)) : dict (resp T) * option exn :=
    match names with
    | [] => (d, None)
    | n :: r =>
      if dmem d n then load_missing fs r d
      else match load_response fs d n false with
           | (d', None) => load_missing fs r d'
           | (d', Some e) => (d', Some e)
           end
    end.

  (** np.array([..., None, ...], dtype=np.float32): None becomes NaN, written 0/0. *)
  Definition f32_or_nan (o : option T) : T := match o with Some x => x | None => n0 / n0 end.

  (** utils.py:318-379 [maggies2flambda] *)
  Definition maggies2flambda (fs : fsys) (d : dict (resp T)) (names : list string)
             (maggies : nd T) (ivar : option (nd T))
    : dict (resp T) * res (list T * nd T * option (nd T)) :=
    match load_missing fs names d with
    | (d', Some e) => (d', Raise e)
    | (d', None) =>
      (d', do le <- mapM (fun n => match dget d' n with
                                   | Some r => Ok (f32_or_nan (p_leff r)) | None => Raise KeyError end) names;
           maggies2flambda_core le maggies ivar)
    end.
End RespDict.
