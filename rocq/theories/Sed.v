(** Model of the SED class of template.py. *)
From Coq Require Import String List Arith Bool QArith.
From Verif Require Import Base Num Interp.
Import ListNotations.
Local Open Scope num_scope.

Section Sed.
  Context {T : Type} {N : Num T}.

  (** template.py:89-101, attributes of an SED object.  [s_interp] is the interpolator, [s_flag] the
      attribute [interpolate], [s_bin] the attribute [binimage].  Simplifications: wave is 1-D and
      given (not None); the [info] dictionary and the file name are left out. *)
  Record sed := {
    s_rwave : list T; s_rflux : nd T;
    s_wave : list T; s_flux : nd T;
    s_z : T; s_flag : bool; s_interp : option (interp1 T); s_bin : bool }.

  (** self.nsed (template.py:113). *)
  Definition s_nsed (s : sed) : nat := hd 0%nat (shp (s_rflux s)).

  (** template.py:127-139 [set_interp]: new state and the exception raised, if any.  The attribute
      [interpolate] becomes True only after interp1d has succeeded. *)
  Definition set_interp (s : sed) : sed * option exn :=
    match mk_cubic (s_wave s) (s_flux s) with
    | Ok it => ({| s_rwave := s_rwave s; s_rflux := s_rflux s; s_wave := s_wave s; s_flux := s_flux s;
                   s_z := s_z s; s_flag := true; s_interp := Some it; s_bin := s_bin s |}, None)
    | Raise e => (s, Some e)
    end.

  (** template.py:103-118 [_setup] of an object holding the given rest-frame arrays; an exception
      means that no object is constructed. *)
  Definition sed_setup (wave : list T) (flux : nd T) (interpolate bin : bool) : res sed :=
    do f <- (if Nat.eqb (ndim flux) 1 then reshape [1%nat; length wave] flux else Ok flux);
    check negb (Nat.eqb (ndim f) 0) else IndexError;
    let s := {| s_rwave := wave; s_rflux := f; s_wave := wave; s_flux := f; s_z := n0;
                s_flag := interpolate; s_interp := None; s_bin := bin |} in
    if interpolate
    then match set_interp s with (s', None) => Ok s' | (_, Some e) => Raise e end
    else Ok s.

  (** template.py:89-101 [SED(wave=, flux=, interpolate=)]. *)
  Definition SED (wave : list T) (flux : nd T) (interpolate : bool) : res sed :=
    sed_setup wave flux interpolate false.

  (** template.py:226-245 [set_redshift]: wave, flux and redshift are assigned first; when the
      interpolator cannot be rebuilt the exception leaves them assigned. *)
  Definition set_redshift (s : sed) (z : T) : sed * option exn :=
    let s' := {| s_rwave := s_rwave s; s_rflux := s_rflux s;
                 s_wave := map (fun w => w * (n1 + z)) (s_rwave s);
                 s_flux := map1 (fun f => f / (n1 + z)) (s_rflux s);
                 s_z := z; s_flag := s_flag s; s_interp := s_interp s; s_bin := s_bin s |} in
    if s_flag s then set_interp s' else (s', None).

  Inductive sed_op := SetRedshift (z : T) | SetInterp.
  Definition sed_step (s : sed) (o : sed_op) : sed * option exn :=
    match o with SetRedshift z => set_redshift s z | SetInterp => set_interp s end.

  (** Any sequence of calls, each of which may raise (the caller goes on). *)
  Fixpoint sed_run (s : sed) (ops : list sed_op) : sed :=
    match ops with [] => s | o :: r => sed_run (fst (sed_step s o)) r end.

  (** FITS files as lists of named HDUs, each a list of named columns; an image HDU has the single
      column "".  Byte-level encoding is not modelled: astropy is taken to return what was written,
      up to the rounding [cst] of float32 columns. *)
  Record hdu := { h_name : string; h_cols : list (string * nd T) }.
  Definition fits := list hdu.

  Definition find_hdu (f : fits) (name : string) : option hdu :=
    find (fun h => String.eqb (h_name h) name) f.
  Definition has_hdu (f : fits) (name : string) : bool :=
    match find_hdu f name with Some _ => true | None => false end.
  (** [hdus[..].data], and [data[name]] of a table.  A column that is not there is a KeyError; the data of an image is an
      ndarray, which has no columns (IndexError).  Taking a whole table for an image is not modelled.  astropy ignores the
      case of HDU and column names; here names are compared exactly. *)
  Definition col (h : hdu) (name : string) : res (nd T) :=
    match find (fun c => String.eqb (fst c) name) (h_cols h) with
    | Some c => Ok (snd c)
    | None => Raise (if String.eqb name "" then Unmodelled
                     else if existsb (fun c => String.eqb (fst c) "") (h_cols h) then IndexError else KeyError)
    end.
  Definition get_hdu (f : fits) (name : string) : res hdu :=
    match find_hdu f name with Some h => Ok h | None => Raise KeyError end.

  (** template.py:182-224 [tofits].  In the table layout out['flux'] = restframe_flux assigns to the
      [1, nsed, nwave] float32 column. *)
  Definition sed_tofits (s : sed) (ext : string) : fits :=
    if s_bin s
    then [ {| h_name := "WAVE"%string; h_cols := [(""%string, vec (s_rwave s))] |};
           {| h_name := "FLUX"%string; h_cols := [(""%string, s_rflux s)] |} ]
    else [ {| h_name := ext;
              h_cols := [("wave"%string, mk [1%nat; length (s_rwave s)] (map cst (s_rwave s)));
                         ("flux"%string, mk (1%nat :: shp (s_rflux s)) (map cst (dat (s_rflux s))))] |} ].

  (** template.py:141-180 [fromfits], for [SED(filename=, ext=, interpolate=)]. *)
  Definition sed_fromfits (f : fits) (ext : string) (interpolate : bool) : res sed :=
    let bin := has_hdu f "FLUX"%string && has_hdu f "WAVE"%string in
    do wf <- (if bin
              then do hw <- get_hdu f "WAVE"%string; do w <- col hw ""%string;
                   do hf <- get_hdu f "FLUX"%string; do fl <- col hf ""%string; Ok (w, fl)
              else do h <- get_hdu f ext;
                   do w <- col h "wave"%string; do fl <- col h "flux"%string; Ok (w, fl));
    let '(w, fl) := wf in
    let nsed := if Nat.ltb 1 (ndim fl) then lastd (lead (shp fl)) else 1%nat in
    let w' := squeeze w in
    do nwave <- len w';
    do fl' <- reshape [nsed; nwave] fl;
    sed_setup (dat w') fl' interpolate bin.
End Sed.
Arguments sed : clear implicits.
Arguments sed_op : clear implicits.
Arguments hdu : clear implicits.
Arguments fits : clear implicits.
Arguments SetInterp {T}.
