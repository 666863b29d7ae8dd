(** Model of SED.fromfits called on an object that exists already (template.py:141-180). *)
From Coq Require Import String List Arith Bool.
From Verif Require Import Base Num Interp Sed.
Import ListNotations.

Section Reload.
  Context {T : Type} {N : Num T}.

  (** The attributes of template.py:89-101 as in Sed.v, but with arrays of any shape: between the assignments of fromfits
      restframe_wave has the shape that it has in the file. *)
  Record sobj := {
    b_rwave : nd T; b_rflux : nd T; b_wave : nd T; b_flux : nd T;
    b_z : T; b_flag : bool; b_interp : option (interp1 T); b_bin : bool }.
  Definition obj_of (s : sed T) : sobj :=
    {| b_rwave := vec (s_rwave s); b_rflux := s_rflux s; b_wave := vec (s_wave s); b_flux := s_flux s;
       b_z := s_z s; b_flag := s_flag s; b_interp := s_interp s; b_bin := s_bin s |}.
  Definition set_bin (x : sobj) (b : bool) : sobj :=
    {| b_rwave := b_rwave x; b_rflux := b_rflux x; b_wave := b_wave x; b_flux := b_flux x;
       b_z := b_z x; b_flag := b_flag x; b_interp := b_interp x; b_bin := b |}.
  Definition set_rwave (x : sobj) (w : nd T) : sobj :=
    {| b_rwave := w; b_rflux := b_rflux x; b_wave := b_wave x; b_flux := b_flux x;
       b_z := b_z x; b_flag := b_flag x; b_interp := b_interp x; b_bin := b_bin x |}.
  Definition set_rflux (x : sobj) (f : nd T) : sobj :=
    {| b_rwave := b_rwave x; b_rflux := f; b_wave := b_wave x; b_flux := b_flux x;
       b_z := b_z x; b_flag := b_flag x; b_interp := b_interp x; b_bin := b_bin x |}.

  (** template.py:103-118 [_setup] of an object whose rest-frame flux has two axes; 127-139 [set_interp].  The redshift, wave
      and flux are assigned before the interpolator is built. *)
  Definition obj_setup (x : sobj) : sobj * option exn :=
    let x := {| b_rwave := b_rwave x; b_rflux := b_rflux x; b_wave := b_rwave x; b_flux := b_rflux x;
                b_z := n0; b_flag := b_flag x; b_interp := b_interp x; b_bin := b_bin x |} in
    if b_flag x
    then match mk_cubic (dat (b_wave x)) (b_flux x) with
         | Ok it => ({| b_rwave := b_rwave x; b_rflux := b_rflux x; b_wave := b_wave x; b_flux := b_flux x;
                        b_z := b_z x; b_flag := true; b_interp := Some it; b_bin := b_bin x |}, None)
         | Raise e => (x, Some e)
         end
    else (x, None).

  (** template.py:161-180, in the order of the assignments.  The keyword arguments are the file and [ext].  A file that
      cannot be opened changes nothing and is left out. *)
  Definition reload (x : sobj) (f : fits T) (ext : string) : sobj * option exn :=
    let bin := has_hdu f "FLUX"%string && has_hdu f "WAVE"%string in
    let x := set_bin x bin in
    match (if bin then do h <- get_hdu f "WAVE"%string; col h ""%string else do h <- get_hdu f ext; col h "wave"%string) with
    | Raise e => (x, Some e)
    | Ok w =>
      let x := set_rwave x w in
      match (if bin then do h <- get_hdu f "FLUX"%string; col h ""%string else do h <- get_hdu f ext; col h "flux"%string) with
      | Raise e => (x, Some e)
      | Ok fl =>
        let x := set_rflux x fl in
        let nsed := if Nat.ltb 1 (ndim fl) then lastd (lead (shp fl)) else 1%nat in
        let x := set_rwave x (squeeze w) in
        match (do nwave <- len (squeeze w); reshape [nsed; nwave] fl) with
        | Raise e => (x, Some e)
        | Ok fl' => obj_setup (set_rflux x fl')
        end
      end
    end.

  (** The object [x] has the attributes of [s]. *)
  Definition is_sed (x : sobj) (s : sed T) : Prop :=
    dat (b_rwave x) = s_rwave s /\ b_rflux x = s_rflux s /\ dat (b_wave x) = s_wave s /\ b_flux x = s_flux s /\
    b_z x = s_z s /\ b_flag x = s_flag s /\ b_interp x = s_interp s /\ b_bin x = s_bin s.
End Reload.
Arguments sobj : clear implicits.
