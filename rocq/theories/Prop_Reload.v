(** Property theorems; proofs are in ReloadThms.v.  Generated by tools/gen_prop.py. *)
From Coq Require Import String List Arith Lia Bool ZArith.
From Verif Require Import Base Num Toy Interp Sed Reload.
Import ListNotations.
From Verif Require Import ReloadThms.

(** C111.  fromfits on an SED that has been built and then used in any way -- set_redshift, set_interp, whether they raise or
    not -- succeeds exactly when SED(filename=, interpolate=) does with the object's present flag, and the object then has
    the attributes of that new SED, without axes of length 1 in the wavelengths: nothing of the past is left. *)
Theorem C111_forgets :
  forall (T : Type) (N : Num T) wave flux interpolate (s0 : sed T) ops f ext,
    SED wave flux interpolate = Ok s0 ->
    let s := sed_run s0 ops in
    (forall s', sed_fromfits f ext (s_flag s) = Ok s' ->
       exists x, reload (obj_of s) f ext = (x, None) /\ is_sed x s' /\ b_wave x = b_rwave x /\ ~ In 1 (shp (b_rwave x))) /\
    (forall x, reload (obj_of s) f ext = (x, None) ->
       exists s', sed_fromfits f ext (s_flag s) = Ok s' /\ is_sed x s').
Proof. exact L_C111_forgets. Qed.
Print Assumptions C111_forgets.

Example ex_C111_forgets :
  exists s0 s', SED [1; 2; 3; 4]%Z (vec [5; 6; 7; 8]%Z) true = Ok s0 /\ s_z (sed_run s0 [SetRedshift 3%Z]) = 3%Z /\
    sed_fromfits [{| h_name := "FLUX"%string; h_cols := [("wave"%string, mk [1; 4] [2; 4; 6; 8]%Z); ("flux"%string, mk [1; 1; 4] [1; 1; 2; 2]%Z)] |}]
      "FLUX" true = Ok s' /\ s_rwave s' = [2; 4; 6; 8]%Z /\ s_z s' = 0%Z.
Proof. exact E_C111_forgets. Qed.

(** A fromfits that raises raises what SED(filename=) raises.  The flag and the interpolator stay as they were, the attribute
    binimage becomes that of the file; wave, flux and redshift stay, or -- only when it is the interpolator of the new
    spectrum that cannot be built -- are those of the file at redshift 0, beside the old interpolator. *)
Theorem C111_failed :
  forall (T : Type) (N : Num T) (s : sed T) f ext x e,
    reload (obj_of s) f ext = (x, Some e) ->
    sed_fromfits f ext (s_flag s) = Raise e /\
    b_flag x = s_flag s /\ b_interp x = s_interp s /\ b_bin x = has_hdu f "FLUX" && has_hdu f "WAVE" /\
    ((b_wave x = vec (s_wave s) /\ b_flux x = s_flux s /\ b_z x = s_z s) \/
     (s_flag s = true /\ b_wave x = b_rwave x /\ b_flux x = b_rflux x /\ b_z x = n0 /\
      mk_cubic (dat (b_rwave x)) (b_rflux x) = Raise e)).
Proof. exact L_C111_failed. Qed.
Print Assumptions C111_failed.

Example ex_C111_failed :
  exists s0 x, SED [1; 2; 3; 4]%Z (vec [5; 6; 7; 8]%Z) true = Ok s0 /\
    reload (obj_of (sed_run s0 [SetRedshift 3%Z])) [{| h_name := "FLUX"%string; h_cols := [("wave"%string, mk [1; 4] [2; 4; 6; 8]%Z)] |}] "FLUX" =
      (x, Some KeyError) /\ dat (b_wave x) = [4; 8; 12; 16]%Z /\ dat (b_rwave x) = [2; 4; 6; 8]%Z.
Proof. exact E_C111_failed. Qed.

(** In particular a file of two or three samples: an interpolating object raises ValueError and is left with the spectrum of
    the file at redshift 0, and with the interpolator of its previous spectrum. *)
Theorem C111_stale :
  forall (T : Type) (N : Num T) (s : sed T) (w : list T) k (fl : list T),
    s_flag s = true -> 2 <= length w < 4 -> length fl = k * length w ->
    let f := [{| h_name := "FLUX"%string; h_cols := [("wave"%string, mk [1; length w] w); ("flux"%string, mk [1; k; length w] fl)] |}] in
    exists x, reload (obj_of s) f "FLUX" = (x, Some ValueError) /\
      b_wave x = vec w /\ b_flux x = mk [k; length w] fl /\ b_z x = n0 /\ b_interp x = s_interp s.
Proof. exact L_C111_stale. Qed.
Print Assumptions C111_stale.

Example ex_C111_stale :
  exists s, SED [1; 2; 3; 4]%Z (vec [5; 6; 7; 8]%Z) true = Ok s /\ s_flag s = true /\ 2 <= length [7; 9]%Z < 4 /\
    s_interp s = Some {| ix := [1;2;3;4]; iys := [[5;6;7;8]] |}%Z.
Proof. exact E_C111_stale. Qed.

(** An object that raised may write its spectrum in another layout than before: "a fromfits that raises leaves the object as
    it was" is false. *)
Theorem C111_unchanged_refuted :
  exists (s s' : sed Z) f ext x e ext',
    sed_fromfits [{| h_name := "WAVE"%string; h_cols := [(""%string, vec [1; 2; 3; 4]%Z)] |};
                  {| h_name := "FLUX"%string; h_cols := [(""%string, mk [1; 4] [5; 6; 7; 8]%Z)] |}] "FLUX" true = Ok s /\
    reload (obj_of s) f ext = (x, Some e) /\ is_sed x s' /\
    map h_name (sed_tofits s ext') = ["WAVE"; "FLUX"]%string /\ map h_name (sed_tofits s' ext') = [ext'].
Proof. exact L_C111_unchanged_refuted. Qed.
Print Assumptions C111_unchanged_refuted.
