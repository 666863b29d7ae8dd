(** Example objects for the theorems about files. *)
From Coq Require Import String List Arith Bool ZArith QArith Reals.
From Verif Require Import Base Num Toy Interp Sed Response RespDict Fitter FitSpec FitEx FitRealEx Kcorrect KSpec KEx Persist PersistSpec.
Import ListNotations.
Local Open Scope R_scope.

(** Two bands, two output bands of which one is not an input band, one template with two wavelengths. *)
Definition r_sed : sed R :=
  {| s_rwave := [1; 2]; s_rflux := mk [1; 2]%nat [3; 4]; s_wave := [1; 2]; s_flux := mk [1; 2]%nat [3; 4]; s_z := 0;
     s_flag := false; s_interp := None; s_bin := true |}.
Definition r_tab_in (z : R) : atab R := {| a_x := [0; z]; a_rows := [[1; 2]; [3; 4]]; a_shape := [2; 1]%nat |}.
Definition r_tab_out (z : R) : atab R := {| a_x := [0; z]; a_rows := [[5; 6]; [7; 8]]; a_shape := [2; 1]%nat |}.
Definition r_obj (k : abkind) (abc : bool) (z : R) : kcor R :=
  {| k_fit := {| f_kind := k; f_abc := abc; f_resp := ["u"; "g"]%string; f_sed := r_sed; f_zs := [0; z];
                 f_A := Some (r_tab_in z) |};
     k_tmpl := ex_tmpl [2] [1] [1/50] [1/4] [1/2] [1];
     k_out := ["r"; "g"]%string; k_map := ["g"; "g"]%string; k_Aout := Some (r_tab_out z); k_imap := [1; 1]%nat;
     k_rr := (0, z) |}.
(** The responses already in the cache. *)
Definition r_cache : dict (resp R) := [("u", sol_resp 5); ("g", sol_resp 4)]%string.
Definition no_files : @fsys R := fun _ => None.
(** The same object with another imap. *)
Definition r_other (im : list nat) : kcor R := set_imap (r_obj Plain false 1) im.
