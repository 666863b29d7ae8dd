(** Property theorems; proofs are in SedThms.v.  Generated by tools/gen_prop.py. *)
From Coq Require Import String List Arith Lia Bool ZArith QArith Qreals Reals Lra.
From Verif Require Import Base BaseLemmas Num Toy Interp Sed.
Import ListNotations.
From Verif Require Import SedThms.

(** C12. After any sequence of set_redshift and set_interp calls (including calls that raise), the
    rest-frame arrays are unchanged and wave, flux and redshift are given by the rest-frame arrays and
    the last redshift passed to set_redshift. *)
Theorem C12_last_redshift_decides :
  forall (T : Type) (N : Num T) (wave : list T) (flux : nd T) (interpolate : bool) (s0 : sed T),
    SED wave flux interpolate = Ok s0 ->
    forall ops : list (sed_op T),
      let s := sed_run s0 ops in
      s_rwave s = wave /\ s_rflux s = s_rflux s0 /\ (ndim flux <> 1%nat -> s_rflux s0 = flux) /\
      ((forall z, ~ In (SetRedshift z) ops) -> s_z s = n0 /\ s_wave s = wave /\ s_flux s = s_rflux s0) /\
      (forall before z after, ops = before ++ SetRedshift z :: after ->
         (forall z', ~ In (SetRedshift z') after) ->
         s_z s = z /\
         s_wave s = map (fun w => nmul w (nadd n1 z)) wave /\
         s_flux s = mk (shp (s_rflux s0)) (map (fun f => ndiv f (nadd n1 z)) (dat (s_rflux s0)))).
Proof. exact L_C12_last_redshift_decides. Qed.
Print Assumptions C12_last_redshift_decides.

Example ex_C12_last_redshift_decides :
  exists s0, SED [1; 2; 3; 4]%Z (vec [5; 6; 7; 8]%Z) true = Ok s0 /\
    s_wave (sed_run s0 [SetRedshift 3; SetInterp; SetRedshift 9; SetRedshift 1; SetInterp]%Z) = [2; 4; 6; 8]%Z.
Proof. exact E_C12_last_redshift_decides. Qed.

(** C12, freshness: after any history, a call that does not raise leaves an interpolator built from
    the current wave and flux whenever the object interpolates, and none otherwise. *)
Theorem C12_interpolator_fresh :
  forall (T : Type) (N : Num T) (wave : list T) (flux : nd T) (interpolate : bool) (s0 : sed T),
    SED wave flux interpolate = Ok s0 ->
    forall (ops : list (sed_op T)) (o : sed_op T),
      snd (sed_step (sed_run s0 ops) o) = None ->
      let s := sed_run s0 (ops ++ [o]) in
      (s_flag s = true -> exists it, mk_cubic (s_wave s) (s_flux s) = Ok it /\ s_interp s = Some it) /\
      (s_flag s = false -> s_interp s = None).
Proof. exact L_C12_interpolator_fresh. Qed.
Print Assumptions C12_interpolator_fresh.

Example ex_C12_interpolator_fresh :
  exists s0, SED [1; 2; 3; 4]%Z (vec [5; 6; 7; 8]%Z) true = Ok s0 /\
    snd (sed_step (sed_run s0 [SetRedshift 3; SetInterp]%Z) (SetRedshift 1%Z)) = None /\
    s_interp (sed_run s0 [SetRedshift 3; SetInterp; SetRedshift 0]%Z) = Some {| ix := [1;2;3;4]; iys := [[5;6;7;8]] |}%Z.
Proof. exact E_C12_interpolator_fresh. Qed.

(** C12, two histories: whatever was called before, a successful set_redshift z leaves the same object
    up to the flag, and the same interpolator when the flags agree. *)
Theorem C12_histories_agree :
  forall (T : Type) (N : Num T) (wave : list T) (flux : nd T) (interpolate : bool) (s0 : sed T),
    SED wave flux interpolate = Ok s0 ->
    forall (ops1 ops2 : list (sed_op T)) (z : T),
      snd (sed_step (sed_run s0 ops1) (SetRedshift z)) = None ->
      snd (sed_step (sed_run s0 ops2) (SetRedshift z)) = None ->
      let s1 := sed_run s0 (ops1 ++ [SetRedshift z]) in
      let s2 := sed_run s0 (ops2 ++ [SetRedshift z]) in
      s_wave s1 = s_wave s2 /\ s_flux s1 = s_flux s2 /\ s_z s1 = s_z s2 /\
      (s_flag s1 = s_flag s2 -> s_interp s1 = s_interp s2).
Proof. exact L_C12_histories_agree. Qed.
Print Assumptions C12_histories_agree.

Example ex_C12_histories_agree :
  exists s0, SED [1; 2; 3; 4]%Z (vec [5; 6; 7; 8]%Z) true = Ok s0 /\
    snd (sed_step (sed_run s0 [SetRedshift (-1)]%Z) (SetRedshift 1%Z)) = None /\
    snd (sed_step (sed_run s0 [SetInterp]) (SetRedshift 1%Z)) = None.
Proof. exact E_C12_histories_agree. Qed.

(** C12, the claim "the interpolator is never stale" fails once a call raises: set_redshift(-1.) raises
    ValueError, has already replaced wave and flux, and keeps the old interpolator. *)
Theorem C12_never_stale_refuted :
  exists (s0 : sed R) (z : R),
    SED [1; 2; 3; 4]%R (vec [1; 1; 1; 1]%R) true = Ok s0 /\
    snd (sed_step s0 (SetRedshift z)) = Some ValueError /\
    s_wave (sed_run s0 [SetRedshift z]) = [0; 0; 0; 0]%R /\
    s_interp (sed_run s0 [SetRedshift z]) = s_interp s0 /\ s_interp s0 <> None.
Proof. exact L_C12_never_stale_refuted. Qed.
Print Assumptions C12_never_stale_refuted.

Theorem C13_bolometric :
  forall (wave : list R) (flux : nd R) (interpolate : bool) (s0 : sed R),
    SED wave flux interpolate = Ok s0 ->
    forall (ops : list (sed_op R)) (z : R), (z <> -1)%R ->
      let s := fst (sed_step (sed_run s0 ops) (SetRedshift z)) in
      length (lrows (s_flux s)) = length (lrows (s_rflux s0)) /\
      forall k, (k < length (lrows (s_rflux s0)))%nat ->
        trapz (nth k (lrows (s_flux s)) []) (s_wave s) = trapz (nth k (lrows (s_rflux s0)) []) wave.
Proof. exact L_C13_bolometric. Qed.
Print Assumptions C13_bolometric.

(** The integral conserved is not trivial: it is 4 for a two-row grid at z = 0.5. *)
Example ex_C13_bolometric :
  exists s0 : sed R, SED [1; 2; 4]%R (mk [1; 3]%nat [1; 1; 2]%R) false = Ok s0 /\
    trapz (nth 0 (lrows (s_rflux s0)) []) [1; 2; 4]%R = 4%R.
Proof. exact E_C13_bolometric. Qed.

Theorem C14_tofits_fromfits :
  forall (T : Type) (N : Num T) (wave : list T) (nsed : nat) (flux : list T) (s0 : sed T),
    (2 <= length wave)%nat -> length flux = (nsed * length wave)%nat ->
    forall bin : bool, sed_setup wave (mk [nsed; length wave] flux) false bin = Ok s0 ->
    forall (ops : list (sed_op T)) (ext : string), ext <> "WAVE"%string \/ bin = true ->
      let r := if bin then (fun x => x) else cst in
      exists s', sed_fromfits (sed_tofits (sed_run s0 ops) ext) ext false = Ok s' /\
        s_rwave s' = map r wave /\ s_rflux s' = mk [nsed; length wave] (map r flux) /\
        s_wave s' = s_rwave s' /\ s_flux s' = s_rflux s' /\ s_z s' = n0 /\ s_bin s' = bin.
Proof. exact L_C14_tofits_fromfits. Qed.
Print Assumptions C14_tofits_fromfits.

Example ex_C14_tofits_fromfits :
  exists s0, sed_setup [1;2;3]%Z (mk [2;3]%nat [1;2;3;4;5;6]%Z) false false = Ok s0 /\
    s_flux (sed_run s0 [SetRedshift 1]%Z) <> s_rflux s0 /\
    rmap s_flux (sed_fromfits (sed_tofits (sed_run s0 [SetRedshift 1]%Z) "FLUX") "FLUX" false) = Ok (s_rflux s0).
Proof. exact E_C14_tofits_fromfits. Qed.

(** C14, one wavelength: the file of a one-sample spectrum cannot be read back (TypeError). *)
Theorem C14_one_sample_fails :
  forall (T : Type) (N : Num T) (w f : T) (s0 : sed T),
    SED [w] (vec [f]) false = Ok s0 -> sed_fromfits (sed_tofits s0 "FLUX") "FLUX" false = Raise TypeError.
Proof. exact L_C14_one_sample_fails. Qed.
Print Assumptions C14_one_sample_fails.

Example ex_C14_one_sample_fails : exists s0, SED [5]%Z (vec [7]%Z) false = Ok s0.
Proof. exact E_C14_one_sample_fails. Qed.
