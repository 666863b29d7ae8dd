(** SED.fromfits called on an object that exists already (C111). *)
From Coq Require Import String List Arith Lia Bool ZArith.
From Verif Require Import Base Num Toy Interp Sed Reload.
Import ListNotations.
(* STATEMENTS *)
From Verif Require Import SedThms.

(** C111.  fromfits on an SED that has been built and then used in any way -- set_redshift, set_interp, whether they raise or
    not -- succeeds exactly when SED(filename=, interpolate=) does with the object's present flag, and the object then has
    the attributes of that new SED, without axes of length 1 in the wavelengths: nothing of the past is left. *)
Lemma L_C111_forgets :
  forall (T : Type) (N : Num T) wave flux interpolate (s0 : sed T) ops f ext,
    SED wave flux interpolate = Ok s0 ->
    let s := sed_run s0 ops in
    (forall s', sed_fromfits f ext (s_flag s) = Ok s' ->
       exists x, reload (obj_of s) f ext = (x, None) /\ is_sed x s' /\ b_wave x = b_rwave x /\ ~ In 1 (shp (b_rwave x))) /\
    (forall x, reload (obj_of s) f ext = (x, None) ->
       exists s', sed_fromfits f ext (s_flag s) = Ok s' /\ is_sed x s').
Proof.
  intros T N wave flux ip s0 ops f ext H s.
  assert (HI : s_flag s = false -> s_interp s = None).
  { apply run_flag. destruct (setup_fields _ _ _ _ _ H) as (_ & _ & _ & _ & _ & H6 & H7 & _). rewrite H6. exact H7. }
  clearbody s. unfold reload, sed_fromfits. set (bin := has_hdu f "FLUX" && has_hdu f "WAVE").
  assert (X : forall (w fl : nd T),
    let nsed := if Nat.ltb 1 (ndim fl) then lastd (lead (shp fl)) else 1%nat in
    match (do nwave <- len (squeeze w); reshape [nsed; nwave] fl) with
    | Raise e => (do nwave <- len (squeeze w); do fl' <- reshape [nsed; nwave] fl; sed_setup (dat (squeeze w)) fl' (s_flag s) bin) = Raise e
    | Ok fl' =>
      match obj_setup (set_rflux (set_rwave (set_rflux (set_rwave (set_bin (obj_of s) bin) w) fl) (squeeze w)) fl') with
      | (x, None) => exists s', (do nwave <- len (squeeze w); do fl' <- reshape [nsed; nwave] fl; sed_setup (dat (squeeze w)) fl' (s_flag s) bin) = Ok s' /\ is_sed x s' /\ b_wave x = b_rwave x /\ b_rwave x = squeeze w
      | (x, Some e) => (do nwave <- len (squeeze w); do fl' <- reshape [nsed; nwave] fl; sed_setup (dat (squeeze w)) fl' (s_flag s) bin) = Raise e
      end
    end).
  { intros w fl nsed. destruct (len (squeeze w)) as [nwave|e]; cbn [bind]; [|reflexivity].
    unfold reshape. destruct (Nat.eqb (size [nsed; nwave]) (size (shp fl))); cbn [bind]; [|reflexivity].
    unfold obj_setup, sed_setup, set_interp. cbn [b_flag b_wave b_flux b_rwave b_rflux b_z b_interp b_bin set_rflux set_rwave set_bin obj_of].
    cbn [ndim shp length Nat.eqb bind negb].
    destruct (s_flag s) eqn:Ef; cbn [s_wave s_flux s_rwave s_rflux s_z s_flag s_interp s_bin].
    - destruct (mk_cubic _ _) as [it|e]; [|reflexivity]. eexists. split; [reflexivity|]. unfold is_sed. cbn. repeat split.
    - eexists. split; [reflexivity|]. unfold is_sed. cbn. rewrite HI by auto. repeat split. }
  assert (Q : forall w : nd T, ~ In 1 (shp (squeeze w))).
  { intros w H1. unfold squeeze in H1. cbn [shp] in H1. apply filter_In in H1 as [_ H1]. discriminate. }
  destruct bin.
  1: destruct (get_hdu f "WAVE") as [h|e]; cbn [bind]; [|split; [intros s' E|intros x E]; discriminate E].
  1: destruct (col h "") as [w|e]; cbn [bind]; [|split; [intros s' E|intros x E]; discriminate E].
  1: destruct (get_hdu f "FLUX") as [h'|e]; cbn [bind]; [|split; [intros s' E|intros x E]; discriminate E].
  1: destruct (col h' "") as [fl|e]; cbn [bind]; [|split; [intros s' E|intros x E]; discriminate E].
  2: destruct (get_hdu f ext) as [h|e]; cbn [bind]; [|split; [intros s' E|intros x E]; discriminate E].
  2: destruct (col h "wave") as [w|e]; cbn [bind]; [|split; [intros s' E|intros x E]; discriminate E].
  2: destruct (col h "flux") as [fl|e]; cbn [bind]; [|split; [intros s' E|intros x E]; discriminate E].
  all: specialize (X w fl); cbv zeta in X.
  all: destruct (do nwave <- len (squeeze w); reshape _ fl) as [fl'|e]; [|split; [intros s' E; rewrite X in E|intros x E]; discriminate E].
  all: destruct (obj_setup _) as [x [e|]]; [split; [intros s' E; rewrite X in E|intros x0 E]; discriminate E|].
  all: destruct X as (s1 & X1 & X2 & X3 & X4);
       split; [intros s' E; rewrite X1 in E; injection E as <-; exists x; rewrite X3, X4; auto
                                            |intros x0 E; injection E as <-; exists s1; auto].
Qed.
Lemma E_C111_forgets :
  exists s0 s', SED [1; 2; 3; 4]%Z (vec [5; 6; 7; 8]%Z) true = Ok s0 /\ s_z (sed_run s0 [SetRedshift 3%Z]) = 3%Z /\
    sed_fromfits [{| h_name := "FLUX"%string; h_cols := [("wave"%string, mk [1; 4] [2; 4; 6; 8]%Z); ("flux"%string, mk [1; 1; 4] [1; 1; 2; 2]%Z)] |}]
      "FLUX" true = Ok s' /\ s_rwave s' = [2; 4; 6; 8]%Z /\ s_z s' = 0%Z.
Proof. do 2 eexists. repeat split. Qed.

(** A fromfits that raises raises what SED(filename=) raises.  The flag and the interpolator stay as they were, the attribute
    binimage becomes that of the file; wave, flux and redshift stay, or -- only when it is the interpolator of the new
    spectrum that cannot be built -- are those of the file at redshift 0, beside the old interpolator. *)
Lemma L_C111_failed :
  forall (T : Type) (N : Num T) (s : sed T) f ext x e,
    reload (obj_of s) f ext = (x, Some e) ->
    sed_fromfits f ext (s_flag s) = Raise e /\
    b_flag x = s_flag s /\ b_interp x = s_interp s /\ b_bin x = has_hdu f "FLUX" && has_hdu f "WAVE" /\
    ((b_wave x = vec (s_wave s) /\ b_flux x = s_flux s /\ b_z x = s_z s) \/
     (s_flag s = true /\ b_wave x = b_rwave x /\ b_flux x = b_rflux x /\ b_z x = n0 /\
      mk_cubic (dat (b_rwave x)) (b_rflux x) = Raise e)).
Proof.
  intros T N s f ext x e. unfold reload, sed_fromfits. set (bin := has_hdu f "FLUX" && has_hdu f "WAVE").
  assert (X : forall (w fl : nd T) x e,
    let nsed := if Nat.ltb 1 (ndim fl) then lastd (lead (shp fl)) else 1%nat in
    match (do nwave <- len (squeeze w); reshape [nsed; nwave] fl) with
    | Raise e => (set_rwave (set_rflux (set_rwave (set_bin (obj_of s) bin) w) fl) (squeeze w), Some e)
    | Ok fl' => obj_setup (set_rflux (set_rwave (set_rflux (set_rwave (set_bin (obj_of s) bin) w) fl) (squeeze w)) fl')
    end = (x, Some e) ->
    (do nwave <- len (squeeze w); do fl' <- reshape [nsed; nwave] fl; sed_setup (dat (squeeze w)) fl' (s_flag s) bin) = Raise e /\
    b_flag x = s_flag s /\ b_interp x = s_interp s /\ b_bin x = bin /\
    ((b_wave x = vec (s_wave s) /\ b_flux x = s_flux s /\ b_z x = s_z s) \/
     (s_flag s = true /\ b_wave x = b_rwave x /\ b_flux x = b_rflux x /\ b_z x = n0 /\
      mk_cubic (dat (b_rwave x)) (b_rflux x) = Raise e))).
  { clear. intros w fl x e nsed. destruct (len (squeeze w)) as [nwave|e']; cbn [bind].
    2:{ intro E. injection E as <- <-. do 4 (split; [reflexivity|]). left. repeat split; reflexivity. }
    unfold reshape. destruct (Nat.eqb (size [nsed; nwave]) (size (shp fl))); cbn [bind].
    2:{ intro E. injection E as <- <-. do 4 (split; [reflexivity|]). left. repeat split; reflexivity. }
    unfold obj_setup, sed_setup, set_interp. cbn [b_flag b_wave b_flux b_rwave b_rflux b_z b_interp b_bin set_rflux set_rwave set_bin obj_of].
    cbn [ndim shp length Nat.eqb bind negb].
    destruct (s_flag s) eqn:Ef; cbn [s_wave s_flux s_rwave s_rflux s_z s_flag s_interp s_bin]; [|discriminate].
    destruct (mk_cubic _ _) as [it|e'] eqn:EC; [discriminate|]. intro E. injection E as <- <-. do 4 (split; [reflexivity|]). right.
    do 4 (split; [reflexivity|]). exact EC. }
  destruct bin.
  1: destruct (get_hdu f "WAVE") as [h|e1]; cbn [bind]; [|clear; intro E; injection E as <- <-; do 4 (split; [reflexivity|]); left; repeat split; reflexivity].
  1: destruct (col h "") as [w|e1]; cbn [bind]; [|clear; intro E; injection E as <- <-; do 4 (split; [reflexivity|]); left; repeat split; reflexivity].
  1: destruct (get_hdu f "FLUX") as [h'|e1]; cbn [bind]; [|clear; intro E; injection E as <- <-; do 4 (split; [reflexivity|]); left; repeat split; reflexivity].
  1: destruct (col h' "") as [fl|e1]; cbn [bind]; [|clear; intro E; injection E as <- <-; do 4 (split; [reflexivity|]); left; repeat split; reflexivity].
  2: destruct (get_hdu f ext) as [h|e1]; cbn [bind]; [|clear; intro E; injection E as <- <-; do 4 (split; [reflexivity|]); left; repeat split; reflexivity].
  2: destruct (col h "wave") as [w|e1]; cbn [bind]; [|clear; intro E; injection E as <- <-; do 4 (split; [reflexivity|]); left; repeat split; reflexivity].
  2: destruct (col h "flux") as [fl|e1]; cbn [bind]; [|clear; intro E; injection E as <- <-; do 4 (split; [reflexivity|]); left; repeat split; reflexivity].
  all: apply X.
Qed.
Lemma E_C111_failed :
  exists s0 x, SED [1; 2; 3; 4]%Z (vec [5; 6; 7; 8]%Z) true = Ok s0 /\
    reload (obj_of (sed_run s0 [SetRedshift 3%Z])) [{| h_name := "FLUX"%string; h_cols := [("wave"%string, mk [1; 4] [2; 4; 6; 8]%Z)] |}] "FLUX" =
      (x, Some KeyError) /\ dat (b_wave x) = [4; 8; 12; 16]%Z /\ dat (b_rwave x) = [2; 4; 6; 8]%Z.
Proof. do 2 eexists. repeat split. Qed.

(** In particular a file of two or three samples: an interpolating object raises ValueError and is left with the spectrum of
    the file at redshift 0, and with the interpolator of its previous spectrum. *)
Lemma L_C111_stale :
  forall (T : Type) (N : Num T) (s : sed T) (w : list T) k (fl : list T),
    s_flag s = true -> 2 <= length w < 4 -> length fl = k * length w ->
    let f := [{| h_name := "FLUX"%string; h_cols := [("wave"%string, mk [1; length w] w); ("flux"%string, mk [1; k; length w] fl)] |}] in
    exists x, reload (obj_of s) f "FLUX" = (x, Some ValueError) /\
      b_wave x = vec w /\ b_flux x = mk [k; length w] fl /\ b_z x = n0 /\ b_interp x = s_interp s.
Proof.
  intros T N s w k fl Hf Hw Hl f. unfold reload, f, has_hdu, get_hdu, find_hdu, col.
  cbn [find h_name h_cols fst snd String.eqb Ascii.eqb Bool.eqb andb bind]. unfold squeeze. cbn [shp dat filter Nat.eqb negb].
  destruct (Nat.eqb_spec (length w) 1) as [E|_]; [lia|]. cbn [negb len shp bind ndim length Nat.ltb Nat.leb lead removelast lastd last].
  unfold reshape. cbn [size fold_right shp]. rewrite ?Nat.mul_1_r, ?Nat.mul_1_l, ?Nat.add_0_r, Nat.eqb_refl. cbn [dat].
  unfold obj_setup. cbn [b_flag b_wave b_flux b_rwave b_rflux b_z b_interp b_bin set_rflux set_rwave set_bin obj_of dat].
  rewrite Hf. unfold mk_cubic. cbn [ndim shp length Nat.eqb negb lastd last]. rewrite Nat.eqb_refl.
  destruct (Nat.leb_spec 4 (length w)); [lia|]. eexists. split; [reflexivity|]. cbn. auto.
Qed.
Lemma E_C111_stale :
  exists s, SED [1; 2; 3; 4]%Z (vec [5; 6; 7; 8]%Z) true = Ok s /\ s_flag s = true /\ 2 <= length [7; 9]%Z < 4 /\
    s_interp s = Some {| ix := [1;2;3;4]; iys := [[5;6;7;8]] |}%Z.
Proof. eexists. repeat split; cbn; lia. Qed.

(** An object that raised may write its spectrum in another layout than before: "a fromfits that raises leaves the object as
    it was" is false. *)
Lemma L_C111_unchanged_refuted :
  exists (s s' : sed Z) f ext x e ext',
    sed_fromfits [{| h_name := "WAVE"%string; h_cols := [(""%string, vec [1; 2; 3; 4]%Z)] |};
                  {| h_name := "FLUX"%string; h_cols := [(""%string, mk [1; 4] [5; 6; 7; 8]%Z)] |}] "FLUX" true = Ok s /\
    reload (obj_of s) f ext = (x, Some e) /\ is_sed x s' /\
    map h_name (sed_tofits s ext') = ["WAVE"; "FLUX"]%string /\ map h_name (sed_tofits s' ext') = [ext'].
Proof.
  eexists. eexists {| s_rwave := [1;2;3;4]%Z; s_rflux := mk [1;4] [5;6;7;8]%Z; s_wave := [1;2;3;4]%Z; s_flux := mk [1;4] [5;6;7;8]%Z;
    s_z := 0%Z; s_flag := true; s_interp := Some {| ix := [1;2;3;4]; iys := [[5;6;7;8]] |}%Z; s_bin := false |}.
  exists [], "FLUX"%string. eexists _, _, "FLUX"%string. split; [reflexivity|]. split; [reflexivity|]. unfold is_sed. repeat split.
Qed.
