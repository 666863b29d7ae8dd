(** Properties of the SED class (C12-C14): the proofs.  Prop_Sed.v restates them. *)
From Coq Require Import String List Arith Lia Bool ZArith QArith Qreals Reals Lra.
From Verif Require Import Base BaseLemmas Num Toy Interp Sed.
Import ListNotations.
(* STATEMENTS *)

Lemma step_rest {T} {N : Num T} (s : sed T) o :
  s_rwave (fst (sed_step s o)) = s_rwave s /\ s_rflux (fst (sed_step s o)) = s_rflux s.
Proof.
  destruct o as [z|]; cbn [sed_step]; unfold set_redshift, set_interp; cbn.
  - destruct (s_flag s); [|split; reflexivity]. destruct (mk_cubic _ _); split; reflexivity.
  - destruct (mk_cubic _ _); split; reflexivity.
Qed.

Lemma step_z {T} {N : Num T} (s : sed T) z :
  s_z (fst (sed_step s (SetRedshift z))) = z /\
  s_wave (fst (sed_step s (SetRedshift z))) = map (fun w => nmul w (nadd n1 z)) (s_rwave s) /\
  s_flux (fst (sed_step s (SetRedshift z))) = map1 (fun f => ndiv f (nadd n1 z)) (s_rflux s).
Proof.
  cbn [sed_step]; unfold set_redshift, set_interp; cbn.
  destruct (s_flag s); [|repeat split; reflexivity]. destruct (mk_cubic _ _); repeat split; reflexivity.
Qed.

Lemma step_i {T} {N : Num T} (s : sed T) :
  s_z (fst (sed_step s SetInterp)) = s_z s /\ s_wave (fst (sed_step s SetInterp)) = s_wave s /\
  s_flux (fst (sed_step s SetInterp)) = s_flux s.
Proof. cbn [sed_step]; unfold set_interp. destruct (mk_cubic _ _); repeat split; reflexivity. Qed.

Lemma run_app {T} {N : Num T} ops1 : forall (s : sed T) ops2,
  sed_run s (ops1 ++ ops2) = sed_run (sed_run s ops1) ops2.
Proof. induction ops1 as [|o r IH]; intros; cbn [sed_run app]; auto. Qed.

Lemma run_rest {T} {N : Num T} ops : forall (s : sed T),
  s_rwave (sed_run s ops) = s_rwave s /\ s_rflux (sed_run s ops) = s_rflux s.
Proof.
  induction ops as [|o r IH]; intros s; cbn [sed_run]; auto.
  destruct (IH (fst (sed_step s o))) as [-> ->]. apply step_rest.
Qed.

Lemma run_noz {T} {N : Num T} ops : forall (s : sed T),
  (forall z, ~ In (SetRedshift z) ops) ->
  s_z (sed_run s ops) = s_z s /\ s_wave (sed_run s ops) = s_wave s /\ s_flux (sed_run s ops) = s_flux s.
Proof.
  induction ops as [|o r IH]; intros s H; cbn [sed_run]; auto.
  destruct (IH (fst (sed_step s o))) as (-> & -> & ->).
  { intros z Hz. apply (H z). right; auto. }
  destruct o as [z|]; [exfalso; apply (H z); left; auto|]. apply step_i.
Qed.

Lemma setup_fields {T} {N : Num T} wave flux ip bin (s0 : sed T) :
  sed_setup wave flux ip bin = Ok s0 ->
  s_rwave s0 = wave /\ s_wave s0 = wave /\ s_flux s0 = s_rflux s0 /\ s_z s0 = n0 /\ s_bin s0 = bin /\
  s_flag s0 = ip /\ (ip = false -> s_interp s0 = None) /\
  (if Nat.eqb (ndim flux) 1 then reshape [1%nat; length wave] flux = Ok (s_rflux s0) else s_rflux s0 = flux).
Proof.
  unfold sed_setup. destruct (Nat.eqb (ndim flux) 1) eqn:E1.
  - destruct (reshape _ _) as [f|e] eqn:Er; cbn [bind]; [|discriminate].
    destruct (negb _); [|discriminate]. destruct ip; unfold set_interp; cbn.
    + destruct (mk_cubic _ _); [|discriminate]. intro H; injection H as <-; cbn; repeat split; auto; discriminate.
    + intro H; injection H as <-; cbn; repeat split; auto; discriminate.
  - cbn [bind]. destruct (negb _); [|discriminate]. destruct ip; unfold set_interp; cbn.
    + destruct (mk_cubic _ _); [|discriminate]. intro H; injection H as <-; cbn; repeat split; auto; discriminate.
    + intro H; injection H as <-; cbn; repeat split; auto; discriminate.
Qed.

(** C12. After any sequence of set_redshift and set_interp calls (including calls that raise), the
    rest-frame arrays are unchanged and wave, flux and redshift are given by the rest-frame arrays and
    the last redshift passed to set_redshift. *)
Lemma L_C12_last_redshift_decides :
  forall (T : Type) (N : Num T) (wave : list T) (flux : nd T) (interpolate : bool) (s0 : sed T),
    SED wave flux interpolate = Ok s0 ->
    forall ops : list (sed_op T),
      let s := sed_run s0 ops in
      s_rwave s = wave /\ s_rflux s = s_rflux s0 /\ (ndim flux <> 1%nat -> s_rflux s0 = flux) /\
      ((forall z, ~ In (SetRedshift z) ops) -> s_z s = n0 /\ s_wave s = wave /\ s_flux s = s_rflux s0) /\
      (forall before z after, ops = before ++ SetRedshift z :: after ->
         (forall z', ~ In (SetRedshift z') after) ->
         s_z s = z /\
         s_wave s = map (fun w => nmul w (nadd n1 z)) wave /\
         s_flux s = mk (shp (s_rflux s0)) (map (fun f => ndiv f (nadd n1 z)) (dat (s_rflux s0)))).
Proof.
  intros T N wave flux ip s0 H ops s.
  destruct (setup_fields _ _ _ _ _ H) as (H1 & H2 & H3 & H4 & H5 & H6 & H7 & H8).
  destruct (run_rest ops s0) as [Hr Hf]. unfold s.
  split; [congruence|]. split; [exact Hf|]. split.
  { intro Hn. apply Nat.eqb_neq in Hn. rewrite Hn in H8. exact H8. }
  split.
  - intro Hno. destruct (run_noz ops s0 Hno) as (A & B & C). repeat split; congruence.
  - intros before z after -> Hno. rewrite run_app. cbn [sed_run].
    destruct (run_noz after (fst (sed_step (sed_run s0 before) (SetRedshift z))) Hno) as (A & B & C).
    destruct (step_z (sed_run s0 before) z) as (D & E & F).
    destruct (run_rest before s0) as [G I].
    rewrite A, B, C, D, E, F, G, I, H1. repeat split.
Qed.

Lemma E_C12_last_redshift_decides :
  exists s0, SED [1; 2; 3; 4]%Z (vec [5; 6; 7; 8]%Z) true = Ok s0 /\
    s_wave (sed_run s0 [SetRedshift 3; SetInterp; SetRedshift 9; SetRedshift 1; SetInterp]%Z) = [2; 4; 6; 8]%Z.
Proof. eexists. split; reflexivity. Qed.

Lemma step_fresh {T} {N : Num T} (s : sed T) o :
  (s_flag s = false -> s_interp s = None) -> snd (sed_step s o) = None ->
  (s_flag (fst (sed_step s o)) = true ->
   exists it, mk_cubic (s_wave (fst (sed_step s o))) (s_flux (fst (sed_step s o))) = Ok it /\
              s_interp (fst (sed_step s o)) = Some it) /\
  (s_flag (fst (sed_step s o)) = false -> s_interp (fst (sed_step s o)) = None).
Proof.
  intro Hi. destruct o as [z|]; cbn [sed_step]; unfold set_redshift, set_interp; cbn.
  - destruct (s_flag s) eqn:Ef.
    + destruct (mk_cubic _ _) as [it|e] eqn:E; cbn; intro H; [|discriminate].
      split; [|discriminate]. intros _. exists it. auto.
    + cbn. intros _. split; [congruence|]. auto.
  - destruct (mk_cubic _ _) as [it|e] eqn:E; cbn; intro H; [|discriminate].
    split; [|discriminate]. intros _. exists it. auto.
Qed.

Lemma run_flag {T} {N : Num T} ops : forall (s : sed T),
  (s_flag s = false -> s_interp s = None) ->
  (s_flag (sed_run s ops) = false -> s_interp (sed_run s ops) = None).
Proof.
  induction ops as [|o r IH]; intros s H; cbn [sed_run]; auto. apply IH.
  destruct o as [z|]; cbn [sed_step]; unfold set_redshift, set_interp; cbn.
  - destruct (s_flag s) eqn:Ef.
    + destruct (mk_cubic _ _) as [it|e] eqn:E; cbn; [discriminate|]. congruence.
    + cbn. auto.
  - destruct (mk_cubic _ _) as [it|e] eqn:E; cbn; [discriminate|]. auto.
Qed.

(** C12, freshness: after any history, a call that does not raise leaves an interpolator built from
    the current wave and flux whenever the object interpolates, and none otherwise. *)
Lemma L_C12_interpolator_fresh :
  forall (T : Type) (N : Num T) (wave : list T) (flux : nd T) (interpolate : bool) (s0 : sed T),
    SED wave flux interpolate = Ok s0 ->
    forall (ops : list (sed_op T)) (o : sed_op T),
      snd (sed_step (sed_run s0 ops) o) = None ->
      let s := sed_run s0 (ops ++ [o]) in
      (s_flag s = true -> exists it, mk_cubic (s_wave s) (s_flux s) = Ok it /\ s_interp s = Some it) /\
      (s_flag s = false -> s_interp s = None).
Proof.
  intros T N wave flux ip s0 H ops o Ho s.
  destruct (setup_fields _ _ _ _ _ H) as (_ & _ & _ & _ & _ & H6 & H7 & _).
  unfold s. rewrite run_app. cbn [sed_run]. apply step_fresh; auto.
  apply run_flag. rewrite H6. exact H7.
Qed.

Lemma E_C12_interpolator_fresh :
  exists s0, SED [1; 2; 3; 4]%Z (vec [5; 6; 7; 8]%Z) true = Ok s0 /\
    snd (sed_step (sed_run s0 [SetRedshift 3; SetInterp]%Z) (SetRedshift 1%Z)) = None /\
    s_interp (sed_run s0 [SetRedshift 3; SetInterp; SetRedshift 0]%Z) = Some {| ix := [1;2;3;4]; iys := [[5;6;7;8]] |}%Z.
Proof. eexists. repeat split. Qed.

(** C12, two histories: whatever was called before, a successful set_redshift z leaves the same object
    up to the flag, and the same interpolator when the flags agree. *)
Lemma L_C12_histories_agree :
  forall (T : Type) (N : Num T) (wave : list T) (flux : nd T) (interpolate : bool) (s0 : sed T),
    SED wave flux interpolate = Ok s0 ->
    forall (ops1 ops2 : list (sed_op T)) (z : T),
      snd (sed_step (sed_run s0 ops1) (SetRedshift z)) = None ->
      snd (sed_step (sed_run s0 ops2) (SetRedshift z)) = None ->
      let s1 := sed_run s0 (ops1 ++ [SetRedshift z]) in
      let s2 := sed_run s0 (ops2 ++ [SetRedshift z]) in
      s_wave s1 = s_wave s2 /\ s_flux s1 = s_flux s2 /\ s_z s1 = s_z s2 /\
      (s_flag s1 = s_flag s2 -> s_interp s1 = s_interp s2).
Proof.
  intros T N wave flux ip s0 H ops1 ops2 z E1 E2 s1 s2.
  destruct (L_C12_last_redshift_decides T N wave flux ip s0 H (ops1 ++ [SetRedshift z])) as (_ & _ & _ & _ & A1).
  destruct (L_C12_last_redshift_decides T N wave flux ip s0 H (ops2 ++ [SetRedshift z])) as (_ & _ & _ & _ & A2).
  specialize (A1 ops1 z [] eq_refl (fun _ F => F)). specialize (A2 ops2 z [] eq_refl (fun _ F => F)).
  destruct A1 as (B1 & C1 & D1), A2 as (B2 & C2 & D2).
  destruct (L_C12_interpolator_fresh T N wave flux ip s0 H ops1 _ E1) as [F1 G1].
  destruct (L_C12_interpolator_fresh T N wave flux ip s0 H ops2 _ E2) as [F2 G2].
  fold s1 in B1, C1, D1, F1, G1. fold s2 in B2, C2, D2, F2, G2.
  split; [congruence|]. split; [congruence|]. split; [congruence|].
  intro Hf. destruct (s_flag s1) eqn:Ef1.
  - destruct (F1 eq_refl) as (it1 & I1 & ->). destruct F2 as (it2 & I2 & ->); [congruence|].
    rewrite C1, D1, <- C2, <- D2, I2 in I1. congruence.
  - rewrite G1, G2 by congruence. reflexivity.
Qed.

Lemma E_C12_histories_agree :
  exists s0, SED [1; 2; 3; 4]%Z (vec [5; 6; 7; 8]%Z) true = Ok s0 /\
    snd (sed_step (sed_run s0 [SetRedshift (-1)]%Z) (SetRedshift 1%Z)) = None /\
    snd (sed_step (sed_run s0 [SetInterp]) (SetRedshift 1%Z)) = None.
Proof. eexists. repeat split. Qed.

(** C12, the claim "the interpolator is never stale" fails once a call raises: set_redshift(-1.) raises
    ValueError, has already replaced wave and flux, and keeps the old interpolator. *)
Lemma L_C12_never_stale_refuted :
  exists (s0 : sed R) (z : R),
    SED [1; 2; 3; 4]%R (vec [1; 1; 1; 1]%R) true = Ok s0 /\
    snd (sed_step s0 (SetRedshift z)) = Some ValueError /\
    s_wave (sed_run s0 [SetRedshift z]) = [0; 0; 0; 0]%R /\
    s_interp (sed_run s0 [SetRedshift z]) = s_interp s0 /\ s_interp s0 <> None.
Proof.
  assert (Hs : forall a b c d : R, (a < b)%R -> (b < c)%R -> (c < d)%R ->
             argsort [a; b; c; d] = [0; 1; 2; 3]%nat).
  { intros a b c d H1 H2 H3. unfold argsort. cbn. rcbn.
    rewrite (Rltb_false d c) by lra. cbn. rcbn. rewrite (Rltb_false c b) by lra. cbn. rcbn.
    rewrite (Rltb_false b a) by lra. reflexivity. }
  assert (E0 : exists it, mk_cubic [1;2;3;4]%R (mk [1;4]%nat [1;1;1;1]%R) = Ok it).
  { unfold mk_cubic. cbn [ndim shp length Nat.eqb negb lastd last Nat.leb].
    rewrite Hs by lra. cbn [map nth has_dup]. unfold same. rcbn.
    rewrite (Rltb_true 1 2), (Rltb_true 2 3), (Rltb_true 3 4) by lra. cbn. eauto. }
  assert (E1 : mk_cubic [0;0;0;0]%R (mk [1;4]%nat (map (fun f => ndiv f (nadd n1 (-1))) [1;1;1;1]%R)) = Raise ValueError).
  { unfold mk_cubic. cbn [ndim shp length Nat.eqb negb lastd last Nat.leb map].
    assert (H : forall k, nth k [0;0;0;0]%R (@n0 R _) = 0%R) by (intro k; do 5 (destruct k as [|k]; [reflexivity|]); reflexivity).
    assert (Hp : exists a b c d, argsort [0;0;0;0]%R = [a;b;c;d]).
    { unfold argsort. cbn. rcbn. rewrite !(Rltb_false 0 0) by lra. cbn. rcbn. rewrite !(Rltb_false 0 0) by lra.
      cbn. rcbn. rewrite !(Rltb_false 0 0) by lra. cbn. do 4 eexists. reflexivity. }
    destruct Hp as (a & b & c & d & ->). cbn [map has_dup]. rewrite !H. unfold same. rcbn.
    rewrite !(Rltb_false 0 0) by lra. reflexivity. }
  destruct E0 as [it E0].
  exists {| s_rwave := [1;2;3;4]%R; s_rflux := mk [1;4]%nat [1;1;1;1]%R; s_wave := [1;2;3;4]%R;
            s_flux := mk [1;4]%nat [1;1;1;1]%R; s_z := 0%R; s_flag := true; s_interp := Some it; s_bin := false |}, (-1)%R.
  assert (Hw : map (fun w => nmul w (nadd n1 (-1))) [1;2;3;4]%R = [0;0;0;0]%R).
  { rcbn. cbn [map]. repeat (f_equal; try lra). }
  split.
  { unfold SED, sed_setup. cbn [ndim shp vec length Nat.eqb reshape size fold_right Nat.mul Nat.add bind negb].
    unfold reshape. cbn [size fold_right shp vec length Nat.mul Nat.add Nat.eqb bind ndim negb dat].
    unfold set_interp. cbn [s_wave s_flux]. rewrite E0. reflexivity. }
  cbn [sed_run sed_step]. unfold set_redshift, set_interp. cbn [s_flag s_wave s_flux s_rwave s_rflux].
  unfold map1. cbn [shp dat]. rewrite Hw, E1. cbn. repeat split. discriminate.
Qed.

(** C13. set_redshift conserves the trapezoid integral of flux over wavelength, for every row, every
    grid and every redshift other than -1 (exact arithmetic). *)
Lemma trapz_terms_scale (c : R) : c <> 0%R -> forall y x : list R,
  trapz_terms (map (fun f => f / c)%R y) (map (fun w => w * c)%R x) = trapz_terms y x.
Proof.
  intro Hc. induction y as [|y0 y IH]; intros x; try reflexivity.
  destruct y as [|y1 y], x as [|x0 [|x1 x]]; try reflexivity.
  cbn [map trapz_terms]. f_equal.
  - rcbn. replace (Q2R 2) with 2%R by (unfold Q2R; simpl; lra). field; auto.
  - apply (IH (x1 :: x)).
Qed.

Lemma chunks_map {A B} (f : A -> B) n m : forall l, chunks n m (map f l) = map (map f) (chunks n m l).
Proof.
  induction n as [|n IH]; intro l; cbn [chunks map]; auto.
  rewrite firstn_map, skipn_map, IH. reflexivity.
Qed.

Lemma L_C13_bolometric :
  forall (wave : list R) (flux : nd R) (interpolate : bool) (s0 : sed R),
    SED wave flux interpolate = Ok s0 ->
    forall (ops : list (sed_op R)) (z : R), (z <> -1)%R ->
      let s := fst (sed_step (sed_run s0 ops) (SetRedshift z)) in
      length (lrows (s_flux s)) = length (lrows (s_rflux s0)) /\
      forall k, (k < length (lrows (s_rflux s0)))%nat ->
        trapz (nth k (lrows (s_flux s)) []) (s_wave s) = trapz (nth k (lrows (s_rflux s0)) []) wave.
Proof.
  intros wave flux ip s0 H ops z Hz s.
  destruct (L_C12_last_redshift_decides _ _ _ _ _ _ H (ops ++ [SetRedshift z])) as (_ & _ & _ & _ & A).
  specialize (A ops z [] eq_refl (fun _ F => F)). rewrite run_app in A. cbn [sed_run] in A. fold s in A.
  destruct A as (_ & -> & ->).
  unfold lrows. cbn [shp dat]. rewrite chunks_map, map_length. split; [reflexivity|].
  intros k Hk. rewrite (nth_indep _ [] (map (fun f => ndiv f (nadd n1 z)) [])) by (rewrite map_length; exact Hk).
  rewrite map_nth. unfold trapz. f_equal. rcbn. apply trapz_terms_scale. lra.
Qed.

(** The integral conserved is not trivial: it is 4 for a two-row grid at z = 0.5. *)
Lemma E_C13_bolometric :
  exists s0 : sed R, SED [1; 2; 4]%R (mk [1; 3]%nat [1; 1; 2]%R) false = Ok s0 /\
    trapz (nth 0 (lrows (s_rflux s0)) []) [1; 2; 4]%R = 4%R.
Proof.
  eexists. split; [reflexivity|]. cbn. unfold trapz, nsum. cbn. unfold Q2R; simpl. lra.
Qed.

(** C14. tofits then fromfits gives back the rest-frame spectrum (rounded to float32 in the table
    layout, exactly in the image layout) at redshift 0, whatever redshift was set when writing. *)
Lemma reshape_rows {A} (a b : nat) (l : list A) :
  length l = (a * b)%nat -> reshape [a; b] (mk [a; b] l) = Ok (mk [a; b] l).
Proof. intro H. unfold reshape. cbn [shp]. rewrite Nat.eqb_refl. reflexivity. Qed.

Lemma reshape_rows1 {A} (a b : nat) (l : list A) :
  reshape [a; b] (mk [1%nat; a; b] l) = Ok (mk [a; b] l).
Proof.
  unfold reshape. cbn [shp]. replace (size [1%nat; a; b]) with (size [a; b]).
  - rewrite Nat.eqb_refl. reflexivity.
  - unfold size; cbn [fold_right]. lia.
Qed.

Lemma sed_setup_2d {T} {N : Num T} wave a l bin :
  sed_setup wave (mk [a; length wave] l) false bin =
  Ok {| s_rwave := wave; s_rflux := mk [a; length wave] l; s_wave := wave; s_flux := mk [a; length wave] l;
        s_z := n0; s_flag := false; s_interp := None; s_bin := bin |}.
Proof. reflexivity. Qed.

Lemma L_C14_tofits_fromfits :
  forall (T : Type) (N : Num T) (wave : list T) (nsed : nat) (flux : list T) (s0 : sed T),
    (2 <= length wave)%nat -> length flux = (nsed * length wave)%nat ->
    forall bin : bool, sed_setup wave (mk [nsed; length wave] flux) false bin = Ok s0 ->
    forall (ops : list (sed_op T)) (ext : string), ext <> "WAVE"%string \/ bin = true ->
      let r := if bin then (fun x => x) else cst in
      exists s', sed_fromfits (sed_tofits (sed_run s0 ops) ext) ext false = Ok s' /\
        s_rwave s' = map r wave /\ s_rflux s' = mk [nsed; length wave] (map r flux) /\
        s_wave s' = s_rwave s' /\ s_flux s' = s_rflux s' /\ s_z s' = n0 /\ s_bin s' = bin.
Proof.
  intros T N wave nsed flux s0 Hw Hf bin H ops ext Hext r.
  destruct (setup_fields _ _ _ _ _ H) as (H1 & _ & _ & _ & H5 & _ & _ & H8). cbn [ndim shp length Nat.eqb] in H8.
  destruct (run_rest ops s0) as [Hr Hfl].
  assert (Hb : s_bin (sed_run s0 ops) = bin).
  { rewrite <- H5. clear. revert s0. induction ops as [|o l IH]; intro s0; cbn [sed_run]; auto.
    rewrite IH. destruct o as [z|]; cbn [sed_step]; unfold set_redshift, set_interp; cbn.
    - destruct (s_flag s0); [|reflexivity]. destruct (mk_cubic _ _); reflexivity.
    - destruct (mk_cubic _ _); reflexivity. }
  unfold sed_tofits. rewrite Hb, Hr, Hfl, H1, H8. destruct bin.
  - unfold sed_fromfits, has_hdu, get_hdu, find_hdu. cbn [find h_name h_cols col fst snd String.eqb Ascii.eqb Bool.eqb bind andb].
    unfold col. cbn [find h_name h_cols col fst snd String.eqb bind andb].
    assert (Esq : squeeze (vec wave) = vec wave).
    { unfold squeeze, vec. cbn [shp dat filter]. destruct (Nat.eqb_spec (length wave) 1); [lia|reflexivity]. }
    rewrite Esq. unfold vec at 1, len. cbn [shp bind ndim length Nat.ltb Nat.leb lead removelast lastd last].
    rewrite reshape_rows by exact Hf. cbn [bind]. unfold vec. cbn [dat].
    rewrite sed_setup_2d. eexists. split; [reflexivity|]. cbn. unfold r. rewrite !map_id. repeat split.
  - destruct Hext as [Hext|]; [|discriminate].
    set (h := {| h_name := ext; h_cols := _ |}).
    assert (Eb : has_hdu [h] "FLUX" && has_hdu [h] "WAVE" = false).
    { unfold has_hdu, find_hdu. cbn [find]. change (h_name h) with ext.
      apply String.eqb_neq in Hext. rewrite Hext. apply andb_false_r. }
    assert (Eg : get_hdu [h] ext = Ok h).
    { unfold get_hdu, find_hdu. cbn [find]. change (h_name h) with ext. rewrite String.eqb_refl. reflexivity. }
    unfold sed_fromfits. rewrite Eb, Eg. cbn [bind]. unfold h, col. cbn [find h_name h_cols col fst snd String.eqb Ascii.eqb Bool.eqb bind andb].
    assert (Esq : squeeze (mk [1%nat; length wave] (map cst wave)) = vec (map cst wave)).
    { unfold squeeze, vec. cbn [shp dat filter Nat.eqb negb]. rewrite map_length.
      destruct (Nat.eqb_spec (length wave) 1); [lia|reflexivity]. }
    rewrite Esq. unfold len. unfold vec at 1. cbn [shp bind ndim length Nat.ltb Nat.leb lead removelast lastd last dat].
    rewrite map_length, reshape_rows1. cbn [bind]. unfold vec. cbn [dat].
    replace (mk [nsed; length wave] (map cst flux)) with (mk [nsed; length (map cst wave)] (map cst flux))
      by (rewrite map_length; reflexivity).
    rewrite sed_setup_2d. eexists. split; [reflexivity|]. cbn. rewrite !map_length. repeat split.
Qed.

Lemma E_C14_tofits_fromfits :
  exists s0, sed_setup [1;2;3]%Z (mk [2;3]%nat [1;2;3;4;5;6]%Z) false false = Ok s0 /\
    s_flux (sed_run s0 [SetRedshift 1]%Z) <> s_rflux s0 /\
    rmap s_flux (sed_fromfits (sed_tofits (sed_run s0 [SetRedshift 1]%Z) "FLUX") "FLUX" false) = Ok (s_rflux s0).
Proof. eexists. split; [reflexivity|]. split; [vm_compute; discriminate|reflexivity]. Qed.

(** C14, one wavelength: the file of a one-sample spectrum cannot be read back (TypeError). *)
Lemma L_C14_one_sample_fails :
  forall (T : Type) (N : Num T) (w f : T) (s0 : sed T),
    SED [w] (vec [f]) false = Ok s0 -> sed_fromfits (sed_tofits s0 "FLUX") "FLUX" false = Raise TypeError.
Proof.
  intros T N w f s0 H. unfold SED, sed_setup in H. cbn in H. injection H as <-. reflexivity.
Qed.
Lemma E_C14_one_sample_fails : exists s0, SED [5]%Z (vec [7]%Z) false = Ok s0.
Proof. eexists. reflexivity. Qed.
