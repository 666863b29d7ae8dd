(** Properties of utils.py (C01-C10): the proofs.  Prop_Utils.v restates them. *)
From Coq Require Import List Arith Lia Bool ZArith QArith Qreals Reals Lra.
From Verif Require Import Base BaseLemmas Num Toy Spec Utils UtilsProofs UtilsReal.
Import ListNotations.
Local Open Scope R_scope.
(* STATEMENTS *)

(** C01. sdss_ab_correct on any array whose last axis has 5 bands (1-D or N-D alike):
    band i is multiplied by 10^(-0.4 abfix_i), its ivar divided by the square. *)
Lemma L_C01_sdss_ab_correct :
  forall (s : list nat) (m iv ab : list R),
    last s 0%nat = 5%nat -> length m = size s -> length iv = size s -> length ab = 5%nat ->
    exists m' iv' : list R,
      sdss_ab_correct (rarr s m) (Some (rarr s iv)) (vec (map Fin ab))
        = Ok (rarr s m', Some (rarr s iv')) /\
      sdss_ab_correct (rarr s m) None (vec (map Fin ab)) = Ok (rarr s m', None) /\
      length m' = size s /\ length iv' = size s /\
      forall j, (j < size s)%nat ->
        let a := nth (j mod 5) ab 0 in
        nth j m' 0 = nth j m 0 * pow10 (-0.4 * a) /\
        nth j iv' 0 = nth j iv 0 / (pow10 (-0.4 * a)) ^ 2 /\
        (0 < nth j m 0 -> magnitude (nth j m' 0) = magnitude (nth j m 0) + a) /\
        (nth j m' 0) ^ 2 * nth j iv' 0 = (nth j m 0) ^ 2 * nth j iv 0 /\
        (0 < nth j m' 0 <-> 0 < nth j m 0) /\ (nth j m' 0 = 0 <-> nth j m 0 = 0) /\
        (0 < nth j iv' 0 <-> 0 < nth j iv 0) /\ (nth j iv' 0 = 0 <-> nth j iv 0 = 0).
Proof.
  intros s m iv ab H5 Hm Hi Ha.
  do 2 eexists. split; [apply sdss_ab_correct_real; auto|].
  split.
  { assert (Hsa : shp (vec (map Fin ab)) = [5%nat]) by (unfold vec; cbn [shp]; rewrite map_length, Ha; reflexivity).
    pose proof (sdss_ab_correct_real s m iv ab H5 Hm Hi Ha) as E.
    destruct (@sdss_ab_correct_spec xr _ (rarr s m) (vec (map Fin ab)) (Some (rarr s iv)))
      as (am & ai & E1 & S1 & W1 & N1 & _); auto using wf_rarr, wf_vec.
    { unfold rarr; cbn [shp]. change (last s 0%nat) with (lastd s) in H5. lia. }
    { intros v Ev. injection Ev as <-. split; [apply wf_rarr; auto|reflexivity]. }
    destruct (@sdss_ab_correct_spec xr _ (rarr s m) (vec (map Fin ab)) None)
      as (am2 & ai2 & E2 & S2 & W2 & N2 & Hn); auto using wf_rarr, wf_vec.
    { unfold rarr; cbn [shp]. change (last s 0%nat) with (lastd s) in H5. lia. }
    { intros v Ev. discriminate. }
    rewrite E2. subst ai2. rewrite E in E1. match type of E1 with Ok (?x, _) = _ => assert (Eam : x = am) by congruence end. rewrite Eam.
    do 2 f_equal. destruct am as [sa da], am2 as [sb db]. cbn [shp dat] in *. f_equal; [congruence|].
    apply nth_error_ext. intro j. destruct (Nat.ltb_spec j (size s)) as [Hj|Hj].
    - rewrite N1, N2 by exact Hj. reflexivity.
    - transitivity (@None xr).
      + apply nth_error_None. unfold wf in W2; cbn [dat shp] in W2. rewrite W2, S2. cbn [rarr shp]. exact Hj.
      + symmetry. apply nth_error_None. unfold wf in W1; cbn [dat shp] in W1. rewrite W1, S1. cbn [rarr shp]. exact Hj. }
  rewrite !map_length, !seq_length. do 2 (split; [reflexivity|]).
  intros j Hj. cbv zeta. rewrite !nth_map_seq by exact Hj.
  set (a := nth (j mod 5) ab 0). set (x := nth j m 0). set (y := nth j iv 0).
  pose proof (pow10_pos (-0.4 * a)) as Hp.
  assert (Hp2 : 0 < pow10 (-0.4 * a) ^ 2) by nra.
  assert (Hq : 0 < / pow10 (-0.4 * a) ^ 2) by (apply Rinv_0_lt_compat; auto).
  split; [reflexivity|]. split; [reflexivity|]. split.
  { intro Hx. unfold magnitude. rewrite log10_mult, log10_pow10 by auto. lra. }
  split; [field; lra|].
  repeat split; intro H; unfold Rdiv in *.
  - destruct (Rlt_le_dec 0 x); auto. exfalso. nra.
  - apply Rmult_lt_0_compat; auto.
  - apply Rmult_integral in H as [H|H]; auto. lra.
  - rewrite H. ring.
  - destruct (Rlt_le_dec 0 y); auto. exfalso. nra.
  - apply Rmult_lt_0_compat; auto.
  - apply Rmult_integral in H as [H|H]; auto. lra.
  - rewrite H. ring.
Qed.

(** The hypotheses of C01 hold for a 2-object batch, and for the documented offsets. *)
Lemma E_C01_sdss_ab_correct :
  last [2; 5]%nat 0%nat = 5%nat /\ length [1;2;3;4;5;6;7;8;9;10] = size [2;5]%nat /\
  @default_abfix xr _ = vec (map Fin [-0.036; 0.012; 0.010; 0.028; 0.040]).
Proof.
  repeat split.
Qed.

(** C01. The offsets used when none are given: -0.036, 0.012, 0.010, 0.028, 0.040 magnitudes in u, g, r, i, z. *)
Lemma L_C01_default_offsets :
  forall (m : nd xr) (iv : option (nd xr)),
    sdss_ab_correct m iv default_abfix =
    sdss_ab_correct m iv (vec [Fin (-0.036); Fin 0.012; Fin 0.010; Fin 0.028; Fin 0.040]).
Proof.
  intros m iv. f_equal.
Qed.

(** C02. Correcting with abfix and then with the negated abfix gives the input back. *)
Lemma L_C02_sdss_ab_correct_invertible :
  forall (s : list nat) (m iv ab : list R),
    last s 0%nat = 5%nat -> length m = size s -> length iv = size s -> length ab = 5%nat ->
    exists am ai,
      sdss_ab_correct (rarr s m) (Some (rarr s iv)) (vec (map Fin ab)) = Ok (am, Some ai) /\
      sdss_ab_correct am (Some ai) (vec (map Fin (map Ropp ab)))
        = Ok (rarr s m, Some (rarr s iv)).
Proof.
  intros s m iv ab H5 Hm Hi Ha.
  do 2 eexists. split; [apply sdss_ab_correct_real; auto|].
  rewrite sdss_ab_correct_real; rewrite ?map_length, ?seq_length; auto.
  assert (Hn : forall k, nth k (map Ropp ab) 0 = - nth k ab 0).
  { intro k. rewrite <- (map_nth Ropp ab 0). rewrite Ropp_0. reflexivity. }
  assert (Hrt : forall (l : list R) (g : nat -> R), length l = size s ->
     (forall j, (j < size s)%nat -> g j = nth j l 0) -> map g (seq 0 (size s)) = l).
  { intros l g Hl Hg. apply nth_error_ext; intro j. rewrite nth_error_map, nth_error_seq.
    destruct (Nat.ltb_spec j (size s)); simpl.
    - rewrite Hg by auto. symmetry. apply nth_error_nth'. lia.
    - symmetry; apply nth_error_None; lia. }
  assert (Hinv : forall k, pow10 (-0.4 * nth k (map Ropp ab) 0) = / pow10 (-0.4 * nth k ab 0)).
  { intro k. rewrite Hn. replace (-0.4 * - nth k ab 0) with (- (-0.4 * nth k ab 0)) by ring. apply pow10_opp. }
  f_equal. f_equal; [|f_equal]; f_equal; apply Hrt; auto; intros j Hj;
    rewrite nth_map_seq, Hinv by exact Hj; field; apply pow10_neq0.
Qed.

Lemma E_C02_sdss_ab_correct_invertible :
  last [5]%nat 0%nat = 5%nat /\ length [1;2;3;4;5] = size [5]%nat /\ length [0.1;0.2;0;0;-1] = 5%nat.
Proof. repeat split. Qed.

(** C03. What happens for other numbers of bands, in any arithmetic.
    1-D input: TypeError.  N-D input: too few columns raises IndexError; with more than five
    columns the extra columns of maggies and ivar come back as zero. *)
Lemma L_C03_sdss_ab_correct_1d_rejects :
  forall (T : Type) (N : Num T) (maggies abfix : nd T) (ivar : option (nd T)),
    length (shp maggies) = 1%nat -> last (shp maggies) 0%nat <> 5%nat ->
    sdss_ab_correct maggies ivar abfix = Raise TypeError.
Proof. intros. apply sdss_ab_correct_1d_bad; auto. Qed.

Lemma E_C03_sdss_ab_correct_1d_rejects :
  sdss_ab_correct (vec [1;2;3;4]%Z) None (vec [0;0;0;0;0]%Z) = Raise TypeError.
Proof. reflexivity. Qed.

Lemma L_C03_sdss_ab_correct_nd_short :
  forall (T : Type) (N : Num T) (maggies abfix : nd T) (ivar : option (nd T)),
    wf maggies -> wf abfix -> shp abfix = [5%nat] ->
    (2 <= length (shp maggies))%nat -> (last (shp maggies) 0 < 5)%nat ->
    (forall iv, ivar = Some iv -> shp iv = shp maggies) ->
    sdss_ab_correct maggies ivar abfix = Raise IndexError.
Proof.
  intros T N maggies abfix ivar Hm Ha Hsa Hd H5 Hiv.
  apply sdss_ab_correct_nd_short; auto; unfold ndim; lia.
Qed.

Lemma E_C03_sdss_ab_correct_nd_short :
  sdss_ab_correct (mk [1;4]%nat [1;2;3;4]%Z) (Some (mk [1;4]%nat [1;1;1;1]%Z)) (vec [0;0;0;0;0]%Z) = Raise IndexError.
Proof. reflexivity. Qed.

Lemma L_C03_sdss_ab_correct_nd_wide :
  forall (s : list nat) (m iv ab : list R),
    (2 <= length s)%nat -> (5 < last s 0)%nat ->
    length m = size s -> length iv = size s -> length ab = 5%nat ->
    exists m' iv' : list R,
      sdss_ab_correct (rarr s m) (Some (rarr s iv)) (vec (map Fin ab))
        = Ok (rarr s m', Some (rarr s iv')) /\
      length m' = size s /\ length iv' = size s /\
      forall j, (j < size s)%nat ->
        let k := (j mod last s 0)%nat in
        ((k < 5)%nat -> nth j m' 0 = nth j m 0 * pow10 (-0.4 * nth k ab 0) /\
                        nth j iv' 0 = nth j iv 0 / (pow10 (-0.4 * nth k ab 0)) ^ 2) /\
        ((5 <= k)%nat -> nth j m' 0 = 0 /\ nth j iv' 0 = 0).
Proof.
  intros s m iv ab Hd H5 Hm Hi Ha.
  assert (Hsa : shp (vec (map Fin ab)) = [5%nat]) by (unfold vec; cbn [shp]; rewrite map_length, Ha; reflexivity).
  destruct (@sdss_ab_correct_spec xr _ (rarr s m) (vec (map Fin ab)) (Some (rarr s iv)))
    as (am & ai & E & Sm & Wm & Nm & Hai); auto using wf_rarr, wf_vec.
  { unfold rarr; cbn [shp]. unfold lastd. lia. }
  { unfold ndim, rarr; cbn [shp]. lia. }
  { intros v Ev. injection Ev as <-. split; [apply wf_rarr; auto|reflexivity]. }
  destruct Hai as (a & -> & Sa & Wa & Na). rewrite E.
  cbn [rarr shp] in Sm, Nm, Sa, Na.
  assert (Hab : forall k, (k < 5)%nat -> code_abfac (vec (map Fin ab)) k = Fin (pow10 (-0.4 * nth k ab 0))).
  { intros k Hk. unfold code_abfac, vec; cbn [dat]. rewrite nth_map_Fin by lia. xcbn. rewrite lit_m04. reflexivity. }
  exists (map (fun j => if Nat.ltb (j mod lastd s) 5 then nth j m 0 * pow10 (-0.4 * nth (j mod lastd s) ab 0) else 0) (seq 0 (size s))).
  exists (map (fun j => if Nat.ltb (j mod lastd s) 5 then nth j iv 0 / (pow10 (-0.4 * nth (j mod lastd s) ab 0)) ^ 2 else 0) (seq 0 (size s))).
  split; [|split; [|split]]; try (rewrite map_length, seq_length; reflexivity).
  - f_equal. f_equal; [|f_equal].
    + apply rarr_of; auto. intros j Hj. rewrite Nm by exact Hj.
      destruct (Nat.ltb_spec (j mod lastd s) 5) as [Hk|Hk]; [|reflexivity]. rewrite Hab by exact Hk.
      unfold rarr; cbn [dat]. rewrite nth_error_map_Fin by lia. unfold store_if. xcbn.
      destruct (Nat.eqb _ 1); reflexivity.
    + apply rarr_of; auto. intros j Hj. rewrite Na by exact Hj.
      destruct (Nat.ltb_spec (j mod lastd s) 5) as [Hk|Hk]; [|reflexivity]. rewrite Hab by exact Hk.
      unfold rarr; cbn [dat]. rewrite nth_error_map_Fin by lia. unfold store_if, nsq. cbn [option_map cst Num_xr nmul ndiv xmul].
      rewrite xdiv_fin, sq_sqr by (pose proof (pow10_pos (-0.4 * nth (j mod lastd s) ab 0)); nra).
      destruct (Nat.eqb _ 1); reflexivity.
  - intros j Hj. cbv zeta. rewrite !nth_map_seq by exact Hj. change (last s 0%nat) with (lastd s).
    split; intro Hk.
    + apply Nat.ltb_lt in Hk. rewrite Hk. split; reflexivity.
    + apply Nat.ltb_ge in Hk. rewrite Hk. split; reflexivity.
Qed.

(** A 6-band row: the sixth band (flux 7, ivar 9) is silently replaced by zero. *)
Lemma E_C03_sdss_ab_correct_nd_wide :
  sdss_ab_correct (mk [1;6]%nat [1;1;1;1;1;7]%Z) (Some (mk [1;6]%nat [4;4;4;4;4;9]%Z)) (vec [0;0;0;0;0]%Z)
  = Ok (mk [1;6]%nat [1;1;1;1;1;0]%Z, Some (mk [1;6]%nat [4;4;4;4;4;0]%Z)).
Proof. reflexivity. Qed.

(** The claim "every input band is corrected, or the call fails" is false. *)
Lemma L_C03_every_band_corrected_refuted :
  exists (s : list nat) (m iv ab m' iv' : list R) (j : nat),
    sdss_ab_correct (rarr s m) (Some (rarr s iv)) (vec (map Fin ab)) = Ok (rarr s m', Some (rarr s iv')) /\
    (j < size s)%nat /\ 0 < nth j m 0 /\ 0 < nth j iv 0 /\ nth j m' 0 = 0 /\ nth j iv' 0 = 0.
Proof.
  destruct (L_C03_sdss_ab_correct_nd_wide [1;6]%nat [1;1;1;1;1;1] [1;1;1;1;1;1] [0;0;0;0;0])
    as (m' & iv' & E & _ & _ & H); try reflexivity; try (cbn; lia).
  do 4 eexists. exists m', iv', 5%nat. split; [exact E|].
  split; [cbn; lia|]. split; [cbn; lra|]. split; [cbn; lra|].
  destruct (H 5%nat ltac:(cbn; lia)) as [_ H']. apply H'. cbn. lia.
Qed.

(** C04. asinh magnitudes to maggies, zero extinction: the flux is the one whose asinh
    magnitude (SDSS definition) is the input, uniquely; closed form; sign. *)
Lemma L_C04_asinh_inverse :
  forall (s : list nat) (mag : list R),
    s <> [] -> last s 0%nat = 5%nat -> length mag = size s ->
    exists f : list R,
      sdss_asinh_to_maggies (rarr s mag) None None = Ok (rarr s f, None) /\
      length f = size s /\
      forall j, (j < size s)%nat ->
        let b := nth (j mod 5) softening 0 in
        luptitude b (nth j f 0) = nth j mag 0 /\
        (forall f', luptitude b f' = nth j mag 0 -> f' = nth j f 0) /\
        nth j f 0 = pow10 (-0.4 * nth j mag 0) - b ^ 2 * pow10 (0.4 * nth j mag 0) /\
        (0 < nth j f 0 <-> nth j mag 0 < magnitude b).
Proof.
  intros s mag Hne H5 Hm.
  pose proof (asinh_real s mag None None Hne H5 Hm) as E. cbn [option_map] in E.
  eexists. split; [apply E; intros; discriminate|].
  rewrite map_length, seq_length. split; [reflexivity|].
  intros j Hj. cbv zeta. rewrite nth_map_seq by exact Hj.
  destruct (b0_real (j mod 5)) as [_ Hb]; [apply Nat.mod_upper_bound; lia|].
  set (b := nth (j mod 5) softening 0) in *. set (m := nth j mag 0).
  replace (0.4 * 0) with 0 by lra. rewrite pow10_0, Rmult_1_r.
  split; [apply luptitude_of_flux; auto|]. split.
  { intros f' Hf. apply (luptitude_inj b); auto. rewrite Hf. symmetry. apply luptitude_of_flux; auto. }
  split; [apply flux_identity; auto|]. apply flux_pos_iff; auto.
Qed.

(** ... and it is strictly decreasing in the magnitude, band by band. *)
Lemma L_C04_asinh_decreasing :
  forall (s : list nat) (mag1 mag2 f1 f2 : list R) (j : nat),
    s <> [] -> last s 0%nat = 5%nat -> length mag1 = size s -> length mag2 = size s ->
    sdss_asinh_to_maggies (rarr s mag1) None None = Ok (rarr s f1, None) ->
    sdss_asinh_to_maggies (rarr s mag2) None None = Ok (rarr s f2, None) ->
    (j < size s)%nat -> nth j mag1 0 < nth j mag2 0 -> nth j f2 0 < nth j f1 0.
Proof.
  intros s mag1 mag2 f1 f2 j Hne H5 H1 H2 E1 E2 Hj Hlt.
  pose proof (asinh_real s mag1 None None Hne H5 H1) as A1. cbn [option_map] in A1.
  pose proof (asinh_real s mag2 None None Hne H5 H2) as A2. cbn [option_map] in A2.
  rewrite A1 in E1 by (intros; discriminate). rewrite A2 in E2 by (intros; discriminate).
  assert (Hinj : forall a b : list R, rarr s a = rarr s b -> a = b).
  { intros a b H. unfold rarr in H. injection H as H. revert b H. induction a as [|x a IH]; intros [|y b] H;
      try discriminate; auto. simpl in H. injection H as -> H. f_equal; auto. }
  injection E1 as E1. injection E2 as E2.
  apply (f_equal (mk s)) in E1, E2. apply Hinj in E1, E2. rewrite <- E1, <- E2.
  rewrite !nth_map_seq by exact Hj.
  destruct (b0_real (j mod 5)) as [_ Hb]; [apply Nat.mod_upper_bound; lia|].
  replace (0.4 * 0) with 0 by lra. rewrite pow10_0, !Rmult_1_r. apply flux_decreasing; auto.
Qed.
Lemma E_C04_asinh_decreasing :
  exists f1 f2, sdss_asinh_to_maggies (rarr [5]%nat [20; 19; 18; 25; 22]) None None = Ok (rarr [5]%nat f1, None) /\
    sdss_asinh_to_maggies (rarr [5]%nat [20; 19; 18; 26; 22]) None None = Ok (rarr [5]%nat f2, None) /\
    (3 < size [5])%nat /\ nth 3 [20; 19; 18; 25; 22] 0 < nth 3 [20; 19; 18; 26; 22] 0.
Proof.
  destruct (L_C04_asinh_inverse [5]%nat [20; 19; 18; 25; 22]) as (f1 & E1 & _); try reflexivity; [discriminate|].
  destruct (L_C04_asinh_inverse [5]%nat [20; 19; 18; 26; 22]) as (f2 & E2 & _); try reflexivity; [discriminate|].
  exists f1, f2. split; [exact E1|]. split; [exact E2|]. split; [cbn; lia|cbn; lra].
Qed.

Lemma E_C04_asinh_inverse :
  [1;5]%nat <> [] /\ last [1;5]%nat 0%nat = 5%nat /\ length [20.1; 19; 18.5; 24.9; 22] = size [1;5]%nat.
Proof. repeat split. discriminate. Qed.

(** C05. The returned ivar is first-order propagation of the magnitude error through the
    asinh-magnitude definition: ivar = (d/err)^2, with d the derivative of the asinh
    magnitude with respect to flux at the returned flux. *)
Lemma L_C05_asinh_error :
  forall (s : list nat) (mag err : list R),
    s <> [] -> last s 0%nat = 5%nat -> length mag = size s -> length err = size s ->
    Forall (fun e => e <> 0) err ->
    exists f iv : list R,
      sdss_asinh_to_maggies (rarr s mag) (Some (rarr s err)) None = Ok (rarr s f, Some (rarr s iv)) /\
      forall j, (j < size s)%nat ->
        let b := nth (j mod 5) softening 0 in
        exists d, derivable_pt_lim (luptitude b) (nth j f 0) d /\ d <> 0 /\
                  nth j iv 0 = (d / nth j err 0) ^ 2.
Proof.
  intros s mag err Hne H5 Hm He Hz.
  pose proof (asinh_real s mag (Some err) None Hne H5 Hm) as E. cbn [option_map] in E.
  do 2 eexists. split; [apply E; [intros e Ee; injection Ee as <-; auto|intros; discriminate]|].
  intros j Hj. cbv zeta. rewrite !nth_map_seq by exact Hj.
  destruct (b0_real (j mod 5)) as [_ Hb]; [apply Nat.mod_upper_bound; lia|].
  set (b := nth (j mod 5) softening 0) in *. set (m := nth j mag 0).
  replace (0.4 * 0) with 0 by lra. rewrite pow10_0, Rmult_1_r.
  eexists. split; [apply luptitude_derive; auto|].
  pose proof ln10_pos as Hl. pose proof (cosh_pos (lam b m)) as Hc.
  assert (Hej : nth j err 0 <> 0).
  { rewrite Forall_forall in Hz. apply Hz. apply nth_In. lia. }
  split.
  - assert (0 < 2.5 / ln 10) by (apply Rdiv_lt_0_compat; lra).
    assert (0 < / cosh (lam b m)) by (apply Rinv_0_lt_compat; auto).
    assert (0 < / (2 * b)) by (apply Rinv_0_lt_compat; lra). 
    assert (0 < / cosh (lam b m) * / (2 * b)) by (apply Rmult_lt_0_compat; auto). nra.
  - replace 0.4 with (2 / 5) by lra. replace 2.5 with (5 / 2) by lra. field. repeat split; lra.
Qed.

Lemma E_C05_asinh_error :
  Forall (fun e => e <> 0) [0.1; 0.2; 0.05; 0.1; 0.3] /\ length [0.1; 0.2; 0.05; 0.1; 0.3] = size [5]%nat.
Proof. split; [|reflexivity]. repeat constructor; lra. Qed.

(** C06. Extinction multiplies the flux by 10^(0.4 A) and leaves the ivar exactly as it is
    without extinction, so the squared signal-to-noise is multiplied by 10^(0.8 A). *)
Lemma L_C06_extinction_flux_only :
  forall (s : list nat) (mag err ext : list R),
    s <> [] -> last s 0%nat = 5%nat -> length mag = size s -> length err = size s -> length ext = size s ->
    Forall (fun e => e <> 0) err ->
    exists f f' iv : list R,
      sdss_asinh_to_maggies (rarr s mag) (Some (rarr s err)) None = Ok (rarr s f, Some (rarr s iv)) /\
      sdss_asinh_to_maggies (rarr s mag) (Some (rarr s err)) (Some (rarr s ext))
        = Ok (rarr s f', Some (rarr s iv)) /\
      forall j, (j < size s)%nat ->
        nth j f' 0 = nth j f 0 * pow10 (0.4 * nth j ext 0) /\
        0 < nth j iv 0 /\
        ((nth j f' 0) ^ 2 * nth j iv 0 = (nth j f 0) ^ 2 * nth j iv 0 <->
         nth j f 0 = 0 \/ nth j ext 0 = 0).
Proof.
  intros s mag err ext Hne H5 Hm He Hx Hz.
  pose proof (asinh_real s mag (Some err) None Hne H5 Hm) as E. cbn [option_map] in E.
  pose proof (asinh_real s mag (Some err) (Some ext) Hne H5 Hm) as E'. cbn [option_map] in E'.
  do 3 eexists. split; [apply E; [intros e Ee; injection Ee as <-; auto|intros; discriminate]|].
  split; [apply E'; intros e Ee; injection Ee as <-; auto|].
  intros j Hj. rewrite !nth_map_seq by exact Hj.
  destruct (b0_real (j mod 5)) as [_ Hb]; [apply Nat.mod_upper_bound; lia|].
  set (b := nth (j mod 5) softening 0) in *. set (m := nth j mag 0).
  replace (0.4 * 0) with 0 by lra. rewrite pow10_0, Rmult_1_r.
  set (fl := 2 * b * sinh (lam b m)). set (a := nth j ext 0).
  assert (Hej : nth j err 0 <> 0).
  { rewrite Forall_forall in Hz. apply Hz. apply nth_In. lia. }
  pose proof ln10_pos as Hl. pose proof (cosh_pos (lam b m)) as Hc.
  set (q := 2 * b * cosh (lam b m) * (0.4 * ln 10) * nth j err 0).
  assert (Hq : q <> 0).
  { unfold q. apply Rmult_integral_contrapositive_currified; auto.
    assert (0 < 2 * b * cosh (lam b m) * (0.4 * ln 10)); [|lra].
    apply Rmult_lt_0_compat; [apply Rmult_lt_0_compat; lra|lra]. }
  assert (Hiv : 0 < 1 / q ^ 2) by (apply Rdiv_lt_0_compat; [lra|nra]).
  split; [reflexivity|]. split; [exact Hiv|]. split.
  - intro H. destruct (Req_dec fl 0) as [|Hf]; auto. right.
    assert (Hp : pow10 (0.4 * a) ^ 2 = 1).
    { apply Rmult_eq_reg_r in H; [|lra].
      replace ((fl * pow10 (0.4 * a)) ^ 2) with (fl ^ 2 * pow10 (0.4 * a) ^ 2) in H by ring.
      apply Rmult_eq_reg_l with (fl ^ 2); [lra|]. nra. }
    pose proof (pow10_pos (0.4 * a)) as Hpp.
    assert (Hp1 : pow10 (0.4 * a) = 1) by nra.
    apply (f_equal log10) in Hp1. rewrite log10_pow10, log10_1 in Hp1. lra.
  - intros [-> | ->]; [ring|]. replace (0.4 * 0) with 0 by lra. rewrite pow10_0. ring.
Qed.

Lemma E_C06_extinction_flux_only :
  length [0.1; 0.2; 0.05; 0.1; 0.3] = size [5]%nat /\ nth 0 [0.1; 0.2; 0.05; 0.1; 0.3] 0 <> 0.
Proof. split; [reflexivity|cbn; lra]. Qed.

(** C07. error_floor, float arrays, 1-D or 2-D: entry by entry specification. *)
Lemma L_C07_error_floor :
  forall (s : list nat) (fl m iv : list R),
    s <> [] -> (length s <= 2)%nat -> length fl = last s 0%nat ->
    length m = size s -> length iv = size s ->
    exists out : list R,
      error_floor (fun x => x) (vec (map Fin fl)) (rarr s m) (rarr s iv) = Ok (rarr s out) /\
      length out = size s /\
      forall j, (j < size s)%nat ->
        let f := nth (j mod last s 0%nat) fl 0 in
        (0 < nth j iv 0 -> nth j m 0 <> 0 -> 0 < f ->
           nth j out 0 = floored_ivar f (nth j m 0) (nth j iv 0) /\
           0 < nth j out 0 /\ f <= 1 / (Rabs (nth j m 0) * sqrt (nth j out 0))) /\
        (nth j iv 0 <= 0 \/ nth j m 0 = 0 \/ f <= 0 -> nth j out 0 = nth j iv 0) /\
        nth j out 0 <= nth j iv 0.
Proof.
  intros s fl m iv Hne Hd Hf Hm Hi.
  eexists. split; [apply error_floor_real; auto|]. rewrite map_length, seq_length.
  split; [reflexivity|]. intros j Hj. cbv zeta. rewrite nth_map_seq by exact Hj.
  change (last s 0%nat) with (lastd s).
  set (f := nth (j mod lastd s) fl 0). set (x := nth j m 0). set (y := nth j iv 0).
  split; [|split].
  - intros Hy Hx Hfp. unfold floored. rewrite Rltb_true, Reqb_false, Rltb_true by auto.
    assert (Hax : 0 < Rabs x) by (apply Rabs_pos_lt; auto).
    assert (Hmf : 0 < Rabs x * f) by nra.
    assert (Hv : 0 < 1 / (Rabs x * f) ^ 2) by (apply Rdiv_lt_0_compat; [lra|nra]).
    split; [reflexivity|].
    assert (Hpos : 0 < floored_ivar f x y) by (unfold floored_ivar; apply Rmin_glb_lt; auto).
    split; [exact Hpos|].
    assert (Hs : 0 < sqrt (floored_ivar f x y)) by (apply sqrt_lt_R0; auto).
    apply Rmult_le_reg_r with (Rabs x * sqrt (floored_ivar f x y)); [nra|].
    replace (1 / (Rabs x * sqrt (floored_ivar f x y)) * (Rabs x * sqrt (floored_ivar f x y))) with 1
      by (field; split; lra).
    assert (Hle : sqrt (floored_ivar f x y) <= 1 / (Rabs x * f)).
    { rewrite <- (sqrt_pow2 (1 / (Rabs x * f))) by (apply Rlt_le, Rdiv_lt_0_compat; lra).
      apply sqrt_le_1_alt. unfold floored_ivar.
      replace ((1 / (Rabs x * f)) ^ 2) with (1 / (Rabs x * f) ^ 2) by (field; lra). apply Rmin_r. }
    apply Rle_trans with (f * (Rabs x * (1 / (Rabs x * f)))).
    + apply Rmult_le_compat_l; [lra|]. apply Rmult_le_compat_l; lra.
    + right. field. split; lra.
  - intros H. unfold floored. unfold Rltb at 1. destruct (Rlt_dec 0 y) as [Hy|Hy]; auto.
    unfold Reqb. destruct (Req_EM_T x 0); auto.
    unfold Rltb. destruct (Rlt_dec 0 f); auto. lra.
  - unfold floored. unfold Rltb at 1. destruct (Rlt_dec 0 y); [|lra].
    unfold Reqb. destruct (Req_EM_T x 0); [lra|]. destruct (Rltb 0 f); [|lra]. apply Rmin_l.
Qed.

Lemma E_C07_error_floor :
  [2;2]%nat <> [] /\ (length [2;2]%nat <= 2)%nat /\ length [0.05; 0.1] = last [2;2]%nat 0%nat /\
  0 < nth 0 [400; 1; 1; 1] 0 /\ floored_ivar 0.1 1 400 = 100.
Proof.
  repeat split; try (cbn; lia); try discriminate; try (cbn; lra).
  unfold floored_ivar. rewrite Rabs_R1. rewrite Rmin_right; lra.
Qed.

(** C07, rows: in any arithmetic, the 2-D result is the 1-D result of each row. *)
Lemma L_C07_error_floor_rows :
  forall (T : Type) (N : Num T) (store : T -> T) (floor : nd T) (n nb : nat) (m iv : list T),
    wf floor -> shp floor = [nb] -> length m = (n * nb)%nat -> length iv = (n * nb)%nat ->
    exists out, error_floor store floor (mk [n; nb] m) (mk [n; nb] iv) = Ok (mk [n; nb] out) /\
      forall i, (i < n)%nat ->
        error_floor store floor (vec (firstn nb (skipn (i * nb) m))) (vec (firstn nb (skipn (i * nb) iv)))
        = Ok (vec (firstn nb (skipn (i * nb) out))).
Proof.
  intros T N store floor n nb m iv Hf Hsf Hm Hi.
  assert (Hsz : size [n; nb] = (n * nb)%nat) by (unfold size; cbn; lia).
  destruct (@error_floor_spec T N store floor (mk [n;nb] m) (mk [n;nb] iv)) as (o & E & So & Wo & No); auto;
    try (unfold wf; cbn [dat shp]; lia); try discriminate; try (unfold ndim; cbn; lia).
  destruct o as [so out]. cbn [shp dat] in *. subst so.
  change (lastd [n; nb]) with nb in *. rewrite Hsz in No.
  unfold wf in Wo; cbn [shp dat] in Wo. rewrite Hsz in Wo.
  exists out. split; [exact E|]. intros i Hin.
  assert (Hlen : forall l : list T, length l = (n * nb)%nat -> length (firstn nb (skipn (i * nb) l)) = nb).
  { intros l Hl. rewrite firstn_length, skipn_length, Hl. nia. }
  assert (Hv : forall l : list T, length l = (n * nb)%nat ->
            vec (firstn nb (skipn (i * nb) l)) = mk [nb] (firstn nb (skipn (i * nb) l))).
  { intros l Hl. unfold vec. rewrite Hlen by auto. reflexivity. }
  rewrite !Hv by auto.
  destruct (@error_floor_spec T N store floor (mk [nb] (firstn nb (skipn (i * nb) m))) (mk [nb] (firstn nb (skipn (i * nb) iv))))
    as (o & E1 & So1 & Wo1 & No1); auto;
    try (unfold wf; cbn [dat shp]; rewrite Hlen by auto; unfold size; cbn; lia); try discriminate; try (unfold ndim; cbn; lia).
  rewrite E1. f_equal. destruct o as [so o]. cbn [shp dat] in *. subst so. f_equal.
  change (lastd [nb]) with nb in No1.
  assert (Hs1 : size [nb] = nb) by (unfold size; cbn; lia). rewrite Hs1 in No1.
  unfold wf in Wo1; cbn [shp dat] in Wo1. rewrite Hs1 in Wo1.
  apply nth_error_ext. intro k. destruct (Nat.ltb_spec k nb) as [Hk|Hk].
  - rewrite No1 by exact Hk. rewrite nth_error_firstn. apply Nat.ltb_lt in Hk as Hk'. rewrite Hk', nth_error_skipn.
    rewrite No by nia. f_equal.
    replace ((i * nb + k) mod nb)%nat with (k mod nb)%nat.
    2:{ rewrite Nat.add_comm, Nat.mod_add by lia. reflexivity. }
    assert (Hnth : forall l : list T, length l = (n * nb)%nat ->
              nth k (firstn nb (skipn (i * nb) l)) n0 = nth (i * nb + k) l n0).
    { intros l Hl. apply nth_error_nth. rewrite nth_error_firstn, Hk', nth_error_skipn.
      apply nth_error_nth'. rewrite Hl; nia. }
    rewrite !Hnth by auto. reflexivity.
  - transitivity (@None T); [apply nth_error_None; lia|symmetry; apply nth_error_None].
    rewrite Hlen by auto. exact Hk.
Qed.

Lemma E_C07_error_floor_rows :
  wf (vec [1; 2]%Z) /\ shp (vec [1; 2]%Z) = [2%nat] /\ length [1;2;3;4;5;6]%Z = (3 * 2)%nat.
Proof. repeat split. Qed.

(** C08. error_floor applied twice is error_floor applied once (float arrays). *)
Lemma L_C08_error_floor_idempotent :
  forall (s : list nat) (fl m iv : list R),
    s <> [] -> (length s <= 2)%nat -> length fl = last s 0%nat ->
    length m = size s -> length iv = size s ->
    exists out,
      error_floor (fun x => x) (vec (map Fin fl)) (rarr s m) (rarr s iv) = Ok (rarr s out) /\
      error_floor (fun x => x) (vec (map Fin fl)) (rarr s m) (rarr s out) = Ok (rarr s out).
Proof.
  intros s fl m iv Hne Hd Hf Hm Hi.
  eexists. split; [apply error_floor_real; auto|].
  rewrite error_floor_real by (rewrite ?map_length, ?seq_length; auto).
  do 2 f_equal. apply map_ext_in. intros j Hj. apply in_seq in Hj.
  rewrite nth_map_seq by lia.
  set (f := nth (j mod lastd s) fl 0). set (x := nth j m 0). set (y := nth j iv 0).
  unfold floored, Rltb, Reqb.
  destruct (Rlt_dec 0 y) as [Hy|Hy]; [|destruct (Rlt_dec 0 y); [contradiction|reflexivity]].
  destruct (Req_EM_T x 0) as [Hx|Hx]; [destruct (Rlt_dec 0 y); reflexivity|].
  destruct (Rlt_dec 0 f) as [Hfp|Hfp]; [|destruct (Rlt_dec 0 y); reflexivity].
  assert (Hax : 0 < Rabs x) by (apply Rabs_pos_lt; auto).
  assert (Hv : 0 < 1 / (Rabs x * f) ^ 2).
  { apply Rdiv_lt_0_compat; [lra|]. assert (0 < Rabs x * f) by nra. nra. }
  destruct (Rlt_dec 0 (floored_ivar f x y)) as [_|Hn]; [|reflexivity].
  unfold floored_ivar. rewrite (Rmin_left (Rmin _ _)); [reflexivity|apply Rmin_r].
Qed.
Lemma E_C08_error_floor_idempotent :
  [2;2]%nat <> [] /\ (length [2;2]%nat <= 2)%nat /\ length [0.05; 0.1] = last [2;2]%nat 0%nat /\
  length [1; 2; 3; 4] = size [2;2]%nat /\ length [400; 1; 0; 9] = size [2;2]%nat.
Proof. repeat split; try (cbn; lia); discriminate. Qed.

(** C08, integer ivar arrays: a lowered value is truncated when it is stored.  Whenever the
    error implied by the floor exceeds one flux unit the stored ivar is 0: the band is lost. *)
Lemma L_C08_error_floor_integer_truncates :
  forall (fl m : R) (iv : Z),
    (0 < iv)%Z -> 1 < Rabs m * fl -> 0 < fl ->
    error_floor trunc_store (vec [Fin fl]) (vec [Fin m]) (vec [Fin (IZR iv)]) = Ok (vec [Fin 0]).
Proof.
  intros fl m iv Hiv Hmf Hf.
  destruct (@error_floor_spec xr _ trunc_store (vec [Fin fl]) (vec [Fin m]) (vec [Fin (IZR iv)]))
    as (o & E & So & Wo & No); auto using wf_vec; try discriminate; try (unfold ndim; cbn; lia).
  rewrite E. f_equal. destruct o as [so o]. unfold vec at 1 in So. cbn [shp] in So. subst so. unfold vec. cbn [length]. f_equal.
  assert (Hlo : length o = 1%nat) by exact Wo.
  destruct o as [|x [|]]; try discriminate. specialize (No 0%nat ltac:(cbn; lia)). cbn [dat vec nth_error nth] in No.
  injection No as ->. f_equal.
  assert (Hz : 0 < IZR iv) by (apply IZR_lt; auto).
  assert (Hz1 : 1 <= IZR iv) by (apply IZR_le; lia).
  assert (Ha : 0 < Rabs m) by (destruct (Rabs_pos m); [auto|]; rewrite <- H in Hmf; lra).
  unfold floor_entry, ngtb. xcbn. cbn [xltb]. rewrite Rltb_true by auto.
  rewrite xsqrt_fin by lra. cbn [xmul].
  assert (Hs : 1 <= sqrt (IZR iv)) by (rewrite <- sqrt_1; apply sqrt_le_1_alt; auto).
  assert (Hms : 0 < Rabs m * sqrt (IZR iv)) by nra.
  rewrite xdiv_fin by lra. cbn [xltb]. unfold nsq. xcbn.
  rewrite Rltb_true.
  - rewrite xdiv_fin by nra. unfold trunc_store.
    assert (Hv : 0 < 1 / (Rabs m * fl * (Rabs m * fl))) by (apply Rdiv_lt_0_compat; nra).
    assert (Hv1 : 1 / (Rabs m * fl * (Rabs m * fl)) < 1).
    { apply Rmult_lt_reg_r with (Rabs m * fl * (Rabs m * fl)); [nra|].
      unfold Rdiv. rewrite Rmult_assoc, Rinv_l by nra. nra. }
    destruct (Rle_dec 0 (1 / (Rabs m * fl * (Rabs m * fl)))); [|lra].
    f_equal. change 0 with (IZR 0). apply f_equal.
    set (r1 := 1 / _) in *. symmetry. unfold Int_part.
    assert (E1 : up r1 = 1%Z); [|rewrite E1; reflexivity].
    symmetry. apply tech_up; simpl; lra.
  - apply Rmult_lt_reg_r with (Rabs m * sqrt (IZR iv)); auto.
    unfold Rdiv. rewrite Rmult_assoc, Rinv_l, Rmult_1_r by lra.
    apply Rlt_le_trans with (Rabs m * fl); auto. nra.
Qed.

Lemma E_C08_error_floor_integer_truncates : (0 < 1)%Z /\ 1 < Rabs 100 * 0.1 /\ 0 < 0.1.
Proof. repeat split; try lia; try lra. rewrite Rabs_pos_eq; lra. Qed.

(** C09. maggies2flambda for 1-D and 2-D input (effective wavelengths nonzero): unit
    conversion by the AB flux density at the effective wavelength, S/N preserved, invertible. *)
Lemma L_C09_maggies2flambda :
  forall (s : list nat) (n : nat) (lam m iv : list R),
    s = [length lam] \/ s = [n; length lam] -> Forall (fun w => w <> 0) lam ->
    length m = size s -> length iv = size s ->
    exists f fi : list R,
      maggies2flambda_core (map Fin lam) (rarr s m) (Some (rarr s iv))
        = Ok (map Fin lam, rarr s f, Some (rarr s fi)) /\
      maggies2flambda_core (map Fin lam) (rarr s m) None = Ok (map Fin lam, rarr s f, None) /\
      length f = size s /\ length fi = size s /\
      forall j, (j < size s)%nat ->
        let c := ab_flux (nth (j mod length lam) lam 0) in
        0 < c /\ nth j f 0 = nth j m 0 * c /\ nth j fi 0 = nth j iv 0 / c ^ 2 /\
        (nth j f 0) ^ 2 * nth j fi 0 = (nth j m 0) ^ 2 * nth j iv 0 /\
        nth j m 0 = nth j f 0 / c.
Proof.
  intros s n lam m iv Hs Hz Hm Hi.
  set (nb := length lam) in *.
  set (sab := fun w : R => Q2R (3631 # 100000) / (w * w) * Q2R (299792 # 100000)).
  assert (Hab : forall w, w <> 0 -> sed_ab1 (Fin w) = Fin (sab w) /\ sab w = ab_flux w /\ 0 < ab_flux w).
  { intros w Hw. assert (Hww : 0 < w * w) by nra. split; [|split].
    - unfold sed_ab1, nsq. xcbn. rewrite xdiv_fin by lra. reflexivity.
    - unfold sab, ab_flux. rewrite !Q2R_lit. field. auto.
    - unfold ab_flux. apply Rdiv_lt_0_compat; [lra|nra]. }
  assert (Hall : forall k, (k < nb)%nat -> nth k lam 0 <> 0).
  { intros k Hk. rewrite Forall_forall in Hz. apply Hz, nth_In; auto. }
  assert (Hsed : sed_ab (map cst (map Fin lam)) = map Fin (map ab_flux lam)).
  { unfold sed_ab. xcbn. rewrite map_id, !map_map. apply map_ext_in. intros w Hw.
    rewrite Forall_forall in Hz. destruct (Hab w (Hz w Hw)) as (-> & -> & _). reflexivity. }
  assert (Hcst : map cst (map Fin lam) = map Fin lam) by (xcbn; apply map_id).
  assert (Hnn : forall k, (k < nb)%nat -> nth k (map ab_flux lam) 0 = ab_flux (nth k lam 0)).
  { intros k Hk. rewrite (nth_indep _ 0 (ab_flux 0)) by (rewrite map_length; exact Hk). apply map_nth. }
  set (c := fun j => ab_flux (nth (j mod nb) lam 0)).
  assert (Hlen0 : length s = 1%nat \/ length s = 2%nat) by (destruct Hs as [-> | ->]; auto).
  assert (Hlast : lastd s = nb) by (destruct Hs as [-> | ->]; reflexivity).
  assert (Hne : s <> []) by (destruct Hs as [-> | ->]; discriminate).
  exists (map (fun j => nth j m 0 * c j) (seq 0 (size s))), (map (fun j => nth j iv 0 / c j ^ 2) (seq 0 (size s))).
  assert (Hcpos : forall j, (j < size s)%nat -> 0 < c j).
  { intros j Hj. destruct (col_size Hne Hj) as [_ Hp]. rewrite Hlast in Hp.
    unfold c. apply Hab. apply Hall. apply Nat.mod_upper_bound; lia. }
  assert (E : maggies2flambda_core (map Fin lam) (rarr s m) (Some (rarr s iv))
              = Ok (map Fin lam, rarr s (map (fun j => nth j m 0 * c j) (seq 0 (size s))),
                    Some (rarr s (map (fun j => nth j iv 0 / c j ^ 2) (seq 0 (size s))))) /\
              maggies2flambda_core (map Fin lam) (rarr s m) None
              = Ok (map Fin lam, rarr s (map (fun j => nth j m 0 * c j) (seq 0 (size s))), None)).
  { unfold maggies2flambda_core. rewrite Hsed, Hcst. unfold ndim. cbn [rarr shp].
    destruct Hs as [Es | Es].
    - rewrite Es. change (Nat.eqb (length [nb]) 1) with true. cbv iota.
      assert (Hs1 : size [nb] = nb) by (unfold size; cbn; lia).
      rewrite Es in Hm, Hi. rewrite Hs1 in Hm, Hi.
      assert (Hsv : forall l : list R, length l = nb -> shp (vec (map Fin l)) = [nb]).
      { intros l Hl. unfold vec; cbn [shp]. rewrite map_length, Hl; auto. }
      assert (Hla : length (map ab_flux lam) = nb) by (rewrite map_length; auto).
      assert (Wm : wf (rarr [nb] m)) by (apply wf_rarr; rewrite Hs1; auto).
      assert (Wi : wf (rarr [nb] iv)) by (apply wf_rarr; rewrite Hs1; auto).
      rewrite bin_same; auto using wf_vec. 
      cbn [bind].
      assert (R1 : mk (shp (vec (map Fin (map ab_flux lam)))) (zip nmul (dat (vec (map Fin (map ab_flux lam)))) (dat (rarr [nb] m)))
                   = rarr [nb] (map (fun j => nth j m 0 * c j) (seq 0 (size [nb])))).
      { apply rarr_of.
        - cbn [shp]. apply Hsv; auto.
        - unfold wf; cbn [shp dat]. rewrite length_zip. unfold vec, rarr; cbn [dat shp].
          unfold size; cbn [fold_right]. rewrite !map_length, Hm. fold nb. lia.
        - intros j Hj. rewrite Hs1 in Hj. cbn [dat]. rewrite nth_error_zip. unfold vec, rarr; cbn [dat].
          rewrite !nth_error_map_Fin by lia. xcbn. rewrite Hnn by auto. unfold c. rewrite Nat.mod_small by auto.
          do 2 f_equal. ring. }
      rewrite R1. split; [|reflexivity].
      assert (Hvsq : map nsq (map Fin (map ab_flux lam)) = map Fin (map (fun x => x * x) (map ab_flux lam))).
      { rewrite !map_map. apply map_ext. intro. reflexivity. }
      rewrite Hvsq.
      rewrite bin_same; auto using wf_vec.
      2:{ rewrite Hsv by (rewrite map_length; auto). reflexivity. }
      cbn [bind]. do 3 f_equal. apply rarr_of; auto.
      + unfold wf; cbn [shp dat]. rewrite length_zip. unfold vec, rarr; cbn [dat shp].
        rewrite !map_length, Hi, Hs1. fold nb. lia.
      + intros j Hj. rewrite Hs1 in Hj. cbn [dat]. rewrite nth_error_zip. unfold vec, rarr; cbn [dat].
        rewrite !nth_error_map_Fin by (rewrite ?map_length; fold nb; lia). xcbn.
        assert (Hcj : nth j (map (fun x => x * x) (map ab_flux lam)) 0 = c j * c j).
        { rewrite (nth_indep _ 0 (0 * 0)) by (rewrite !map_length; exact Hj).
          rewrite (map_nth (fun x => x * x)). rewrite Hnn by auto. unfold c. rewrite Nat.mod_small by auto. reflexivity. }
        rewrite Hcj. specialize (Hcpos j). rewrite Es, Hs1 in Hcpos. specialize (Hcpos Hj).
        rewrite xdiv_fin by nra. do 2 f_equal. f_equal. ring.
    - rewrite Es. change (Nat.eqb (length [n; nb]) 1) with false. cbv iota.
      assert (Hs2 : size [n; nb] = (n * nb)%nat) by (unfold size; cbn; lia).
      rewrite Es in Hm, Hi. rewrite Hs2 in Hm, Hi.
      assert (Hout : forall h : list R, length h = nb ->
        outer nmul (full [n] n1) (vec (map Fin h)) = rarr [n; nb] (map (fun j => nth (j mod nb) h 0) (seq 0 (n * nb)))).
      { intros h Hh. unfold outer, rarr. f_equal.
        - unfold full; cbn [dat]. rewrite repeat_length. unfold size; cbn [fold_right]. rewrite Nat.mul_1_r.
          unfold vec; cbn [dat]. rewrite map_length, Hh. reflexivity.
        - unfold full, vec; cbn [dat]. unfold size; cbn [fold_right]. rewrite Nat.mul_1_r.
          assert (Hr : forall k, concat (map (fun x : xr => map (fun y => nmul x y) (map Fin h)) (repeat n1 k)) =
                        concat (repeat (map Fin h) k)).
          { induction k; cbn [repeat map concat]; auto. rewrite IHk. f_equal.
            rewrite map_map. apply map_ext. intro. xcbn. f_equal. ring. }
          rewrite Hr. apply nth_error_ext. intro j. 
          assert (Hrow : forall r, In r (repeat (map Fin h) n) -> length r = nb).
          { intros r Hr'. apply repeat_spec in Hr'. subst. rewrite map_length; auto. }
          rewrite map_map, nth_error_map, nth_error_seq.
          destruct (Nat.ltb_spec j (n * nb)) as [Hj|Hj].
          + assert (Hnb : (0 < nb)%nat) by (destruct nb; lia).
            rewrite (@nth_error_concat_flat xr nb _ j Hrow Hnb), nth_error_repeat.
            assert (Hq : (j / nb < n)%nat) by (apply Nat.div_lt_upper_bound; lia).
            apply Nat.ltb_lt in Hq. rewrite Hq. rewrite nth_error_map_Fin; [reflexivity|].
            rewrite Hh. apply Nat.mod_upper_bound; lia.
          + apply nth_error_None. rewrite (length_concat_const _ Hrow), repeat_length. auto. }
      assert (Wm : wf (rarr [n;nb] m)) by (apply wf_rarr; rewrite Hs2; auto).
      assert (Wi : wf (rarr [n;nb] iv)) by (apply wf_rarr; rewrite Hs2; auto).
      rewrite Hout by (rewrite map_length; auto).
      rewrite bin_same; auto. 2:{ apply wf_rarr. rewrite map_length, seq_length, Hs2; auto. }
      cbn [bind].
      assert (R1 : mk (shp (rarr [n;nb] (map (fun j => nth (j mod nb) (map ab_flux lam) 0) (seq 0 (n*nb)))))
                     (zip nmul (dat (rarr [n;nb] (map (fun j => nth (j mod nb) (map ab_flux lam) 0) (seq 0 (n*nb))))) (dat (rarr [n;nb] m)))
                   = rarr [n;nb] (map (fun j => nth j m 0 * c j) (seq 0 (size [n;nb])))).
      { apply rarr_of; auto.
        - unfold wf; cbn [shp dat rarr]. rewrite length_zip, !map_length, seq_length, Hm, Hs2. lia.
        - intros j Hj. rewrite Hs2 in Hj. cbn [dat rarr]. rewrite nth_error_zip.
          rewrite !nth_error_map_Fin by (rewrite ?map_length, ?seq_length; lia). xcbn.
          rewrite nth_map_seq by exact Hj.
          assert (Hnb : (0 < nb)%nat) by (destruct nb; lia).
          rewrite Hnn by (apply Nat.mod_upper_bound; lia). unfold c. do 2 f_equal. ring. }
      rewrite R1. split; [|reflexivity].
      assert (Hvsq : map (fun f => ndiv n1 (nsq f)) (map Fin (map ab_flux lam)) = map Fin (map (fun x => 1 / (x * x)) (map ab_flux lam))).
      { rewrite !map_map. apply map_ext_in. intros w Hw. unfold nsq. xcbn.
        rewrite Forall_forall in Hz. destruct (Hab w (Hz w Hw)) as (_ & _ & Hp). rewrite xdiv_fin by nra. reflexivity. }
      rewrite Hvsq, Hout by (rewrite !map_length; auto).
      rewrite bin_same; auto. 2:{ apply wf_rarr. rewrite map_length, seq_length, Hs2; auto. }
      cbn [bind]. do 3 f_equal. apply rarr_of; auto.
      + unfold wf; cbn [shp dat rarr]. rewrite length_zip, !map_length, seq_length, Hi, Hs2. lia.
      + intros j Hj. rewrite Hs2 in Hj. cbn [dat rarr]. rewrite nth_error_zip.
        rewrite !nth_error_map_Fin by (rewrite ?map_length, ?seq_length; lia). xcbn.
        rewrite nth_map_seq by exact Hj.
        assert (Hnb : (0 < nb)%nat) by (destruct nb; lia).
        assert (Hjm : (j mod nb < nb)%nat) by (apply Nat.mod_upper_bound; lia).
        assert (Hcj : nth (j mod nb) (map (fun x => 1 / (x * x)) (map ab_flux lam)) 0 = 1 / (c j * c j)).
        { rewrite (nth_indep _ 0 (1 / (0 * 0))) by (rewrite !map_length; exact Hjm).
          rewrite (map_nth (fun x => 1 / (x * x))). rewrite Hnn by auto. reflexivity. }
        rewrite Hcj. specialize (Hcpos j). rewrite Es, Hs2 in Hcpos. specialize (Hcpos Hj).
        do 2 f_equal. field. lra. }
  destruct E as [E1 E2]. split; [exact E1|]. split; [exact E2|].
  rewrite !map_length, !seq_length. do 2 (split; [reflexivity|]).
  intros j Hj. cbv zeta. rewrite !nth_map_seq by exact Hj.
  change (ab_flux (nth (j mod nb) lam 0)) with (c j). specialize (Hcpos j Hj).
  split; [exact Hcpos|]. split; [reflexivity|]. split; [reflexivity|]. split; field; lra.
Qed.

Lemma E_C09_maggies2flambda :
  [2; 2]%nat = [length [3551; 4686]] \/ [2; 2]%nat = [2%nat; length [3551; 4686]].
Proof. right. reflexivity. Qed.

(** C10. read_basel returns what was laid out, for any number of models; [rf], [ri] print a
    number as a word and [pf], [pint] read it back.  [b_flux] etc. are the fields of a model. *)
Lemma L_C10_read_basel_round_trip :
  forall (T : Type) (N : Num T) (W : Type) (pf : W -> res T) (pint : W -> res Z)
         (rf : T -> W) (ri : Z -> W) (dw : W),
    (forall x, pf (rf x) = Ok x) -> (forall z, pint (ri z) = Ok z) ->
    forall (wave : list T) (models : list (basel_unit T)) (trailing : list W),
      length wave = 1221%nat -> (forall u, In u models -> length (b_flux _ u) = 1221%nat) ->
      (length trailing < 1227)%nat ->
      let words :=
        map rf wave ++
        concat (map (fun u => [ri (b_modelno _ u); rf (b_teff _ u); rf (b_logg _ u); rf (b_mh _ u);
                               rf (b_vturb _ u); rf (b_xh _ u)] ++ map rf (b_flux _ u)) models)
        ++ trailing in
      read_basel pf pint dw words = Ok (wave, models).
Proof.
  intros T N W pf pint rf ri dw Hpf Hpi wave models trailing Hw Hu Ht. cbv zeta.
  rewrite app_assoc. unfold read_basel.
  apply (read_basel_n_ok pf pint rf ri dw Hpf Hpi 1221 wave models trailing Hw Hu).
  eapply Nat.lt_le_trans; [exact Ht|]. apply Nat.leb_le. reflexivity.
Qed.

(** Words as optional numbers: printing and parsing are inverse, and a file of two models exists. *)
Lemma E_C10_read_basel_round_trip :
  let w := repeat 5%Z 1221 in
  let u := {| b_modelno := 7; b_teff := 1; b_logg := 2; b_mh := 3; b_vturb := 4; b_xh := 5; b_flux := w |}%Z in
  length w = 1221%nat /\ (forall v, In v [u; u] -> length (b_flux _ v) = 1221%nat).
Proof.
  cbv zeta. split; [apply repeat_length|]. intros v [<-|[<-|[]]]; apply repeat_length.
Qed.

(** C10, short files: fewer than 1221 words never give a result. *)
Lemma L_C10_read_basel_short :
  forall (T : Type) (N : Num T) (W : Type) (pf : W -> res T) (pint : W -> res Z) (dw : W) (words : list W),
    (length words < 1221)%nat -> forall r, read_basel pf pint dw words <> Ok r.
Proof.
  intros T N W pf pint dw words H r. unfold read_basel. apply read_basel_n_short. exact H.
Qed.

Lemma E_C10_read_basel_short :
  read_basel (T:=Z) (fun x => Ok x) (fun x => Ok x) 0%Z [1;2;3]%Z = Raise ValueError.
Proof. reflexivity. Qed.
