(** What any interleaving of load_response and _calc_Amatrix preserves. *)
From Coq Require Import String List Arith Lia Bool.
From Verif Require Import Base BaseLemmas Num Interp Utils Sed Response RespDict RespDictThms Fitter Threads ThreadsSeq ThreadsPar.
Import ListNotations.
Local Open Scope nat_scope.

Section Toward.
  Context {T : Type} {N : Num T}.
  (** Each attribute is unchanged or gets its value in [F]. *)
  Definition toward (F r r' : resp T) : Prop :=
    (p_wave r' = p_wave r \/ p_wave r' = p_wave F) /\ (p_resp r' = p_resp r \/ p_resp r' = p_resp F) /\
    (p_interp r' = p_interp r \/ p_interp r' = p_interp F) /\ (p_leff r' = p_leff r \/ p_leff r' = p_leff F) /\
    (p_solar r' = p_solar r \/ p_solar r' = p_solar F) /\ (p_vega2ab r' = p_vega2ab r \/ p_vega2ab r' = p_vega2ab F) /\
    (p_fwhm r' = p_fwhm r \/ p_fwhm r' = p_fwhm F).
  Lemma toward_refl F r : toward F r r.
  Proof. unfold toward. tauto. Qed.
  Lemma toward_trans F a b c : toward F a b -> toward F b c -> toward F a c.
  Proof.
    unfold toward. intros (A1 & A2 & A3 & A4 & A5 & A6 & A7) (B1 & B2 & B3 & B4 & B5 & B6 & B7).
    repeat split; match goal with |- ?x = _ \/ _ => idtac end.
    - destruct A1, B1; (left; congruence) || (right; congruence).
    - destruct A2, B2; (left; congruence) || (right; congruence).
    - destruct A3, B3; (left; congruence) || (right; congruence).
    - destruct A4, B4; (left; congruence) || (right; congruence).
    - destruct A5, B5; (left; congruence) || (right; congruence).
    - destruct A6, B6; (left; congruence) || (right; congruence).
    - destruct A7, B7; (left; congruence) || (right; congruence).
  Qed.
  Lemma resp_ext (a b : resp T) : p_wave a = p_wave b -> p_resp a = p_resp b -> p_interp a = p_interp b -> p_leff a = p_leff b ->
    p_solar a = p_solar b -> p_vega2ab a = p_vega2ab b -> p_fwhm a = p_fwhm b -> a = b.
  Proof. destruct a, b; cbn; intros; subst; reflexivity. Qed.

  (** The first [k] attributes, in the order in which fromdat stores them, have their value in [F]. *)
  Definition lvl (F : resp T) (k : nat) (r : resp T) : Prop :=
    (1 <= k -> p_wave r = p_wave F) /\ (2 <= k -> p_resp r = p_resp F) /\ (3 <= k -> p_interp r = p_interp F) /\
    (4 <= k -> p_leff r = p_leff F) /\ (5 <= k -> p_solar r = p_solar F) /\ (6 <= k -> p_vega2ab r = p_vega2ab F) /\
    (7 <= k -> p_fwhm r = p_fwhm F).
  Lemma lvl_0 F r : lvl F 0 r.
  Proof. unfold lvl. repeat split; intro; lia. Qed.
  Lemma lvl_toward F k r r' : toward F r r' -> lvl F k r -> lvl F k r'.
  Proof.
    unfold toward, lvl. intros (A1 & A2 & A3 & A4 & A5 & A6 & A7) (B1 & B2 & B3 & B4 & B5 & B6 & B7).
    repeat split; intro H.
    - specialize (B1 H). destruct A1; congruence.
    - specialize (B2 H). destruct A2; congruence.
    - specialize (B3 H). destruct A3; congruence.
    - specialize (B4 H). destruct A4; congruence.
    - specialize (B5 H). destruct A5; congruence.
    - specialize (B6 H). destruct A6; congruence.
    - specialize (B7 H). destruct A7; congruence.
  Qed.
  Lemma lvl_all F r : lvl F 7 r -> r = F.
  Proof. unfold lvl. intros (B1 & B2 & B3 & B4 & B5 & B6 & B7). apply resp_ext; auto with arith. Qed.
  Lemma toward_self F r : toward F F r -> r = F.
  Proof. intro H. apply lvl_all. eapply lvl_toward; [exact H|]. unfold lvl. repeat split. Qed.
  (** An object that has all attributes that [F] has is [F], if it started blank. *)
  Lemma lvl_end F k r : toward F blank r -> lvl F k r ->
    (k < 1 -> p_wave F = None) -> (k < 2 -> p_resp F = None) -> (k < 3 -> p_interp F = None) -> (k < 4 -> p_leff F = None) ->
    (k < 5 -> p_solar F = None) -> (k < 6 -> p_vega2ab F = None) -> (k < 7 -> p_fwhm F = None) -> r = F.
  Proof.
    unfold toward, lvl, blank. cbn [p_wave p_resp p_interp p_leff p_solar p_vega2ab p_fwhm].
    intros (A1 & A2 & A3 & A4 & A5 & A6 & A7) (B1 & B2 & B3 & B4 & B5 & B6 & B7) C1 C2 C3 C4 C5 C6 C7. apply resp_ext.
    - destruct (Nat.lt_ge_cases k 1) as [H|H]; [specialize (C1 H); destruct A1; congruence|auto].
    - destruct (Nat.lt_ge_cases k 2) as [H|H]; [specialize (C2 H); destruct A2; congruence|auto].
    - destruct (Nat.lt_ge_cases k 3) as [H|H]; [specialize (C3 H); destruct A3; congruence|auto].
    - destruct (Nat.lt_ge_cases k 4) as [H|H]; [specialize (C4 H); destruct A4; congruence|auto].
    - destruct (Nat.lt_ge_cases k 5) as [H|H]; [specialize (C5 H); destruct A5; congruence|auto].
    - destruct (Nat.lt_ge_cases k 6) as [H|H]; [specialize (C6 H); destruct A6; congruence|auto].
    - destruct (Nat.lt_ge_cases k 7) as [H|H]; [specialize (C7 H); destruct A7; congruence|auto].
  Qed.
End Toward.

Section Inv.
  Context {T : Type} {N : Num T}.
  Variable no_sed : sed T.
  Variable cub : list T -> list T -> T -> T.
  Variable bq : (T -> T) -> T -> T -> res T.
  Variable sun vega : res (list T * list (basel_unit T)).
  Variable fs : @fsys T.
  (** The dictionary, the number of objects at the start, whether reload=True is used, and the spectra each thread uses. *)
  Variables (d0 base : nat) (rl : bool) (own : nat -> option nat).
  Notation mem := (mem T).

  (** What load_response makes of a new object, and the exception. *)
  Definition loaded (n : string) : resp T * option exn := fromdat cub bq sun vega blank (fs (n ++ ".dat")%string).
  Notation Fin n := (fst (loaded n)).
  Notation D m := (dict_of m d0).

  Record inv (m : mem) : Prop := {
    i_inst : m_inst m = Some d0;
    i_d : d0 < length (m_dicts m);
    i_base : base <= length (m_objs m);
    i_id : forall n id, dget (D m) n = Some id -> id < length (m_objs m);
    i_name : forall n id o, dget (D m) n = Some id -> base <= id -> nth_error (m_objs m) id = Some o -> o_name o = n;
    i_blank : forall id o, base <= id -> nth_error (m_objs m) id = Some o -> toward (Fin (o_name o)) blank (o_resp o) }.

  Record evol (m m' : mem) : Prop := {
    e_inv : inv m -> inv m';
    e_obj : forall id o, nth_error (m_objs m) id = Some o -> exists o', nth_error (m_objs m') id = Some o' /\
              o_name o' = o_name o /\ o_by o' = o_by o /\ toward (Fin (o_name o)) (o_resp o) (o_resp o') /\ (id < base -> o' = o);
    e_keep : forall n id, dget (D m) n = Some id -> exists id', dget (D m') n = Some id' /\ (rl = false -> id < base -> id' = id);
    e_new : forall n id', dget (D m') n = Some id' ->
              dget (D m) n = Some id' \/ (length (m_objs m) <= id' /\ (rl = false -> forall k, dget (D m) n = Some k -> base <= k)) }.

  Lemma evol_len m m' : evol m m' -> length (m_objs m) <= length (m_objs m').
  Proof.
    intro E. destruct (length (m_objs m)) as [|k] eqn:L; [lia|].
    destruct (nth_error (m_objs m) k) as [o|] eqn:Eo; [|apply nth_error_None in Eo; lia].
    destruct (e_obj _ _ E k o Eo) as (o' & H & _). assert (nth_error (m_objs m') k <> None) by congruence.
    apply nth_error_Some in H0. lia.
  Qed.
  Lemma evol_refl m : evol m m.
  Proof.
    constructor; auto.
    - intros id o H. exists o. split; auto. split; auto. split; auto. split; auto. apply toward_refl.
    - intros n id H. exists id; auto.
  Qed.
  Lemma evol_trans a b c : evol a b -> evol b c -> evol a c.
  Proof.
    intros E1 E2. pose proof (evol_len _ _ E1) as L1. constructor.
    - intro H. apply (e_inv _ _ E2), (e_inv _ _ E1), H.
    - intros id o H. destruct (e_obj _ _ E1 id o H) as (o1 & H1 & N1 & B1 & W1 & S1).
      destruct (e_obj _ _ E2 id o1 H1) as (o2 & H2 & N2 & B2 & W2 & S2). exists o2. rewrite N1 in W2.
      split; [auto|]. split; [congruence|]. split; [congruence|]. split; [eapply toward_trans; eauto|].
      intro X. rewrite (S2 X). auto.
    - intros n id H. destruct (e_keep _ _ E1 n id H) as (i1 & H1 & S1). destruct (e_keep _ _ E2 n i1 H1) as (i2 & H2 & S2).
      exists i2. split; auto. intros X Y. specialize (S1 X Y). subst i1. auto.
    - intros n id H. destruct (e_new _ _ E2 n id H) as [H1|[H1 Hn]].
      + apply (e_new _ _ E1); auto.
      + right. split; [lia|]. intros X k Hk. destruct (e_keep _ _ E1 n k Hk) as (k' & Hk' & Hs). specialize (Hn X k' Hk').
        destruct (Nat.lt_ge_cases k base) as [Hl|Hl]; [|auto]. rewrite (Hs X Hl) in Hn. auto.
  Qed.

  (** Rely and guarantee of thread [i]: new objects carry their creator; a thread changes only its own spectra. *)
  Definition rely (i : nat) (m m' : mem) : Prop :=
    evol m m' /\
    (forall id o, length (m_objs m) <= id -> nth_error (m_objs m') id = Some o -> o_by o <> i) /\
    (forall sid, own i = Some sid -> nth_error (m_seds m') sid = nth_error (m_seds m) sid).
  Definition guar (i : nat) (m m' : mem) : Prop :=
    evol m m' /\
    (forall id o, length (m_objs m) <= id -> nth_error (m_objs m') id = Some o -> o_by o = i) /\
    (forall sid, own i <> Some sid -> nth_error (m_seds m') sid = nth_error (m_seds m) sid).
  Lemma rely_refl i m : rely i m m.
  Proof.
    split; [apply evol_refl|]. split; auto. intros id o H H'. assert (nth_error (m_objs m) id <> None) by congruence.
    apply nth_error_Some in H0. lia.
  Qed.
  Lemma guar_refl i m : guar i m m.
  Proof.
    split; [apply evol_refl|]. split; auto. intros id o H H'. assert (nth_error (m_objs m) id <> None) by congruence.
    apply nth_error_Some in H0. lia.
  Qed.
  Lemma rely_trans i a b c : rely i a b -> rely i b c -> rely i a c.
  Proof.
    intros (E1 & B1 & S1) (E2 & B2 & S2). split; [eapply evol_trans; eauto|]. split.
    - intros id o H Ho. destruct (Nat.lt_ge_cases id (length (m_objs b))) as [Hl|Hl]; [|apply (B2 id o Hl Ho)].
      destruct (nth_error (m_objs b) id) as [ob|] eqn:Eb; [|apply nth_error_None in Eb; lia].
      destruct (e_obj _ _ E2 id ob Eb) as (o2 & H2 & _ & Hb & _). rewrite H2 in Ho. injection Ho as <-. rewrite Hb. eapply B1; eauto.
    - intros sid H. rewrite (S2 sid H). auto.
  Qed.
  Lemma guar_rely i j m m' : (forall sid, own i = Some sid -> own j = Some sid -> i = j) -> i <> j -> guar i m m' -> rely j m m'.
  Proof.
    intros Ho Hij (E & B & S). split; auto. split.
    - intros id o H H'. rewrite (B id o H H'). auto.
    - intros sid H. apply S. intro X. apply Hij. eapply Ho; eauto.
  Qed.

  Section Thread.
    Variable i : nat.
    Notation RG := (rg i (rely i) (guar i)).
    Let Rr := rely_refl i.
    Let Rt := rely_trans i.

    Lemma r_get {A B} (f : mem -> B) (k : B -> prog T A) Q m :
      (forall m', rely i m m' -> RG (k (f m')) Q m') -> RG (Act (a_get f) k) Q m.
    Proof. apply rg_get. apply guar_refl. Qed.
    Lemma r_ret {A} (a : A) (Q : A -> mem -> Prop) m : (forall m', rely i m m' -> Q a m') -> RG (Ret a) Q m.
    Proof. intro H. exact H. Qed.

    (** All entries made by this thread are complete. *)
    Definition mine (m : mem) : Prop := forall n id o, dget (D m) n = Some id -> nth_error (m_objs m) id = Some o -> base <= id ->
      o_by o = i -> o_resp o = Fin n.
    Definition good (m : mem) : Prop := inv m /\ mine m.
    Lemma mine_later m m' : inv m -> mine m -> rely i m m' -> mine m'.
    Proof.
      intros Hi Hm (E & B & _) n id o Hd Ho Hb Hby. destruct (e_new _ _ E n id Hd) as [H|[H _]].
      - pose proof (i_id _ Hi n id H) as Hl. destruct (nth_error (m_objs m) id) as [oo|] eqn:Eo; [|apply nth_error_None in Eo; lia].
        destruct (e_obj _ _ E id oo Eo) as (o' & H' & Hn & Hby' & W & _). rewrite H' in Ho. injection Ho as <-.
        pose proof (i_name _ Hi n id oo H Hb Eo) as Hnm. rewrite (Hm n id oo H Eo Hb) in W by congruence. rewrite Hnm in W.
        apply toward_self, W.
      - exfalso. eapply B; eauto.
    Qed.
    Lemma good_later m m' : good m -> rely i m m' -> good m'.
    Proof. intros [H1 H2] H. split; [apply (e_inv _ _ (proj1 H)), H1|eapply mine_later; eauto]. Qed.

    (** Object [id], made for [n] after the start, has its first [k] attributes. *)
    Definition holds (m : mem) (id : nat) (n : string) (k : nat) : Prop :=
      inv m /\ base <= id /\ exists o, nth_error (m_objs m) id = Some o /\ o_name o = n /\ lvl (Fin n) k (o_resp o).
    Lemma holds_evol m m' id n k : evol m m' -> holds m id n k -> holds m' id n k.
    Proof.
      intros E (Hi & Hb & o & Ho & Hn & Hl). split; [apply (e_inv _ _ E), Hi|]. split; auto.
      destruct (e_obj _ _ E id o Ho) as (o' & Ho' & Hn' & _ & W & _). exists o'. rewrite Hn in W. split; auto. split; [congruence|].
      eapply lvl_toward; eauto.
    Qed.
    Lemma holds_resp m id n k : holds m id n k -> lvl (Fin n) k (resp_of m id).
    Proof. intros (_ & _ & o & Ho & _ & Hl). unfold resp_of. erewrite nth_error_nth by exact Ho. exact Hl. Qed.

    (** Store of an attribute: [u] sets attribute number [k+1] to its value in [Fin n]. *)
    Definition sets (F : resp T) (k : nat) (u : resp T -> resp T) : Prop :=
      forall r, toward F r (u r) /\ (lvl F k r -> lvl F (S k) (u r)).
    (** A step of this thread that makes no object and touches no spectra. *)
    Definition quiet (m m' : mem) : Prop := evol m m' /\ length (m_objs m') = length (m_objs m) /\ m_seds m' = m_seds m.
    Definition stab (J : mem -> Prop) : Prop := forall m m', inv m -> J m -> rely i m m' \/ quiet m m' -> J m'.
    Lemma r_put {A} id n k u (K : unit -> prog T A) Q J m : holds m id n k -> stab J -> J m -> sets (Fin n) k u ->
      (forall m', holds m' id n (S k) -> J m' -> RG (K tt) Q m') -> RG (Act (a_put id u) K) Q m.
    Proof.
      intros Hh HJ Jm Hs H m' Hr. assert (Jm' : J m') by (apply (HJ m); auto; apply Hh).
      revert Hr. intro Hr. pose proof (holds_evol _ _ _ _ _ (proj1 Hr) Hh) as Hh'. clear Hh.
      destruct Hh' as (Hi & Hb & o & Ho & Hn & Hl). unfold a_put. cbn [fst snd].
      assert (En : nth id (m_objs m') no_obj = o) by (apply nth_error_nth; auto). rewrite En.
      set (o2 := {| o_name := o_name o; o_by := o_by o; o_resp := u (o_resp o) |}).
      set (m2 := set_objs m' (upd id o2 (m_objs m'))).
      assert (Hlen : length (m_objs m2) = length (m_objs m')) by apply length_upd.
      assert (Hnth : forall j, nth_error (m_objs m2) j = if Nat.eqb j id then Some o2 else nth_error (m_objs m') j).
      { intro j. unfold m2, set_objs. cbn [m_objs]. rewrite nth_error_upd. destruct (Nat.eqb_spec j id) as [->|]; auto. rewrite Ho. auto. }
      destruct (Hs (o_resp o)) as [Hw Hlv].
      assert (E : evol m' m2).
      { constructor.
        - intros [I1 I2 I3 I4 I5 I6]. constructor; auto.
          + rewrite Hlen; auto.
          + intros n' j Hj. rewrite Hlen. eauto.
          + intros n' j oj Hj Hbj. rewrite Hnth. destruct (Nat.eqb_spec j id) as [->|]; [|eauto].
            intro X. injection X as <-. cbn. eapply I5; eauto.
          + intros j oj Hbj. rewrite Hnth. destruct (Nat.eqb_spec j id) as [->|]; [|eauto].
            intro X. injection X as <-. cbn. eapply toward_trans; [eapply I6; eauto|]. rewrite Hn. exact Hw.
        - intros j oj Hj. rewrite Hnth. destruct (Nat.eqb_spec j id) as [->|].
          + rewrite Ho in Hj. injection Hj as <-. exists o2. split; auto. split; auto. split; auto. split; [cbn; rewrite Hn; exact Hw|lia].
          + exists oj. split; auto. split; auto. split; auto. split; auto. apply toward_refl.
        - intros n' j Hj. exists j; auto.
        - intros n' j Hj. left; auto. }
      split.
      - split; [exact E|]. split.
        + intros j oj Hj. rewrite Hnth. destruct (Nat.eqb_spec j id) as [->|].
          * apply nth_error_None in Hj. congruence.
          * intro X. assert (nth_error (m_objs m') j <> None) by congruence. apply nth_error_Some in H0. lia.
        + intros sid _. reflexivity.
      - apply H.
        + split; [apply (e_inv _ _ E), Hi|]. split; auto. exists o2. rewrite Hnth, Nat.eqb_refl. split; auto.
        + apply (HJ m'); auto. right. split; [exact E|]. split; auto.
    Qed.
    Lemma r_read {A B} id n k (f : resp T -> B) (K : B -> prog T A) Q J m : holds m id n k -> stab J -> J m ->
      (forall m', holds m' id n k -> J m' -> lvl (Fin n) k (resp_of m' id) -> RG (K (f (resp_of m' id))) Q m') ->
      RG (Act (rget id f) K) Q m.
    Proof.
      intros Hh HJ Jm H. apply r_get. intros m' Hr. assert (Hh' : holds m' id n k) by (eapply holds_evol; [apply Hr|auto]).
      apply H; auto; [apply (HJ m); auto; apply Hh|eapply holds_resp; eauto].
    Qed.

    Ltac crush := repeat match goal with |- context [match ?x with _ => _ end] => destruct x end; reflexivity.
    Ltac setter H := intro r; split;
      [unfold toward; cbn; rewrite ?H; tauto
      |intros (B1 & B2 & B3 & B4 & B5 & B6 & B7); unfold lvl; cbn; rewrite ?H;
       repeat (split; [intro; first [reflexivity | symmetry; assumption | apply B1; lia | apply B2; lia | apply B3; lia | apply B4; lia | apply B5; lia | apply B6; lia | lia]|]);
       intro; first [reflexivity | lia]].
    (** fromdat fills the object with [Fin n], whatever the others do. *)
    Lemma r_fromdat id n J m : holds m id n 0 -> stab J -> J m ->
      RG (t_fromdat cub bq sun vega id (fs (n ++ ".dat")%string))
         (fun r m' => r = outcome (snd (loaded n)) /\ holds m' id n 7 /\ J m') m.
    Proof.
      intros Hh HJ Jm.
      assert (END : forall k e, snd (loaded n) = e ->
        (k < 1 -> p_wave (Fin n) = None) -> (k < 2 -> p_resp (Fin n) = None) -> (k < 3 -> p_interp (Fin n) = None) ->
        (k < 4 -> p_leff (Fin n) = None) -> (k < 5 -> p_solar (Fin n) = None) -> (k < 6 -> p_vega2ab (Fin n) = None) ->
        (k < 7 -> p_fwhm (Fin n) = None) -> forall m', holds m' id n k -> J m' ->
        RG (fin (outcome e)) (fun r m' => r = outcome (snd (loaded n)) /\ holds m' id n 7 /\ J m') m').
      { intros k e He C1 C2 C3 C4 C5 C6 C7 m' Hm' Jm'. apply r_ret. intros m2 Hr. split; [congruence|].
        split; [|apply (HJ m'); auto; apply Hm'].
        destruct (holds_evol _ _ _ _ _ (proj1 Hr) Hm') as (Hi & Hb & o & Ho & Hn & Hl). split; auto. split; auto. exists o.
        split; auto. split; auto. pose proof (i_blank _ Hi id o Hb Ho) as W. rewrite Hn in W.
        rewrite (lvl_end _ k _ W Hl) by auto. unfold lvl. repeat split. }
      revert END. unfold loaded, fromdat, t_fromdat.
      destruct (fs (n ++ ".dat")%string) as [[[w0 y0]|e]|] eqn:Ef; cbn [fst snd].
      2:{ intro END. apply (END 0 (Some e)); auto. }
      2:{ intro END. apply (END 0 (Some ValueError)); auto. }
      destruct (sort_pair w0 y0) as [[w y]|e] eqn:Es; cbn [fst snd].
      2:{ intro END. apply (END 0 (Some e)); auto. }
      intro END.
      assert (EF : loaded n = resp_setup cub bq sun vega (with_curve blank w y)) by (unfold loaded, fromdat; rewrite Ef; cbn; rewrite Es; reflexivity).
      rewrite <- EF in *. clear Ef Es.
      assert (Fw : p_wave (Fin n) = Some w) by (rewrite EF; unfold resp_setup; cbn [with_curve p_wave p_resp]; crush).
      assert (Fy : p_resp (Fin n) = Some y) by (rewrite EF; unfold resp_setup; cbn [with_curve p_wave p_resp]; crush).
      assert (S0 : sets (Fin n) 0 (put_wave w)) by (setter Fw).
      assert (S1 : sets (Fin n) 1 (put_resp y)) by (setter Fy).
      eapply r_put; eauto. clear m Hh Jm. intros m Hh Jm. eapply r_put; eauto. clear m Hh Jm. intros m Hh Jm.
      unfold t_setup.
      eapply r_read; eauto. clear m Hh Jm. intros m Hh Jm Hl. rewrite (proj1 Hl), Fw by lia. clear Hl.
      eapply r_read; eauto. clear m Hh Jm. intros m Hh Jm Hl. rewrite (proj1 (proj2 Hl)), Fy by lia. clear Hl.
      eapply r_read; eauto. clear m Hh Jm. intros m Hh Jm Hl. rewrite (proj1 Hl), Fw by lia. clear Hl.
      eapply r_read; eauto. clear m Hh Jm. intros m Hh Jm Hl. rewrite (proj1 (proj2 Hl)), Fy by lia. clear Hl.
      unfold resp_setup in EF. cbn [with_curve p_wave p_resp p_interp p_leff p_solar p_vega2ab p_fwhm blank] in EF.
      destruct (mk_cubic w (vec y)) as [it|e].
      2:{ apply (END 2 (Some e)); auto; try (rewrite EF; auto); intro; lia. }
      assert (Fi : p_interp (Fin n) = Some it) by (rewrite EF; crush).
      assert (Fl : p_leff (Fin n) = Some (lambda_eff w y)) by (rewrite EF; crush).
      assert (S2 : sets (Fin n) 2 (put_interp (Some it))) by (setter Fi).
      assert (S3 : sets (Fin n) 3 (put_leff (lambda_eff w y))) by (setter Fl).
      eapply r_put; eauto. clear m Hh Jm. intros m Hh Jm. unfold t_leff.
      eapply r_read; eauto. clear m Hh Jm. intros m Hh Jm Hl. rewrite (proj1 Hl), Fw by lia. clear Hl.
      eapply r_read; eauto. clear m Hh Jm. intros m Hh Jm Hl. rewrite (proj1 (proj2 Hl)), Fy by lia. clear Hl.
      eapply r_put; eauto. clear m Hh Jm. intros m Hh Jm. unfold t_solar.
      eapply r_read; eauto. clear m Hh Jm. intros m Hh Jm Hl. rewrite (proj1 Hl), Fw by lia. clear Hl.
      eapply r_read; eauto. clear m Hh Jm. intros m Hh Jm Hl. rewrite (proj1 (proj2 (proj2 Hl))), Fi by lia. clear Hl.
      match type of EF with context [ref_magnitude cub sun_scale sun ?r] => change (ref_magnitude cub sun_scale sun r)
          with (ref_magnitude cub sun_scale sun (seen (Some w) (Some it))) in EF end.
      destruct (ref_magnitude cub sun_scale sun (seen (Some w) (Some it))) as [sm|e].
      2:{ apply (END 4 (Some e)); auto; try (rewrite EF; auto); intro; lia. }
      assert (Fs : p_solar (Fin n) = sm) by (rewrite EF; crush).
      assert (S4 : sets (Fin n) 4 (put_solar sm)) by (setter Fs).
      eapply r_put; eauto. clear m Hh Jm. intros m Hh Jm. unfold t_vega.
      eapply r_read; eauto. clear m Hh Jm. intros m Hh Jm Hl. rewrite (proj1 Hl), Fw by lia. clear Hl.
      eapply r_read; eauto. clear m Hh Jm. intros m Hh Jm Hl. rewrite (proj1 (proj2 (proj2 Hl))), Fi by lia. clear Hl.
      match type of EF with context [ref_magnitude cub vega_scale vega ?r] => change (ref_magnitude cub vega_scale vega r)
          with (ref_magnitude cub vega_scale vega (seen (Some w) (Some it))) in EF end.
      destruct (ref_magnitude cub vega_scale vega (seen (Some w) (Some it))) as [vm|e].
      2:{ apply (END 5 (Some e)); auto; try (rewrite EF; auto); intro; lia. }
      assert (Fv : p_vega2ab (Fin n) = vm) by (rewrite EF; crush).
      assert (S5 : sets (Fin n) 5 (put_vega vm)) by (setter Fv).
      eapply r_put; eauto. clear m Hh Jm. intros m Hh Jm. unfold t_fwhm.
      eapply r_read; eauto. clear m Hh Jm. intros m Hh Jm Hl. rewrite (proj1 Hl), Fw by lia. clear Hl.
      eapply r_read; eauto. clear m Hh Jm. intros m Hh Jm Hl. rewrite (proj1 (proj2 (proj2 Hl))), Fi by lia. clear Hl.
      destruct (fwhm_limits cub bq w it) as [fw|e].
      2:{ apply (END 6 (Some e)); auto; try (rewrite EF; auto); intro; lia. }
      assert (Ff : p_fwhm (Fin n) = Some fw) by (rewrite EF; crush).
      assert (S6 : sets (Fin n) 6 (put_fwhm fw)) by (setter Ff).
      eapply r_put; eauto. clear m Hh Jm. intros m Hh Jm.
      apply (END 7 None); auto; try (rewrite EF; auto); intro; lia.
    Qed.

    (** Properties that survive the steps of the others and the loads of this thread. *)
    Definition steady (J : mem -> Prop) : Prop := forall m m', inv m -> J m -> rely i m m' \/ (evol m m' /\ m_seds m' = m_seds m) -> J m'.
    Lemma steady_stab J : steady J -> stab J.
    Proof. intros H m m' Hi Hj [Hr|(E & _ & S)]; apply (H m m'); auto. Qed.
    Lemma bound_evol m m' n : evol m m' -> dmem (D m) n = true -> dmem (D m') n = true.
    Proof. unfold dmem. intros E H. destruct (dget (D m) n) as [id|] eqn:Ed; [|discriminate]. destruct (e_keep _ _ E n id Ed) as (id' & -> & _). auto. Qed.
    Lemma uncached_evol m m' n : inv m -> evol m m' -> (forall k, dget (D m) n = Some k -> base <= k) -> forall k, dget (D m') n = Some k -> base <= k.
    Proof. intros Hi E H k Hk. destruct (e_new _ _ E n k Hk) as [X|[X _]]; auto. pose proof (i_base _ Hi). lia. Qed.

    Lemma r_newobj n m : inv m -> (rl = false -> forall k, dget (D m) n = Some k -> base <= k) ->
      let m2 := fst (a_newobj d0 n i m) in let o2 := {| o_name := n; o_by := i; o_resp := blank |} in
      guar i m m2 /\ m_seds m2 = m_seds m /\ m_objs m2 = m_objs m ++ [o2] /\ D m2 = dset (D m) n (length (m_objs m)).
    Proof.
      intros Hi Hn. cbv zeta. set (m2 := fst (a_newobj d0 n i m)). set (o2 := {| o_name := n; o_by := i; o_resp := blank |}).
      assert (Eo : m_objs m2 = m_objs m ++ [o2]) by reflexivity.
      assert (Ed : D m2 = dset (D m) n (length (m_objs m))).
      { unfold m2, a_newobj, dict_of, set_objs, set_dicts. cbn [fst m_dicts]. rewrite nth_upd, Nat.eqb_refl by apply Hi. reflexivity. }
      assert (Hget : forall k, dget (D m2) k = if String.eqb n k then Some (length (m_objs m)) else dget (D m) k) by (intro k; rewrite Ed; apply dget_dset).
      assert (Hnth : forall j o, nth_error (m_objs m2) j = Some o -> nth_error (m_objs m) j = Some o \/ (j = length (m_objs m) /\ o = o2)).
      { intros j o. rewrite Eo. destruct (Nat.lt_ge_cases j (length (m_objs m))) as [H|H].
        - rewrite nth_error_app1 by auto. auto.
        - rewrite nth_error_app2 by auto. destruct (j - length (m_objs m)) as [|q] eqn:Eq; [|destruct q; discriminate].
          cbn. intro X. injection X as <-. right. split; auto. lia. }
      assert (Hold : forall j o, nth_error (m_objs m) j = Some o -> nth_error (m_objs m2) j = Some o).
      { intros j o H. rewrite Eo, nth_error_app1; auto. apply nth_error_Some. congruence. }
      assert (Hlen : length (m_objs m2) = S (length (m_objs m))) by (rewrite Eo, app_length; cbn; lia).
      split; [|repeat split; auto]. split; [|split].
      - constructor.
        + intros [I1 I2 I3 I4 I5 I6]. constructor; auto.
          * cbn. rewrite length_upd. auto.
          * lia.
          * intros k id. rewrite Hget, Hlen. destruct (String.eqb n k); [intro X; injection X as <-; lia|]. intro X. specialize (I4 k id X). lia.
          * intros k id o. rewrite Hget. destruct (String.eqb_spec n k) as [->|].
            -- intro X. injection X as <-. intros _ Ho. apply Hnth in Ho as [Ho|[_ ->]]; [|reflexivity].
               assert (nth_error (m_objs m) (length (m_objs m)) <> None) by congruence. apply nth_error_Some in H. lia.
            -- intros X Hb Ho. apply Hnth in Ho as [Ho|[-> _]]; [eauto|]. specialize (I4 k _ X). lia.
          * intros id o Hb Ho. apply Hnth in Ho as [Ho|[_ ->]]; [eauto|apply toward_refl].
        + intros id o Ho. exists o. split; auto. split; auto. split; auto. split; auto. apply toward_refl.
        + intros k id H. rewrite Hget. destruct (String.eqb_spec n k) as [->|]; [|exists id; auto].
          exists (length (m_objs m)). split; auto. intros X Y. specialize (Hn X id H). lia.
        + intros k id. rewrite Hget. destruct (String.eqb_spec n k) as [->|]; [|auto]. intro X. injection X as <-. right. split; auto.
      - intros id o H Ho. apply Hnth in Ho as [Ho|[_ ->]]; [|reflexivity]. assert (nth_error (m_objs m) id <> None) by congruence.
        apply nth_error_Some in H0. lia.
      - intros sid _. reflexivity.
    Qed.

    (** Entries of other names made by this thread stay complete; what is known of the entry of [n]. *)
    Definition but (n : string) (m : mem) : Prop := forall n' id o, n' <> n -> dget (D m) n' = Some id -> nth_error (m_objs m) id = Some o ->
      base <= id -> o_by o = i -> o_resp o = Fin n'.
    Definition only (n : string) (id0 : nat) (m : mem) : Prop := id0 < length (m_objs m) /\
      forall id o, dget (D m) n = Some id -> nth_error (m_objs m) id = Some o -> base <= id -> o_by o = i -> id = id0.
    Definition none (n : string) (m : mem) : Prop :=
      forall id o, dget (D m) n = Some id -> nth_error (m_objs m) id = Some o -> base <= id -> o_by o <> i.
    Lemma entry_back m m' n id o : inv m -> inv m' -> rely i m m' \/ quiet m m' -> dget (D m') n = Some id -> nth_error (m_objs m') id = Some o ->
      o_by o = i -> exists o1, dget (D m) n = Some id /\ nth_error (m_objs m) id = Some o1 /\ o_by o1 = i /\
        o_name o = o_name o1 /\ toward (Fin (o_name o1)) (o_resp o1) (o_resp o).
    Proof.
      intros Hi Hi' H Hd Ho Hby.
      assert (E : evol m m') by (destruct H as [H|H]; apply H).
      assert (Hold : dget (D m) n = Some id).
      { destruct (e_new _ _ E n id Hd) as [X|[X _]]; auto. exfalso. destruct H as [(_ & B & _)|(_ & L & _)].
        - eapply B; eauto.
        - pose proof (i_id _ Hi' n id Hd). lia. }
      pose proof (i_id _ Hi n id Hold) as Hl. destruct (nth_error (m_objs m) id) as [o1|] eqn:E1; [|apply nth_error_None in E1; lia].
      destruct (e_obj _ _ E id o1 E1) as (o' & Ho' & Hn & Hb & W & _). rewrite Ho' in Ho. injection Ho as <-.
      exists o1. split; [auto|]. split; [auto|]. split; [congruence|]. split; auto.
    Qed.
    Lemma evol_of m m' : rely i m m' \/ quiet m m' -> evol m m'.
    Proof. intros [H|H]; apply H. Qed.
    Lemma but_stab n : stab (but n).
    Proof.
      intros m m' Hi Hb H n' id o Hn Hd Ho Hbase Hby. pose proof (e_inv _ _ (evol_of _ _ H) Hi) as Hi'.
      destruct (entry_back m m' n' id o Hi Hi' H Hd Ho Hby) as (o1 & Hd1 & Ho1 & Hby1 & Hnm & W).
      rewrite (Hb n' id o1 Hn Hd1 Ho1 Hbase Hby1), (i_name _ Hi n' id o1 Hd1 Hbase Ho1) in W. apply toward_self, W.
    Qed.
    Lemma only_stab n id0 : stab (only n id0).
    Proof.
      intros m m' Hi (Hl & Hb) H. pose proof (e_inv _ _ (evol_of _ _ H) Hi) as Hi'. pose proof (evol_len _ _ (evol_of _ _ H)).
      split; [lia|]. intros id o Hd Ho Hbase Hby.
      destruct (entry_back m m' n id o Hi Hi' H Hd Ho Hby) as (o1 & Hd1 & Ho1 & Hby1 & _). eauto.
    Qed.
    Lemma none_stab n : stab (none n).
    Proof.
      intros m m' Hi Hb H id o Hd Ho Hbase Hby. pose proof (e_inv _ _ (evol_of _ _ H) Hi) as Hi'.
      destruct (entry_back m m' n id o Hi Hi' H Hd Ho Hby) as (o1 & Hd1 & Ho1 & Hby1 & _). eapply Hb; eauto.
    Qed.
    Lemma stab_and J K : stab J -> stab K -> stab (fun m => J m /\ K m).
    Proof. intros H1 H2 m m' Hi [A B] H. split; [eapply H1; eauto|eapply H2; eauto]. Qed.

    Lemma r_load n reload J m : good m -> (rl = false -> reload = false) -> steady J -> J m ->
      RG (t_load cub bq sun vega fs d0 n reload)
         (fun r m' => good m' /\ J m' /\ dmem (D m') n = true /\
            ((reload = false /\ r = Ok tt) \/ (r = outcome (snd (loaded n)) /\ forall k, dget (D m') n = Some k -> base <= k))) m.
    Proof.
      intros Hg Hrl HJ Jm. unfold t_load. apply r_get. intros m1 R1.
      pose proof (good_later _ _ Hg R1) as G1. assert (J1 : J m1) by (apply (HJ m m1); auto; apply Hg). clear m Hg Jm R1.
      destruct (dmem (D m1) n && negb reload) eqn:Eb.
      { apply r_ret. intros m2 R2. split; [eapply good_later; eauto|]. split; [apply (HJ m1); auto; apply G1|].
        apply andb_true_iff in Eb as [Eb1 Eb2].
        split; [apply (bound_evol m1); [apply R2|auto]|left; split; [destruct reload; auto|reflexivity]]. }
      assert (Hunc : rl = false -> forall k, dget (D m1) n = Some k -> base <= k).
      { intros X k Hk. rewrite (Hrl X) in Eb. unfold dmem in Eb. rewrite Hk in Eb. discriminate. }
      clear Eb. intros m2 R2. cbn [fst snd].
      pose proof (good_later _ _ G1 R2) as G2. assert (J2 : J m2) by (apply (HJ m1); auto; apply G1).
      assert (Hunc2 : rl = false -> forall k, dget (D m2) n = Some k -> base <= k)
        by (intro X; apply (uncached_evol m1); [apply G1|apply R2|auto]).
      destruct (r_newobj n m2 (proj1 G2) Hunc2) as (Gu & Sd & Ob & Di). set (m3 := fst (a_newobj d0 n i m2)) in *.
      set (id0 := length (m_objs m2)) in *.
      split; [exact Gu|].
      assert (I3 : inv m3) by (apply (e_inv _ _ (proj1 Gu)), G2).
      assert (J3 : J m3) by (apply (HJ m2); [apply G2|auto|right; split; [apply Gu|auto]]).
      assert (N3 : nth_error (m_objs m3) id0 = Some {| o_name := n; o_by := i; o_resp := blank |}).
      { rewrite Ob, nth_error_app2, Nat.sub_diag by auto. reflexivity. }
      assert (B3 : but n m3).
      { intros n' id o Hn Hd Ho Hb Hby. rewrite Di, dget_dset in Hd. destruct (String.eqb_spec n n'); [congruence|].
        pose proof (i_id _ (proj1 G2) n' id Hd). rewrite Ob, nth_error_app1 in Ho by auto. eapply (proj2 G2); eauto. }
      assert (O3 : only n id0 m3).
      { split; [rewrite Ob, app_length; cbn; unfold id0; lia|]. intros id o Hd _ _ _. rewrite Di, dget_dset, String.eqb_refl in Hd. congruence. }
      assert (D3 : dmem (D m3) n = true) by (unfold dmem; rewrite Di, dget_dset, String.eqb_refl; reflexivity).
      assert (U3 : forall k, dget (D m3) n = Some k -> base <= k).
      { intros k Hk. rewrite Di, dget_dset, String.eqb_refl in Hk. injection Hk as <-. apply (i_base _ (proj1 G2)). }
      clearbody m3 id0. clear m1 G1 J1 Hunc R2 m2 G2 J2 Hunc2 Gu Sd Ob Di.
      apply r_get. intros m4 R4. pose proof (e_inv _ _ (proj1 R4) I3) as I4.
      assert (J4 : J m4) by (apply (HJ m3); auto). pose proof (but_stab n m3 m4 I3 B3 (or_introl R4)) as B4.
      pose proof (only_stab n id0 m3 m4 I3 O3 (or_introl R4)) as O4. pose proof (bound_evol m3 m4 n (proj1 R4) D3) as D4.
      pose proof (uncached_evol m3 m4 n I3 (proj1 R4) U3) as U4.
      clear m3 I3 J3 N3 B3 O3 D3 U3 R4.
      destruct (dget (D m4) n) as [id|] eqn:Ed; [|unfold dmem in D4; rewrite Ed in D4; discriminate].
      pose proof (U4 id eq_refl) as Hb. clear U4.
      assert (Hh : holds m4 id n 0).
      { split; auto. split; auto. pose proof (i_id _ I4 n id Ed) as Hl. destruct (nth_error (m_objs m4) id) as [o|] eqn:Eo; [|apply nth_error_None in Eo; lia].
        exists o. split; auto. split; [eapply i_name; eauto|apply lvl_0]. }
      assert (U4 : forall k, dget (D m4) n = Some k -> base <= k) by (intros k Hk; rewrite Ed in Hk; injection Hk as <-; auto).
      assert (DS : stab (fun m => dmem (D m) n = true)) by (intros a b _ H H'; eapply bound_evol; eauto; apply evol_of; auto).
      assert (US : stab (fun m => forall k, dget (D m) n = Some k -> base <= k))
        by (intros a b Ha H H'; eapply uncached_evol; eauto; apply evol_of; auto).
      pose proof (steady_stab J HJ) as JS.
      destruct (Nat.eq_dec id id0) as [->|Hne].
      - eapply rg_post; [|apply (r_fromdat id0 n (fun m => (J m /\ dmem (D m) n = true /\ (forall k, dget (D m) n = Some k -> base <= k)) /\ but n m /\ only n id0 m)); auto].
        + cbn. intros r m5 (-> & (I5 & _ & o & Ho & Hn & Hl) & (J5 & D5 & U5) & B5 & O5). split; [|auto]. split; auto.
          intros n' id' o' Hd' Ho' Hb' Hby'. destruct (string_dec n' n) as [->|]; [|eapply B5; eauto].
          pose proof (proj2 O5 id' o' Hd' Ho' Hb' Hby'). subst id'. rewrite Ho in Ho'. injection Ho' as <-. apply lvl_all, Hl.
        + apply stab_and; [apply stab_and; [auto|apply stab_and; auto]|apply stab_and; [apply but_stab|apply only_stab]].
      - assert (N4 : none n m4).
        { intros id' o Hd Ho Hb' Hby. pose proof (proj2 O4 id' o Hd Ho Hb' Hby). congruence. }
        eapply rg_post; [|apply (r_fromdat id n (fun m => (J m /\ dmem (D m) n = true /\ (forall k, dget (D m) n = Some k -> base <= k)) /\ but n m /\ none n m)); auto].
        + cbn. intros r m5 (-> & (I5 & _) & (J5 & D5 & U5) & B5 & O5). split; [|auto]. split; auto.
          intros n' id' o' Hd' Ho' Hb' Hby'. destruct (string_dec n' n) as [->|]; [|eapply B5; eauto].
          exfalso. eapply O5; eauto.
        + apply stab_and; [apply stab_and; [auto|apply stab_and; auto]|apply stab_and; [apply but_stab|apply none_stab]].
    Qed.

    (** * Building a design matrix with one's own spectra, nobody using reload=True *)
    Section Build.
    Variable sid : nat.
    Hypothesis Own : own i = Some sid.
    Hypothesis Norl : rl = false.
    (** The response that the sequential program uses for a name, and whether it has to be loaded from its file. *)
    Variable star : string -> resp T.
    Variable fresh : string -> bool.

    Definition okobj (n : string) (id : nat) (m : mem) : Prop := exists o, nth_error (m_objs m) id = Some o /\
      ((id < base /\ o_resp o = star n) \/ (base <= id /\ o_name o = n /\ fresh n = true /\ star n = Fin n)).
    Definition could (n : string) (m : mem) : Prop :=
      (exists id, dget (D m) n = Some id /\ id < base /\ okobj n id m) \/
      (fresh n = true /\ star n = Fin n /\ snd (loaded n) = None /\ forall k, dget (D m) n = Some k -> base <= k).
    Lemma okobj_evol m m' n id : evol m m' -> okobj n id m -> okobj n id m'.
    Proof.
      intros E (o & Ho & H). destruct (e_obj _ _ E id o Ho) as (o' & Ho' & Hn & _ & _ & Hs). exists o'. split; auto.
      destruct H as [[Hb H]|(Hb & H & H')]; [left; rewrite (Hs Hb); auto|right; split; [auto|split; [congruence|auto]]].
    Qed.
    Lemma could_evol m m' n : inv m -> evol m m' -> could n m -> could n m'.
    Proof.
      intros Hi E [(id & Hd & Hb & Ho)|(H1 & H2 & H3 & H4)].
      - left. destruct (e_keep _ _ E n id Hd) as (id' & Hd' & Hs). rewrite (Hs Norl Hb) in Hd'. exists id. split; auto. split; auto.
        eapply okobj_evol; eauto.
      - right. split; auto. split; auto. split; auto. eapply uncached_evol; eauto.
    Qed.
    Lemma could_ok m n id : inv m -> could n m -> dget (D m) n = Some id -> okobj n id m.
    Proof.
      intros Hi [(id' & Hd & Hb & Ho)|(H1 & H2 & H3 & H4)] H; [congruence|].
      pose proof (i_id _ Hi n id H) as Hl. destruct (nth_error (m_objs m) id) as [o|] eqn:Eo; [|apply nth_error_None in Eo; lia].
      exists o. split; auto. right. split; [auto|]. split; [eapply i_name; eauto|auto].
    Qed.
    Lemma okobj_reads m n id : inv m -> okobj n id m ->
      (p_wave (resp_of m id) = p_wave (star n) \/ (fresh n = true /\ p_wave (resp_of m id) = None)) /\
      (p_interp (resp_of m id) = p_interp (star n) \/ (fresh n = true /\ p_interp (resp_of m id) = None)).
    Proof.
      intros Hi (o & Ho & H). unfold resp_of. rewrite (nth_error_nth _ _ _ Ho). destruct H as [[_ ->]|(Hb & Hn & Hf & Hs)]; [auto|].
      pose proof (i_blank _ Hi id o Hb Ho) as (A1 & _ & A3 & _). rewrite Hn in A1, A3. rewrite Hs. cbn [blank p_wave p_interp] in *.
      split; [destruct A1; auto|destruct A3; auto].
    Qed.

    (** Projections with an object that is being loaded. *)
    Definition oread (n : string) (rw : option (list T)) (ri : option (interp1 T)) : Prop :=
      (rw = p_wave (star n) \/ (fresh n = true /\ rw = None)) /\ (ri = p_interp (star n) \/ (fresh n = true /\ ri = None)).
    Lemma core_part rw it sw si ns : project_core cub rw it sw si ns = project_core cub rw None sw si ns \/
      project_core cub rw None sw si ns = Raise TypeError.
    Proof.
      unfold project_core. destruct (where_ (in_band rw sw)); [left; reflexivity|]. right. destruct si; reflexivity.
    Qed.
    Lemma arr_part n rw ri w f : oread n rw ri ->
      project_arr cub (seen rw ri) w f = project_arr cub (star n) w f \/
      (fresh n = true /\ project_arr cub (seen rw ri) w f = Raise TypeError) .
    Proof.
      intros [Hw Hi]. unfold project_arr, seen. cbn [p_wave p_interp].
      destruct (Nat.eqb (ndim (map1 cst w)) 1); [|left; reflexivity].
      destruct (negb (Nat.eqb (ndim (map1 cst f)) 0)); [|left; reflexivity].
      destruct (Nat.eqb (lastd (shp (map1 cst f))) _); [|left; reflexivity].
      destruct (Nat.leb (ndim (map1 cst f)) 2); [|left; reflexivity].
      destruct (mk_cubic _ _) as [it|e]; cbn [bind]; [|left; reflexivity].
      destruct Hw as [-> |[Hf ->]]; [|right; auto]. destruct Hi as [-> |[Hf ->]]; [left; reflexivity|].
      destruct (p_wave (star n)) as [rw|]; [|left; reflexivity].
      destruct (core_part rw (p_interp (star n)) (dat (map1 cst w)) (Some it)
                  (if Nat.eqb (ndim (map1 cst f)) 1 then 1 else hd 0 (shp (map1 cst f)))) as [-> |X]; [left; reflexivity|right; auto].
    Qed.
    Lemma sed_part n rw ri s : oread n rw ri ->
      (match rw with Some rw => project_core cub rw ri (s_wave s) (s_interp s) (s_nsed s) | None => Raise TypeError end)
        = project_sed cub (star n) s \/
      (fresh n = true /\ (match rw with Some rw => project_core cub rw ri (s_wave s) (s_interp s) (s_nsed s) | None => Raise TypeError end)
        = Raise TypeError).
    Proof.
      intros [Hw Hi]. unfold project_sed. destruct Hw as [-> |[Hf ->]]; [|right; auto]. destruct Hi as [-> |[Hf ->]]; [left; reflexivity|].
      destruct (p_wave (star n)) as [rw|]; [|left; reflexivity].
      destruct (core_part rw (p_interp (star n)) (s_wave s) (s_interp s) (s_nsed s)) as [-> |X]; [left; reflexivity|right; auto].
    Qed.

    Definition able (names : list string) (s : sed T) (m : mem) : Prop :=
      good m /\ (forall n, In n names -> could n m) /\ nth_error (m_seds m) sid = Some s.
    Definition ready (names : list string) (s : sed T) (m : mem) : Prop :=
      able names s m /\ forall n, In n names -> dmem (D m) n = true.
    Lemma able_rely names s m m' : able names s m -> rely i m m' -> able names s m'.
    Proof.
      intros (H1 & H2 & H3) R. split; [eapply good_later; eauto|]. split.
      - intros n Hn. apply (could_evol m); [apply H1|apply R|auto].
      - rewrite <- H3. apply R, Own.
    Qed.
    Lemma ready_rely names s m m' : ready names s m -> rely i m m' -> ready names s m'.
    Proof.
      intros (H1 & H2) R. split; [eapply able_rely; eauto|]. intros n Hn. apply (bound_evol m); [apply R|auto].
    Qed.
    Lemma ready_sed names s m : ready names s m -> sed_of no_sed m sid = s.
    Proof. intros ((_ & _ & H) & _). unfold sed_of. apply nth_error_nth. auto. Qed.
    Lemma ready_inv names s m : ready names s m -> inv m.
    Proof. intros (((H & _) & _) & _). exact H. Qed.

    Lemma r_sget {A B} names s (f : sed T -> B) (K : B -> prog T A) Q m : ready names s m ->
      (forall m', ready names s m' -> RG (K (f s)) Q m') -> RG (Act (sget no_sed sid f) K) Q m.
    Proof.
      intros Hr H. apply r_get. intros m' R. pose proof (ready_rely _ _ _ _ Hr R) as Hr'. rewrite (ready_sed _ _ _ Hr'). auto.
    Qed.
    (** The object found in the dictionary, and its attributes. *)
    Lemma r_find {A} names s n (K : option nat -> prog T A) Q m : ready names s m -> In n names ->
      (forall id m', ready names s m' -> okobj n id m' -> RG (K (Some id)) Q m') -> RG (Act (a_get (fun m => dget (D m) n)) K) Q m.
    Proof.
      intros Hr Hn H. apply r_get. intros m' R. pose proof (ready_rely _ _ _ _ Hr R) as Hr'.
      pose proof (proj2 Hr' n Hn) as X. unfold dmem in X. destruct (dget (D m') n) as [id|] eqn:Ed; [|discriminate].
      apply H; auto. apply could_ok; [eapply ready_inv; eauto|apply Hr'; auto|auto].
    Qed.
    Lemma r_rget {A B} names s n id (f : resp T -> B) (K : B -> prog T A) Q m : ready names s m -> okobj n id m ->
      (forall m', ready names s m' -> okobj n id m' -> RG (K (f (resp_of m' id))) Q m') -> RG (Act (rget id f) K) Q m.
    Proof.
      intros Hr Ho H. apply r_get. intros m' R. apply H; [eapply ready_rely; eauto|eapply okobj_evol; eauto; apply R].
    Qed.

    Lemma r_sget2 {A B} names s n id (f : sed T -> B) (K : B -> prog T A) Q m : ready names s m -> okobj n id m ->
      (forall m', ready names s m' -> okobj n id m' -> RG (K (f s)) Q m') -> RG (Act (sget no_sed sid f) K) Q m.
    Proof.
      intros Hr Ho H. apply r_get. intros m' R. pose proof (ready_rely _ _ _ _ Hr R) as Hr'. rewrite (ready_sed _ _ _ Hr').
      apply H; [auto|eapply okobj_evol; eauto; apply R].
    Qed.
    (** The two attributes that a projection reads. *)
    Lemma r_reads {A} names s n id (K : option (list T) -> option (interp1 T) -> prog T A) Q m : ready names s m -> okobj n id m ->
      (forall rw ri m', ready names s m' -> oread n rw ri -> RG (K rw ri) Q m') ->
      RG (Act (rget id p_wave) (fun rw => Act (rget id p_interp) (fun ri => K rw ri))) Q m.
    Proof.
      intros Hr Ho H. apply (r_rget names s n); auto. intros m1 H1 O1. pose proof (okobj_reads _ _ _ (ready_inv _ _ _ H1) O1) as [W _].
      apply (r_rget names s n); auto. intros m2 H2 O2. pose proof (okobj_reads _ _ _ (ready_inv _ _ _ H2) O2) as [_ I].
      apply H; auto. split; auto.
    Qed.

    Lemma r_chunks names s n : In n names -> forall starts row m, ready names s m ->
      RG (t_chunks no_sed cub d0 n sid starts row)
         (fun r m' => ready names s m' /\
            (r = foldM (fun row j =>
             let e := Nat.min (j + 1000) (s_nsed s) in
             do v <- project_arr cub (star n) (vec (s_wave s)) (flux_rows (s_flux s) j e);
             do vs <- bto n0 [e - j] v;
             Ok (splice j e (map cst vs) row)) starts row \/ (fresh n = true /\ r = Raise TypeError))) m.
    Proof.
      intro Hn. induction starts as [|j starts IH]; intros row m Hr; cbn [t_chunks foldM].
      { apply r_ret. intros m' R. split; [eapply ready_rely; eauto|left; reflexivity]. }
      apply (r_sget names s); auto. intros m1 H1. apply (r_find names s n); auto. intros id m2 H2 O2.
      apply (r_sget2 names s n id); auto. intros m3 H3 O3. apply (r_sget2 names s n id); auto. intros m4 H4 O4.
      apply (r_reads names s n id); auto. intros rw ri m5 H5 Hrd.
      set (e := Nat.min (j + 1000) (s_nsed s)).
      destruct (arr_part n rw ri (vec (s_wave s)) (flux_rows (s_flux s) j e) Hrd) as [-> |[Hf ->]]; cbn [bind].
      - destruct (project_arr cub (star n) _ _) as [v|x]; cbn [bind].
        + destruct (bto n0 [e - j] v) as [vs|x]; cbn [bind]; [apply IH; auto|].
          apply r_ret. intros m' R. split; [eapply ready_rely; eauto|left; reflexivity].
        + apply r_ret. intros m' R. split; [eapply ready_rely; eauto|left; reflexivity].
      - apply r_ret. intros m' R. split; [eapply ready_rely; eauto|right; auto].
    Qed.
    Lemma r_row names s n m : In n names -> ready names s m ->
      RG (t_row no_sed cub d0 n sid)
         (fun r m' => ready names s m' /\ (r = project_row cub (star n) s \/ (fresh n = true /\ r = Raise TypeError))) m.
    Proof.
      intros Hn Hr. unfold t_row, project_row. apply (r_sget names s); auto. intros m1 H1. destruct (s_flag s).
      - apply (r_find names s n); auto. intros id m2 H2 O2. do 3 (apply (r_sget2 names s n id); [auto|auto|]; clear m2 H2 O2; intros m2 H2 O2).
        apply (r_reads names s n id); auto. intros rw ri m5 H5 Hrd. apply r_ret. intros m' R. split; [eapply ready_rely; eauto|].
        destruct (sed_part n rw ri s Hrd) as [-> |[Hf ->]]; [left; reflexivity|right; auto].
      - apply (r_sget names s); auto. intros m2 H2. apply r_chunks; auto.
    Qed.

    (** The cache that the sequential program uses. *)
    Variable dd : dict (resp T).
    Definition wk (names : list string) : Prop := exists n, In n names /\ fresh n = true.
    Lemma r_bands all s : (forall n, In n all -> dget dd n = Some (star n)) -> forall names m, incl names all -> ready all s m ->
      RG (t_bands no_sed cub d0 names sid)
         (fun r m' => ready all s m' /\ (r = project_bands cub dd names s \/ (wk all /\ r = Raise TypeError))) m.
    Proof.
      intro Hdd. unfold project_bands. induction names as [|n names IH]; intros m Hin Hr; cbn [t_bands mapM].
      { apply r_ret. intros m' R. split; [eapply ready_rely; eauto|left; reflexivity]. }
      assert (Hn : In n all) by (apply Hin; left; auto). rewrite (Hdd n Hn).
      eapply rg_bind with (Q := fun r m' => ready all s m' /\ (r = project_row cub (star n) s \/ (fresh n = true /\ r = Raise TypeError)));
        [apply Rr| | |apply r_row; auto].
      - intros row m1 [H1 [<-|[_ X]]]; [|discriminate]. cbn [bind].
        eapply rg_bind; [apply Rr| | |apply IH; [intros x Hx; apply Hin; right; auto|exact H1]]; cbn beta.
        + intros rows m2 [H2 [<-|[_ X]]]; [|discriminate]. cbn [bind]. apply r_ret. intros m' R. split; [eapply ready_rely; eauto|left; reflexivity].
        + intros e m2 [H2 [<-|X]]; cbn [bind]; split; auto.
      - intros e m1 [H1 [<-|[Hf X]]]; split; auto. right. split; [exists n; auto|congruence].
    Qed.

    (** Stores in one's own spectra. *)
    Lemma r_sput {A} names s u (K : unit -> prog T A) Q m : ready names s m ->
      (forall m', ready names (u s) m' -> RG (K tt) Q m') -> RG (Act (a_sput no_sed sid u) K) Q m.
    Proof.
      intros Hr H m' R. pose proof (ready_rely _ _ _ _ Hr R) as Hr'. clear m Hr R. unfold a_sput. rewrite (ready_sed _ _ _ Hr'). cbn [fst snd].
      set (m2 := set_seds m' (upd sid (u s) (m_seds m'))).
      assert (Hs2 : forall j, nth_error (m_seds m2) j = if Nat.eqb j sid then Some (u s) else nth_error (m_seds m') j).
      { intro j. unfold m2, set_seds. cbn [m_seds]. rewrite nth_error_upd. destruct (Nat.eqb_spec j sid) as [->|]; auto.
        destruct Hr' as ((_ & _ & ->) & _). auto. }
      assert (E : evol m' m2).
      { constructor.
        - intros [I1 I2 I3 I4 I5 I6]. constructor; auto.
        - intros id o Ho. exists o. split; auto. split; auto. split; auto. split; auto. apply toward_refl.
        - intros n id Hd. exists id. auto.
        - intros n id Hd. left. exact Hd. }
      split.
      - split; [exact E|]. split.
        + intros id o Hl Ho. assert (nth_error (m_objs m') id <> None) by (change (m_objs m') with (m_objs m2); congruence).
          apply nth_error_Some in H0. lia.
        + intros j Hj. rewrite Hs2. destruct (Nat.eqb_spec j sid) as [->|]; [congruence|auto].
      - apply H. destruct Hr' as ((H1 & H2 & H3) & H4). split; [|exact H4]. split; [|split].
        + split; [apply (e_inv _ _ E), H1|exact (proj2 H1)].
        + intros n Hn. apply (could_evol m'); [apply H1|exact E|auto].
        + rewrite Hs2, Nat.eqb_refl. reflexivity.
    Qed.
    Lemma r_redshift names s z m : ready names s m ->
      RG (t_redshift no_sed sid z) (fun r m' => ready names (fst (set_redshift s z)) m' /\ r = outcome (snd (set_redshift s z))) m.
    Proof.
      intro Hr. unfold t_redshift.
      apply (r_sget names s); [auto|]. clear m Hr. intros m Hr. eapply r_sput; [exact Hr|]. clear m Hr. intros m Hr.
      eapply r_sget; [exact Hr|]. clear m Hr. intros m Hr. eapply r_sput; [exact Hr|]. clear m Hr. intros m Hr.
      eapply r_sput; [exact Hr|]. clear m Hr. intros m Hr. eapply r_sget; [exact Hr|]. clear m Hr. intros m Hr.
      unfold set_redshift. unfold put_sz, put_sflux, put_swave in *. cbn [s_flag s_rwave s_rflux s_wave s_flux s_z s_interp s_bin] in *.
      destruct (s_flag s) eqn:Ef.
      - eapply r_sget; [exact Hr|]. clear m Hr. intros m Hr. eapply r_sget; [exact Hr|]. clear m Hr. intros m Hr.
        unfold set_interp. cbn [s_wave s_flux s_flag s_rwave s_rflux s_z s_interp s_bin] in *.
        destruct (mk_cubic _ _) as [it|e].
        + eapply r_sput; [exact Hr|]. clear m Hr. intros m Hr. eapply r_sput; [exact Hr|]. clear m Hr. intros m Hr.
          apply r_ret. intros m' R. pose proof (ready_rely _ _ _ _ Hr R) as Hr'. unfold put_sinterp, put_sflag in Hr'.
          cbn in Hr' |- *. split; [exact Hr'|reflexivity].
        + apply r_ret. intros m' R. pose proof (ready_rely _ _ _ _ Hr R) as Hr'. cbn in Hr' |- *. split; [|reflexivity]. exact Hr'.
      - apply r_ret. intros m' R. pose proof (ready_rely _ _ _ _ Hr R) as Hr'. cbn in Hr' |- *. split; [exact Hr'|reflexivity].
    Qed.

    Definition some_sed (names : list string) (m : mem) : Prop := exists s, ready names s m.
    Lemma r_loop names : (forall n, In n names -> dget dd n = Some (star n)) -> forall zs s m, ready names s m ->
      RG (t_loop no_sed cub d0 names zs sid)
         (fun r m' => (ready names (fst (z_loop cub dd names zs s)) m' /\ r = snd (z_loop cub dd names zs s)) \/
                      (some_sed names m' /\ wk names /\ r = Raise TypeError)) m.
    Proof.
      intro Hdd. induction zs as [|z zs IH]; intros s m Hr; cbn [t_loop z_loop].
      { apply r_ret. intros m' R. left. cbn [fst snd]. split; [eapply ready_rely; eauto|reflexivity]. }
      eapply rg_bind; [apply Rr| | |apply r_redshift; exact Hr]; cbn beta.
      2:{ intros e m1 [H1 H2]. left. destruct (set_redshift s z) as [s1 [e1|]]; cbn [fst snd outcome] in *; [|discriminate].
          split; [auto|congruence]. }
      intros u m1 [H1 H2]. destruct (set_redshift s z) as [s1 [e1|]]; cbn [fst snd outcome] in *; [discriminate|].
      eapply rg_bind; [apply Rr| | |apply (r_bands names s1 Hdd names); [apply incl_refl|exact H1]]; cbn beta.
      2:{ intros e m2 [Hm2 [H3|[Hw H3]]].
          - left. rewrite <- H3. cbn [fst snd]. split; [auto|reflexivity].
          - right. split; [exists s1; auto|]. split; [auto|congruence]. }
      intros rows m2 [Hm2 [H3|[Hw H3]]]; [|discriminate]. rewrite <- H3.
      eapply rg_bind; [apply Rr| | |apply (IH s1 m2 Hm2)]; cbn beta; destruct (z_loop cub dd names zs s1) as [s2 t]; cbn [fst snd].
      - intros tab m3 [[H4 H5]|(_ & _ & H5)]; [|discriminate]. apply r_ret. intros m' R. left. split; [eapply ready_rely; eauto|].
        rewrite <- H5. reflexivity.
      - intros e m3 [[H4 H5]|(H4 & H5 & H6)].
        + left. split; auto. rewrite <- H5. reflexivity.
        + right. split; [auto|split; [auto|congruence]].
    Qed.

    Definition lasts (names : list string) (s : sed T) (have : list string) (m : mem) : Prop :=
      (forall n, In n names -> could n m) /\ nth_error (m_seds m) sid = Some s /\ forall n, In n have -> dmem (D m) n = true.
    Lemma lasts_steady names s have : steady (lasts names s have).
    Proof.
      intros m m' Hi (H1 & H2 & H3) H. assert (E : evol m m') by (destruct H as [H|H]; apply H). split; [|split].
      - intros n Hn. apply (could_evol m); auto.
      - destruct H as [R|[_ S]]; [rewrite <- H2; apply R, Own|rewrite S; auto].
      - intros n Hn. apply (bound_evol m); auto.
    Qed.
    Lemma r_load_all all s : forall names have m, incl names all -> good m -> lasts all s have m ->
      RG (t_load_all cub bq sun vega fs d0 names)
         (fun r m' => r = Ok tt /\ good m' /\ lasts all s (names ++ have) m') m.
    Proof.
      induction names as [|n names IH]; intros have m Hin Hg Hl; cbn [t_load_all].
      { apply r_ret. intros m' R. split; [reflexivity|]. split; [eapply good_later; eauto|]. apply (lasts_steady all s have m m'); auto. apply Hg. }
      eapply rg_bind; [apply Rr| | |apply (r_load n false (lasts all s have)); [auto|auto|apply lasts_steady|auto]]; cbn beta.
      - intros u m1 (H1 & (C & Sd & B) & H3 & _). eapply rg_post; [|apply (IH (n :: have)); [intros x Hx; apply Hin; right; auto|auto|]].
        + cbn beta. intros r m2 (H4 & H5 & (C2 & Sd2 & B2)). split; auto. split; auto. split; auto. split; auto.
          intros x Hx. apply B2. apply in_or_app. cbn [app In] in Hx. destruct Hx as [->|Hx]; [right; left; auto|].
          apply in_app_or in Hx as [|]; [left; auto|right; right; auto].
        + split; auto. split; auto. intros x [->|Hx]; auto.
      - intros e m1 (H1 & (C & Sd & B) & H3 & [[_ X]|[X Hk]]); [discriminate|]. exfalso.
        destruct (C n (Hin n (or_introl eq_refl))) as [(id & Hd & Hb & _)|(_ & _ & Hs & _)].
        + specialize (Hk id Hd). lia.
        + rewrite Hs in X. discriminate.
    Qed.

    Lemma r_dict m : good m -> RG (@t_dict T) (fun r m' => r = Ok d0 /\ good m' /\ rely i m m') m.
    Proof.
      intro Hg. unfold t_dict. apply r_get. intros m1 R1. pose proof (good_later _ _ Hg R1) as G1.
      rewrite (i_inst _ (proj1 G1)). apply r_get. intros m2 R2. pose proof (good_later _ _ G1 R2) as G2. rewrite (i_inst _ (proj1 G2)).
      apply r_ret. intros m3 R3. split; auto. split; [eapply good_later; eauto|]. eapply Rt; [|exact R3]. eapply Rt; eauto.
    Qed.

    (** fitter.py:80-113 *)
    Definition rest (names : list string) (zs : list T) (s : sed T) : sed T * res (atab T) :=
      match z_loop cub dd names zs s with
      | (s1, Raise e) => (s1, Raise e)
      | (s1, Ok tab) =>
        match mk_linear zs (mk [length zs; length names; s_nsed s] (concat tab)) with
        | Raise e => (s1, Raise e)
        | Ok A => match set_redshift s1 n0 with
                  | (s2, None) => (s2, Ok A)
                  | (s2, Some e) => (s2, Raise e)
                  end
        end
      end.
    Lemma r_calc names zs s m : (forall n, In n names -> dget dd n = Some (star n)) -> able names s m ->
      RG (t_calc no_sed cub bq sun vega fs names zs sid)
         (fun r m' => (ready names (fst (rest names zs s)) m' /\ r = snd (rest names zs s)) \/
                      (some_sed names m' /\ wk names /\ r = Raise TypeError)) m.
    Proof.
      intros Hdd (Hg & Hc & Hs). unfold t_calc.
      eapply rg_bind; [apply Rr| | |apply r_dict; exact Hg]; cbn beta; [|intros e m1 [X _]; discriminate].
      intros d m1 (X & G1 & R1). injection X as ->.
      assert (L1 : lasts names s [] m1).
      { apply (lasts_steady names s [] m); [apply Hg| |auto]. split; [auto|split; [auto|intros n []]]. }
      eapply rg_bind; [apply Rr| | |apply (r_load_all names s names []); [apply incl_refl|auto|auto]]; cbn beta;
        [|intros e m2 [X _]; discriminate].
      intros u m2 (_ & G2 & (C2 & S2 & B2)).
      assert (H2 : ready names s m2).
      { split; [split; [auto|split; auto]|]. intros n Hn. apply B2. apply in_or_app; auto. }
      clear m Hg Hc Hs m1 G1 R1 L1 G2 C2 S2 B2. apply (r_sget names s); auto. clear m2 H2. intros m H. unfold rest.
      eapply rg_bind; [apply Rr| | |apply (r_loop names Hdd zs s m H)]; cbn beta; destruct (z_loop cub dd names zs s) as [s1 t]; cbn [fst snd].
      2:{ intros e m1 [[H1 <-]|(H1 & H2 & H3)]; [left; split; auto|right; split; [auto|split; [auto|congruence]]]. }
      intros tab m1 [[H1 <-]|(_ & _ & H3)]; [|discriminate].
      destruct (mk_linear zs _) as [A|e].
      2:{ apply r_ret. intros m' R. left. split; [eapply ready_rely; eauto|reflexivity]. }
      eapply rg_bind; [apply Rr| | |apply r_redshift; exact H1]; cbn beta; destruct (set_redshift s1 n0) as [s2 [e|]]; cbn [fst snd outcome].
      - intros a m2 [_ X]. discriminate.
      - intros a m2 [H2 _]. apply r_ret. intros m' R. left. split; [eapply ready_rely; eauto|reflexivity].
      - intros e' m2 [H2 X]. left. split; auto. congruence.
      - intros e' m2 [_ X]. discriminate.
    Qed.
    End Build.
  End Thread.
End Inv.
