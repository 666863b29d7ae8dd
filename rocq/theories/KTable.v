(** Lemmas about the construction of a Kcorrect object. *)
From Coq Require Import String List Arith Lia Bool ZArith QArith.
From Verif Require Import Base BaseLemmas Num Interp Utils Sed Response RespDict Fitter FitSpec FitterProofs FitTable
  Kcorrect KSpec.
Import ListNotations.
Local Open Scope nat_scope.

Lemma index_of_spec l x i : index_of l x = Some i ->
  nth_error l i = Some x /\ forall i', i' < i -> nth_error l i' <> Some x.
Proof.
  revert i; induction l as [|a l IH]; intros i H; cbn in H; [discriminate|].
  destruct (String.eqb a x) eqn:E.
  - injection H as <-. apply String.eqb_eq in E. subst. split; auto. intros; lia.
  - destruct (index_of l x) as [k|]; [|discriminate]. injection H as <-. destruct (IH k eq_refl) as [H1 H2].
    split; auto. intros [|i'] Hi; cbn.
    + intro E'. injection E' as ->. rewrite String.eqb_refl in E. discriminate.
    + apply H2. lia.
Qed.
Lemma index_of_none l x : index_of l x = None <-> ~ In x l.
Proof.
  induction l as [|a l IH]; cbn; [tauto|]. destruct (String.eqb a x) eqn:E.
  - apply String.eqb_eq in E. split; [discriminate|tauto].
  - apply String.eqb_neq in E. destruct (index_of l x); cbn; split; intros; try discriminate; try tauto.
    exfalso. assert (X : ~ In x l) by tauto. apply IH in X. discriminate.
Qed.
Lemma make_imap_ok l m im : make_imap l m = Ok im -> length im = length m /\
  forall j x, nth_error m j = Some x -> exists i, nth_error im j = Some i /\ index_of l x = Some i.
Proof.
  unfold make_imap. intro H. split; [eapply mapM_ok_length; eauto|]. intros j x Hj.
  destruct (mapM_ok_nth _ _ H _ Hj) as (i & Hi & E). exists i. split; auto.
  destruct (index_of l x); [injection E as ->; auto|discriminate].
Qed.
Lemma make_imap_bad l m x : In x m -> ~ In x l -> make_imap l m = Raise ValueError.
Proof.
  intros Hx Hn. apply index_of_none in Hn. unfold make_imap. induction m as [|a m IH]; [easy|].
  cbn [mapM]. destruct Hx as [<-|Hx].
  - rewrite Hn. auto.
  - rewrite IH by auto. destruct (index_of l a); auto.
Qed.
Lemma make_imap_good l m : (forall x, In x m -> In x l) -> exists im, make_imap l m = Ok im.
Proof.
  unfold make_imap. induction m as [|a m IH]; intro H; [exists []; auto|].
  cbn [mapM]. destruct (index_of l a) as [i|] eqn:E.
  - destruct IH as [im ->]; [intros; apply H; cbn; auto|]. exists (i :: im). auto.
  - apply index_of_none in E. exfalso. apply E, H. cbn; auto.
Qed.
Lemma make_imap_lt l m im : make_imap l m = Ok im -> Forall (fun i => i < length l) im.
Proof.
  intro H. destruct (make_imap_ok _ _ _ H) as [L Hj]. apply Forall_forall. intros i Hi.
  apply In_nth_error in Hi as [j Hi]. assert (Hlt : j < length m) by (rewrite <- L; apply nth_error_Some; congruence).
  destruct (nth_error_lt m Hlt) as [x Hx]. destruct (Hj j x Hx) as (i' & Hi' & E).
  rewrite Hi in Hi'. injection Hi' as <-. apply index_of_spec in E as [E _]. apply nth_error_Some. congruence.
Qed.
Lemma make_imap_self l im : NoDup l -> make_imap l l = Ok im -> im = seq 0 (length l).
Proof.
  intros Hd H. destruct (make_imap_ok _ _ _ H) as [L Hj]. apply nth_error_ext. intro j.
  rewrite nth_error_seq. destruct (Nat.ltb_spec j (length l)) as [Hlt|Hge].
  - destruct (nth_error_lt l Hlt) as [x Hx]. destruct (Hj j x Hx) as (i & -> & E).
    apply index_of_spec in E as [E _]. f_equal. rewrite NoDup_nth_error in Hd.
    cbn [Nat.add]. apply Hd; [apply nth_error_Some|]; congruence.
  - apply nth_error_None. lia.
Qed.
Lemma names_eqb_eq a b : names_eqb a b = true <-> a = b.
Proof.
  revert b; induction a as [|x a IH]; intros [|y b]; cbn; try (split; congruence).
  rewrite andb_true_iff, String.eqb_eq, IH. split; [intros [-> ->]; auto|intro H; injection H; auto].
Qed.

Section T.
  Context {T : Type} {N : Num T}.
  Variable cub : list T -> list T -> T -> T.
  Variable bq : (T -> T) -> T -> T -> res T.
  Variable sun vega : res (list T * list (basel_unit T)).

  (** What a successful _calc_Amatrix returns, and that it does not change the number of templates. *)
  Lemma calc_A_ok fs names zs d s d' s' A w rows :
    s_rflux s = table w rows -> in_order zs -> 2 <= length zs ->
    calc_A cub bq sun vega fs names zs d s = (d', s', Ok A) ->
    tab_ok A (length names) (length rows) /\ a_x A = zs /\ s_rflux s' = s_rflux s.
  Proof.
    intros Hf Ho H2 H. unfold calc_A in H.
    destruct (load_all cub bq sun vega fs names d) as [d1 [e|]]; [discriminate|].
    destruct (z_loop cub d1 names zs s) as [s1 [tab|e]] eqn:EZ; [|discriminate].
    pose proof (z_loop_spec _ _ _ _ _ _ _ EZ) as (Lt & R1 & R2 & R3 & R4 & Hk).
    assert (Hns : s_nsed s = length rows) by (unfold s_nsed; rewrite Hf; reflexivity).
    assert (HR : rect (length names * length rows) tab).
    { unfold rect. apply Forall_forall. intros x Hx. apply (In_nth _ _ []) in Hx as (k & Hlt & <-).
      destruct (Hk k ltac:(lia)) as (sk & rw & Hz & Hp & ->).
      apply project_bands_rect in Hp as (L & Rk & _).
      assert (s_nsed sk = length rows). { destruct Hz as (_ & E & _). unfold s_nsed in *. rewrite E. auto. }
      rewrite (length_table (w := length rows)) by congruence. congruence. }
    rewrite Hns, mk_linear_in_order in H; auto; [|intro X; rewrite X in H2; cbn in H2; lia].
    destruct (set_redshift s1 n0) as [s2 [e|]] eqn:ES; [discriminate|]. injection H as <- <- <-.
    apply set_redshift_at_z in ES as (_ & E & _). repeat split; cbn; auto. congruence.
  Qed.
End T.
