(** Several threads that load responses and build design matrices (Threads.v). *)
From Coq Require Import String List Arith Lia Bool.
From Verif Require Import Base BaseLemmas Num Interp Utils Sed Response RespDict RespDictThms Fitter Threads ThreadsSeq ThreadsPar ThreadsInv.
Import ListNotations.
Local Open Scope nat_scope.

Section Par.
  Context {T : Type} {N : Num T}.
  Variable no_sed : sed T.
  Variable cub : list T -> list T -> T -> T.
  Variable bq : (T -> T) -> T -> T -> res T.
  Variable sun vega : res (list T * list (basel_unit T)).
  Variable fs : @fsys T.
  Notation t_job := (t_job no_sed cub bq sun vega fs).
  Notation loaded := (loaded cub bq sun vega fs).

  (** A program run by itself. *)
  Lemma run_solo {A} (p : prog T A) : forall m, exists k, run (repeat 0 k) m [p] = (fst (solo 0 p m), [Ret (snd (solo 0 p m))]).
  Proof.
    induction p as [a|B f k IH]; intro m; [exists 0; reflexivity|].
    destruct (IH (snd (f 0 m)) (fst (f 0 m))) as [j Hj]. exists (S j). cbn [repeat]. unfold run. cbn [fold_left].
    unfold step at 1. cbn [nth_error snd fst step1 upd]. exact Hj.
  Qed.
  Lemma run_app {A} s1 s2 (m : mem T) (ps : list (prog T A)) : run (s1 ++ s2) m ps = run s2 (fst (run s1 m ps)) (snd (run s1 m ps)).
  Proof. unfold run. rewrite fold_left_app. destruct (fold_left step s1 (m, ps)); reflexivity. Qed.
  Lemma run_one {A} i (p : prog T A) : forall m ps, nth_error ps i = Some p -> exists k m' a, run (repeat i k) m ps = (m', upd i (Ret a) ps).
  Proof.
    induction p as [a|B f k IH]; intros m ps Hp.
    - exists 0, m, a. assert (E : upd i (Ret a) ps = ps); [|rewrite E; reflexivity].
      apply nth_error_ext. intro j. rewrite nth_error_upd. destruct (Nat.eqb_spec j i) as [->|]; auto. rewrite Hp. auto.
    - destruct (IH (snd (f i m)) (fst (f i m)) (upd i (k (snd (f i m))) ps)) as (j & m' & a & Hj).
      { rewrite nth_error_upd, Nat.eqb_refl, Hp. reflexivity. }
      exists (S j), m', a. cbn [repeat]. assert (E : step (m, ps) i = (fst (f i m), upd i (k (snd (f i m))) ps)).
      { unfold step. cbn [fst snd]. rewrite Hp. reflexivity. }
      unfold run in *. cbn [fold_left]. rewrite E, Hj, upd_upd. reflexivity.
  Qed.
  Lemma run_all {A} (ps : list (prog T A)) m : exists sched, all_done (snd (run sched m ps)).
  Proof.
    assert (H : forall k, k <= length ps -> exists sched, forall i p, i < k -> nth_error (snd (run sched m ps)) i = Some p -> exists a, p = Ret a).
    { induction k as [|k IH]; intro Hk; [exists []; intros; lia|]. destruct IH as [sched IH]; [lia|].
      destruct (nth_error (snd (run sched m ps)) k) as [p|] eqn:Ep.
      - destruct (run_one k p (fst (run sched m ps)) _ Ep) as (j & m' & a & Hj). exists (sched ++ repeat k j). intros i q Hi.
        rewrite run_app, Hj. cbn [snd]. rewrite nth_error_upd. destruct (Nat.eqb_spec i k) as [->|].
        + rewrite Ep. intro X. injection X as <-. exists a; reflexivity.
        + intro X. apply (IH i q); auto. lia.
      - exists sched. intros i q Hi Hq. destruct (Nat.eq_dec i k) as [->|]; [congruence|]. apply (IH i q); auto. lia. }
    destruct (H (length ps) (le_n _)) as [sched Hs]. exists sched. apply Forall_forall. intros p Hp.
    apply In_nth_error in Hp as [i Hi]. apply (Hs i p); auto. rewrite <- (run_length sched m ps). apply nth_error_Some. congruence.
  Qed.

  (** The start. *)
  Lemma dget_in {A} (d : dict A) n v : dget d n = Some v -> In v (map snd d).
  Proof. induction d as [|[a b] d IH]; cbn; [discriminate|]. destruct (String.eqb a n); [intro X; injection X as ->; auto|auto]. Qed.
  Notation inv d base := (inv cub bq sun vega fs d base).
  Lemma start_inv m d : sane m d -> inv d (length (m_objs m)) m.
  Proof.
    intros (H1 & H2 & H3). rewrite Forall_forall in H3. constructor; auto.
    - intros n id H. apply H3. eapply dget_in; eauto.
    - intros n id o H Hb. specialize (H3 id (dget_in _ _ _ H)). lia.
    - intros id o Hb Ho. assert (nth_error (m_objs m) id <> None) by congruence. apply nth_error_Some in H. lia.
  Qed.
  Lemma start_good m d i : sane m d -> good cub bq sun vega fs d (length (m_objs m)) i m.
  Proof.
    intro H. pose proof (start_inv m d H) as Hi. split; auto. intros n id o Hd Ho Hb. pose proof (i_id _ _ _ _ _ _ _ _ Hi n id Hd). lia.
  Qed.

  (** Entries at the end. *)
  Section End.
    Variables (d : nat) (m0 : mem T) (rl : bool) (own : nat -> option nat).
    Hypothesis Hsane : sane m0 d.
    Let base := length (m_objs m0).
    Notation rely i := (rely cub bq sun vega fs d base rl own i).
    Notation guar i := (guar cub bq sun vega fs d base rl own i).
    Notation evol := (evol cub bq sun vega fs d base rl).
    Hypothesis Hown : forall i j sid, own i = Some sid -> own j = Some sid -> i = j.
    Lemma GR i j m m' : i <> j -> guar i m m' -> rely j m m'.
    Proof. intros H. apply guar_rely; auto. intros sid. apply Hown. Qed.

    Lemma end_entries {A} (Q : nat -> A -> mem T -> Prop) sched (ps : list (prog T A)) :
      (forall i p, nth_error ps i = Some p -> rg i (rely i) (guar i) p (Q i) m0) ->
      (forall i a m, Q i a m -> mine cub bq sun vega fs d base i m) ->
      all_done (snd (run sched m0 ps)) ->
      forall n r, dget (view (fst (run sched m0 ps)) d) n = Some r -> (dget (view m0 d) n = Some r /\ exists k, dget (dict_of (fst (run sched m0 ps)) d) n = Some k /\ k < base) \/ r = fst (loaded n).
    Proof.
      intros Hrg HQ Hfin n r Hr.
      set (E := fun m m' : mem T => evol m m' /\ forall id o, length (m_objs m) <= id -> nth_error (m_objs m') id = Some o -> o_by o < length ps).
      assert (HE : E m0 (fst (run sched m0 ps))).
      { apply (par_memory (fun i => rely i) (fun i => guar i) Q E) with (1 := fun i => rely_refl _ _ _ _ _ _ _ _ _ i)
          (2 := fun i => rely_trans _ _ _ _ _ _ _ _ _ i); auto.
        - intros; eapply GR; eauto.
        - intro m. split; [apply evol_refl|]. intros id o Hl Ho. assert (nth_error (m_objs m) id <> None) by congruence. apply nth_error_Some in H. lia.
        - intros a b c [E1 B1] [E2 B2]. split; [eapply evol_trans; eauto|]. intros id o Hl Ho.
          destruct (Nat.lt_ge_cases id (length (m_objs b))) as [Hb|Hb]; [|eapply B2; eauto].
          destruct (nth_error (m_objs b) id) as [ob|] eqn:Eb; [|apply nth_error_None in Eb; lia].
          destruct (e_obj _ _ _ _ _ _ _ _ _ _ E2 id ob Eb) as (o2 & Ho2 & _ & Hby & _). rewrite Ho2 in Ho. injection Ho as <-.
          rewrite Hby. eapply B1; eauto.
        - intros i m m' Hi (E1 & B1 & _). split; auto. intros id o Hl Ho. rewrite (B1 id o Hl Ho). auto. }
      destruct HE as [Ev Hby]. pose proof (e_inv _ _ _ _ _ _ _ _ _ _ Ev (start_inv _ _ Hsane)) as Hi.
      rewrite dget_view in Hr. destruct (dget (dict_of (fst (run sched m0 ps)) d) n) as [id|] eqn:Ed; [|discriminate].
      injection Hr as <-. pose proof (i_id _ _ _ _ _ _ _ _ Hi n id Ed) as Hl.
      destruct (nth_error (m_objs (fst (run sched m0 ps))) id) as [o|] eqn:Eo; [|apply nth_error_None in Eo; lia].
      assert (Er : resp_of (fst (run sched m0 ps)) id = o_resp o) by (unfold resp_of; rewrite (nth_error_nth _ _ _ Eo); reflexivity).
      rewrite Er. destruct (Nat.lt_ge_cases id base) as [Hb|Hb].
      - left. destruct (e_new _ _ _ _ _ _ _ _ _ _ Ev n id Ed) as [Hd|[X _]]; [|unfold base in Hb; lia].
        split; [|exists id; auto]. rewrite dget_view, Hd. cbn [option_map]. f_equal.
        destruct (nth_error (m_objs m0) id) as [o0|] eqn:E0; [|apply nth_error_None in E0; unfold base in Hb; lia].
        destruct (e_obj _ _ _ _ _ _ _ _ _ _ Ev id o0 E0) as (o' & Ho' & _ & _ & _ & Hs). rewrite Eo in Ho'. injection Ho' as <-.
        rewrite (Hs Hb). unfold resp_of. rewrite (nth_error_nth _ _ _ E0). reflexivity.
      - right. pose proof (Hby id o Hb Eo) as Hlt. set (j := o_by o) in *.
        destruct (nth_error (snd (run sched m0 ps)) j) as [p|] eqn:Ep; [|apply nth_error_None in Ep; rewrite run_length in Ep; lia].
        unfold all_done in Hfin. rewrite Forall_forall in Hfin. destruct (Hfin p (nth_error_In _ _ Ep)) as [a ->].
        pose proof (par_sound (fun i => rely i) (fun i => guar i) Q (fun i => rely_refl _ _ _ _ _ _ _ _ _ i)
          (fun i => rely_trans _ _ _ _ _ _ _ _ _ i) (fun i j m m' H => GR i j m m' H) sched m0 ps Hrg j _ Ep) as X.
        apply rg_done in X; [|apply rely_refl]. apply (HQ j a _ X n id o Ed Eo Hb). reflexivity.
    Qed.
  End End.

  (** What each job guarantees. *)
  Lemma r_jload d base rl own i n b (m : mem T) : good cub bq sun vega fs d base i m -> (rl = false -> b = false) ->
    rg i (rely cub bq sun vega fs d base rl own i) (guar cub bq sun vega fs d base rl own i) (t_job (JLoad n b))
      (fun r m' => good cub bq sun vega fs d base i m' /\ dmem (dict_of m' d) n = true /\
         ((b = false /\ r = Ok None) \/
          (r = match snd (loaded n) with None => Ok None | Some e => Raise e end /\ forall k, dget (dict_of m' d) n = Some k -> base <= k))) m.
  Proof.
    intros Hg Hb. cbn [Threads.t_job].
    eapply rg_bind; [apply rely_refl| | |eapply r_dict; exact Hg]; cbn beta; [|intros e m1 [X _]; discriminate].
    intros d' m1 (X & G1 & _). injection X as ->.
    eapply rg_bind; [apply rely_refl| | |apply r_load with (J := fun _ => True); [auto|auto|intros ? ?; auto|auto]]; cbn beta.
    - intros u m2 (G2 & _ & D2 & H2). intros m3 R3. split; [eapply good_later; eauto|]. split; [eapply bound_evol; [apply R3|auto]|].
      destruct H2 as [[H _]|[H1 H2]]; [left; auto|right]. destruct (snd (loaded n)); [discriminate|]. split; auto.
      eapply uncached_evol; [apply G2|apply R3|auto].
    - intros e m2 (G2 & _ & D2 & [[_ X]|[H1 H2]]); [discriminate|]. split; auto. split; auto. right. split; auto.
      destruct (snd (loaded n)); [|discriminate]. cbn [outcome] in H1. congruence.
  Qed.

  (** The cache after fitter.py:84-85 when all the files can be loaded. *)
  Lemma load_all_star names : forall c : dict (resp T), (forall n, In n names -> dmem c n = true \/ snd (loaded n) = None) ->
    exists c', load_all cub bq sun vega fs names c = (c', None) /\
      (forall n r, dget c n = Some r -> dget c' n = Some r) /\
      forall n, In n names -> dget c' n = Some (match dget c n with Some r => r | None => fst (loaded n) end).
  Proof.
    induction names as [|n names IH]; intros c Hc; [exists c; cbn; repeat split; auto; intros ? []|].
    cbn [load_all]. unfold load_response. cbn [negb]. rewrite andb_true_r.
    destruct (dmem c n) eqn:Em.
    - destruct (IH c) as (c' & E & K & G); [intros x Hx; apply Hc; right; auto|]. exists c'. rewrite E. split; auto. split; auto.
      intros x [->|Hx]; [|auto]. unfold dmem in Em. destruct (dget c x) as [r|] eqn:Ed; [|discriminate]. apply K; auto.
    - destruct (Hc n (or_introl eq_refl)) as [X|X]; [congruence|]. unfold ThreadsInv.loaded in *.
      destruct (fromdat cub bq sun vega blank (fs (n ++ ".dat")%string)) as [r e] eqn:Er. cbn [snd] in X. subst e.
      assert (En : dget c n = None) by (unfold dmem in Em; destruct (dget c n); [discriminate|auto]).
      destruct (IH (dset c n r)) as (c' & E & K & G).
      { intros x Hx. destruct (Hc x (or_intror Hx)) as [H|H]; [left|right; auto]. unfold dmem in *. rewrite dget_dset. destruct (String.eqb n x); auto. }
      exists c'. rewrite E. split; auto. split.
      + intros x rx Hx. apply K. rewrite dget_dset. destruct (String.eqb_spec n x) as [->|]; [congruence|auto].
      + intros x Hx. destruct (string_dec n x) as [<-|Hne].
        * rewrite En, Er. apply K. rewrite dget_dset, String.eqb_refl. auto.
        * destruct Hx as [|Hx]; [contradiction|]. rewrite (G x Hx), dget_dset. destruct (String.eqb_spec n x); [contradiction|auto].
  Qed.
  Lemma calc_rest names zs c s c' : load_all cub bq sun vega fs names c = (c', None) ->
    calc_A cub bq sun vega fs names zs c s = (c', fst (rest cub c' names zs s), snd (rest cub c' names zs s)).
  Proof.
    intro H. unfold calc_A, rest. rewrite H. destruct (z_loop cub c' names zs s) as [s1 [tab|e]]; [|reflexivity].
    destruct (mk_linear zs _); [|reflexivity]. destruct (set_redshift s1 n0) as [s2 [e|]]; reflexivity.
  Qed.

  Section Jobs.
    Variables (d : nat) (m0 : mem T) (jobs : list (job T)).
    Hypothesis Hsane : sane m0 d.
    Hypothesis Htame : tame jobs m0.
    Hypothesis Hload : forall i names zs sid n, nth_error jobs i = Some (JBuild names zs sid) -> In n names ->
      dmem (view m0 d) n = true \/ snd (loaded n) = None.
    Let base := length (m_objs m0).
    Definition own_of (i : nat) : option nat := match nth_error jobs i with Some (JBuild _ _ sid) => Some sid | _ => None end.
    Lemma own_inj i j sid : own_of i = Some sid -> own_of j = Some sid -> i = j.
    Proof.
      unfold own_of. destruct Htame as (_ & _ & H). destruct (nth_error jobs i) as [[|]|] eqn:E1; try discriminate.
      destruct (nth_error jobs j) as [[|]|] eqn:E2; try discriminate. intros A B. injection A as ->. injection B as ->. eapply H; eauto.
    Qed.
    Notation G := (good cub bq sun vega fs d base).
    (** The postcondition of thread [i]. *)
    Definition post (i : nat) (r : res (option (atab T))) (m : mem T) : Prop :=
      G i m /\
      match nth_error jobs i with
      | Some (JLoad n b) => dmem (dict_of m d) n = true /\
         ((b = false /\ r = Ok None) \/
          (r = match snd (loaded n) with None => Ok None | Some e => Raise e end /\ forall k, dget (dict_of m d) n = Some k -> base <= k))
      | Some (JBuild names zs sid) =>
         let q := calc_A cub bq sun vega fs names zs (view m0 d) (sed_of no_sed m0 sid) in
         (r = rmap Some (snd q) /\ nth_error (m_seds m) sid = Some (snd (fst q))) \/
         ((exists n, In n names /\ dmem (view m0 d) n = false) /\ r = Raise TypeError)
      | None => False
      end.
    Lemma r_jobs i p : nth_error (map t_job jobs) i = Some p ->
      rg i (rely cub bq sun vega fs d base false own_of i) (guar cub bq sun vega fs d base false own_of i) p (post i) m0.
    Proof.
      rewrite nth_error_map. destruct (nth_error jobs i) as [j|] eqn:Ej; [|discriminate]. cbn [option_map]. intro X. injection X as <-.
      unfold post. rewrite Ej. destruct j as [n b|names zs sid].
      - apply r_jload; [apply start_good; auto|]. intros _. destruct b; auto. exfalso. apply (proj1 Htame i n). auto.
      - assert (Hsid : sid < length (m_seds m0)) by (eapply (proj1 (proj2 Htame)); eauto).
        destruct (load_all_star names (view m0 d)) as (c' & Ec & _ & Hc'); [intros n Hn; eapply Hload; eauto|].
        rewrite (calc_rest names zs (view m0 d) (sed_of no_sed m0 sid) c' Ec). cbv zeta. cbn [fst snd Threads.t_job].
        set (star := fun n => match dget (view m0 d) n with Some r => r | None => fst (loaded n) end).
        set (fresh := fun n => negb (dmem (view m0 d) n)).
        assert (Hown : own_of i = Some sid) by (unfold own_of; rewrite Ej; auto).
        assert (Hable : able cub bq sun vega fs d base i sid star fresh names (sed_of no_sed m0 sid) m0).
        { split; [apply start_good; auto|]. split.
          - intros n Hn. unfold could. pose proof (dget_view m0 d n) as Ev. destruct (dget (dict_of m0 d) n) as [id|] eqn:Ed; cbn [option_map] in Ev.
            + left. exists id. destruct Hsane as (_ & _ & Hf). rewrite Forall_forall in Hf. pose proof (Hf id (dget_in _ _ _ Ed)) as Hl.
              split; auto. split; auto. destruct (nth_error (m_objs m0) id) as [o|] eqn:Eo; [|apply nth_error_None in Eo; lia].
              exists o. split; auto. left. split; auto. unfold star. rewrite Ev. unfold resp_of. rewrite (nth_error_nth _ _ _ Eo). reflexivity.
            + right. assert (Em : dmem (view m0 d) n = false) by (unfold dmem; rewrite Ev; auto). unfold fresh, star. rewrite Em, Ev.
              split; auto. split; auto. split; [|intros k X; discriminate]. destruct (Hload i names zs sid n Ej Hn) as [X|X]; [congruence|auto].
          - unfold sed_of. apply nth_error_nth'. auto. }
        eapply rg_bind; [apply rely_refl| | |apply (r_calc no_sed) with (sid := sid) (star := star) (fresh := fresh) (dd := c') (s := sed_of no_sed m0 sid); [exact Hown|reflexivity|intros n Hn; apply (Hc' n Hn)|exact Hable]];
          cbn beta.
        + intros A m1 [[H1 H2]|(_ & _ & X)]; [|discriminate]. intros m2 R2. pose proof (ready_rely _ _ _ _ _ _ _ _ _ _ _ Hown eq_refl _ _ _ _ _ _ H1 R2) as H3.
          split; [apply H3|]. left. rewrite <- H2. split; [reflexivity|]. apply H3.
        + intros e m1 [[H1 H2]|((s & H1) & (n & Hn & Hf) & X)].
          * split; [apply H1|]. left. rewrite <- H2. split; [reflexivity|]. apply H1.
          * split; [apply H1|]. right. split; [|congruence]. exists n. split; auto. unfold fresh in Hf. destruct (dmem (view m0 d) n); auto.
    Qed.
    Lemma jobs_post sched i r : nth_error (snd (run sched m0 (map t_job jobs))) i = Some (Ret r) ->
      post i r (fst (run sched m0 (map t_job jobs))).
    Proof.
      intro H.
      pose proof (par_sound (fun i => rely cub bq sun vega fs d base false own_of i) (fun i => guar cub bq sun vega fs d base false own_of i)
        post (fun i => rely_refl _ _ _ _ _ _ _ _ _ i) (fun i => rely_trans _ _ _ _ _ _ _ _ _ i)
        (fun i j m m' H => GR d m0 false own_of own_inj i j m m' H) sched m0 _ r_jobs i _ H) as X.
      apply rg_done in X; [exact X|apply rely_refl].
    Qed.
    Lemma jobs_evol sched : evol cub bq sun vega fs d base false m0 (fst (run sched m0 (map t_job jobs))).
    Proof.
      apply (par_memory (fun i => rely cub bq sun vega fs d base false own_of i) (fun i => guar cub bq sun vega fs d base false own_of i) post)
        with (1 := fun i => rely_refl _ _ _ _ _ _ _ _ _ i) (2 := fun i => rely_trans _ _ _ _ _ _ _ _ _ i).
      - intros; eapply GR; eauto. apply own_inj.
      - apply evol_refl.
      - apply evol_trans.
      - intros i m m' _ H. apply H.
      - apply r_jobs.
    Qed.
    Lemma jobs_cached sched n r : dget (view m0 d) n = Some r -> dget (view (fst (run sched m0 (map t_job jobs))) d) n = Some r.
    Proof.
      pose proof (jobs_evol sched) as E. rewrite !dget_view. destruct (dget (dict_of m0 d) n) as [id|] eqn:Ed; [|discriminate].
      cbn [option_map]. intro X. injection X as <-. destruct Hsane as (_ & _ & Hf). rewrite Forall_forall in Hf.
      pose proof (Hf id (dget_in _ _ _ Ed)) as Hl. destruct (e_keep _ _ _ _ _ _ _ _ _ _ E n id Ed) as (id' & -> & Hk).
      rewrite (Hk eq_refl Hl). cbn [option_map]. f_equal.
      destruct (nth_error (m_objs m0) id) as [o|] eqn:Eo; [|apply nth_error_None in Eo; lia].
      destruct (e_obj _ _ _ _ _ _ _ _ _ _ E id o Eo) as (o' & Ho' & _ & _ & _ & Hs). rewrite (Hs Hl) in Ho'.
      unfold resp_of. rewrite (nth_error_nth _ _ _ Ho'), (nth_error_nth _ _ _ Eo). reflexivity.
    Qed.
  End Jobs.

  (** Loads only, possibly with reload=True. *)
  Section Loads.
    Variables (d : nat) (m0 : mem T) (loads : list (string * bool)).
    Hypothesis Hsane : sane m0 d.
    Let base := length (m_objs m0).
    Let ps := map (fun l => t_job (JLoad (fst l) (snd l))) loads.
    Definition nobody (i : nat) : option nat := None.
    Definition lpost (i : nat) (r : res (option (atab T))) (m' : mem T) : Prop :=
      good cub bq sun vega fs d base i m' /\
      exists n b, nth_error loads i = Some (n, b) /\ dmem (dict_of m' d) n = true /\
         ((b = false /\ r = Ok None) \/
          (r = match snd (loaded n) with None => Ok None | Some e => Raise e end /\ forall k, dget (dict_of m' d) n = Some k -> base <= k)).
    Lemma r_loads i p : nth_error ps i = Some p ->
      rg i (rely cub bq sun vega fs d base true nobody i) (guar cub bq sun vega fs d base true nobody i) p (lpost i) m0.
    Proof.
      unfold ps. rewrite nth_error_map. destruct (nth_error loads i) as [[n b]|] eqn:Ej; [|discriminate]. cbn [option_map]. intro X. injection X as <-.
      cbn [fst snd]. eapply rg_post; [|apply (r_jload d base true nobody i n b); [apply start_good; auto|discriminate]].
      cbn beta. intros r m' (H1 & H2 & H3). split; auto. exists n, b. auto.
    Qed.
    Lemma nobody_inj : forall i j sid, nobody i = Some sid -> nobody j = Some sid -> i = j.
    Proof. discriminate. Qed.
    Lemma loads_evol sched : evol cub bq sun vega fs d base true m0 (fst (run sched m0 ps)).
    Proof.
      apply (par_memory (fun i => rely cub bq sun vega fs d base true nobody i) (fun i => guar cub bq sun vega fs d base true nobody i) lpost)
        with (1 := fun i => rely_refl _ _ _ _ _ _ _ _ _ i) (2 := fun i => rely_trans _ _ _ _ _ _ _ _ _ i).
      - intros; eapply GR; eauto. apply nobody_inj.
      - apply evol_refl.
      - apply evol_trans.
      - intros i m m' _ H. apply H.
      - apply r_loads.
    Qed.
    Lemma evol_moment rl m' : evol cub bq sun vega fs d base rl m0 m' ->
      (forall n, dmem (view m0 d) n = true -> dmem (view m' d) n = true) /\
      (forall n r, dget (view m' d) n = Some r -> dget (view m0 d) n = Some r \/ toward (fst (loaded n)) blank r).
    Proof.
      intro E. pose proof (e_inv _ _ _ _ _ _ _ _ _ _ E (start_inv _ _ Hsane)) as Hi. split.
      - intros n. rewrite !dmem_view. eapply bound_evol; eauto.
      - intros n r. rewrite !dget_view. destruct (dget (dict_of m' d) n) as [id|] eqn:Ed; [|discriminate].
        cbn [option_map]. intro X. injection X as <-. pose proof (i_id _ _ _ _ _ _ _ _ Hi n id Ed) as Hl.
        destruct (nth_error (m_objs m') id) as [o|] eqn:Eo; [|apply nth_error_None in Eo; lia].
        unfold resp_of at 1 2 3. rewrite (nth_error_nth _ _ _ Eo).
        destruct (Nat.lt_ge_cases id base) as [Hb|Hb].
        + left. destruct (e_new _ _ _ _ _ _ _ _ _ _ E n id Ed) as [Hd|[X _]]; [|unfold base in Hb; lia].
          rewrite Hd. cbn [option_map]. f_equal.
          destruct (nth_error (m_objs m0) id) as [o0|] eqn:E0; [|apply nth_error_None in E0; unfold base in Hb; lia].
          destruct (e_obj _ _ _ _ _ _ _ _ _ _ E id o0 E0) as (o' & Ho' & _ & _ & _ & Hs). rewrite Eo in Ho'. injection Ho' as <-.
          rewrite (Hs Hb). unfold resp_of. rewrite (nth_error_nth _ _ _ E0). reflexivity.
        + right. pose proof (i_blank _ _ _ _ _ _ _ _ Hi id o Hb Eo) as W. rewrite (i_name _ _ _ _ _ _ _ _ Hi n id o Ed Hb Eo) in W. exact W.
    Qed.
    Lemma loads_moment sched :
      (forall n, dmem (view m0 d) n = true -> dmem (view (fst (run sched m0 ps)) d) n = true) /\
      (forall n r, dget (view (fst (run sched m0 ps)) d) n = Some r -> dget (view m0 d) n = Some r \/ toward (fst (loaded n)) blank r).
    Proof. apply (evol_moment true), loads_evol. Qed.
    Lemma loads_done sched i n b : nth_error loads i = Some (n, b) -> all_done (snd (run sched m0 ps)) ->
      exists r, nth_error (snd (run sched m0 ps)) i = Some (Ret r) /\ dmem (dict_of (fst (run sched m0 ps)) d) n = true /\
         ((b = false /\ r = Ok None) \/
          (r = match snd (loaded n) with None => Ok None | Some e => Raise e end /\
           forall k, dget (dict_of (fst (run sched m0 ps)) d) n = Some k -> base <= k)).
    Proof.
      intros Hi Hd. destruct (nth_error (snd (run sched m0 ps)) i) as [p|] eqn:Ep.
      2:{ apply nth_error_None in Ep. rewrite run_length in Ep. unfold ps in Ep. rewrite map_length in Ep.
          assert (nth_error loads i <> None) by congruence. apply nth_error_Some in H. lia. }
      unfold all_done in Hd. rewrite Forall_forall in Hd. destruct (Hd p (nth_error_In _ _ Ep)) as [r ->]. exists r. split; auto.
      pose proof (par_sound (fun i => rely cub bq sun vega fs d base true nobody i) (fun i => guar cub bq sun vega fs d base true nobody i)
        lpost (fun i => rely_refl _ _ _ _ _ _ _ _ _ i) (fun i => rely_trans _ _ _ _ _ _ _ _ _ i)
        (fun i j m m' H => GR d m0 true nobody nobody_inj i j m m' H) sched m0 _ r_loads i _ Ep) as X.
      apply rg_done in X; [|apply rely_refl]. destruct X as (_ & n' & b' & Hn & H). rewrite Hi in Hn. injection Hn as <- <-. exact H.
    Qed.
  End Loads.
End Par.
