(** Lemmas about programs that build several objects. *)
From Coq Require Import String List Arith Bool Lia ZArith QArith.
From Verif Require Import Base BaseLemmas Num Interp Utils Sed Response RespDict RespDictThms Fitter FitSpec Kcorrect KSpec Persist PersistSpec PersistProofs BuildSpec BuildProofs
  SharedSpec.
Import ListNotations.
Local Open Scope nat_scope.

Section S.
  Context {T : Type} {N : Num T}.
  Variable cub : list T -> list T -> T -> T.
  Variable bq : (T -> T) -> T -> T -> res T.
  Variable sun vega : res (list T * list (basel_unit T)).
  Variable t : tmpl T.

  (** ** The rest-frame spectra stay *)
  Definition rest_kept (s s' : sed T) : Prop := s_rwave s' = s_rwave s /\ s_rflux s' = s_rflux s /\ s_bin s' = s_bin s.
  Lemma rest_refl s : rest_kept s s. Proof. repeat split. Qed.
  Lemma rest_trans a b c : rest_kept a b -> rest_kept b c -> rest_kept a c.
  Proof. unfold rest_kept. intuition congruence. Qed.
  Lemma same_rest_kept (s s' : sed T) : same_rest s s' -> rest_kept s s'.
  Proof. unfold same_rest, rest_kept. tauto. Qed.
  Lemma set_interp_kept (s : sed T) : rest_kept s (fst (set_interp s)).
  Proof. unfold set_interp. destruct (mk_cubic _ _); repeat split. Qed.
  Lemma sed_step_kept (s : sed T) o : rest_kept s (fst (sed_step s o)).
  Proof. destruct o; [apply same_rest_kept, set_redshift_rest|apply set_interp_kept]. Qed.
  Lemma set_interp_same (s : sed T) : s_flag s = true -> same_rest s (fst (set_interp s)).
  Proof.
    intro H. unfold set_interp. destruct (mk_cubic _ _); cbn [fst]; [|apply same_rest_refl].
    unfold same_rest. cbn. rewrite H. repeat split; auto. discriminate.
  Qed.

  Notation construct := (construct cub bq sun vega).
  Notation w_step := (w_step cub bq sun vega t).
  Notation w_run := (w_run cub bq sun vega t).

  Lemma construct_rest fs a d (s : sed T) : same_rest s (snd (fst (construct fs a t d s))).
  Proof.
    pose proof (Kcorrect_same cub bq sun vega fs d (b_kind a) (b_abc a) (b_responses a) s s t (b_out a) (b_map a) (b_r0 a) (b_r1 a) (b_nz a)
      (same_rest_refl s)) as H. unfold SharedSpec.construct. destruct (Kcorrect _ _ _ _ _ _ _ _ _ _ _ _ _ _ _ _) as [[d1 s1] o1]. cbn [fst snd]. tauto.
  Qed.
  Lemma construct_ext fs a d (s : sed T) : extends d (fst (fst (construct fs a t d s))).
  Proof.
    unfold SharedSpec.construct, Kcorrect, set_Amatrix. cbn [f_resp f_zs f_sed Fitter f_kind f_abc].
    assert (HC : forall names zs d (s : sed T), extends d (fst (fst (calc_A cub bq sun vega fs names zs d s)))).
    { intros names zs d0 s0. unfold calc_A. pose proof (load_all_ext cub bq sun vega fs names d0) as H.
      destruct (load_all _ _ _ _ _ _ _) as [d1 [e|]]; cbn [fst] in *; auto. destruct (z_loop _ _ _ _ _) as [s1 [tab|e]]; auto.
      destruct (mk_linear _ _); auto. destruct (set_redshift _ _) as [s2 [e|]]; auto. }
    pose proof (HC (b_responses a) (redshift_grid (b_r0 a) (b_r1 a) (b_nz a)) d s) as H1.
    destruct (calc_A _ _ _ _ _ _ _ _ _) as [[d1 s1] [A|e]]; cbn [fst f_sed f_zs f_A f_kind f_abc f_resp] in *; auto.
    destruct (negb _); auto. destruct (names_eqb _ _); auto.
    match goal with |- context [calc_A _ _ _ _ _ ?o ?zs _ _] => pose proof (HC o zs d1 s1) as H2 end.
    destruct (calc_A _ _ _ _ _ _ _ _ _) as [[d2 s2] A']. cbn [fst] in *. intros n r Hn. auto.
  Qed.

  Lemma step_kept w o : rest_kept (w_s w) (w_s (w_step w o)) /\ extends (w_d w) (w_d (w_step w o)) /\
    (exists l, w_objs (w_step w o) = w_objs w ++ l).
  Proof.
    destruct o as [o|fs n|fs a]; cbn [SharedSpec.w_step].
    - cbn [w_s w_d w_objs]. split; [apply sed_step_kept|]. split; [intros ? ? ?; auto|]. exists []. rewrite app_nil_r. auto.
    - cbn [w_s w_d w_objs]. split; [apply rest_refl|]. split; [apply load_response_ext|]. exists []. rewrite app_nil_r. auto.
    - pose proof (construct_rest fs a (w_d w) (w_s w)) as H1. pose proof (construct_ext fs a (w_d w) (w_s w)) as H2.
      destruct (construct fs a t (w_d w) (w_s w)) as [[d s] r]. cbn [fst snd w_s w_d w_objs] in *.
      split; [apply same_rest_kept; auto|]. split; [auto|]. eauto.
  Qed.
  Lemma run_kept ops : forall w, rest_kept (w_s w) (w_s (w_run w ops)) /\ extends (w_d w) (w_d (w_run w ops)) /\
    (exists l, w_objs (w_run w ops) = w_objs w ++ l).
  Proof.
    induction ops as [|o ops IH]; intro w; cbn [SharedSpec.w_run fold_left].
    - split; [apply rest_refl|]. split; [intros ? ? ?; auto|]. exists []. rewrite app_nil_r. auto.
    - destruct (step_kept w o) as (A1 & A2 & l1 & A3). destruct (IH (w_step w o)) as (B1 & B2 & l2 & B3).
      fold (w_run (w_step w o) ops). split; [eapply rest_trans; eauto|]. split; [intros n r Hn; apply B2, A2, Hn|].
      exists (l1 ++ l2). rewrite app_assoc, <- A3. exact B3.
  Qed.
  Lemma run_same ops : forall w, same_mode (w_s w) ops -> same_rest (w_s w) (w_s (w_run w ops)).
  Proof.
    induction ops as [|o ops IH]; intros w H; cbn [SharedSpec.w_run fold_left]; [apply same_rest_refl|]. fold (w_run (w_step w o) ops).
    assert (X : same_rest (w_s w) (w_s (w_step w o))).
    { destruct o as [[z|]|fs n|fs a]; cbn [SharedSpec.w_step].
      - apply set_redshift_rest.
      - apply set_interp_same. destruct H as [H|H]; auto. exfalso. apply H. cbn. auto.
      - apply same_rest_refl.
      - pose proof (construct_rest fs a (w_d w) (w_s w)) as H1. destruct (construct fs a t (w_d w) (w_s w)) as [[d s] r]. exact H1. }
    eapply same_rest_trans; [exact X|]. apply IH. destruct H as [H|H]; [left|right].
    - destruct X as (_ & _ & X & _). congruence.
    - intro Hin. apply H. cbn. auto.
  Qed.

  (** ** The results of an object do not depend on the state of its templates *)
  Lemma seen_same (K : kcor T) (s : sed T) : s_rflux s = s_rflux (f_sed (k_fit K)) ->
    same_results (set_tmpl K s (k_tmpl K)) K.
  Proof.
    intro H. apply same_cong; try reflexivity.
    - unfold f_nsed, s_nsed. cbn [set_tmpl k_fit f_sed]. rewrite H. reflexivity.
    - right. split; reflexivity.
  Qed.
  Lemma seen_file trunc (K : kcor T) (s : sed T) : rest_kept (f_sed (k_fit K)) s ->
    kcor_file trunc (set_tmpl K s (k_tmpl K)) = kcor_file trunc K.
  Proof.
    intros (H1 & H2 & H3). unfold kcor_file. change (kcor_hdus trunc (set_tmpl K s (k_tmpl K))) with (kcor_hdus trunc K).
    destruct (kcor_hdus trunc K); auto. cbn [bind]. unfold template_file, sed_file, sed_tofits. cbn [set_tmpl k_fit f_sed k_tmpl].
    rewrite H1, H2, H3. reflexivity.
  Qed.

  (** derived with a larger cache. *)
  Lemma derived_ext distmod (K : kcor T) d d' z c bs di : extends d d' -> (forall n, In n (k_out K) -> exists r, dget d n = Some r) ->
    derived distmod d' K z c bs di = derived distmod d K z c bs di.
  Proof.
    intros He Hm. unfold derived. destruct (process_inputs _ _ _ _ _) as [p|]; auto. cbn [bind].
    assert (E : forall A B (a : res A) (f g : A -> res B), (forall x, f x = g x) -> bind a f = bind a g).
    { intros A B a f g H. destruct a; cbn [bind]; auto. }
    apply E. intros [[array df] dm]. destruct (q_c p); auto. destruct (tmpl_ok _ _); auto. apply E. intro rm0.
    match goal with |- bind ?a ?f = bind ?b ?f => assert (X : a = b); [|rewrite X; reflexivity] end.
    assert (G : forall l s, (forall x, In x l -> exists r, dget d (snd x) = Some r) ->
      foldM (solar_step d' dm) l s = foldM (solar_step d dm) l s).
    { induction l as [|x l IH]; intros s H; auto. cbn [foldM].
      assert (Y : solar_step d' dm s x = solar_step d dm s x).
      { unfold solar_step. destruct x as [i nm]. destruct (H (i, nm) (or_introl eq_refl)) as [r Hr]. cbn [snd] in Hr.
        rewrite Hr, (He _ _ Hr). reflexivity. }
      rewrite Y. destruct (solar_step d dm s x); auto. apply IH. intros y Hy. apply H. cbn; auto. }
    apply G. intros [i nm] Hin. cbn [snd]. apply Hm. eapply in_combine_r; eauto.
  Qed.

  (** The output responses of a new object are in the cache. *)
  Lemma names_eqb_eq a : forall b, names_eqb a b = true -> a = b.
  Proof.
    induction a as [|x a IH]; intros [|y b]; cbn; try discriminate; auto.
    intro H. apply andb_prop in H as [H1 H2]. apply String.eqb_eq in H1. f_equal; auto.
  Qed.
  Lemma construct_out fs a d (s : sed T) d1 s1 K : construct fs a t d s = (d1, s1, Ok K) ->
    f_sed (k_fit K) = s1 /\ forall n, In n (k_out K) -> exists r, dget d1 n = Some r.
  Proof.
    unfold SharedSpec.construct, Kcorrect, set_Amatrix. cbn [f_resp f_zs f_sed Fitter f_kind f_abc].
    assert (HC : forall names zs d (s : sed T) d1 s1 A, calc_A cub bq sun vega fs names zs d s = (d1, s1, Ok A) ->
      forall n, In n names -> exists r, dget d1 n = Some r).
    { intros names zs d0 s0 d2 s2 A H. destruct (calc_A_again cub bq sun vega fs fs names zs d0 d2 d2 s0 s0 s2 A (same_rest_refl s0)) as (_ & X & _); auto.
      intros ? ? ?; auto. }
    destruct (calc_A cub bq sun vega fs (b_responses a) _ d s) as [[d2 s2] [A|e]] eqn:EA; cbn [f_sed f_zs f_A f_kind f_abc f_resp]; [|discriminate].
    destruct (negb _); [discriminate|]. destruct (names_eqb _ _) eqn:EN.
    - destruct (make_imap _ _); cbn [bind]; [|discriminate]. intro E. injection E as <- <- <-. cbn [k_fit f_sed k_out]. split; auto.
      apply names_eqb_eq in EN. rewrite EN. eapply HC; eauto.
    - destruct (calc_A cub bq sun vega fs _ _ d2 s2) as [[d3 s3] [A'|e]] eqn:EB; cbn [bind]; [|discriminate].
      destruct (make_imap _ _); cbn [bind]; [|discriminate]. intro E. injection E as <- <- <-. cbn [k_fit f_sed k_out]. split; auto.
      eapply HC; eauto.
  Qed.

  (** ** What is built does not depend on what was built before *)
  Section Alone.
    Variable fs : @fsys T.
    Variable d0 : dict (resp T).
    Notation read n := (fromdat cub bq sun vega blank (fs (n ++ ".dat")%string)).
    Definition grown (d : dict (resp T)) : Prop := extends d0 d /\
      forall n r, dget d n = Some r -> dget d0 n = Some r \/ (dget d0 n = None /\ r = fst (read n)).
    Definition clean (d : dict (resp T)) : Prop := grown d /\
      forall n r, dget d n = Some r -> dget d0 n = None -> snd (read n) = None.
    Lemma grown_start : clean d0.
    Proof. split; [split; [intros ? ? ?; auto|auto]|]. intros n r H1 H2. congruence. Qed.
    Lemma grown_agree a b n r r' : grown a -> grown b -> dget a n = Some r -> dget b n = Some r' -> r = r'.
    Proof. intros [_ Ha] [_ Hb] H1 H2. apply Ha in H1. apply Hb in H2. intuition congruence. Qed.
    Lemma load_grown d n : grown d -> grown (fst (load_response cub bq sun vega fs d n false)).
    Proof.
      intros [H1 H2]. split; [intros m r Hm; apply load_response_ext; auto|]. intros m r. unfold load_response, dmem.
      destruct (dget d n) as [r'|] eqn:E; cbn [andb negb fst]; [apply H2|].
      destruct (fromdat _ _ _ _ _ _) as [r' e] eqn:EF. cbn [fst]. rewrite dget_dset. destruct (String.eqb_spec n m) as [<-|]; [|apply H2].
      intro X; injection X as <-. right. rewrite EF. split; auto. destruct (dget d0 n) eqn:E0; auto. apply H1 in E0. congruence.
    Qed.
    Lemma load_clean d n d' : clean d -> load_response cub bq sun vega fs d n false = (d', None) -> clean d' /\
      (forall d2, grown d2 -> exists d2', load_response cub bq sun vega fs d2 n false = (d2', None) /\ grown d2').
    Proof.
      intros [H1 H2] E. assert (G : grown d') by (pose proof (load_grown d n H1) as X; rewrite E in X; exact X).
      assert (HS : dget d0 n = None -> snd (read n) = None).
      { intro H0. revert E. unfold load_response, dmem. destruct (dget d n) as [r|] eqn:Er; cbn [andb negb]; [intros _; eauto|].
        destruct (fromdat _ _ _ _ _ _) as [r' e]. intro X; injection X as _ <-. reflexivity. }
      split.
      - split; auto. intros m r Hm H0. revert E. unfold load_response, dmem. destruct (dget d n) as [r'|] eqn:Er; cbn [andb negb].
        + intro X; injection X as <-. eauto.
        + destruct (fromdat _ _ _ _ _ _) as [r' e] eqn:EF. intro X; injection X as <- ->. rewrite dget_dset in Hm. revert Hm.
          destruct (String.eqb_spec n m) as [<-|]; intro Hm; [rewrite EF; reflexivity|eauto].
      - intros d2 G2. pose proof (load_grown d2 n G2) as X. destruct (load_response cub bq sun vega fs d2 n false) as [d2' o] eqn:EL.
        exists d2'. split; auto. f_equal. revert EL. unfold load_response, dmem. destruct (dget d2 n) as [r'|] eqn:Er; cbn [andb negb].
        + intro Y; injection Y as _ <-. auto.
        + assert (H0 : dget d0 n = None) by (destruct (dget d0 n) eqn:E0; auto; apply G2 in E0; congruence). specialize (HS H0).
          destruct (fromdat _ _ _ _ _ _) as [r' e]. cbn [snd] in HS. intro Y; injection Y as _ <-. auto.
    Qed.
    Lemma load_all_alone names : forall a b a', clean a -> grown b -> load_all cub bq sun vega fs names a = (a', None) ->
      clean a' /\ exists b', load_all cub bq sun vega fs names b = (b', None) /\ grown b'.
    Proof.
      induction names as [|n names IH]; intros a b a' Ha Hb H; cbn [load_all] in *.
      - injection H as <-. eauto.
      - destruct (load_response cub bq sun vega fs a n false) as [a1 [e|]] eqn:E; [discriminate|].
        destruct (load_clean a n a1 Ha E) as [Ha1 HL]. destruct (HL b Hb) as (b1 & E1 & Hb1). rewrite E1. eapply IH; eauto.
    Qed.
    Lemma load_all_grown names : forall d, grown d -> grown (fst (load_all cub bq sun vega fs names d)).
    Proof.
      induction names as [|n names IH]; intros d H; cbn [load_all]; auto. pose proof (load_grown d n H) as X.
      destruct (load_response _ _ _ _ _ _ _ _) as [d' [e|]]; cbn [fst] in *; auto.
    Qed.
    Lemma z_loop_agree a b names zs : (forall n, In n names -> dget b n = dget a n) ->
      forall s : sed T, z_loop cub b names zs s = z_loop cub a names zs s.
    Proof.
      intro H. assert (P : forall s, project_bands cub b names s = project_bands cub a names s).
      { intro s. unfold project_bands. induction names as [|n names IH]; auto. cbn [mapM]. rewrite (H n (or_introl eq_refl)), IH; auto.
        intros m Hm; apply H; cbn; auto. }
      induction zs as [|z zs IH]; intro s; cbn [z_loop]; auto. destruct (set_redshift s z) as [s1 [e|]]; auto. rewrite P.
      destruct (project_bands cub a names s1); auto. rewrite IH. auto.
    Qed.
    Lemma calc_A_alone names zs a b a' (s s' s1 : sed T) A : clean a -> grown b -> same_rest s s' ->
      calc_A cub bq sun vega fs names zs a s = (a', s1, Ok A) ->
      clean a' /\ same_rest s s1 /\ exists b', calc_A cub bq sun vega fs names zs b s' = (b', s1, Ok A) /\ grown b'.
    Proof.
      intros Ha Hb Hs H. pose proof (calc_A_same cub bq sun vega fs names zs a s s' Hs) as HS. rewrite H in HS.
      destruct (calc_A cub bq sun vega fs names zs a s') as [[d2 s2] r2] eqn:H'. destruct HS as (-> & -> & HS & HR).
      rewrite (HS A eq_refl) in H'. clear HS. revert H'. unfold calc_A.
      destruct (load_all cub bq sun vega fs names a) as [a1 [e|]] eqn:EL; [discriminate|].
      destruct (load_all_alone names a b a1 Ha Hb EL) as (Ha1 & b1 & EB & Hb1). rewrite EB.
      pose proof (load_all_mem _ _ _ _ _ _ _ _ EL) as MA. pose proof (load_all_mem _ _ _ _ _ _ _ _ EB) as MB.
      rewrite (z_loop_agree a1 b1 names zs).
      2:{ intros n Hn. destruct (MA n Hn) as [r Hr], (MB n Hn) as [r' Hr']. rewrite Hr, Hr'. f_equal. symmetry.
          exact (grown_agree a1 b1 n r r' (proj1 Ha1) Hb1 Hr Hr'). }
      destruct (z_loop cub a1 names zs s') as [s3 [tab|e]]; [|discriminate].
      destruct (mk_linear _ _); [|discriminate]. destruct (set_redshift s3 n0) as [s4 [e|]]; [discriminate|].
      intro E; injection E as -> -> ->. eauto 6.
    Qed.
    Lemma construct_alone a b (s s' : sed T) ar d1 s1 K : clean a -> grown b -> same_rest s s' ->
      construct fs ar t a s = (d1, s1, Ok K) ->
      exists b', construct fs ar t b s' = (b', s1, Ok K).
    Proof.
      intros Ha Hb Hs. unfold SharedSpec.construct, Kcorrect, set_Amatrix. cbn [f_resp f_zs f_sed Fitter f_kind f_abc].
      destruct (calc_A cub bq sun vega fs (b_responses ar) _ a s) as [[a2 s2] [A|e]] eqn:EA; cbn [f_sed f_zs f_A f_kind f_abc f_resp]; [|discriminate].
      destruct (calc_A_alone _ _ a b a2 s s' s2 A Ha Hb Hs EA) as (Ha2 & R2 & b2 & EB & Hb2). rewrite EB.
      cbn [f_sed f_zs f_A f_kind f_abc f_resp]. destruct (negb _); [discriminate|]. destruct (names_eqb _ _).
      - intro E. injection E as <- <- E. exists b2. cbn [bind] in *. rewrite E. reflexivity.
      - destruct (calc_A cub bq sun vega fs _ _ a2 s2) as [[a3 s3] [A'|e]] eqn:EA'; [|discriminate].
        destruct (calc_A_alone _ _ a2 b2 a3 s2 s2 s3 A' Ha2 Hb2 (same_rest_refl s2) EA') as (_ & _ & b3 & EB' & _). rewrite EB'.
        intro E. injection E as <- <- E. exists b3. cbn [bind] in *. rewrite E. reflexivity.
    Qed.
    Lemma construct_grown ar d (s : sed T) : grown d -> grown (fst (fst (construct fs ar t d s))).
    Proof.
      intro H. unfold SharedSpec.construct, Kcorrect, set_Amatrix. cbn [f_resp f_zs f_sed Fitter f_kind f_abc].
      assert (HC : forall names zs d (s : sed T), grown d -> grown (fst (fst (calc_A cub bq sun vega fs names zs d s)))).
      { intros names zs d1 s1 G. unfold calc_A. pose proof (load_all_grown names d1 G) as X.
        destruct (load_all _ _ _ _ _ _ _) as [d2 [e|]]; cbn [fst] in *; auto. destruct (z_loop _ _ _ _ _) as [s2 [tab|e]]; auto.
        destruct (mk_linear _ _); auto. destruct (set_redshift _ _) as [s3 [e|]]; auto. }
      pose proof (HC (b_responses ar) (redshift_grid (b_r0 ar) (b_r1 ar) (b_nz ar)) d s H) as H1.
      destruct (calc_A _ _ _ _ _ _ _ _ _) as [[d1 s1] [A|e]]; cbn [fst f_sed f_zs f_A f_kind f_abc f_resp] in *; auto.
      destruct (negb _); auto. destruct (names_eqb _ _); auto.
      match goal with |- context [calc_A _ _ _ _ _ ?o ?zs _ _] => pose proof (HC o zs d1 s1 H1) as H2 end.
      destruct (calc_A _ _ _ _ _ _ _ _ _) as [[d2 s2] A']. exact H2.
    Qed.
    Lemma run_grown ops : forall w, files_of fs ops -> grown (w_d w) -> grown (w_d (w_run w ops)).
    Proof.
      induction ops as [|o ops IH]; intros w Hf Hw; auto. cbn [SharedSpec.w_run fold_left]. fold (w_run (w_step w o) ops).
      inversion Hf as [|? ? Ho Hops]; subst. apply IH; auto. destruct o as [o|f n|f a]; cbn [SharedSpec.w_step]; auto; subst f.
      - apply load_grown; auto.
      - pose proof (construct_grown a (w_d w) (w_s w) Hw) as X. destruct (construct fs a t (w_d w) (w_s w)) as [[d s] r]. exact X.
    Qed.
  End Alone.
End S.
