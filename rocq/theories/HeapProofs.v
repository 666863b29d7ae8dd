(** The caller's arrays: supporting lemmas. *)
From Coq Require Import String List Arith Lia Bool ZArith QArith Qreals Reals Lra.
From Verif Require Import Base BaseLemmas Num Toy Spec Utils UtilsProofs UtilsReal Interp Sed Response RespDict Fitter FitSpec
  FitterProofs Kcorrect KSpec KcorrectProofs DerivedProofs McProofs AbProofs Heap HeapSpec.
Import ListNotations.
Local Open Scope nat_scope.

Section X.
  Context {T : Type} {N : Num T}.

  Lemma poke_fold_out w : forall (cs : list nat) (vs : list T) s h c, ~ In c cs ->
    fold_left (fun h (ix : nat * (nat * T)) =>
                 let k := fst ix mod w in
                 if Nat.leb 2 k && Nat.leb k 6 then poke h (fst (snd ix)) (snd (snd ix)) else h)
              (combine (seq s (length cs)) (combine cs vs)) h c = h c.
  Proof.
    induction cs as [|a cs IH]; intros vs s h c Hn; [reflexivity|]. destruct vs as [|x vs]; [reflexivity|].
    cbn [length seq combine fold_left fst snd]. rewrite IH by (intro; apply Hn; right; auto). cbv zeta.
    destruct (_ && _); auto. unfold poke. destruct (Nat.eqb_spec c a); auto. subst. exfalso. apply Hn. left; auto.
  Qed.

  Lemma poke_fold_in w : forall (cs : list nat) (vs : list T) s h i c x, NoDup cs -> length vs = length cs ->
    nth_error cs i = Some c -> nth_error vs i = Some x ->
    fold_left (fun h (ix : nat * (nat * T)) =>
                 let k := fst ix mod w in
                 if Nat.leb 2 k && Nat.leb k 6 then poke h (fst (snd ix)) (snd (snd ix)) else h)
              (combine (seq s (length cs)) (combine cs vs)) h c =
    if Nat.leb 2 ((s + i) mod w) && Nat.leb ((s + i) mod w) 6 then x else h c.
  Proof.
    induction cs as [|a cs IH]; intros vs s h i c x Hd Hl Hc Hx; [destruct i; discriminate|].
    destruct vs as [|y vs]; [discriminate|]. inversion Hd as [|? ? Hn Hd']; subst.
    cbn [length seq combine fold_left fst snd]. cbv zeta. destruct i as [|i]; cbn [nth_error] in Hc, Hx.
    - injection Hc as <-. injection Hx as <-. rewrite poke_fold_out by auto. rewrite Nat.add_0_r.
      destruct (_ && _); auto. unfold poke. rewrite Nat.eqb_refl. auto.
    - injection Hl as Hl. rewrite (IH vs (S s) _ i c x) by auto. replace (S s + i) with (s + S i) by lia.
      destruct (_ && _); auto. destruct (_ && _); auto. unfold poke. destruct (Nat.eqb_spec c a); auto.
      subst. exfalso. apply Hn. eapply nth_error_In; eauto.
  Qed.

  Lemma write_out h v (a : nd T) c : ~ In c (v_cells v) -> write_cols h v a c = h c.
  Proof. apply poke_fold_out. Qed.

  Lemma write_in h v (a : nd T) i c x : view_ok v -> length (dat a) = size (v_shape v) ->
    nth_error (v_cells v) i = Some c -> nth_error (dat a) i = Some x ->
    write_cols h v a c = if Nat.leb 2 (i mod lastd (v_shape v)) && Nat.leb (i mod lastd (v_shape v)) 6 then x else h c.
  Proof. intros [Hl Hd] Ha Hc Hx. unfold write_cols. rewrite (poke_fold_in _ _ _ 0 h i c x); auto. congruence. Qed.

  Lemma read_ext h h' v : (forall c, In c (v_cells v) -> h' c = h c) -> @read T h' v = read h v.
  Proof. intro H. unfold read. f_equal. apply map_ext_in. auto. Qed.

  Lemma read_write h v (a : nd T) : view_ok v -> shp a = v_shape v -> wf a ->
    (forall i, i < size (v_shape v) -> Nat.leb 2 (i mod lastd (v_shape v)) && Nat.leb (i mod lastd (v_shape v)) 6 = false ->
       nth_error (dat a) i = nth_error (dat (read h v)) i) ->
    read (write_cols h v a) v = a.
  Proof.
    intros Hv Hs Hw Hf. destruct a as [s d]. unfold wf in Hw. cbn [shp dat] in *. subst s. unfold read. f_equal.
    destruct Hv as [Hl Hd].
    apply nth_error_ext. intro i. rewrite nth_error_map. destruct (nth_error (v_cells v) i) as [c|] eqn:Ec; cbn [option_map].
    - assert (Hi : i < length (v_cells v)) by (apply nth_error_Some; congruence).
      destruct (@nth_error_lt _ d i) as (x & Ex); [lia|]. rewrite Ex.
      rewrite (write_in h v (mk (v_shape v) d) i c x); auto; [|split; auto].
      destruct (_ && _) eqn:E; auto. rewrite <- Ex, Hf by (auto; lia). unfold read; cbn [dat]. rewrite nth_error_map, Ec. auto.
    - symmetry. apply nth_error_None. apply nth_error_None in Ec. lia.
  Qed.

  (** What a successful [KcorrectGST.to_ab] leaves alone. *)
  Definition frame (a b : nd T) : Prop :=
    shp b = shp a /\ wf b /\
    forall i, i < size (shp a) -> Nat.leb 2 (i mod lastd (shp a)) && Nat.leb (i mod lastd (shp a)) 6 = false ->
      nth_error (dat b) i = nth_error (dat a) i.

  Lemma sdss_cols_len w : w < 7 -> length (sdss_cols w) < 5.
  Proof. intro H. do 7 (destruct w as [|w]; [cbn; lia|]). lia. Qed.

  Lemma default_shp : shp (@default_abfix T N) = [5] /\ wf (@default_abfix T N).
  Proof. split; reflexivity. Qed.

  Lemma sdss_cols_lt w : Forall (fun k => k < w) (sdss_cols w).
  Proof. apply Forall_forall. intros k H. unfold sdss_cols in H. apply filter_In in H as [_ H]. apply Nat.ltb_lt; auto. Qed.

  Lemma take_cols (a : nd T) : shp a <> [] -> exists b, take_last (sdss_cols (lastd (shp a))) n0 a = Ok b.
  Proof.
    intro Hs. unfold take_last. destruct (shp a) as [|n s] eqn:E; [congruence|]. rewrite <- E.
    replace (forallb _ _) with true; eauto. symmetry. apply forallb_forall. intros k Hk.
    pose proof (sdss_cols_lt (lastd (shp a))) as HF. rewrite Forall_forall in HF. apply Nat.ltb_lt; auto.
  Qed.

  Lemma ndim_snoc {A} (a : nd A) (s : list nat) k : shp a = s ++ [k] -> ndim a = S (length s).
  Proof. intro H. unfold ndim. rewrite H, app_length. cbn. lia. Qed.

  Lemma gst_short (m iv : nd T) : shp m <> [] -> shp iv = shp m -> lastd (shp m) < 7 ->
    exists e, gst_to_ab m (Some iv) = Raise e.
  Proof.
    intros Hne Hs H7. unfold gst_to_ab. destruct (take_cols m Hne) as (sm & Em).
    destruct (take_cols iv ltac:(congruence)) as (si & Ei). rewrite Em, Ei. cbn [bind].
    pose proof (take_last_shp _ _ _ Em) as Ssm. pose proof (take_last_shp _ _ _ Ei) as Ssi. rewrite Hs in Ssi.
    pose proof (wf_take_last _ _ _ Em) as Wsm. pose proof (sdss_cols_len (lastd (shp m)) H7) as Hlen.
    destruct (Nat.eq_dec (ndim sm) 1) as [H1|H1].
    - rewrite sdss_ab_correct_1d_bad; [eexists; reflexivity|auto|]. rewrite Ssm, lastd_snoc. lia.
    - rewrite sdss_ab_correct_nd_short; [eexists; reflexivity|auto|apply default_shp|apply default_shp|auto| |].
      + right. rewrite Ssm, lastd_snoc. lia.
      + intros x Ex. injection Ex as <-. congruence.
  Qed.

  Lemma gst_long (m iv : nd T) : wf m -> wf iv -> shp m <> [] -> shp iv = shp m -> 7 <= lastd (shp m) ->
    exists m' iv', gst_to_ab m (Some iv) = Ok (m', Some iv') /\ frame m m' /\ frame iv iv'.
  Proof.
    intros Hm Hi Hne Hs H7. unfold gst_to_ab. destruct (take_cols m Hne) as (sm & Em).
    destruct (take_cols iv ltac:(congruence)) as (si & Ei). rewrite Em, Ei. cbn [bind].
    pose proof (take_last_shp _ _ _ Em) as Ssm. pose proof (take_last_shp _ _ _ Ei) as Ssi. rewrite Hs in Ssi.
    pose proof (wf_take_last _ _ _ Em) as Wsm. pose proof (wf_take_last _ _ _ Ei) as Wsi.
    rewrite sdss_cols_7 in Ssm, Ssi by auto. cbn [length] in Ssm, Ssi.
    destruct (sdss_ab_correct_spec sm default_abfix (Some si)) as (am & ai & Es & Sa & Wa & _ & Ha);
      try apply default_shp; auto.
    - rewrite Ssm, lastd_snoc. lia.
    - rewrite Ssm, lastd_snoc. auto.
    - intros x Ex. injection Ex as <-. split; congruence.
    - destruct Ha as (a & -> & Sai & Wai & _). rewrite Es. cbn [bind fst snd].
      destruct (set_cols_ok m am) as (m' & E1 & S1 & W1 & N1); auto; [congruence|].
      destruct (set_cols_ok iv a) as (iv' & E2 & S2 & W2 & N2); auto; [congruence|congruence|congruence|].
      rewrite E1, E2. cbn [bind]. exists m', iv'. split; auto.
      split; (split; [auto|split; [auto|]]); intros i Hi' Hk; [rewrite N1|rewrite N2]; auto; cbv zeta; rewrite Hk; auto.
  Qed.

  Lemma gst_none (m : nd T) : exists e, gst_to_ab m None = Raise e.
  Proof. unfold gst_to_ab. destruct (take_last _ _ _); cbn [bind]; eauto. Qed.

  (** [process_inputs] is the checks followed by the correction. *)
  Lemma proc_split (F : fitter T) z m iv c :
    process_inputs F z m iv c =
    match process_inputs (without_ab F) z m iv c with
    | Raise e => Raise e
    | Ok p => match f_abc F, q_m p with
              | true, Some m =>
                match to_ab (f_kind F) m (q_iv p) with
                | Raise e => Raise e
                | Ok (m', iv') => Ok {| q_array := q_array p; q_n := q_n p; q_z := q_z p; q_m := Some m';
                                        q_iv := match q_iv p with Some _ => iv' | None => None end; q_c := q_c p |}
                end
              | _, _ => Ok p
              end
    end.
  Proof.
    unfold process_inputs. destruct z as [z|]; auto. cbn [without_ab f_abc f_resp f_kind f_nsed f_sed].
    unfold f_nsed; cbn [f_sed without_ab].
    destruct (Nat.leb _ 1); auto. destruct (opt_shape_ok _ _ _ (option_map (map1 cst) m)); auto.
    destruct (opt_shape_ok _ _ _ (option_map (map1 cst) iv)); auto.
    destruct (opt_shape_ok _ _ _ (option_map (map1 cst) c)); auto. destruct (f_abc F); auto.
    destruct m as [m|]; cbn [option_map q_m q_iv q_array q_n q_z q_c]; auto.
    destruct (to_ab _ _ _) as [[a b]|]; auto.
  Qed.

  Lemma proc_plain_inv (F : fitter T) z m iv c p : process_inputs (without_ab F) z m iv c = Ok p ->
    q_m p = option_map (map1 cst) m /\ q_iv p = option_map (map1 cst) iv.
  Proof.
    unfold process_inputs. destruct z as [z|]; [|discriminate]. cbn [without_ab f_abc].
    destruct (Nat.leb _ 1); [|discriminate]. destruct (opt_shape_ok _ _ _ (option_map (map1 cst) m)); [|discriminate].
    destruct (opt_shape_ok _ _ _ (option_map (map1 cst) iv)); [|discriminate].
    destruct (opt_shape_ok _ _ _ (option_map (map1 cst) c)); [|discriminate].
    intro E. injection E as <-. auto.
  Qed.

  Lemma map1_32 h v : holds32 h v -> map1 cst (read h v) = @read T h v.
  Proof. intro H. unfold map1, read. cbn [shp dat]. f_equal. rewrite map_map. apply map_ext_in. intros c Hc.
    unfold holds32 in H. rewrite Forall_forall in H. auto. Qed.

  Lemma value_wf h (x : arg T) : arg_ok h x -> wf (@value T h x).
  Proof. destruct x as [a|v]; cbn; auto. intros [[Hl _] _]. unfold wf, read; cbn [shp dat]. rewrite map_length. auto. Qed.

  Lemma alias_inv (x : arg T) v : alias x = Some v -> x = Ref v /\ v_f32 v = true.
  Proof. destruct x as [a|u]; cbn; [discriminate|]. destruct (v_f32 u) eqn:E; [|discriminate]. intro H. injection H as <-. auto. Qed.
  Lemma alias_f32 (x : arg T) : is_f32 x -> exists v, x = Ref v /\ alias x = Some v.
  Proof. destruct x as [a|v]; cbn; [tauto|]. intro H. rewrite H. eauto. Qed.
  Lemma alias_no (x : arg T) : ~ is_f32 x -> alias x = None.
  Proof. destruct x as [a|v]; cbn; auto. destruct (v_f32 v); auto. tauto. Qed.

  Lemma write_if_out h (x : arg T) (a : nd T) c : (is_f32 x -> ~ In c (cells x)) -> write_if h (alias x) a c = h c.
  Proof.
    intro H. destruct (alias x) as [v|] eqn:E; cbn [write_if]; auto. destruct (alias_inv _ _ E) as [-> Hf].
    apply write_out. apply H. exact Hf.
  Qed.

  Lemma frame_read h (x : arg T) (m' : nd T) : arg_ok h x -> frame (map1 cst (value h x)) m' -> forall h',
    (forall v, alias x = Some v -> forall c, In c (v_cells v) -> h' c = h c) ->
    read_if (write_if h' (alias x) m') (alias x) m' = m'.
  Proof.
    intros Ha (Hs & Hw & Hf) h' Hh. destruct (alias x) as [v|] eqn:E; auto. cbn [read_if write_if].
    destruct (alias_inv _ _ E) as [-> H32]. cbn [value arg_ok] in *. destruct Ha as [Hv Hc].
    rewrite map1_32 in Hs, Hf by auto. apply read_write; auto.
    intros i Hi Hk. rewrite (read_ext h h') by (apply Hh; auto). apply Hf; auto.
  Qed.

  (** The in-place correction. *)
  Lemma gst_h_spec h (xm xiv : arg T) : arg_ok h xm -> arg_ok h xiv -> apart xm xiv ->
    shp (value h xiv) = shp (value h xm) -> shp (value h xm) <> [] ->
    let m := map1 cst (value h xm) in let iv := map1 cst (value h xiv) in
    let (h', r) := gst_to_ab_h h (alias xm) (alias xiv) m (Some iv) in
    r = gst_to_ab m (Some iv) /\
    same_but [xm; xiv] h h' /\
    match gst_to_ab m (Some iv) with
    | Raise _ => same_mem h h'
    | Ok (m', o) => exists iv', o = Some iv' /\ 7 <= lastd (shp (value h xm)) /\
        frame m m' /\ frame iv iv' /\
        (is_f32 xm -> value h' xm = m') /\ (is_f32 xiv -> value h' xiv = iv')
    end.
  Proof.
    intros Hm Hi Hap Hs Hne m iv. unfold gst_to_ab_h.
    destruct (Nat.leb_spec 7 (lastd (shp (value h xm)))) as [H7|H7].
    2:{ destruct (gst_short m iv) as (e & E); auto. rewrite E. split; auto. split; intros c; auto. }
    destruct (gst_long m iv) as (m' & iv' & E & Fm & Fi); auto; try (apply wf_map1, value_wf; auto).
    rewrite E. cbn [option_map].
    set (h1 := write_if h (alias xm) m'). set (h2 := write_if h1 (alias xiv) iv').
    assert (E1 : read_if h2 (alias xm) m' = m').
    { rewrite <- (frame_read h xm m' Hm Fm h ltac:(auto)) at 2. fold h1. destruct (alias xm) as [v|] eqn:Ea; auto.
      cbn [read_if]. apply read_ext. intros c Hc. apply write_if_out. intros _ Hc'.
      destruct (alias_inv _ _ Ea) as [-> _]. apply (Hap c); auto. }
    assert (E2 : read_if h2 (alias xiv) iv' = iv').
    { apply (frame_read h xiv iv' Hi Fi h1). intros v Ev c Hc. apply write_if_out. intros _ Hc'.
      destruct (alias_inv _ _ Ev) as [-> _]. apply (Hap c); auto. }
    rewrite E1, E2. split; auto. split.
    - intros c Hc. unfold h2. rewrite write_if_out by (apply (Hc xiv); cbn; auto).
      apply write_if_out. apply (Hc xm). cbn; auto.
    - exists iv'. repeat (split; [solve [auto]|]). split; intro H.
      + destruct (alias_f32 _ H) as (v & -> & Ea). rewrite Ea in E1. exact E1.
      + destruct (alias_f32 _ H) as (v & -> & Ea). rewrite Ea in E2. exact E2.
  Qed.

  Lemma doc_of_ok (F : fitter T) z m iv c p : process_inputs F (Some z) m iv c = Ok p ->
    documented (length (f_resp F)) (f_nsed F) z m iv c.
  Proof.
    unfold process_inputs.
    change (ndim (map1 cst z)) with (ndim z). change (shp (map1 cst z)) with (shp z).
    destruct (Nat.leb (ndim z) 1) eqn:Hd; [|discriminate].
    set (array := Nat.eqb (ndim z) 1).
    set (n := if array then size (shp z) else 1).
    destruct (opt_shape_ok array n (length (f_resp F)) (option_map (map1 cst) m)) eqn:E1; [|discriminate].
    destruct (opt_shape_ok array n (length (f_resp F)) (option_map (map1 cst) iv)) eqn:E2; [|discriminate].
    destruct (opt_shape_ok array n (f_nsed F) (option_map (map1 cst) c)) eqn:E3; [|discriminate].
    intros _. apply opt_shape_ok_iff in E1, E2, E3. unfold array, n, ndim in *.
    destruct (shp z) as [|k [|]] eqn:Hz; cbn in *; try discriminate.
    - left; auto.
    - right. exists k. rewrite Nat.mul_1_r in *. auto.
  Qed.

  Lemma doc_shapes (nb nt : nat) (z m iv : nd T) c : documented nb nt z (Some m) (Some iv) c ->
    shp m <> [] /\ shp iv = shp m /\ lastd (shp m) = nb.
  Proof.
    intros [(Hz & Hm & Hi & _) | (n & Hz & Hm & Hi & _)]; rewrite (Hm _ eq_refl), (Hi _ eq_refl); repeat split; auto; discriminate.
  Qed.

  Lemma no_ab_without (F : fitter T) : no_ab (without_ab F).
  Proof. left. reflexivity. Qed.

  Lemma process_h_spec (F : fitter T) h z xm xiv c : arg_ok h xm -> arg_ok h xiv -> apart xm xiv ->
    let (h', r) := process_h F h (Some z) (Some xm) (Some xiv) c in
    r = process_inputs F (Some z) (Some (value h xm)) (Some (value h xiv)) c /\
    same_but [xm; xiv] h h' /\
    (same_mem h h' \/ corrects F h z xm xiv c) /\
    (corrects F h z xm xiv c -> exists m' iv',
       to_ab GST (map1 cst (value h xm)) (Some (map1 cst (value h xiv))) = Ok (m', Some iv') /\
       (is_f32 xm -> value h' xm = m') /\ (is_f32 xiv -> value h' xiv = iv')).
  Proof.
    intros Hm Hi Hap. unfold process_h. rewrite (proc_split F). cbn [option_map obind].
    destruct (process_inputs (without_ab F) _ _ _ _) as [p|e] eqn:Ep.
    2:{ split; auto. split; [intros x _; auto|]. split; [left; intro; auto|]. intros (_ & _ & _ & D). exfalso.
        change (length (f_resp F)) with (length (f_resp (without_ab F))) in D. change (f_nsed F) with (f_nsed (without_ab F)) in D.
        rewrite (process_inputs_ok (no_ab_without F) D) in Ep. discriminate. }
    destruct (proc_plain_inv _ _ _ _ _ _ Ep) as [Qm Qi]. rewrite Qm, Qi. cbn [option_map].
    pose proof (doc_of_ok _ _ _ _ _ _ Ep) as D. cbn [without_ab f_resp] in D. change (f_nsed (without_ab F)) with (f_nsed F) in D.
    destruct (doc_shapes _ _ _ _ _ _ D) as (Hne & Hs & Hl).
    destruct (f_abc F) eqn:Ea.
    2:{ split; auto. split; [intros x _; auto|]. split; [left; intro; auto|]. intros (E & _). congruence. }
    destruct (f_kind F) eqn:Ek; cbn [to_ab_h].
    1,2: destruct (to_ab _ _ _) as [[a b]|]; (split; [auto|]; split; [intros x _; auto|]; split; [left; intro; auto|]; intros (_ & E & _); congruence).
    pose proof (gst_h_spec h xm xiv Hm Hi Hap Hs Hne) as G. cbv zeta in G.
    destruct (gst_to_ab_h _ _ _ _ _) as [h' r] eqn:Eh. destruct G as (-> & Hb & G).
    change (to_ab GST) with (@gst_to_ab T N).
    destruct (gst_to_ab _ _) as [[m' o]|e] eqn:Eg.
    - destruct G as (iv' & -> & H7 & Fm & Fi & Rm & Ri). split; auto. split; auto. split.
      + right. repeat (split; [solve [auto | lia]|]). auto.
      + intros _. eauto.
    - split; auto. split; auto. split; auto. intros (_ & _ & H7 & _). exfalso.
      destruct (gst_long (map1 cst (value h xm)) (map1 cst (value h xiv))) as (a & b & E & _); auto using wf_map1, value_wf;
        [cbn [map1 shp]; lia|congruence].
  Qed.

  Lemma process_h_harmless (F : fitter T) h z xm xiv c : harmless F xm xiv ->
    process_h F h z xm xiv c = (h, process_inputs F z (option_map (value h) xm) (option_map (value h) xiv) c).
  Proof.
    intro H. unfold process_h. rewrite (proc_split F).
    destruct (process_inputs (without_ab F) _ _ _ _) as [p|e] eqn:Ep; auto.
    destruct (proc_plain_inv _ _ _ _ _ _ Ep) as [Qm Qi].
    destruct (f_abc F) eqn:Ea; auto. rewrite Qm. destruct xm as [xm|]; cbn [option_map]; auto.
    destruct (f_kind F) eqn:Ek; cbn [to_ab_h].
    1,2: destruct (to_ab _ _ _) as [[a b]|]; auto.
    destruct H as [H|[H|[H|[H|H]]]]; try congruence.
    - cbn [obind]. rewrite (alias_no xm) by (apply H; auto). rewrite Qi. unfold gst_to_ab_h. change (to_ab GST) with (@gst_to_ab T N).
      destruct xiv as [xiv|]; cbn [option_map obind].
      + rewrite (alias_no xiv) by (apply H; auto). destruct (gst_to_ab _ _) as [[a [b|]]|]; auto.
      + destruct (gst_none (map1 cst (value h xm))) as (e & E). rewrite E. auto.
    - subst xiv. rewrite Qi. cbn [option_map obind]. unfold gst_to_ab_h. change (to_ab GST) with (@gst_to_ab T N).
      destruct (gst_none (map1 cst (value h xm))) as (e & E). rewrite E. auto.
  Qed.
End X.
