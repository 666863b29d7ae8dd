(** Properties of ResponseDict and all_responses (C22-C24, C58): the proofs. *)
From Coq Require Import String Ascii List Arith Lia Bool Reals Lra.
From Verif Require Import Base BaseLemmas Num Toy Interp Spec Utils Sed Response RespDict LinInterp ResponseEx.
Import ListNotations.
(* STATEMENTS *)
From Verif Require Import ResponseObj.

Lemma band_file : exists r : resp R, Response lin bq0 sun0 sun0 [1;2;3;4]%R [0;1;1;0]%R = Ok r /\
  fromdat lin bq0 sun0 sun0 blank (Some (Ok ([1;2;3;4]%R, [0;1;1;0]%R))) = (r, None).
Proof.
  destruct trapezium_band as (r & Hr). assert (H : Response lin bq0 sun0 sun0 [1;2;3;4]%R [0;1;1;0]%R = Ok r) by apply Hr. exists r.
  split; [exact H|]. unfold Response in H. unfold fromdat. cbn [fst snd].
  destruct (sort_pair [1;2;3;4]%R [0;1;1;0]%R); [|discriminate]. cbn [bind] in H.
  destruct (resp_setup _ _ _ _ _) as [r' [e|]]; [discriminate|]. injection H as <-. reflexivity.
Qed.

Lemma dget_dset {A} (d : dict A) k v k' : dget (dset d k v) k' = if String.eqb k k' then Some v else dget d k'.
Proof.
  induction d as [|[a b] d IH]; cbn [dset dget]; auto.
  destruct (String.eqb_spec a k) as [->|Hn].
  - cbn [dget]. destruct (String.eqb k k'); auto.
  - cbn [dget]. rewrite IH. destruct (String.eqb_spec a k') as [->|]; auto.
    destruct (String.eqb_spec k k'); auto. congruence.
Qed.

(** C22. *)
Lemma L_C22_present_is_noop :
  forall (T : Type) (N : Num T) cub bq sun vega fs (d : dict (resp T)) name r,
    dget d name = Some r -> load_response cub bq sun vega fs d name false = (d, None).
Proof. intros. unfold load_response, dmem. rewrite H. reflexivity. Qed.
Lemma E_C22_present_is_noop : exists d : dict (resp Z), dget d "u" = Some blank.
Proof. exists [("u"%string, blank)]. reflexivity. Qed.

(** Loading (successful or not, reloading or not) never touches the other entries. *)
Lemma L_C22_others_untouched :
  forall (T : Type) (N : Num T) cub bq sun vega fs (d : dict (resp T)) name reload other,
    other <> name ->
    dget (fst (load_response cub bq sun vega fs d name reload)) other = dget d other.
Proof.
  intros T N cub bq sun vega fs d name reload other Hn. unfold load_response.
  destruct (dmem d name && negb reload); auto.
  destruct (fromdat _ _ _ _ _ _) as [r e]. cbn [fst]. rewrite dget_dset.
  destruct (String.eqb_spec name other); congruence.
Qed.
Lemma E_C22_others_untouched : "u"%string <> "g"%string.
Proof. discriminate. Qed.

(** After a load without exception the name is present, with wave, response, interpolator and all derived
    attributes of the file set. *)
Lemma L_C22_successful_load :
  forall (T : Type) (N : Num T) cub bq sun vega fs (d d' : dict (resp T)) name reload,
    load_response cub bq sun vega fs d name reload = (d', None) ->
    (dmem d name = true /\ reload = false /\ d' = d) \/
    (exists r w y, dget d' name = Some r /\ fs (name ++ ".dat")%string = Some (Ok (w, y)) /\
                   Response cub bq sun vega w y = Ok r).
Proof.
  intros T N cub bq sun vega fs d d' name reload. unfold load_response.
  destruct (dmem d name && negb reload) eqn:E.
  - intro H. injection H as <-. left. apply andb_prop in E as [E1 E2]. destruct reload; auto; discriminate.
  - unfold fromdat. destruct (fs (name ++ ".dat")%string) as [[[w y]|e]|]; try discriminate.
    cbn [fst snd]. destruct (sort_pair w y) as [p|e] eqn:Es; [|discriminate].
    destruct (resp_setup cub bq sun vega (with_curve blank (fst p) (snd p))) as [r o] eqn:Er.
    intro H. injection H as <- ->. right. exists r, w, y. rewrite dget_dset, String.eqb_refl.
    split; auto. split; auto. unfold Response. rewrite Es. cbn [bind]. rewrite Er. reflexivity.
Qed.
Lemma E_C22_successful_load : exists (fs : @fsys R) (d d' : dict (resp R)),
  load_response lin bq0 sun0 sun0 fs d "u" false = (d', None) /\ dmem d "u" = false /\ dmem d' "u" = true.
Proof.
  destruct band_file as (r & _ & H). exists (fun _ => Some (Ok ([1;2;3;4]%R, [0;1;1;0]%R))), [], [("u"%string, r)].
  unfold load_response. cbn [dmem dget andb]. rewrite H. auto.
Qed.

(** After any history of calls, the entry of a name is the one created by its last effective load: the last
    call on it that either reloaded or found it absent.  The result of each load depends only on the file at
    that time. *)
Lemma load_run_snoc {T} {N : Num T} cub bq sun vega (d : dict (resp T)) ops o :
  load_run cub bq sun vega d (ops ++ [o]) = load_step cub bq sun vega (load_run cub bq sun vega d ops) o.
Proof. unfold load_run. rewrite fold_left_app. reflexivity. Qed.

Lemma L_C22_history :
  forall (T : Type) (N : Num T) cub bq sun vega (ops : list (@load_op T)) (d : dict (resp T)) name,
    let d' := load_run cub bq sun vega d ops in
    (dget d' name = dget d name /\ (forall o, In o ops -> l_name o = name -> l_reload o = false /\ dmem d name = true))
    \/ exists before o after,
        ops = before ++ o :: after /\ l_name o = name /\
        dget d' name = Some (fst (fromdat cub bq sun vega blank (l_fs o (name ++ ".dat")%string))) /\
        (forall o', In o' after -> l_name o' = name -> l_reload o' = false) /\
        (l_reload o = true \/ (dget d name = None /\ forall o', In o' before -> l_name o' <> name)).
Proof.
  intros T N cub bq sun vega ops. induction ops as [|o ops IH] using rev_ind; intros d name d'.
  - left. split; auto. intros o [].
  - subst d'. rewrite load_run_snoc. set (d1 := load_run cub bq sun vega d ops) in *.
    specialize (IH d name). cbn zeta in IH. fold d1 in IH.
    assert (Hstep : dget (load_step cub bq sun vega d1 o) name =
      if String.eqb (l_name o) name then
        if dmem d1 name && negb (l_reload o) then dget d1 name
        else Some (fst (fromdat cub bq sun vega blank (l_fs o (name ++ ".dat")%string)))
      else dget d1 name).
    { unfold load_step. destruct (String.eqb_spec (l_name o) name) as [<-|Hn].
      - unfold load_response. destruct (dmem d1 (l_name o) && negb (l_reload o)); auto.
        destruct (fromdat _ _ _ _ _ _) as [r e]. cbn [fst]. rewrite dget_dset, String.eqb_refl. reflexivity.
      - apply L_C22_others_untouched. auto. }
    rewrite Hstep. destruct (String.eqb_spec (l_name o) name) as [Ho|Ho].
    + destruct (dmem d1 name && negb (l_reload o)) eqn:E.
      * apply andb_prop in E as [E1 E2]. apply negb_true_iff in E2. destruct IH as [[I1 I2]|(b & q & a & I1 & I2 & I3 & I4 & I5)].
        -- left. split; auto. intros q Hq Hqn. apply in_app_or in Hq as [Hq|[<-|[]]]; auto.
           split; auto. unfold dmem in *. rewrite <- I1. auto.
        -- right. exists b, q, (a ++ [o]). subst ops. rewrite <- app_assoc. repeat split; auto.
           intros q' Hq' Hn'. apply in_app_or in Hq' as [Hq'|[<-|[]]]; auto.
      * right. exists ops, o, []. repeat split; auto; [intros q []|].
        destruct (l_reload o) eqn:Er; [left; auto|]. right. cbn [negb] in E. rewrite andb_true_r in E.
        unfold dmem in E. destruct (dget d1 name) eqn:Ed; [discriminate|].
        destruct IH as [[I1 I2]|(b & q & a & I1 & I2 & I3 & _)]; [|congruence].
        split; [congruence|]. intros q Hq Hn. destruct (I2 q Hq Hn) as [_ I3]. unfold dmem in I3. rewrite <- I1 in I3. discriminate.
    + destruct IH as [[I1 I2]|(b & q & a & I1 & I2 & I3 & I4 & I5)].
      * left. split; auto. intros q Hq Hqn. apply in_app_or in Hq as [Hq|[<-|[]]]; auto. contradiction.
      * right. exists b, q, (a ++ [o]). subst ops. rewrite <- app_assoc. repeat split; auto.
        intros q' Hq' Hn'. apply in_app_or in Hq' as [Hq'|[<-|[]]]; auto. contradiction.
Qed.
Lemma E_C22_history : exists (f1 f2 : @fsys R) (r : resp R), r <> blank /\
  let ops := [{| l_fs := f1; l_name := "u"; l_reload := false |}; {| l_fs := f2; l_name := "u"; l_reload := false |};
              {| l_fs := f2; l_name := "u"; l_reload := true |}; {| l_fs := f1; l_name := "u"; l_reload := false |}] in
  dget (load_run lin bq0 sun0 sun0 [] (firstn 1 ops)) "u" = Some blank /\
  dget (load_run lin bq0 sun0 sun0 [] (firstn 2 ops)) "u" = Some blank /\
  dget (load_run lin bq0 sun0 sun0 [] ops) "u" = Some r.
Proof.
  destruct band_file as (r & HR & H). exists (fun _ => None), (fun _ => Some (Ok ([1;2;3;4]%R, [0;1;1;0]%R))), r. split.
  - intros ->. destruct trapezium_band as (r & Hr). unfold band in Hr. rewrite HR in Hr. 
  cbn in Hr. decompose [and] Hr. match goal with H : Ok blank = Ok _ |- _ => injection H as <- end. discriminate.
  - cbn zeta. unfold load_run, load_step, load_response. cbn -[fromdat]. rewrite H. auto.
Qed.

(** C23. A failing load raises, and the name is present afterwards; the next load of it does nothing and
    succeeds. *)
Lemma L_C23_failed_load_poisons :
  forall (T : Type) (N : Num T) cub bq sun vega fs (d d' : dict (resp T)) name reload e,
    load_response cub bq sun vega fs d name reload = (d', Some e) ->
    dget d' name = Some (fst (fromdat cub bq sun vega blank (fs (name ++ ".dat")%string))) /\
    forall fs', load_response cub bq sun vega fs' d' name false = (d', None).
Proof.
  intros T N cub bq sun vega fs d d' name reload e. unfold load_response at 1.
  destruct (dmem d name && negb reload); [discriminate|].
  destruct (fromdat _ _ _ _ _ _) as [r o]. intro H. injection H as <- ->.
  assert (Hg : dget (dset d name r) name = Some r) by (rewrite dget_dset, String.eqb_refl; auto).
  split; auto. intro fs'. eapply L_C22_present_is_noop; eauto.
Qed.
Lemma E_C23_failed_load_poisons : exists (fs : @fsys R) (d d' : dict (resp R)),
  load_response lin bq0 sun0 sun0 fs d "u" true = (d', Some ValueError) /\ dmem d "u" = true /\ d' = [("u"%string, blank)].
Proof.
  destruct band_file as (r & _ & H). exists (fun _ => None), [("u"%string, r)]. eexists. split; [reflexivity|]. auto.
Qed.
(** ... in particular a missing file leaves a blank entry, even over a good one when reloading. *)
Lemma L_C23_missing_file_blank :
  forall (T : Type) (N : Num T) cub bq sun vega fs (d : dict (resp T)) name reload,
    fs (name ++ ".dat")%string = None -> (dget d name = None \/ reload = true) ->
    snd (load_response cub bq sun vega fs d name reload) = Some ValueError /\
    dget (fst (load_response cub bq sun vega fs d name reload)) name = Some blank.
Proof.
  intros T N cub bq sun vega fs d name reload Hf Hc. unfold load_response, fromdat. rewrite Hf.
  assert (E : dmem d name && negb reload = false).
  { destruct Hc as [Hc| ->]; [unfold dmem; rewrite Hc; auto|apply andb_false_r]. }
  rewrite E. cbn [fst snd]. rewrite dget_dset, String.eqb_refl. auto.
Qed.
Lemma E_C23_missing_file_blank : exists fs : @fsys Z, fs "nope.dat"%string = None /\ fs "u.dat"%string <> None.
Proof. exists (fun s => if String.eqb s "u.dat" then Some (Ok ([], [])) else None). split; [reflexivity|discriminate]. Qed.

(** ** The regular expression *)
Lemma string_length_app s t : String.length (s ++ t) = (String.length s + String.length t)%nat.
Proof. induction s as [|c s IH]; cbn; auto. Qed.
Lemma strip_suffix_spec suf s p : strip_suffix suf s = Some p <-> s = (p ++ suf)%string.
Proof.
  revert p. induction s as [|c s IH]; intro p; cbn [strip_suffix].
  - destruct (String.eqb_spec "" suf) as [<-|Hn].
    + split; [intro H; injection H as <-; reflexivity|]. intro H. destruct p; auto. discriminate.
    + split; [discriminate|]. intro H. destruct p as [|a p]; [cbn in H; congruence|discriminate].
  - destruct (String.eqb_spec (String c s) suf) as [<-|Hn].
    + split; [intro H; injection H as <-; reflexivity|]. intro H. destruct p as [|a p]; auto.
      exfalso. apply (f_equal String.length) in H. rewrite string_length_app in H. cbn in H. lia.
    + split.
      * destruct (strip_suffix suf s) as [q|] eqn:E; [|discriminate]. cbn. intro H. injection H as <-.
        pose proof (proj1 (IH q) eq_refl) as Hq. cbn. congruence.
      * intro H. destruct p as [|a p]; [cbn in H; congruence|]. cbn in H.
        assert (Hc : c = a) by congruence. assert (Hs : s = (p ++ suf)%string) by congruence.
        apply IH in Hs. rewrite Hs. subst. reflexivity.
Qed.
Lemma has_newline_spec s : has_newline s = false <-> newline_free s.
Proof.
  induction s as [|c s IH]; cbn [has_newline newline_free]; [tauto|].
  rewrite orb_false_iff, IH. unfold newline.
  destruct (Ascii.eqb_spec c (Ascii.ascii_of_nat 10)); intuition congruence.
Qed.
Lemma newline_free_app s t : newline_free (s ++ t) <-> newline_free s /\ newline_free t.
Proof. induction s as [|c s IH]; cbn [String.append newline_free]; [tauto|]. rewrite IH. tauto. Qed.

(** For file names without newlines: exactly the names ending in .dat. *)
Lemma dat_name_spec f p : newline_free f -> dat_name f = Some p <-> dat_file f p.
Proof.
  intro Hf. unfold dat_name, dat_file. destruct (strip_suffix ".dat" f) as [q|] eqn:E.
  - apply strip_suffix_spec in E. assert (Hq : newline_free q) by (subst f; apply newline_free_app in Hf; tauto).
    apply has_newline_spec in Hq. rewrite Hq. split.
    + intro H. injection H as <-. auto.
    + intro H. apply strip_suffix_spec in E. apply strip_suffix_spec in H. congruence.
  - destruct (strip_suffix (".dat" ++ String newline "") f) as [q|] eqn:E2.
    + exfalso. apply strip_suffix_spec in E2. subst f. apply newline_free_app in Hf as [_ Hf]. cbn in Hf. tauto.
    + split; [discriminate|]. intro H. apply strip_suffix_spec in H. congruence.
Qed.

(** C24. Without check_validity: the base names of the regular files ending in .dat, in directory order. *)
Lemma L_C24_lists_dat_files :
  forall (T : Type) (N : Num T) cub bq sun vega fs (files : list (string * bool)) (d : dict (resp T)),
    Forall (fun f => newline_free (fst f)) files ->
    exists names, all_responses cub bq sun vega fs false (Some files) d = (d, Ok names) /\
      Forall2 dat_file (map fst (filter (fun f => snd f && match dat_name (fst f) with Some _ => true | None => false end) files)) names /\
      (forall name, In name names <-> exists f, In (f, true) files /\ dat_file f name) /\
      (NoDup (map fst files) -> NoDup names).
Proof.
  intros T N cub bq sun vega fs files d Hnl.
  assert (H : exists names, all_loop cub bq sun vega fs false files d = (d, names) /\
      Forall2 dat_file (map fst (filter (fun f => snd f && match dat_name (fst f) with Some _ => true | None => false end) files)) names).
  { induction Hnl as [|[f b] files Hf Hnl IH]; [exists []; split; [reflexivity|constructor]|].
    destruct IH as (names & E & F). cbn [all_loop filter fst snd]. destruct b; cbn [andb].
    - destruct (dat_name f) as [p|] eqn:Ed.
      + exists (p :: names). rewrite E. split; auto. cbn [map fst]. constructor; auto. apply dat_name_spec; auto.
      + exists names. auto.
    - exists names. auto. }
  destruct H as (names & E & F). exists names. unfold all_responses. rewrite E. split; auto. split; auto.
  split.
  - intro name. split.
    + intro Hin. destruct (@In_nth_error _ _ _ Hin) as (i & Hi).
      assert (Hex : exists f, In f (map fst (filter (fun f => snd f && match dat_name (fst f) with Some _ => true | None => false end) files)) /\ dat_file f name).
      { clear -F Hin. induction F as [|f n fs ns Hfn F IH]; [destruct Hin|]. destruct Hin as [->|Hin].
        - exists f. split; [left|]; auto.
        - destruct (IH Hin) as (g & Hg & Hd). exists g. split; [right|]; auto. }
      destruct Hex as (f & Hf & Hd). apply in_map_iff in Hf as ([f' b] & Hff & Hf'). cbn in Hff. subst f'.
      apply filter_In in Hf' as [Hf' Hb]. cbn in Hb. apply andb_prop in Hb as [-> _]. exists f. auto.
    + intros (f & Hf & Hd).
      assert (Hin : In f (map fst (filter (fun f => snd f && match dat_name (fst f) with Some _ => true | None => false end) files))).
      { apply in_map_iff. exists (f, true). split; auto. apply filter_In. split; auto. cbn.
        rewrite Forall_forall in Hnl. specialize (Hnl _ Hf). cbn [fst] in Hnl. apply (dat_name_spec _ name) in Hnl. apply Hnl in Hd. rewrite Hd. auto. }
      clear -F Hin Hd. induction F as [|g n fs ns Hfn F IH]; [destruct Hin|]. destruct Hin as [->|Hin]; [|right; auto].
      left. unfold dat_file in *. rewrite Hd in Hfn. apply strip_suffix_spec in Hfn.
      pose proof (proj2 (strip_suffix_spec ".dat" (name ++ ".dat") name) eq_refl). congruence.
  - intro Hnd.
    assert (Hnd' : NoDup (map fst (filter (fun f => snd f && match dat_name (fst f) with Some _ => true | None => false end) files))).
    { clear -Hnd. induction files as [|[f b] files IH]; cbn; [constructor|]. inversion Hnd as [|? ? Hn Hd]; subst.
      destruct (b && _); auto. cbn. constructor; auto. intro Hin. apply Hn. apply in_map_iff in Hin as ([g c] & Hg & Hin).
      apply filter_In in Hin as [Hin _]. apply in_map_iff. exists (g, c). auto. }
    clear -F Hnd'. induction F as [|f n fs ns Hfn F IH]; [constructor|]. inversion Hnd' as [|? ? Hn Hd]; subst.
    constructor; auto. intro Hin. apply Hn.
    clear -F Hin Hfn. induction F as [|g m fs ns Hgm F IH]; [destruct Hin|]. destruct Hin as [->|Hin]; [left|right; auto].
    unfold dat_file in *. congruence.
Qed.
Lemma E_C24_lists_dat_files :
  let files := [("sdss_u0.dat", true); ("sub.dat", false); ("README", true)]%string in
  Forall (fun f => newline_free (fst f)) files /\ NoDup (map fst files).
Proof.
  cbn. split; repeat constructor; cbn; intuition discriminate.
Qed.

(** With check_validity and a cache that holds none of the names: exactly the names whose file in the package
    directory loads. *)
Lemma all_loop_check {T} {N : Num T} cub bq sun vega fs files : forall (d : dict (resp T)),
  let names := flat_map (fun f : string * bool => match (if snd f then dat_name (fst f) else None) with Some n => [n] | None => [] end) files in
  NoDup names ->
  snd (all_loop cub bq sun vega fs true files d) =
    filter (fun n => dmem d n || match snd (fromdat cub bq sun vega blank (fs (n ++ ".dat")%string)) with None => true | Some _ => false end) names
  /\ (forall n, In n names -> dmem (fst (all_loop cub bq sun vega fs true files d)) n = true)
  /\ (forall n, dmem d n = true -> dmem (fst (all_loop cub bq sun vega fs true files d)) n = true).
Proof.
  induction files as [|[f b] files IH]; intros d names Hnd; subst names; cbn [all_loop flat_map fst snd] in *.
  - repeat split; auto.
  - destruct (if b then dat_name f else None) as [n|].
    + cbn [app] in *. inversion Hnd as [|? ? Hn Hd]; subst.
      destruct (load_response cub bq sun vega fs d n false) as [d1 e] eqn:El.
      specialize (IH d1 Hd). destruct IH as (I1 & I2 & I3).
      destruct (all_loop cub bq sun vega fs true files d1) as [d2 l] eqn:Ea. cbn [fst snd] in *.
      assert (Hother : forall m, m <> n -> dmem d1 m = dmem d m).
      { intros m Hm. unfold dmem. pose proof (L_C22_others_untouched T N cub bq sun vega fs d n false m Hm) as Ho.
        rewrite El in Ho. cbn [fst] in Ho. rewrite Ho. auto. }
      assert (Hhere : dmem d1 n = true /\ (match e with None => true | Some _ => false end) =
         (dmem d n || match snd (fromdat cub bq sun vega blank (fs (n ++ ".dat")%string)) with None => true | Some _ => false end)).
      { unfold load_response in El. cbn [negb] in El. rewrite andb_true_r in El. destruct (dmem d n) eqn:Em.
        - injection El as <- <-. split; auto.
        - destruct (fromdat _ _ _ _ _ _) as [r e']. injection El as <- <-. split; auto.
          unfold dmem. rewrite dget_dset, String.eqb_refl. auto. }
      destruct Hhere as [Hh1 Hh2]. repeat split.
      * cbn [filter]. rewrite <- Hh2, I1.
        assert (Ef : forall ns, ~ In n ns ->
          filter (fun m => dmem d1 m || match snd (fromdat cub bq sun vega blank (fs (m ++ ".dat")%string)) with None => true | Some _ => false end) ns =
          filter (fun m => dmem d m || match snd (fromdat cub bq sun vega blank (fs (m ++ ".dat")%string)) with None => true | Some _ => false end) ns).
        { intros ns Hns. apply filter_ext_in. intros m Hm. rewrite Hother; auto. intro; subst; contradiction. }
        rewrite Ef by auto. destruct e; reflexivity.
      * intros m [<-|Hm]; auto.
      * intros m Hm. apply I3. destruct (string_dec m n) as [->|Hmn]; auto. rewrite Hother; auto.
    + cbn [app] in *. apply IH. auto.
Qed.

Lemma names_of_files files : Forall (fun f : string * bool => newline_free (fst f)) files ->
  (forall name, In name (flat_map (fun f : string * bool => match (if snd f then dat_name (fst f) else None) with Some n => [n] | None => [] end) files)
     <-> exists f, In (f, true) files /\ dat_file f name) /\
  (NoDup (map fst files) ->
   NoDup (flat_map (fun f : string * bool => match (if snd f then dat_name (fst f) else None) with Some n => [n] | None => [] end) files)).
Proof.
  intro Hnl. assert (Hin : forall name, In name (flat_map (fun f : string * bool => match (if snd f then dat_name (fst f) else None) with Some n => [n] | None => [] end) files)
     <-> exists f, In (f, true) files /\ dat_file f name).
  { intro name. rewrite in_flat_map. rewrite Forall_forall in Hnl. split.
    - intros ([f b] & Hf & Hn). cbn [fst snd] in Hn. destruct b; [|destruct Hn].
      destruct (dat_name f) as [p|] eqn:E; [|destruct Hn]. destruct Hn as [->|[]]. exists f. split; auto.
      apply dat_name_spec; auto. apply (Hnl (f, true)); auto.
    - intros (f & Hf & Hd). exists (f, true). split; auto. cbn [fst snd].
      apply dat_name_spec in Hd; [|apply (Hnl (f, true)); auto]. rewrite Hd. left; auto. }
  split; auto. clear Hin. induction Hnl as [|[f b] files Hf Hnl IH]; intro Hnd; cbn [flat_map fst snd]; [constructor|].
  inversion Hnd as [|? ? Hn Hd]; subst. specialize (IH Hd). destruct b; [|auto].
  destruct (dat_name f) as [p|] eqn:E; auto. cbn [app]. constructor; auto.
  rewrite in_flat_map. intros ([g c] & Hg & Hp). cbn [fst snd] in Hp. destruct c; [|destruct Hp].
  destruct (dat_name g) as [q|] eqn:E2; [|destruct Hp]. destruct Hp as [->|[]].
  apply Hn. apply in_map_iff. exists (g, true). split; auto. cbn.
  rewrite Forall_forall in Hnl. apply dat_name_spec in E; [|exact Hf]. apply dat_name_spec in E2; [|apply (Hnl (g, true)); auto].
  unfold dat_file in *. congruence.
Qed.

Lemma L_C24_check_validity :
  forall (T : Type) (N : Num T) cub bq sun vega fs (files : list (string * bool)) (d : dict (resp T)),
    Forall (fun f => newline_free (fst f)) files -> NoDup (map fst files) ->
    exists d' names, all_responses cub bq sun vega fs true (Some files) d = (d', Ok names) /\
      forall name, In name names <->
        (exists f, In (f, true) files /\ dat_file f name) /\
        (dmem d name = true \/ exists w y r, fs (name ++ ".dat")%string = Some (Ok (w, y)) /\
                                             Response cub bq sun vega w y = Ok r).
Proof.
  intros T N cub bq sun vega fs files d Hnl Hnd. destruct (names_of_files files Hnl) as [H1 H2].
  destruct (all_loop_check cub bq sun vega fs files d (H2 Hnd)) as (E & _ & _).
  unfold all_responses. destruct (all_loop cub bq sun vega fs true files d) as [d' names]. cbn [snd] in E.
  exists d', names. split; auto. intro name. rewrite E, filter_In, H1, orb_true_iff.
  apply and_iff_compat_l. apply or_iff_compat_l. unfold fromdat.
  destruct (fs (name ++ ".dat")%string) as [[[w y]|e]|].
  - cbn [fst snd]. split.
    + intro H. exists w, y. unfold Response. destruct (sort_pair w y) as [p|]; [|discriminate]. cbn [bind].
      destruct (resp_setup _ _ _ _ _) as [r [e|]]; [discriminate|]. exists r. auto.
    + intros (w' & y' & r & Hw & HR). assert (w' = w) by congruence. assert (y' = y) by congruence. subst.
      unfold Response in HR. destruct (sort_pair w y) as [p|]; [|discriminate]. cbn [bind] in HR.
      destruct (resp_setup _ _ _ _ _) as [r' [e|]]; [discriminate|]. reflexivity.
  - cbn. split; [discriminate|]. intros (w' & y' & r & Hw & _). discriminate.
  - cbn. split; [discriminate|]. intros (w' & y' & r & Hw & _). discriminate.
Qed.
Lemma E_C24_check_validity : exists (fs : @fsys R) d',
  let files := [("u.dat", true); ("bad.dat", true); ("README", true)]%string in
  Forall (fun f => newline_free (fst f)) files /\ NoDup (map fst files) /\
  all_responses lin bq0 sun0 sun0 fs true (Some files) [] = (d', Ok ["u"%string]).
Proof.
  destruct band_file as (r & _ & H).
  exists (fun s => if String.eqb s "u.dat" then Some (Ok ([1;2;3;4]%R, [0;1;1;0]%R)) else None), [("u"%string, r); ("bad"%string, blank)].
  cbn zeta. split; [|split]; [repeat constructor; cbn; intuition discriminate..|].
  unfold all_responses, all_loop, load_response. cbn -[fromdat]. rewrite H. reflexivity.
Qed.

(** C23. The second call of all_responses(check_validity=True) reports every .dat file as valid. *)
Lemma L_C23_second_check_reports_all :
  forall (T : Type) (N : Num T) cub bq sun vega fs fs' (files : list (string * bool)) (d : dict (resp T)),
    Forall (fun f => newline_free (fst f)) files -> NoDup (map fst files) ->
    let d1 := fst (all_responses cub bq sun vega fs true (Some files) d) in
    exists d2 names, all_responses cub bq sun vega fs' true (Some files) d1 = (d2, Ok names) /\
      forall name, In name names <-> exists f, In (f, true) files /\ dat_file f name.
Proof.
  intros T N cub bq sun vega fs fs' files d Hnl Hnd d1. destruct (names_of_files files Hnl) as [H1 H2].
  destruct (all_loop_check cub bq sun vega fs files d (H2 Hnd)) as (_ & E2 & _).
  destruct (L_C24_check_validity T N cub bq sun vega fs' files d1 Hnl Hnd) as (d2 & names & E & Hn).
  exists d2, names. split; auto. intro name. rewrite Hn. split; [tauto|]. intro Hf. split; auto. left.
  subst d1. unfold all_responses. destruct (all_loop cub bq sun vega fs true files d) as [d1 l]. cbn [fst] in *.
  apply E2. apply H1. auto.
Qed.
Lemma E_C23_second_check_reports_all :
  let files := [("sdss_u0.dat", true); ("bad.dat", true)]%string in
  Forall (fun f => newline_free (fst f)) files /\ NoDup (map fst files).
Proof. cbn. split; repeat constructor; cbn; intuition discriminate. Qed.

(** C58. maggies2flambda of an unreadable response raises the first time and returns NaN the second time. *)
Lemma L_C58_second_call_nan :
  forall cub bq sun vega fs (d : dict (resp xr)) name (m : list xr),
    dget d name = None -> fs (name ++ ".dat")%string = None -> length m = 1%nat ->
    let (d1, r1) := maggies2flambda cub bq sun vega fs d [name] (vec m) None in
    let (d2, r2) := maggies2flambda cub bq sun vega fs d1 [name] (vec m) None in
    r1 = Raise ValueError /\ r2 = Ok ([NaN], vec [NaN], None).
Proof.
  intros cub bq sun vega fs d name m Hd Hf Hm.
  unfold maggies2flambda at 1. cbn [load_missing]. unfold dmem at 1. rewrite Hd.
  unfold load_response, fromdat. rewrite Hf. unfold dmem at 1. rewrite Hd. cbn [negb andb].
  unfold maggies2flambda. cbn [load_missing].
  assert (Hg : dget (dset d name blank) name = Some (@blank xr)) by (rewrite dget_dset, String.eqb_refl; auto).
  unfold dmem. rewrite Hg. split; auto. cbn [mapM]. rewrite Hg. cbn [bind blank p_leff f32_or_nan].
  destruct m as [|x [|]]; try discriminate.
  assert (E : @ndiv xr Num_xr n0 n0 = NaN).
  { cbn. rewrite Reqb_true by auto. unfold xsign_inf. rewrite Rltb_false by lra. try rewrite Rltb_false by lra. reflexivity. }
  rewrite E. unfold maggies2flambda_core. cbn. destruct x; reflexivity.
Qed.
Lemma E_C58_second_call_nan : exists (fs : @fsys xr) (d : dict (resp xr)), dget d "nope" = None /\ fs "nope.dat"%string = None.
Proof. exists (fun _ => None), []. split; reflexivity. Qed.

(** The claim "names ending in .dat" fails for file names with a trailing newline: '$' also matches before it. *)
Lemma L_C24_only_dat_files_refuted :
  exists cub bq sun vega (fs : @fsys Z) files name,
    all_responses cub bq sun vega fs false (Some files) [] = ([], Ok [name]) /\
    ~ exists f, In (f, true) files /\ dat_file f name.
Proof.
  exists (fun _ _ _ => 0%Z), (fun _ _ _ => Ok 0%Z), (Raise OSError), (Raise OSError), (fun _ => None),
    [(("u.dat" ++ String newline "")%string, true)], "u"%string.
  split; [reflexivity|]. intros (f & [Hf|[]] & Hd). injection Hf as <-. discriminate.
Qed.
