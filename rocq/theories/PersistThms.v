(** Files (C14, C53, C54, C63-C67): the proofs.  Prop_Persist.v restates them. *)
From Coq Require Import String Ascii List Arith Lia Bool ZArith QArith Qreals Reals Lra.
From Verif Require Import ResponseObj LinInterp ResponseEx.
From Verif Require Import Base BaseLemmas Num Toy Interp InterpReal Utils Sed Response RespDict Fitter FitSpec FitterProofs FitterMC
  FitReal FitTable FitEx FitRealEx Kcorrect KSpec KTable KEx KcorrectProofs RespDictThms KcorrectThms DerivedThms Persist PersistSpec
  PersistProofs PersistEx.
Import ListNotations.
Local Open Scope R_scope.

Lemma arow_node (A : atab R) nb nt k : tab_ok A nb nt -> grid_ok (a_x A) -> (k < length (a_x A))%nat ->
  arow A (nth k (a_x A) 0) = nth k (a_rows A) [].
Proof.
  intros HT Hg Hk. pose proof HT as (Hs & Hl & H2 & Hr).
  assert (HL : forall i, (i < length (a_x A))%nat -> length (nth i (a_rows A) []) = (nb * nt)%nat).
  { intros i Hi. eapply rect_nth; eauto. lia. }
  assert (Hz : forall (w : R) (u v : list R), length u = length v -> (w = 0 -> zip (fun a b => (1 - w) * a + w * b) u v = u) /\
                 (w = 1 -> zip (fun a b => (1 - w) * a + w * b) u v = v)).
  { intros w u. induction u as [|a u IH]; intros [|b v] H; try discriminate; [auto|]. cbn [zip]. injection H as H.
    destruct (IH v H) as [H3 H4]. split; intro E; (f_equal; [subst; lra|auto]). }
  destruct (Nat.eq_dec (S k) (length (a_x A))) as [E|E].
  - destruct k as [|k]; [lia|].
    pose proof (grid_nth _ Hg k (S k) ltac:(lia)) as Hlt.
    rewrite (arow_between A nb nt k) by (auto; try lia; lra).
    refine (proj2 (Hz _ _ _ _) _); [rewrite !HL by lia; auto|field; lra].
  - pose proof (grid_nth _ Hg k (S k) ltac:(lia)) as Hlt.
    rewrite (arow_between A nb nt k) by (auto; try lia; lra).
    refine (proj1 (Hz _ _ _ _) _); [rewrite !HL by lia; auto|unfold Rdiv; ring].
Qed.
Lemma grid_le x : grid_ok x -> forall i j, (i <= j < length x)%nat -> nth i x 0 <= nth j x 0.
Proof.
  intros Hg i j Hij. destruct (Nat.eq_dec i j) as [->|]; [lra|]. apply Rlt_le, grid_nth; auto. lia.
Qed.
Lemma last_is_nth : forall (l : list R), last l 0 = nth (length l - 1) l 0.
Proof.
  induction l as [|a [|b l] IH]; auto. change (last (b :: l) 0 = nth (S (length l)) (a :: b :: l) 0). rewrite IH. cbn [length nth].
  rewrite Nat.sub_succ, Nat.sub_0_r. reflexivity.
Qed.
Lemma acall_nodes (A : atab R) nb nt : tab_ok A nb nt -> grid_ok (a_x A) ->
  acall A (vec (a_x A)) = Ok (mk [length (a_x A); nb; nt] (concat (a_rows A))).
Proof.
  intros HT Hg. pose proof HT as (Hs & Hl & H2 & Hr). unfold acall. cbn [dat vec].
  assert (E : existsb (out_of (a_x A)) (a_x A) = false).
  { apply not_true_iff_false. rewrite existsb_exists. intros (z & Hin & Ho).
    assert (HR : in_range (a_x A) z).
    { apply (In_nth _ _ 0) in Hin as (k & Hk & <-). split.
      - apply grid_le; auto. lia.
      - rewrite last_is_nth. apply grid_le; auto. lia. }
    apply out_of_range in HR. congruence. }
  rewrite E. cbn [negb shp vec]. rewrite Hs. do 2 f_equal. f_equal.
  rewrite <- (map_nth_seq _ [] (a_rows A)). rewrite <- (map_nth_seq _ 0 (a_x A)) at 1. rewrite map_map, Hl.
  apply map_ext_in. intros k Hk. apply in_seq in Hk. eapply arow_node; eauto. lia.
Qed.

Lemma index_of_first : forall l x i, nth_error l i = Some x -> (forall i', (i' < i)%nat -> nth_error l i' <> Some x) -> index_of l x = Some i.
Proof.
  induction l as [|a l IH]; intros x i H Hf; [destruct i; discriminate|]. cbn [index_of]. destruct (String.eqb_spec a x) as [->|Hn].
  - destruct i as [|i]; auto. exfalso. apply (Hf 0%nat); [lia|auto].
  - destruct i as [|i]; [cbn in H; congruence|]. rewrite (IH x i); auto. intros i' Hi'. apply (Hf (S i')). lia.
Qed.
Lemma make_imap_first resp : forall m im, length im = length m ->
  (forall j name, nth_error m j = Some name -> exists i, nth_error im j = Some i /\ nth_error resp i = Some name /\
      forall i', (i' < i)%nat -> nth_error resp i' <> Some name) -> make_imap resp m = Ok im.
Proof.
  unfold make_imap. induction m as [|x m IH]; intros [|i im] L H; try discriminate; auto.
  cbn [mapM]. destruct (H 0%nat x eq_refl) as (i0 & E & E1 & E2). injection E as <-. rewrite (index_of_first resp x i); auto.
  cbn [bind]. rewrite (IH im); auto. intros j name Hj. apply (H (S j) name Hj).
Qed.
Lemma grid_in_order (x : list R) : grid_ok x -> in_order x.
Proof.
  induction 1 as [|a l Hl IH Hf]; constructor; auto. apply Forall_forall. intros b Hb. rewrite Forall_forall in Hf.
  apply Hf in Hb. cbn. apply Rltb_niff. lra.
Qed.
Lemma reload_table (A : atab R) nb nt zs : tab_ok A nb nt -> a_x A = zs -> grid_ok zs ->
  acall A (vec zs) = Ok (mk [length zs; nb; nt] (concat (a_rows A))) /\ mk_linear zs (mk [length zs; nb; nt] (concat (a_rows A))) = Ok A.
Proof.
  intros HT <- Hg. split; [apply acall_nodes; auto|]. destruct HT as (Hs & Hl & H2 & Hr). rewrite mk_linear_in_order; auto.
  - destruct A; cbn in *. congruence.
  - apply grid_in_order; auto.
  - intro E. rewrite E in H2. cbn in H2. lia.
Qed.

Section Rest.
  Context {T : Type} {N : Num T}.
  Definition rest_eq (s s' : sed T) : Prop := s_rwave s' = s_rwave s /\ s_rflux s' = s_rflux s.
  Lemma calc_A_rest cub bq sun vega fs names zs d s d' s' A : calc_A cub bq sun vega fs names zs d s = (d', s', Ok A) -> rest_eq s s'.
  Proof.
    unfold calc_A. destruct (load_all _ _ _ _ _ _ _) as [d1 [e|]]; [discriminate|].
    destruct (z_loop cub d1 names zs s) as [s1 [tab|e]] eqn:E; [|discriminate]. apply z_loop_spec in E as (_ & R1 & R2 & _).
    destruct (mk_linear _ _); [|discriminate]. destruct (set_redshift s1 n0) as [s2 [e|]] eqn:E2; [discriminate|].
    apply set_redshift_at_z in E2 as (R3 & R4 & _). intro H. injection H as <- <- <-. split; congruence.
  Qed.
  Lemma Kcorrect_rest cub bq sun vega fs d k abc responses s t out map_ (r0 r1 : T) nz d' s' K :
    Kcorrect cub bq sun vega fs d k abc responses s t out map_ r0 r1 nz = (d', s', Ok K) -> rest_eq s (f_sed (k_fit K)).
  Proof.
    unfold Kcorrect, set_Amatrix. cbn [f_resp f_zs f_sed Fitter f_kind f_abc f_A].
    destruct (calc_A cub bq sun vega fs responses _ d s) as [[d0 s0] [A|?]] eqn:EC; [|discriminate].
    apply calc_A_rest in EC. destruct (negb _); [discriminate|]. cbn [f_sed f_A f_zs f_kind f_abc f_resp].
    destruct (if names_eqb _ responses then _ else _) as [[d2 s2] [Ao|e]] eqn:EO; [|discriminate].
    assert (X : rest_eq s s2).
    { destruct (names_eqb _ _); [injection EO as <- <- <-; auto|]. apply calc_A_rest in EO. destruct EC, EO. split; congruence. }
    intro H. injection H as <- <- H. cbn [bind] in H. apply bind_ok in H as (im & _ & H). injection H as <-. auto.
  Qed.
End Rest.
Lemma r_consistent k abc z : consistent (r_obj k abc z) (r_tab_in z) (r_tab_out z) 2 2 1.
Proof.
  unfold consistent. split; [unfold kready; repeat split; auto; unfold rect; repeat constructor|]. repeat split; auto.
  intros [|[|j]] name H; cbn in H; try (injection H as <-); try (destruct j; discriminate);
    (exists 1%nat; split; [reflexivity|]; split; [reflexivity|]; intros i' Hi'; assert (i' = 0)%nat as -> by lia; discriminate).
Qed.
Lemma r_obj_grid k abc z : 0 < z -> grid_ok (f_zs (k_fit (r_obj k abc z))).
Proof. intro H. cbn. repeat constructor; auto. Qed.
Lemma storable1 (c : ascii) : is_space c = false -> storable (String c "").
Proof.
  intro H0. assert (H : ~ white c) by (intro W; apply is_space_white in W; congruence). split; [cbn; lia|]. intros p c' E. destruct p as [|a p]; cbn in E; [injection E as <-; auto|].
  injection E as _ E. destruct p; discriminate.
Qed.
Lemma r_obj_names k abc z : Forall storable (f_resp (k_fit (r_obj k abc z)) ++ k_out (r_obj k abc z) ++ k_map (r_obj k abc z)).
Proof. cbn. repeat constructor; apply storable1; reflexivity. Qed.
Lemma r_obj_full k abc z : tmpl_full (k_tmpl (r_obj k abc z)).
Proof. unfold tmpl_full; cbn. repeat constructor; discriminate. Qed.
Lemma r_obj_load k abc z cub bq sun vega : load_all cub bq sun vega no_files (f_resp (k_fit (r_obj k abc z))) r_cache = (r_cache, None).
Proof. reflexivity. Qed.

(** A complete file, over the reals. *)
Lemma kcor_load_R trunc (K : kcor R) A Ao nb no nt :
  consistent K A Ao nb no nt -> grid_ok (f_zs (k_fit K)) -> nb <> 0%nat -> no <> 0%nat -> nt <> 0%nat -> tmpl_full (k_tmpl K) ->
  exists f, kcor_file trunc K = Ok f /\ forall cub bq sun vega fs d K0,
      kcor_fromfits cub bq sun vega fs d K0 (Some f) =
        match load_all cub bq sun vega fs (map stored_name (f_resp (k_fit K))) d with
        | (d', None) => (d', loaded trunc K0 K A Ao, None)
        | (d', Some e) => (d', half_loaded trunc K0 K, Some e)
        end.
Proof.
  intros HC Hg Hnb Hno Hnt Ht.
  destruct HC as (((HA & Hb & Hn & HT) & HAo & HTo & Ho & Hi & Hf) & X1 & X2 & Hs & Li & Hi').
  destruct (reload_table A nb nt _ HT X1 Hg) as [E1 E2]. destruct (reload_table Ao no nt _ HTo X2 Hg) as [E3 E4].
  assert (L2 : (2 <= length (f_zs (k_fit K)))%nat) by (rewrite <- X1; apply HT).
  assert (Hne : f_zs (k_fit K) <> []) by (intro E; rewrite E in L2; cbn in L2; lia).
  assert (SZ : forall n, n <> 0%nat -> size [length (f_zs (k_fit K)); n; nt] <> 0%nat).
  { intros n Hn0. cbn [size fold_right]. rewrite Nat.mul_1_r. apply Nat.neq_mul_0. split; [lia|]. apply Nat.neq_mul_0; auto. }
  destruct (kcor_load_any trunc (fun _ _ _ => 0) (fun _ _ _ => Raise Unmodelled) (Raise Unmodelled) (Raise Unmodelled) no_files
              K A Ao _ _ A Ao nt Hs Ht Hne HA HAo E1 E3 (SZ _ Hnb) (SZ _ Hno) E2 E4) as (f & Ef & _).
  exists f. split; auto. intros cub bq sun vega fs d K0.
  destruct (kcor_load_any trunc cub bq sun vega fs K A Ao _ _ A Ao nt Hs Ht Hne HA HAo E1 E3 (SZ _ Hnb) (SZ _ Hno) E2 E4) as (f' & Ef' & El).
  assert (f' = f) as -> by congruence. apply El.
Qed.
Lemma reloaded_R (s : sed R) : s_rwave (reloaded s) = s_rwave s /\ s_rflux (reloaded s) = s_rflux s.
Proof.
  unfold reloaded; cbn [s_rwave s_rflux]. destruct (s_bin _); rcbn; rewrite map_id; split; auto; unfold map1; rewrite map_id;
    destruct (s_rflux _); auto.
Qed.
Lemma lit_R z : @nlit R _ (z # 1) = IZR z.
Proof. rcbn; unfold Q2R; cbn [Qnum Qden]; field. Qed.
Lemma load_all_other T (N : Num T) cub bq sun vega fs nm : forall names (d : dict (resp T)), ~ In nm names ->
  dget (fst (load_all cub bq sun vega fs names d)) nm = dget d nm.
Proof.
  induction names as [|n names IH]; intros d Hn; auto. cbn [load_all]. destruct (load_response _ _ _ _ _ _ _ _) as [d1 [e|]] eqn:E.
  - cbn [fst]. pose proof (L_C22_others_untouched _ _ cub bq sun vega fs d n false nm) as H. rewrite E in H. apply H. cbn in Hn. intro; subst; tauto.
  - rewrite IH by (cbn in Hn; tauto). pose proof (L_C22_others_untouched _ _ cub bq sun vega fs d n false nm) as H. rewrite E in H. apply H.
    cbn in Hn. intro; subst; tauto.
Qed.

Lemma rstrip_split s : exists l, (rstrip s ++ l)%string = s /\ forall c, In c (list_ascii_of_string l) -> is_space c = true.
Proof.
  induction s as [|a s (l & E & Hl)]; [exists ""%string; split; [reflexivity|cbn; tauto]|]. cbn [rstrip].
  destruct (rstrip s) as [|b r].
  - destruct (is_space a) eqn:Ea.
    + exists (String a s). split; [reflexivity|]. cbn in E. subst s. cbn. intros c [<-|H]; auto.
    + exists l. cbn in *. split; [congruence|auto].
  - exists l. split; [cbn in *; congruence|auto].
Qed.
Lemma rstrip_end s : forall p c, rstrip s = (p ++ String c "")%string -> is_space c = false.
Proof.
  induction s as [|a s IH]; intros p c; cbn [rstrip]; [destruct p; discriminate|].
  destruct (rstrip s) as [|b r].
  - destruct (is_space a) eqn:Ea; [destruct p; discriminate|]. destruct p as [|x p]; cbn; intro E; [congruence|].
    injection E as _ E. destruct p; discriminate.
  - destruct p as [|x p]; cbn; intro E; [discriminate|]. injection E as _ E. apply (IH p c E).
Qed.
Lemma string_app_length s t : String.length (s ++ t) = (String.length s + String.length t)%nat.
Proof. induction s as [|a s IH]; cbn; congruence. Qed.
Lemma substring_length n : forall s, (String.length (substring 0 n s) <= n)%nat.
Proof. induction n as [|n IH]; intros [|a s]; cbn; auto; try lia. specialize (IH s). lia. Qed.
Lemma stored_is_storable s : storable (stored_name s).
Proof.
  split; [|intros p c E W; apply is_space_white in W; rewrite (rstrip_end _ _ _ E) in W; discriminate]. unfold stored_name. destruct (rstrip_split (substring 0 200 s)) as (l & E & _).
  pose proof (substring_length 200 s) as H. rewrite <- E, string_app_length in H. lia.
Qed.

Section Crash.
  Context {T : Type} {N : Num T}.
  Definition aoutless (f : kfits T) : Prop := forall h, In (HNum h) f -> h_name h <> "AOUT"%string.
  Lemma aoutless_image f : aoutless f -> exists e, image f "AOUT" = Raise e.
  Proof.
    intro H. unfold image, get_hdu. destruct (find_hdu _ _) as [h|] eqn:E; [|cbn; eauto]. exfalso. unfold find_hdu in E.
    apply find_some in E as [Hin E]. apply String.eqb_eq in E. apply (H h); auto.
    unfold nums in Hin. apply in_flat_map in Hin as (x & Hx & Hx'). destruct x; cbn in Hx'; [destruct Hx' as [<-|[]]; auto|contradiction|contradiction].
  Qed.
  Lemma aoutless_unloadable f : aoutless f -> unloadable (Some f).
  Proof.
    intros H cub bq sun vega fs d.
    assert (X : forall K, exists e, snd (kcor_fromfits cub bq sun vega fs d K (Some f)) = Some e).
    { intro K. unfold kcor_fromfits. destruct (aoutless_image f H) as [e He].
      destruct (Template _ _) as [[s t]|]; [|cbn; eauto]. destruct (data_hdu f) as [[[n rr] abc]|]; [|cbn; eauto].
      destruct (image f "REDSHIFTS"); [|cbn; eauto]. destruct (names f "RESPONSES"); [|cbn; eauto].
      destruct (names f "RESPONSES_MAP"); [|cbn; eauto]. destruct (names f "RESPONSES_OUT"); [|cbn; eauto].
      destruct (load_all _ _ _ _ _ _ _) as [d1 [e1|]]; [cbn; eauto|]. rewrite He. destruct (image f "A"); cbn; eauto. }
    split; auto. unfold Kcorrect_file. destruct (X fresh) as [e E]. destruct (kcor_fromfits _ _ _ _ _ _ _ _) as [[d1 K1] o]. cbn in E. subst o.
    cbn; eauto.
  Qed.
  Lemma none_unloadable : unloadable (@None (kfits T)).
  Proof. intros cub bq sun vega fs d. split; [|intro K]; cbn; eauto. Qed.
  Lemma aoutless_firstn n f : aoutless f -> aoutless (firstn n f).
  Proof. intros H h Hin. apply H. rewrite <- (firstn_skipn n f). apply in_or_app. auto. Qed.
  Lemma aoutless_sed s : aoutless (sed_file s).
  Proof.
    intros h Hin. unfold sed_file, sed_tofits in Hin. destruct (s_bin s); cbn in Hin; repeat destruct Hin as [Hin|Hin]; try contradiction;
      injection Hin as <-; discriminate.
  Qed.
  Lemma aoutless_template s t : aoutless (template_file s t).
  Proof.
    intros h Hin. unfold template_file in Hin. apply in_app_or in Hin as [Hin|Hin]; [apply (aoutless_sed s); auto|].
    cbn in Hin. repeat destruct Hin as [Hin|Hin]; try contradiction; injection Hin as <-; discriminate.
  Qed.
  Lemma kcor_file_split trunc (K : kcor T) f : kcor_file trunc K = Ok f -> exists f0 h, f = f0 ++ [h] /\ aoutless f0.
  Proof.
    unfold kcor_file, kcor_hdus. intro H. apply bind_ok in H as (hs & H & E). injection E as <-.
    apply bind_ok in H as (A & _ & H). apply bind_ok in H as (Ao & _ & H). injection H as <-.
    exists (template_file (f_sed (k_fit K)) (k_tmpl K) ++
       [HData (length (f_zs (k_fit K))) (trunc (fst (k_rr K)), trunc (snd (k_rr K))) (f_abc (k_fit K));
        image_hdu "REDSHIFTS" (vec (f_zs (k_fit K)));
        HNames "RESPONSES" (map stored_name (f_resp (k_fit K)));
        HNames "RESPONSES_OUT" (map stored_name (k_out K));
        HNames "RESPONSES_MAP" (map stored_name (k_map K));
        image_hdu "A" A]), (image_hdu "AOUT" Ao). split; [rewrite <- app_assoc; reflexivity|].
    intros h Hin. apply in_app_or in Hin as [Hin|Hin]; [apply (aoutless_template _ _ _ Hin)|].
    cbn in Hin. repeat destruct Hin as [Hin|Hin]; try contradiction; try discriminate; injection Hin as <-; discriminate.
  Qed.
  Lemma rewrite_states f (st : option (kfits T)) : In st (rewrite f) -> st = None \/ exists n, (n <= length f)%nat /\ st = Some (firstn n f).
  Proof.
    intros [<-|Hin]; auto. right. apply in_map_iff in Hin as (n & <- & Hn). apply in_seq in Hn. exists n. split; auto. lia.
  Qed.
End Crash.

Section Tmpl.
  Context {T : Type} {N : Num T}.
  Lemma image_rest (s : sed T) (g : kfits T) name : name <> "FLUX"%string -> name <> "WAVE"%string -> image (sed_file s ++ g) name = image g name.
  Proof.
    intros H1 H2. unfold image, get_hdu, sed_file. rewrite nums_app, nums_map, find_hdu_app, sed_names by auto. reflexivity.
  Qed.
  Lemma Template_rest (s : sed T) nsed (g : kfits T) : sed_shape s nsed -> has_hdu (nums g) "WAVE" = false ->
    Template (Some (sed_file s ++ g)) false =
      (do intsfh <- image g "INTSFH"; do mremain <- image g "MREMAIN"; do mets <- image g "METS";
       do m300 <- image g "M300"; do m1000 <- image g "M1000";
       let m50 := match image g "M50" with Ok a => a | Raise _ => map1 (fun x => nmul x (nlit 0)) m300 end in
       Ok (reloaded s, {| t_intsfh := dat intsfh; t_mremain := dat mremain; t_mets := dat mets; t_m50 := dat m50;
                          t_m300 := dat m300; t_m1000 := dat m1000 |})).
  Proof.
    intros Hs Hw. assert (ES : sed_fromfits (nums (sed_file s ++ g)) "FLUX" false = Ok (reloaded s)).
    { unfold sed_file. rewrite nums_app, nums_map. eapply sed_load; eauto. }
    unfold Template. rewrite <- !(image_rest s g) by discriminate. destruct (sed_file s ++ g) as [|h f] eqn:Ef.
    { exfalso. unfold sed_file, sed_tofits in Ef. destruct (s_bin s); discriminate. }
    rewrite ES. reflexivity.
  Qed.
  Lemma without_file (s : sed T) t name : name <> "FLUX"%string -> name <> "WAVE"%string ->
    without name (template_file s t) = sed_file s ++ without name (template_hdus t).
  Proof.
    intros H1 H2. apply not_eq_sym, String.eqb_neq in H1. apply not_eq_sym, String.eqb_neq in H2. unfold without, template_file.
    rewrite filter_app. f_equal. unfold sed_file, sed_tofits. destruct (s_bin s); cbn [map filter h_name]; rewrite ?H1, ?H2; reflexivity.
  Qed.
  Lemma image_hdu_of (l : list T) : l <> [] ->
    (check negb (Nat.eqb (size (shp (vec l))) 0) else Unmodelled; Ok (vec l)) = Ok (vec l).
  Proof. intro H. pose proof (size_vec l H). destruct (Nat.eqb_spec (size (shp (vec l))) 0); [lia|reflexivity]. Qed.

  Lemma setup_indep cub bq sun vega (r0 : resp T) w y r :
    resp_setup cub bq sun vega (with_curve blank w y) = (r, None) -> resp_setup cub bq sun vega (with_curve r0 w y) = (r, None).
  Proof.
    unfold resp_setup, with_curve, blank. cbn [p_wave p_resp p_interp p_leff p_solar p_vega2ab p_fwhm].
    destruct (mk_cubic w (vec y)) as [it|]; [|discriminate].
    assert (E : forall sc fl (a b : resp T), p_wave a = p_wave b -> p_interp a = p_interp b -> ref_magnitude cub sc fl a = ref_magnitude cub sc fl b).
    { intros sc fl a b E1 E2. unfold ref_magnitude, project_sed. rewrite E1, E2. reflexivity. }
    rewrite (E sun_scale sun {| p_wave := Some w; p_resp := Some y; p_interp := Some it; p_leff := Some (lambda_eff w y);
       p_solar := p_solar r0; p_vega2ab := p_vega2ab r0; p_fwhm := p_fwhm r0 |} {| p_wave := Some w; p_resp := Some y;
       p_interp := Some it; p_leff := Some (lambda_eff w y); p_solar := None; p_vega2ab := None; p_fwhm := None |}) by reflexivity.
    destruct (ref_magnitude cub sun_scale sun _) as [sm|]; [|discriminate].
    rewrite (E vega_scale vega {| p_wave := Some w; p_resp := Some y; p_interp := Some it; p_leff := Some (lambda_eff w y);
       p_solar := sm; p_vega2ab := p_vega2ab r0; p_fwhm := p_fwhm r0 |} {| p_wave := Some w; p_resp := Some y;
       p_interp := Some it; p_leff := Some (lambda_eff w y); p_solar := sm; p_vega2ab := None; p_fwhm := None |}) by reflexivity.
    destruct (ref_magnitude cub vega_scale vega _) as [vm|]; [|discriminate].
    destruct (fwhm_limits _ _ _ _); [auto|discriminate].
  Qed.
  Lemma setup_curve cub bq sun vega (r0 : resp T) w y r e :
    resp_setup cub bq sun vega (with_curve r0 w y) = (r, e) -> p_wave r = Some w /\ p_resp r = Some y.
  Proof.
    unfold resp_setup, with_curve. cbn [p_wave p_resp]. destruct (mk_cubic w (vec y)); [|intro H; injection H as <- <-; auto].
    destruct (ref_magnitude cub sun_scale sun _); [|intro H; injection H as <- <-; auto].
    destruct (ref_magnitude cub vega_scale vega _); [|intro H; injection H as <- <-; auto].
    destruct (fwhm_limits _ _ _ _); intro H; injection H as <- <-; auto.
  Qed.
End Tmpl.

(* STATEMENTS *)

(** C53.  Over the reals, for an object as the constructor leaves it (L_C53_constructed), with at least one response, output
    response and template, whose response names have at most 200 characters and no trailing blanks: tofits succeeds, and if
    the responses can be loaded then [Kcorrect(filename=)] of the file succeeds.  The new object gives the same results in
    all calls as the saved one with abcorrect=False, so the same results if no AB correction was requested.  Responses,
    output responses, map, imap, templates and redshift grid are the same; the templates are at redshift 0, the ends of redshift_range are truncated to
    integers. *)
Lemma L_C53_round_trip :
  forall trunc cub bq sun vega fs d d' (K : kcor R) A Ao nb no nt,
    consistent K A Ao nb no nt -> grid_ok (f_zs (k_fit K)) -> nb <> 0%nat -> no <> 0%nat -> nt <> 0%nat -> tmpl_full (k_tmpl K) ->
    Forall storable (f_resp (k_fit K) ++ k_out K ++ k_map K) ->
    load_all cub bq sun vega fs (f_resp (k_fit K)) d = (d', None) ->
    exists f K', kcor_file trunc K = Ok f /\ Kcorrect_file cub bq sun vega fs d (Some f) = (d', Ok K') /\
      same_results K' (kwithout_ab K) /\ (no_ab (k_fit K) -> same_results K' K) /\
      f_resp (k_fit K') = f_resp (k_fit K) /\ k_out K' = k_out K /\ k_map K' = k_map K /\ k_imap K' = k_imap K /\
      k_tmpl K' = k_tmpl K /\ f_zs (k_fit K') = f_zs (k_fit K) /\
      s_rwave (f_sed (k_fit K')) = s_rwave (f_sed (k_fit K)) /\ s_rflux (f_sed (k_fit K')) = s_rflux (f_sed (k_fit K)) /\
      s_z (f_sed (k_fit K')) = 0 /\ f_kind (k_fit K') = Plain /\ f_abc (k_fit K') = f_abc (k_fit K) /\
      k_rr K' = (IZR (trunc (fst (k_rr K))), IZR (trunc (snd (k_rr K)))).
Proof.
  intros trunc cub bq sun vega fs d d' K A Ao nb no nt HC Hg Hnb Hno Hnt Ht Hst HL.
  apply Forall_app in Hst as [S1 Hst]. apply Forall_app in Hst as [S2 S3].
  destruct (kcor_load_R trunc K A Ao nb no nt HC Hg Hnb Hno Hnt Ht) as (f & Ef & El).
  destruct HC as (((HA & Hb & Hn & HT) & HAo & HTo & Ho & Hi & Hf) & X1 & X2 & Hs & Li & Hi').
  specialize (El cub bq sun vega fs d fresh). rewrite stored_storables, HL in El by auto.
  exists f. eexists. split; [exact Ef|]. split; [unfold Kcorrect_file; rewrite El; cbn [loaded k_fit k_map f_resp]|].
  { rewrite !stored_storables by auto. rewrite (make_imap_first (f_resp (k_fit K)) (k_map K) (k_imap K)) by auto. cbn [bind]. reflexivity. }
  destruct (reloaded_R (f_sed (k_fit K))) as [R1 R2].
  assert (NS : f_nsed (k_fit (set_imap (loaded trunc (@fresh R _) K A Ao) (k_imap K))) = f_nsed (k_fit K)).
  { unfold f_nsed, set_imap, loaded. cbn [k_fit f_sed]. unfold s_nsed. rewrite R2. reflexivity. }
  split; [|split].
  - apply same_cong; cbn [set_imap loaded k_fit f_resp k_out k_map k_imap k_tmpl f_zs f_sed f_kind f_abc f_A k_Aout fresh kwithout_ab without_ab];
      rewrite ?stored_storables by auto; auto; left; unfold no_ab; cbn; auto.
  - intro Hab. apply same_cong; cbn [set_imap loaded k_fit f_resp k_out k_map k_imap k_tmpl f_zs f_sed f_kind f_abc f_A k_Aout fresh];
      rewrite ?stored_storables by auto; auto; left; unfold no_ab in *; cbn; auto.
  - cbn [set_imap loaded k_fit f_resp k_out k_map k_imap k_tmpl f_zs f_sed f_kind f_abc fresh k_rr]. rewrite ?stored_storables by auto.
    rewrite R1, R2, !lit_R. repeat split; auto.
Qed.
Lemma E_C53_round_trip :
  consistent (r_obj Plain false 1) (r_tab_in 1) (r_tab_out 1) 2 2 1 /\ grid_ok (f_zs (k_fit (r_obj Plain false 1))) /\
  tmpl_full (k_tmpl (r_obj Plain false 1)) /\
  Forall storable (f_resp (k_fit (r_obj Plain false 1)) ++ k_out (r_obj Plain false 1) ++ k_map (r_obj Plain false 1)) /\
  no_ab (k_fit (r_obj Plain false 1)) /\
  load_all (fun _ _ _ => 0) (fun _ _ _ => Raise Unmodelled) (Raise Unmodelled) (Raise Unmodelled) no_files
    (f_resp (k_fit (r_obj Plain false 1))) r_cache = (r_cache, None).
Proof.
  split; [apply r_consistent|]. split; [apply r_obj_grid; lra|]. split; [apply r_obj_full|]. split; [apply r_obj_names|].
  split; [left; reflexivity|apply r_obj_load].
Qed.

(** C53.  What the constructor returns is such an object, for templates of [length rows] spectra with at least two
    wavelengths and a redshift grid in order. *)
Lemma L_C53_constructed :
  forall (T : Type) (N : Num T) cub bq sun vega fs d k abc responses s t out map_ (r0 r1 : T) nz d' s' K w rows,
    Kcorrect cub bq sun vega fs d k abc responses s t out map_ r0 r1 nz = (d', s', Ok K) ->
    s_rflux s = table w rows -> rect w rows -> length (s_rwave s) = w -> (2 <= w)%nat ->
    in_order (redshift_grid r0 r1 nz) -> (2 <= nz)%nat ->
    exists A Ao, consistent K A Ao (length responses) (length (k_out K)) (length rows) /\
      f_zs (k_fit K) = redshift_grid r0 r1 nz /\ k_tmpl K = t.
Proof.
  intros T N cub bq sun vega fs d k abc responses s t out map_ r0 r1 nz d' s' K w rows H Hf Hr Hw H2 Ho Hz.
  destruct (L_C40_ready _ _ _ _ _ _ _ _ _ _ _ _ _ _ _ _ _ _ _ _ _ _ _ H Hf Ho Hz) as (A & Ao & HK & X1 & X2 & _ & _).
  pose proof (L_C40_mapping _ _ _ _ _ _ _ _ _ _ _ _ _ _ _ _ _ _ _ _ _ H) as HM. cbv zeta in HM.
  destruct HM as (M1 & M2 & M3 & M4 & M5 & _ & _ & M6 & _ & M7 & _ & M8).
  destruct (Kcorrect_rest _ _ _ _ _ _ _ _ _ _ _ _ _ _ _ _ _ _ _ H) as [W1 W2].
  exists A, Ao. split; [|split; auto]. split; [auto|]. rewrite M7. split; [auto|]. split; [auto|]. split; [|split].
  - unfold sed_shape. rewrite W1, W2, Hf, Hw. split; [auto|]. split; [reflexivity|]. unfold table; cbn [dat]. apply length_table; auto.
  - congruence.
  - rewrite M2, M5. apply M8.
Qed.
Lemma E_C53_constructed : s_rflux (q_sed false) = table 5 [[1; 1; 1; 1; 1]; [2; 3; 4; 5; 6]]%Q /\ length (s_rwave (q_sed false)) = 5%nat /\
  in_order (redshift_grid 0 1 2)%Q /\ exists d' s' K, q_build (Some ["g"]%string) (Some ["u"]%string) = (d', s', Ok K).
Proof. split; [reflexivity|]. split; [reflexivity|]. split; [repeat constructor|]. eexists; eexists; eexists. vm_compute. reflexivity. Qed.

(** C53.  The reloaded redshift_range differs from the saved one: (0, 1/2) becomes (0, 0). *)
Lemma L_C53_range_refuted :
  exists (K K' : kcor R) A Ao f, consistent K A Ao 2 2 1 /\ kcor_file Rtrunc K = Ok f /\
    Kcorrect_file (fun _ _ _ => 0) (fun _ _ _ => Raise Unmodelled) (Raise Unmodelled) (Raise Unmodelled) no_files r_cache (Some f)
      = (r_cache, Ok K') /\
    k_rr K = (0, 1/2) /\ k_rr K' = (0, 0).
Proof.
  set (K := r_obj Plain false (1/2)).
  destruct (L_C53_round_trip Rtrunc (fun _ _ _ => 0) (fun _ _ _ => Raise Unmodelled) (Raise Unmodelled) (Raise Unmodelled) no_files r_cache
              r_cache K (r_tab_in (1/2)) (r_tab_out (1/2)) 2 2 1 (r_consistent _ _ _) (r_obj_grid Plain false (1/2) ltac:(lra)) ltac:(lia) ltac:(lia)
              ltac:(lia) (r_obj_full _ _ _) (r_obj_names _ _ _) (r_obj_load _ _ _ _ _ _ _)) as (f & K' & E1 & E2 & HH).
  exists K, K', (r_tab_in (1/2)), (r_tab_out (1/2)), f. split; [apply r_consistent|]. split; [auto|]. split; [auto|]. split; [reflexivity|].
  replace (k_rr K') with (IZR (Rtrunc 0), IZR (Rtrunc (1/2))) by (symmetry; apply HH).
  assert (E : forall x, 0 <= x < 1 -> Rtrunc x = 0%Z).
  { intros x Hx. unfold Rtrunc. destruct (Rlt_dec x 0); [lra|]. pose proof (base_Int_part x) as [B1 B2].
    apply Z.le_antisymm; [apply Z.lt_succ_r, lt_IZR; cbn; lra|apply Z.lt_pred_le, lt_IZR; cbn; lra]. }
  rewrite !E by lra. reflexivity.
Qed.

(** C53.  Names are cut to 200 characters and lose trailing white space; others are kept. *)
Lemma L_C53_names :
  forall trunc cub bq sun vega fs d d' K0 (K : kcor R) A Ao nb no nt,
    consistent K A Ao nb no nt -> grid_ok (f_zs (k_fit K)) -> nb <> 0%nat -> no <> 0%nat -> nt <> 0%nat -> tmpl_full (k_tmpl K) ->
    load_all cub bq sun vega fs (map stored_name (f_resp (k_fit K))) d = (d', None) ->
    (exists f K', kcor_file trunc K = Ok f /\ kcor_fromfits cub bq sun vega fs d K0 (Some f) = (d', K', None) /\
       f_resp (k_fit K') = map stored_name (f_resp (k_fit K)) /\ k_out K' = map stored_name (k_out K) /\
       k_map K' = map stored_name (k_map K)) /\
    forall s, storable (stored_name s) /\ (stored_name s = s <-> storable s) /\
              exists l, (stored_name s ++ l)%string = substring 0 200 s /\ forall c, In c (list_ascii_of_string l) -> white c.
Proof.
  intros trunc cub bq sun vega fs d d' K0 K A Ao nb no nt HC Hg Hnb Hno Hnt Ht HL. split.
  - destruct (kcor_load_R trunc K A Ao nb no nt HC Hg Hnb Hno Hnt Ht) as (f & Ef & El). exists f. eexists. split; [exact Ef|].
    rewrite El, HL. split; [reflexivity|]. cbn. auto.
  - intro s. split; [apply stored_is_storable|]. split; [split; [intros <-; apply stored_is_storable|apply stored_storable]|].
    destruct (rstrip_split (substring 0 200 s)) as (l & E & H). exists l. split; [exact E|]. intros c Hc. apply is_space_white, (H c Hc).
Qed.
Lemma E_C53_names : stored_name "sdss_u0  " = "sdss_u0"%string /\ ~ storable "sdss_u0  " /\
  load_all (fun _ _ _ => 0) (fun _ _ _ => Raise Unmodelled) (Raise Unmodelled) (Raise Unmodelled) no_files
    (map stored_name (f_resp (k_fit (r_obj Plain false 1)))) r_cache = (r_cache, None).
Proof.
  split; [reflexivity|]. split; [|reflexivity]. intros [_ H]. apply (H "sdss_u0 "%string " "%char eq_refl). vm_compute. auto 20.
Qed.

(** C53.  In a process in which the first output response has not been loaded, and which is not one of the responses, derived
    of the reloaded object raises KeyError. *)
Lemma L_C53_derived_unloaded :
  forall trunc cub bq sun vega fs d d' (K : kcor R) A Ao nb no nt f K' nm post distmod bs zc,
    consistent K A Ao nb no nt -> grid_ok (f_zs (k_fit K)) -> nb <> 0%nat -> no <> 0%nat -> nt <> 0%nat -> tmpl_full (k_tmpl K) ->
    tmpl_shape K nt -> Forall storable (f_resp (k_fit K) ++ k_out K ++ k_map K) ->
    kcor_file trunc K = Ok f -> Kcorrect_file cub bq sun vega fs d (Some f) = (d', Ok K') ->
    k_out K = nm :: post -> ~ In nm (f_resp (k_fit K)) -> dget d nm = None ->
    out_of (f_zs (k_fit K)) (shifted bs 0) = false -> zc_ok nt zc ->
    derived_object distmod d' K' bs zc = Raise KeyError.
Proof.
  intros trunc cub bq sun vega fs d d' K A Ao nb no nt f K' nm post distmod bs zc HC Hg Hnb Hno Hnt Ht Hsh Hst Hf HK' Ho Hni Hd Hr Hz.
  destruct (kcor_load_R trunc K A Ao nb no nt HC Hg Hnb Hno Hnt Ht) as (f' & Ef & El). assert (f' = f) as -> by congruence.
  pose proof Hst as Hst'. apply Forall_app in Hst as [S1 Hst]. apply Forall_app in Hst as [S2 S3].
  unfold Kcorrect_file in HK'. rewrite El, (stored_storables _ S1) in HK'.
  destruct (load_all cub bq sun vega fs (f_resp (k_fit K)) d) as [d1 [e|]] eqn:EL; [discriminate|].
  assert (d1 = d') as -> by congruence.
  destruct (L_C53_round_trip trunc cub bq sun vega fs d d' K A Ao nb no nt HC Hg Hnb Hno Hnt Ht Hst' EL)
    as (f2 & K2 & F1 & F2 & (_ & _ & _ & _ & _ & _ & SD & _) & _).
  assert (f2 = f) as -> by congruence. unfold Kcorrect_file in F2. rewrite El, (stored_storables _ S1), EL in F2.
  assert (K2 = K') as -> by congruence.
  unfold derived_object. rewrite SD. fold (derived_object distmod d' (kwithout_ab K) bs zc).
  pose proof (load_all_other R _ cub bq sun vega fs nm (f_resp (k_fit K)) d Hni) as HG. rewrite EL in HG. cbn [fst] in HG. rewrite Hd in HG.
  destruct HC as (HK & X1 & X2 & _).
  destruct (L_C51_solar R _ distmod d' (kwithout_ab K) A Ao nb no nt bs [] nm post zc [zc] rounding_R HK Hsh Ho (Forall_nil _)) as [E _]; auto.
  - rewrite HG. exact I.
  - rewrite X2. exact Hr.
  - discriminate.
  - rewrite E, HG. reflexivity.
Qed.
Lemma E_C53_derived_unloaded : forall k abc, let K := r_obj k abc 1 in
  consistent K (r_tab_in 1) (r_tab_out 1) 2 2 1 /\ grid_ok (f_zs (k_fit K)) /\ tmpl_full (k_tmpl K) /\ tmpl_shape K 1 /\
  Forall storable (f_resp (k_fit K) ++ k_out K ++ k_map K) /\
  k_out K = ["r"; "g"]%string /\ ~ In "r"%string (f_resp (k_fit K)) /\ dget r_cache "r" = None /\
  out_of (f_zs (k_fit K)) (shifted 0 0) = false.
Proof.
  intros k abc K. split; [apply r_consistent|]. split; [apply r_obj_grid; lra|]. split; [apply r_obj_full|]. split; [repeat constructor|].
  split; [apply r_obj_names|]. split; [reflexivity|]. split; [cbn; intros [H|[H|H]]; try discriminate; auto|]. split; [reflexivity|].
  apply out_of_range. rewrite shifted_0. unfold in_range; cbn. lra.
Qed.

(** C54.  At any moment of tofits, interrupted at file operations or between HDUs, or after a failing call, the file is the
    old one, or the complete new one, or a file from which no object can be loaded. *)
Lemma L_C54_no_wrong_object :
  forall (T : Type) (N : Num T) trunc (K : kcor T) old st,
    In st (tofits_states trunc K old) ->
    st = old \/ (exists f, kcor_file trunc K = Ok f /\ st = Some f) \/ unloadable st.
Proof.
  intros T N trunc K old st H. unfold tofits_states in H. destruct H as [<-|H]; [auto|right].
  apply in_app_or in H as [H|H].
  { right. apply rewrite_states in H as [->|(n & _ & ->)]; [apply none_unloadable|].
    apply aoutless_unloadable, aoutless_firstn, aoutless_sed. }
  apply in_app_or in H as [H|H].
  { right. destruct H as [<-|[<-|[]]]; [apply none_unloadable|apply aoutless_unloadable, aoutless_template]. }
  destruct (kcor_file trunc K) as [f|e] eqn:E; [|destruct H].
  apply rewrite_states in H as [->|(n & Hn & ->)]; [right; apply none_unloadable|].
  destruct (Nat.eq_dec n (length f)) as [->|Hne]; [left; exists f; rewrite firstn_all; auto|]. right.
  destruct (kcor_file_split _ _ _ E) as (f0 & h & -> & Hf). rewrite app_length in *. cbn [length] in *.
  rewrite firstn_app. replace (n - length f0)%nat with 0%nat by lia. cbn [firstn]. rewrite app_nil_r.
  apply aoutless_unloadable, aoutless_firstn; auto.
Qed.
Lemma E_C54_no_wrong_object :
  exists f st, kcor_file Rtrunc (r_obj Plain false 1) = Ok f /\ In st (tofits_states Rtrunc (r_obj Plain false 1) None) /\
    st = Some (firstn 9 f) /\ length f = 15%nat.
Proof.
  destruct (kcor_load_R Rtrunc _ _ _ 2 2 1 (r_consistent Plain false 1) (r_obj_grid Plain false 1 ltac:(lra)) ltac:(lia) ltac:(lia) ltac:(lia)
              (r_obj_full _ _ _)) as (f & Ef & _).
  exists f, (Some (firstn 9 f)). split; [exact Ef|].
  assert (Lf : length f = 15%nat).
  { unfold kcor_file, kcor_hdus in Ef. apply bind_ok in Ef as (hs & H & E). injection E as <-.
    apply bind_ok in H as (A & _ & H). apply bind_ok in H as (Ao & _ & H). injection H as <-. reflexivity. }
  split; [|auto]. unfold tofits_states. right. apply in_or_app. right. apply in_or_app. right. rewrite Ef. right.
  apply in_map_iff. exists 9%nat. split; auto. apply in_seq. lia.
Qed.

(** C54.  There is a moment at which no file exists, so that neither the old nor the new object can be loaded. *)
Lemma L_C54_old_lost :
  forall (T : Type) (N : Num T) trunc (K : kcor T) old, In None (tofits_states trunc K old) /\ unloadable (@None (kfits T)).
Proof.
  intros. split; [|apply none_unloadable]. unfold tofits_states. right. apply in_or_app. left. left. reflexivity.
Qed.

(** C54.  tofits that raises because the object has no table, or because a redshift of its grid is outside that of the table,
    leaves a file from which no object can be loaded, whatever was stored before. *)
Lemma L_C54_failed_call :
  forall (T : Type) (N : Num T) trunc (K : kcor T) old e,
    kcor_file trunc K = Raise e -> unloadable (last (tofits_states trunc K old) old).
Proof.
  intros T N trunc K old e E. unfold tofits_states. rewrite E.
  match goal with |- unloadable (last ?l _) => assert (X : exists l0, l = l0 ++ [Some (template_file (f_sed (k_fit K)) (k_tmpl K))]) end.
  { exists (old :: rewrite (sed_file (f_sed (k_fit K))) ++ [None]). cbn [app]. rewrite <- app_assoc. reflexivity. }
  destruct X as [l0 ->]. rewrite last_last. apply aoutless_unloadable, aoutless_template.
Qed.
Lemma E_C54_failed_call :
  kcor_file (fun _ : Q => 0%Z) {| k_fit := q_new false; k_tmpl := k_tmpl q_kcor; k_out := k_out q_kcor; k_map := k_map q_kcor; k_Aout := None;
                     k_imap := []; k_rr := k_rr q_kcor |} = Raise TypeError.
Proof. reflexivity. Qed.

(** C63.  fromfits of an existing object K0 takes everything from the file but the class and imap, which remain those of K0.
    So the object gives the results of the saved one if class and imap are the same. *)
Lemma L_C63_receiver :
  forall trunc cub bq sun vega fs d d' (K0 K : kcor R) A Ao nb no nt,
    consistent K A Ao nb no nt -> grid_ok (f_zs (k_fit K)) -> nb <> 0%nat -> no <> 0%nat -> nt <> 0%nat -> tmpl_full (k_tmpl K) ->
    Forall storable (f_resp (k_fit K) ++ k_out K ++ k_map K) ->
    load_all cub bq sun vega fs (f_resp (k_fit K)) d = (d', None) ->
    exists f K', kcor_file trunc K = Ok f /\ kcor_fromfits cub bq sun vega fs d K0 (Some f) = (d', K', None) /\
      k_imap K' = k_imap K0 /\ f_kind (k_fit K') = f_kind (k_fit K0) /\ f_abc (k_fit K') = f_abc (k_fit K) /\
      f_resp (k_fit K') = f_resp (k_fit K) /\ k_out K' = k_out K /\ k_map K' = k_map K /\ k_tmpl K' = k_tmpl K /\
      f_zs (k_fit K') = f_zs (k_fit K) /\ f_A (k_fit K') = f_A (k_fit K) /\ k_Aout K' = k_Aout K /\
      s_rwave (f_sed (k_fit K')) = s_rwave (f_sed (k_fit K)) /\ s_rflux (f_sed (k_fit K')) = s_rflux (f_sed (k_fit K)) /\
      (k_imap K0 = k_imap K -> f_kind (k_fit K0) = f_kind (k_fit K) -> same_results K' K).
Proof.
  intros trunc cub bq sun vega fs d d' K0 K A Ao nb no nt HC Hg Hnb Hno Hnt Ht Hst HL.
  apply Forall_app in Hst as [S1 Hst]. apply Forall_app in Hst as [S2 S3].
  destruct (kcor_load_R trunc K A Ao nb no nt HC Hg Hnb Hno Hnt Ht) as (f & Ef & El).
  destruct HC as (((HA & Hb & Hn & HT) & HAo & HTo & Ho & Hi & Hf) & X1 & X2 & Hs & Li & Hi').
  specialize (El cub bq sun vega fs d K0). rewrite stored_storables, HL in El by auto.
  exists f. eexists. split; [exact Ef|]. split; [exact El|].
  destruct (reloaded_R (f_sed (k_fit K))) as [R1 R2].
  assert (NS : f_nsed (k_fit (loaded trunc K0 K A Ao)) = f_nsed (k_fit K)).
  { unfold f_nsed, loaded. cbn [k_fit f_sed]. unfold s_nsed. rewrite R2. reflexivity. }
  cbn [loaded k_fit f_resp k_out k_map k_imap k_tmpl f_zs f_sed f_kind f_abc f_A k_Aout]. rewrite ?stored_storables by auto.
  repeat (split; [auto; fail|]). intros E1 E2.
  apply same_cong; cbn [loaded k_fit f_resp k_out k_map k_imap k_tmpl f_zs f_sed f_kind f_abc f_A k_Aout];
      rewrite ?stored_storables by auto; auto.
Qed.
Lemma E_C63_receiver : forall k abc, let K := r_obj k abc 1 in
  consistent K (r_tab_in 1) (r_tab_out 1) 2 2 1 /\ grid_ok (f_zs (k_fit K)) /\ tmpl_full (k_tmpl K) /\
  Forall storable (f_resp (k_fit K) ++ k_out K ++ k_map K) /\
  load_all (fun _ _ _ => 0) (fun _ _ _ => Raise Unmodelled) (Raise Unmodelled) (Raise Unmodelled) no_files
    (f_resp (k_fit K)) r_cache = (r_cache, None).
Proof.
  intros k abc K. split; [apply r_consistent|]. split; [apply r_obj_grid; lra|]. split; [apply r_obj_full|]. split; [apply r_obj_names|].
  apply r_obj_load.
Qed.

(** C63.  After fromfits of an object whose imap was [0; 0] from the file of an object with imap [1; 1], the K-corrections are
    not those of the saved object, although every attribute read from the file is. *)
Lemma L_C63_stale_imap_refuted :
  exists (K0 K K' : kcor R) A Ao f z c v v', consistent K A Ao 2 2 1 /\ kcor_file Rtrunc K = Ok f /\
    kcor_fromfits (fun _ _ _ => 0) (fun _ _ _ => Raise Unmodelled) (Raise Unmodelled) (Raise Unmodelled) no_files r_cache K0 (Some f)
      = (r_cache, K', None) /\
    kcorrect K z c 0 = Ok (vec v) /\ kcorrect K' z c 0 = Ok (vec v') /\ nth 0 v 0 <> nth 0 v' 0.
Proof.
  set (K := r_obj Plain false 1). set (K0 := r_other [0; 0]%nat).
  destruct (L_C63_receiver Rtrunc (fun _ _ _ => 0) (fun _ _ _ => Raise Unmodelled) (Raise Unmodelled) (Raise Unmodelled) no_files r_cache
              r_cache K0 K (r_tab_in 1) (r_tab_out 1) 2 2 1 (r_consistent _ _ _) (r_obj_grid Plain false 1 ltac:(lra)) ltac:(lia) ltac:(lia)
              ltac:(lia) (r_obj_full _ _ _) (r_obj_names _ _ _) (r_obj_load _ _ _ _ _ _ _))
    as (f & K' & E1 & E2 & I1 & _ & _ & I2 & I3 & I4 & I5 & I6 & I7 & I8 & _ & I9 & _).
  assert (HK' : kready K' (r_tab_in 1) (r_tab_out 1) 2 2 1).
  { unfold kready, ready, f_nsed, s_nsed. rewrite I1, I2, I3, I7, I8, I9. repeat split; auto; unfold rect; repeat constructor. }
  assert (HK : kready K (r_tab_in 1) (r_tab_out 1) 2 2 1) by apply (r_consistent Plain false 1).
  assert (Hb : kbad (r_tab_in 1) (r_tab_out 1) 0 0 = false).
  { unfold kbad. apply orb_false_iff. split; apply out_of_range; rewrite shifted_0; unfold in_range, zero_of; rcbn; unfold Q2R; cbn; lra. }
  exists K0, K, K', (r_tab_in 1), (r_tab_out 1), f, (Some (scal 0)), (Some (vec [1])).
  exists (kval1 K (r_tab_in 1) (r_tab_out 1) 2 2 1 0 0 [1]), (kval1 K' (r_tab_in 1) (r_tab_out 1) 2 2 1 0 0 [1]).
  split; [apply r_consistent|]. split; [auto|]. split; [auto|].
  assert (KL : forall K1, k_imap K1 = [0; 0]%nat \/ k_imap K1 = [1; 1]%nat -> length (kval1 K1 (r_tab_in 1) (r_tab_out 1) 2 2 1 0 0 [1]) = 2%nat).
  { intros K1 Hi. unfold kval1. rewrite kval_len; [|destruct Hi as [-> | ->]]; unfold recon1; rewrite map_length, length_chunks; reflexivity. }
  split; [rewrite (kc_scal K _ _ 2 2 1 0 [1] 0 rounding_R HK eq_refl), Hb; unfold vec; rewrite KL by auto; reflexivity|].
  split; [rewrite (kc_scal K' _ _ 2 2 1 0 [1] 0 rounding_R HK' eq_refl), Hb; unfold vec; rewrite KL by auto; reflexivity|].
  assert (AR : arow (r_tab_in 1) (@shifted R _ 0 0) = [1; 2] /\ arow (r_tab_out 1) (@shifted R _ 0 0) = [5; 6]).
  { rewrite shifted_0. split.
    - apply (arow_node (r_tab_in 1) 2 1 0); [apply HK|apply (r_obj_grid Plain false 1 ltac:(lra))|cbn; lia].
    - apply (arow_node (r_tab_out 1) 2 1 0); [apply HK|apply (r_obj_grid Plain false 1 ltac:(lra))|cbn; lia]. }
  assert (Z0 : @zero_of R _ 0 = 0) by (unfold zero_of; rcbn; lra).
  destruct AR as [A1 A2].
  assert (KV : forall K1 i, k_imap K1 = [i; i]%nat -> nth 0 (kval1 K1 (r_tab_in 1) (r_tab_out 1) 2 2 1 0 0 [1]) 0 =
            @m25 R _ * (@nlog10 R _ (nth i [1; 2] 0 / 5))).
  { intros K1 i Hi. unfold kval1, kval. rewrite Z0. unfold recon1.
    change (@cst R _ 0) with 0. change (@n0 R _) with 0. rewrite A1, A2, Hi.
    cbn [map chunks firstn skipn nth zip].
    assert (ND : forall a, @dotp R _ [a] [cst 1] = a) by (intro a; unfold dotp, nsum; cbn; lra).
    assert (NS : @nltb R _ 0 (nsum [cst 1]) = true) by (rcbn; apply Rltb_true; unfold nsum; cbn; lra).
    rewrite NS, !ND. cbn [nth]. rcbn. do 2 f_equal. destruct i as [|[|i]]; rcbn; field. }
  rewrite (KV K 1%nat eq_refl), (KV K' 0%nat I1). cbn [nth]. unfold m25. rcbn. unfold log10. intro E.
  assert (E' : ln (2 / 5) = ln (1 / 5)).
  { apply Rmult_eq_reg_l with (r := Q2R (-(5) # 2) / ln 10); [unfold Rdiv in *; lra|].
    pose proof ln10_pos. unfold Q2R; cbn. apply Rmult_integral_contrapositive. split; [lra|]. apply Rinv_neq_0_compat. lra. }
  apply ln_inv in E'; lra.
Qed.

(** C64.  fromfits of a file from which no templates can be read leaves the object and the cache as they were. *)
Lemma L_C64_unreadable :
  forall (T : Type) (N : Num T) cub bq sun vega fs d (K : kcor T) f e,
    Template f false = Raise e -> kcor_fromfits cub bq sun vega fs d K f = (d, K, Some e).
Proof. intros T N cub bq sun vega fs d K f e H. unfold kcor_fromfits. rewrite H. reflexivity. Qed.
Lemma E_C64_unreadable : Template (@None (kfits R)) false = Raise OSError /\ Template (Some (@nil (khdu R))) false = Raise OSError.
Proof. split; reflexivity. Qed.

(** C64.  fromfits is not atomic: if one of the responses of the file cannot be loaded, it raises and leaves an object with the
    templates, names and redshift grid of the file and the old tables. *)
Lemma L_C64_missing_response :
  forall trunc cub bq sun vega fs d d' e (K0 K : kcor R) A Ao nb no nt,
    consistent K A Ao nb no nt -> grid_ok (f_zs (k_fit K)) -> nb <> 0%nat -> no <> 0%nat -> nt <> 0%nat -> tmpl_full (k_tmpl K) ->
    Forall storable (f_resp (k_fit K) ++ k_out K ++ k_map K) ->
    load_all cub bq sun vega fs (f_resp (k_fit K)) d = (d', Some e) ->
    exists f K', kcor_file trunc K = Ok f /\ kcor_fromfits cub bq sun vega fs d K0 (Some f) = (d', K', Some e) /\
      f_resp (k_fit K') = f_resp (k_fit K) /\ k_out K' = k_out K /\ k_map K' = k_map K /\ k_tmpl K' = k_tmpl K /\
      s_rflux (f_sed (k_fit K')) = s_rflux (f_sed (k_fit K)) /\ f_zs (k_fit K') = f_zs (k_fit K) /\
      f_A (k_fit K') = f_A (k_fit K0) /\ k_Aout K' = k_Aout K0 /\ k_imap K' = k_imap K0.
Proof.
  intros trunc cub bq sun vega fs d d' e K0 K A Ao nb no nt HC Hg Hnb Hno Hnt Ht Hst HL.
  apply Forall_app in Hst as [S1 Hst]. apply Forall_app in Hst as [S2 S3].
  destruct (kcor_load_R trunc K A Ao nb no nt HC Hg Hnb Hno Hnt Ht) as (f & Ef & El).
  specialize (El cub bq sun vega fs d K0). rewrite stored_storables, HL in El by auto.
  exists f. eexists. split; [exact Ef|]. split; [exact El|].
  cbn [half_loaded k_fit f_resp k_out k_map k_imap k_tmpl f_zs f_sed f_kind f_abc f_A k_Aout]. rewrite ?stored_storables by auto.
  destruct (reloaded_R (f_sed (k_fit K))) as [R1 R2]. rewrite R2. repeat split; auto.
Qed.
Lemma E_C64_missing_response : forall k abc, let K := r_obj k abc 1 in
  consistent K (r_tab_in 1) (r_tab_out 1) 2 2 1 /\ grid_ok (f_zs (k_fit K)) /\ tmpl_full (k_tmpl K) /\
  Forall storable (f_resp (k_fit K) ++ k_out K ++ k_map K) /\
  load_all (fun _ _ _ => 0) (fun _ _ _ => Raise Unmodelled) (Raise Unmodelled) (Raise Unmodelled) no_files
    (f_resp (k_fit K)) [] = ([("u"%string, blank)], Some ValueError).
Proof.
  intros k abc K. split; [apply r_consistent|]. split; [apply r_obj_grid; lra|]. split; [apply r_obj_full|]. split; [apply r_obj_names|].
  reflexivity.
Qed.

(** C54.  A file cut off after the templates, for instance a template file: loading it raises KeyError.  The object that is loaded
    into has the templates of the file by then, and its old table AmatrixOut; the constructor raises too. *)
Lemma L_C54_cut :
  forall trunc cub bq sun vega fs d d1 K0 (K : kcor R) A Ao nb no nt h n,
    consistent K A Ao nb no nt -> grid_ok (f_zs (k_fit K)) -> nb <> 0%nat -> no <> 0%nat -> nt <> 0%nat -> tmpl_full (k_tmpl K) ->
    load_all cub bq sun vega fs (map stored_name (f_resp (k_fit K))) d = (d1, None) ->
    kcor_hdus trunc K = Ok h -> (n < length h)%nat ->
    let f := template_file (f_sed (k_fit K)) (k_tmpl K) ++ firstn n h in
    (exists d' K', kcor_fromfits cub bq sun vega fs d K0 (Some f) = (d', K', Some KeyError) /\
       f_sed (k_fit K') = reloaded (f_sed (k_fit K)) /\ k_tmpl K' = k_tmpl K /\ f_A (k_fit K') = f_A (k_fit K0) /\ k_Aout K' = k_Aout K0) /\
    exists d', Kcorrect_file cub bq sun vega fs d (Some f) = (d', Raise KeyError).
Proof.
  intros trunc cub bq sun vega fs d d1 K0 K A Ao nb no nt h n HC Hg Hnb Hno Hnt Ht HL Hh Hn f.
  destruct HC as (((HA & Hb & Hnn & HT) & HAo & HTo & Ho & Hi & Hf) & X1 & X2 & Hs & Li & Hi').
  destruct (reload_table A nb nt _ HT X1 Hg) as [E1 E2]. destruct (reload_table Ao no nt _ HTo X2 Hg) as [E3 E4].
  assert (L2 : (2 <= length (f_zs (k_fit K)))%nat) by (rewrite <- X1; apply HT).
  assert (Hne : f_zs (k_fit K) <> []) by (intro E; rewrite E in L2; cbn in L2; lia).
  assert (SZ : forall n, n <> 0%nat -> size [length (f_zs (k_fit K)); n; nt] <> 0%nat).
  { intros m Hn0. cbn [size fold_right]. rewrite Nat.mul_1_r. apply Nat.neq_mul_0. split; [lia|]. apply Nat.neq_mul_0; auto. }
  unfold kcor_hdus in Hh. rewrite HA, HAo, E1, E3 in Hh. cbn [bind] in Hh. injection Hh as <-. cbn [length] in Hn.
  assert (X : forall K0, exists d' K', kcor_fromfits cub bq sun vega fs d K0 (Some f) = (d', K', Some KeyError) /\
       f_sed (k_fit K') = reloaded (f_sed (k_fit K)) /\ k_tmpl K' = k_tmpl K /\ f_A (k_fit K') = f_A (k_fit K0) /\ k_Aout K' = k_Aout K0).
  { clear K0. intro K0. unfold kcor_fromfits, f. set (rest := firstn n _).
    match goal with |- context [Template ?x false] =>
      replace (Template x false) with (Ok (reloaded (f_sed (k_fit K)), k_tmpl K)) end.
    2:{ symmetry. apply (template_load _ _ nt rest Hs Ht). unfold rest. clear. do 7 (destruct n as [|n]; [reflexivity|]). destruct n; reflexivity. }
    set (g := template_file _ _ ++ rest).
    assert (ED : data_hdu g = data_hdu rest) by (unfold data_hdu, g, template_file, sed_file, sed_tofits; destruct (s_bin _); reflexivity).
    assert (EN : forall name, names g name = names rest name).
    { intro name. unfold names, g, template_file, sed_file, sed_tofits, template_hdus, image_hdu. destruct (s_bin _); reflexivity. }
    assert (EI : forall name, In name ["REDSHIFTS"; "A"; "AOUT"]%string -> image g name = image rest name).
    { intros name Hin. unfold image, get_hdu. unfold g. rewrite find_file by (intros ->; cbn in Hin; intuition discriminate).
      cbn in Hin. repeat destruct Hin as [<-|Hin]; try contradiction; reflexivity. }
    rewrite ED, !EN, !EI by (cbn; auto).
    assert (IM : forall name (a : nd R) l, size (shp a) <> 0%nat -> image (image_hdu name a :: l) name = Ok a).
    { intros name a l Ha. apply image_of; auto. unfold nums, find_hdu. cbn [flat_map image_hdu app find h_name]. rewrite String.eqb_refl. reflexivity. }
    pose proof (size_vec _ Hne) as Sz.
    destruct n as [|n]; [cbn; eauto 10|].
    assert (EZ : (1 <= n)%nat -> image rest "REDSHIFTS" = Ok (vec (f_zs (k_fit K)))).
    { intro Hn1. unfold rest. destruct n as [|n]; [lia|]. cbn [firstn]. match goal with |- image (?a :: ?b :: ?l) ?nm = _ => change (image (a :: b :: l) nm) with (image (b :: l) nm) end. apply IM; auto. }
    destruct n as [|n]; [cbn; eauto 10|]. rewrite EZ by lia. clear EZ ED EI EN.
    destruct n as [|n]; [cbn; eauto 10|]. destruct n as [|n]; [cbn; eauto 10|]. destruct n as [|n]; [cbn; eauto 10|].
    unfold data_hdu, names, rest. cbn [firstn find image_hdu String.eqb Ascii.eqb Bool.eqb]. rewrite HL.
    destruct n as [|n]; [cbn; eauto 10|]. destruct n as [|n]; [|lia].
    match goal with |- context [image ?l "A"] => erewrite (image_of l "A"); [|reflexivity|apply SZ; auto] end.
    cbn; eauto 10. }
  split; [apply X|]. destruct (X fresh) as (d' & K' & E & _). exists d'. unfold Kcorrect_file. rewrite E. reflexivity.
Qed.

Lemma E_C54_cut : forall k abc, let K := r_obj k abc 1 in
  consistent K (r_tab_in 1) (r_tab_out 1) 2 2 1 /\ grid_ok (f_zs (k_fit K)) /\ tmpl_full (k_tmpl K) /\
  load_all (fun _ _ _ => 0) (fun _ _ _ => Raise Unmodelled) (Raise Unmodelled) (Raise Unmodelled) no_files
    (map stored_name (f_resp (k_fit K))) r_cache = (r_cache, None) /\
  exists h, kcor_hdus Rtrunc K = Ok h /\ length h = 7%nat.
Proof.
  intros k abc K. split; [apply r_consistent|]. split; [apply r_obj_grid; lra|]. split; [apply r_obj_full|]. split; [reflexivity|].
  destruct (kcor_load_R Rtrunc K _ _ _ _ _ (r_consistent k abc 1) (r_obj_grid k abc 1 Rlt_0_1) ltac:(lia) ltac:(lia) ltac:(lia) (r_obj_full k abc 1)) as (f & Ef & _).
  unfold kcor_file in Ef. destruct (kcor_hdus Rtrunc K) as [h|] eqn:E; [|discriminate]. exists h. split; auto.
  unfold kcor_hdus in E. match type of E with bind ?x _ = _ => destruct x; [|discriminate] end. cbn [bind] in E.
  match type of E with bind ?x _ = _ => destruct x; [|discriminate] end. cbn [bind] in E. injection E as <-. reflexivity.
Qed.

(** C65.  Template(filename) of the file written by Template.tofits, without interpolator: the spectra of [reloaded] (those
    written, at redshift 0; float32 for table files) and the stored quantities. *)
Lemma L_C65_round_trip :
  forall (T : Type) (N : Num T) (s : sed T) t nsed, sed_shape s nsed -> tmpl_full t ->
    Template (Some (template_file s t)) false = Ok (reloaded s, t).
Proof.
  intros T N s t nsed Hs Ht. pose proof (template_load s t nsed [] Hs Ht eq_refl) as H. rewrite app_nil_r in H. exact H.
Qed.
Lemma E_C65_round_trip : sed_shape r_sed 1 /\ tmpl_full (k_tmpl (r_obj Plain false 1)).
Proof. split; [repeat split; cbn; lia|apply r_obj_full]. Qed.

(** C65.  Without the HDU M50, m50 is m300 times zero; without one of the other arrays, KeyError. *)
Lemma L_C65_no_m50 :
  forall (T : Type) (N : Num T) (s : sed T) t nsed, sed_shape s nsed -> tmpl_full t ->
    Template (Some (without "M50" (template_file s t))) false =
      Ok (reloaded s, {| t_intsfh := t_intsfh t; t_mremain := t_mremain t; t_mets := t_mets t;
                         t_m50 := map (fun x => nmul x (nlit 0)) (t_m300 t); t_m300 := t_m300 t; t_m1000 := t_m1000 t |}).
Proof.
  intros T N s t nsed Hs Ht. rewrite without_file by discriminate. rewrite (Template_rest s nsed) by auto.
  unfold tmpl_full in Ht. repeat match goal with H : Forall _ (_ :: _) |- _ => inversion H; clear H; subst end.
  unfold image, get_hdu, find_hdu, col.
  cbn [without template_hdus image_hdu filter h_name negb String.eqb Ascii.eqb Bool.eqb nums flat_map app find bind h_cols fst snd].
  repeat rewrite image_hdu_of by auto. cbn [bind dat vec map1]. reflexivity.
Qed.
Lemma E_C65_no_m50 : sed_shape r_sed 1 /\ tmpl_full (k_tmpl (r_obj Plain false 1)) /\
  length (without "M50" (template_file r_sed (k_tmpl (r_obj Plain false 1)))) = 7%nat.
Proof. split; [repeat split; cbn; lia|]. split; [apply r_obj_full|reflexivity]. Qed.
Lemma L_C65_missing :
  forall (T : Type) (N : Num T) (s : sed T) t nsed name, sed_shape s nsed -> tmpl_full t ->
    In name ["INTSFH"; "MREMAIN"; "METS"; "M300"; "M1000"]%string ->
    Template (Some (without name (template_file s t))) false = Raise KeyError.
Proof.
  intros T N s t nsed name Hs Ht Hin.
  unfold tmpl_full in Ht. repeat match goal with H : Forall _ (_ :: _) |- _ => inversion H; clear H; subst end.
  repeat destruct Hin as [<-|Hin]; try contradiction; rewrite without_file by discriminate; rewrite (Template_rest s nsed) by auto;
  unfold image, get_hdu, find_hdu, col;
  cbn [without template_hdus image_hdu filter h_name negb String.eqb Ascii.eqb Bool.eqb nums flat_map app find bind h_cols fst snd];
  repeat rewrite image_hdu_of by auto; reflexivity.
Qed.
Lemma E_C65_missing : sed_shape r_sed 1 /\ tmpl_full (k_tmpl (r_obj Plain false 1)) /\
  length (without "METS" (template_file r_sed (k_tmpl (r_obj Plain false 1)))) = 7%nat.
Proof. split; [repeat split; cbn; lia|]. split; [apply r_obj_full|reflexivity]. Qed.

(** C67.  Response.tofits of a constructed response, and fromfits of the file into any response object: the same curve and
    derived attributes.  Over the reals; [wave] in any order. *)
Lemma L_C67_round_trip :
  forall cub bq sun vega (wave y : list R) r r0, length y = length wave -> (2 <= length wave)%nat ->
    Response cub bq sun vega wave y = Ok r ->
    exists f, resp_tofits r = Ok f /\ resp_fromfits cub bq sun vega r0 (Some f) = (r, None).
Proof.
  intros cub bq sun vega wave y r r0 L L2 H. unfold Response in H. destruct (sort_pair_ok wave y L) as (w & v & E & Lw & Lv & Hs & _).
  rewrite E in H. cbn [bind fst snd] in H. destruct (resp_setup _ _ _ _ _) as [r1 [e|]] eqn:ES; [discriminate|]. injection H as ->.
  destruct (setup_curve _ _ _ _ _ _ _ _ _ ES) as [E1 E2]. unfold resp_tofits. rewrite E1, E2, Lw, Lv.
  destruct (Nat.eqb_spec (length wave) 0) as [|_]; [lia|]. rewrite Nat.eqb_refl. destruct (Nat.eqb_spec (length wave) 1) as [|_]; [lia|].
  cbn [negb orb]. eexists. split; [reflexivity|]. unfold resp_fromfits, col. cbn [h_cols find fst snd String.eqb Ascii.eqb Bool.eqb bind].
  assert (ER : forall l : list R, length l = length wave -> dat (row 0 (mk [1%nat; length wave] l)) = l).
  { intros l Hl. unfold row. cbn. rewrite ?Nat.mul_1_r. rewrite <- Hl. apply firstn_all. }
  rewrite !ER by auto.
  assert (SP : sort_pair w v = Ok (w, v)).
  { unfold sort_pair. assert (HO : in_order w).
    { clear - Hs. induction Hs as [|a l Hl IH Hf]; constructor; auto. eapply Forall_impl; [|exact Hf]. intros b Hb. cbn. apply Rltb_niff. lra. }
    rewrite argsort_in_order by auto.
    assert (EF : forallb (fun k => Nat.ltb k (length v)) (seq 0 (length w)) = true).
    { apply forallb_forall. intros k Hk. apply in_seq in Hk. apply Nat.ltb_lt. lia. }
    rewrite EF, map_nth_seq. replace (length w) with (length v) by congruence. rewrite map_nth_seq. reflexivity. }
  rewrite SP. cbn [fst snd]. apply setup_indep. exact ES.
Qed.
Lemma E_C67_round_trip : exists r, Response lin bq0 sun0 sun0 [1;2;3;4] [0;1;1;0] = Ok r.
Proof. destruct trapezium_band as [r Hr]. exists r. apply Hr. Qed.

(** C67.  tofits of a response without a curve raises TypeError. *)
Lemma L_C67_blank :
  forall (T : Type) (N : Num T) (r : resp T), p_wave r = None \/ p_resp r = None -> resp_tofits r = Raise TypeError.
Proof. intros T N r [H|H]; unfold resp_tofits; rewrite H; [reflexivity|destruct (p_wave r); reflexivity]. Qed.
Lemma E_C67_blank : p_wave (@blank R) = None.
Proof. reflexivity. Qed.

(** C66.  A KcorrectSDSS or KcorrectGST object with abcorrect=True, saved and reloaded with [Kcorrect(filename=)], is of class
    Kcorrect: abcorrect is still True, but all results are those without the correction. *)
Lemma L_C66_class_lost :
  forall trunc cub bq sun vega fs d d' (K : kcor R) A Ao nb no nt f K',
    consistent K A Ao nb no nt -> grid_ok (f_zs (k_fit K)) -> nb <> 0%nat -> no <> 0%nat -> nt <> 0%nat -> tmpl_full (k_tmpl K) ->
    Forall storable (f_resp (k_fit K) ++ k_out K ++ k_map K) -> f_abc (k_fit K) = true ->
    kcor_file trunc K = Ok f -> Kcorrect_file cub bq sun vega fs d (Some f) = (d', Ok K') ->
    f_kind (k_fit K') = Plain /\ f_abc (k_fit K') = true /\ same_results K' (kwithout_ab K).
Proof.
  intros trunc cub bq sun vega fs d d' K A Ao nb no nt f K' HC Hg Hnb Hno Hnt Ht Hst Ha Hf HK'.
  destruct (kcor_load_R trunc K A Ao nb no nt HC Hg Hnb Hno Hnt Ht) as (f' & Ef & El). assert (f' = f) as -> by congruence.
  pose proof Hst as Hst'. apply Forall_app in Hst as [S1 Hst].
  pose proof HK' as HK2. unfold Kcorrect_file in HK'. rewrite El, (stored_storables _ S1) in HK'.
  destruct (load_all cub bq sun vega fs (f_resp (k_fit K)) d) as [d1 [e|]] eqn:EL; [discriminate|].
  assert (d1 = d') as -> by congruence.
  destruct (L_C53_round_trip trunc cub bq sun vega fs d d' K A Ao nb no nt HC Hg Hnb Hno Hnt Ht Hst' EL) as (f2 & K2 & F1 & F2 & SR & _ & HH).
  assert (f2 = f) as -> by congruence. rewrite F2 in HK2. injection HK2 as ->.
  destruct HH as (_ & _ & _ & _ & _ & _ & _ & _ & _ & H1 & H2 & _). rewrite Ha in H2. auto.
Qed.
Lemma E_C66_class_lost : let K := r_obj SDSS true 1 in
  consistent K (r_tab_in 1) (r_tab_out 1) 2 2 1 /\ grid_ok (f_zs (k_fit K)) /\ tmpl_full (k_tmpl K) /\
  Forall storable (f_resp (k_fit K) ++ k_out K ++ k_map K) /\ f_abc (k_fit K) = true.
Proof.
  intro K. split; [apply r_consistent|]. split; [apply r_obj_grid; lra|]. split; [apply r_obj_full|]. split; [apply r_obj_names|]. reflexivity.
Qed.
