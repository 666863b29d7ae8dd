(** The programs of Threads.v run alone do what the sequential model says. *)
From Coq Require Import String List Arith Lia Bool.
From Verif Require Import Base BaseLemmas Num Interp Utils Sed Response RespDict RespDictThms Fitter Threads.
Import ListNotations.
Local Open Scope nat_scope.

Lemma nth_upd {A} k (v d : A) l i : k < length l -> nth i (upd k v l) d = if Nat.eqb i k then v else nth i l d.
Proof.
  revert l i. induction k; intros [|x l] [|i] H; cbn [upd nth length Nat.eqb] in *; try lia; auto. apply IHk. lia.
Qed.
Lemma upd_upd {A} k (v w : A) l : upd k v (upd k w l) = upd k v l.
Proof. revert l. induction k; intros [|x l]; cbn [upd]; auto. f_equal. auto. Qed.
Lemma upd_nth_same {A} k (d : A) l : upd k (nth k l d) l = l.
Proof. revert l. induction k; intros [|x l]; cbn [upd nth]; auto. f_equal. auto. Qed.


Section Seq.
  Context {T : Type} {N : Num T}.
  Variable no_sed : sed T.
  Variable cub : list T -> list T -> T -> T.
  Variable bq : (T -> T) -> T -> T -> res T.
  Variable sun vega : res (list T * list (basel_unit T)).
  Variable fs : @fsys T.

  Lemma solo_pbind {A B} i (p : prog T (res A)) (g : A -> prog T (res B)) m :
    solo i (pbind p g) m =
    match snd (solo i p m) with Ok a => solo i (g a) (fst (solo i p m)) | Raise e => (fst (solo i p m), Raise e) end.
  Proof.
    revert m. induction p as [[a|e]|C f k IH]; intro m; cbn [pbind Threads.solo fst snd]; auto.
  Qed.

  (** Replace the contents of one Response object. *)
  Definition set_resp (m : mem T) (id : nat) (r : resp T) : mem T :=
    set_objs m (upd id {| o_name := o_name (nth id (m_objs m) no_obj); o_by := o_by (nth id (m_objs m) no_obj); o_resp := r |} (m_objs m)).
  Lemma put_set id u i m : a_put id u i m = (set_resp m id (u (resp_of m id)), tt).
  Proof. reflexivity. Qed.
  Lemma resp_set m id r : id < length (m_objs m) -> resp_of (set_resp m id r) id = r.
  Proof. intro H. unfold resp_of, set_resp, set_objs. cbn [m_objs]. rewrite nth_upd, Nat.eqb_refl by auto. reflexivity. Qed.
  Lemma len_set m id r : length (m_objs (set_resp m id r)) = length (m_objs m).
  Proof. apply length_upd. Qed.
  Lemma set_set m id r r' : id < length (m_objs m) -> set_resp (set_resp m id r) id r' = set_resp m id r'.
  Proof.
    intro H. unfold set_resp, set_objs. cbn [m_objs m_inst m_dicts m_seds]. rewrite upd_upd, nth_upd, Nat.eqb_refl by auto. reflexivity.
  Qed.
  Lemma set_id m id : set_resp m id (resp_of m id) = m.
  Proof.
    unfold set_resp, set_objs, resp_of.
    replace {| o_name := _; o_by := _; o_resp := o_resp (nth id (m_objs m) no_obj) |} with (nth id (m_objs m) no_obj)
      by (destruct (nth id (m_objs m) no_obj); reflexivity).
    rewrite upd_nth_same. destruct m; reflexivity.
  Qed.

  Lemma ref_seen sc f (r : resp T) : ref_magnitude cub sc f (seen (p_wave r) (p_interp r)) = ref_magnitude cub sc f r.
  Proof. reflexivity. Qed.

  Lemma solo_setup i id m : id < length (m_objs m) -> p_wave (resp_of m id) <> None -> p_resp (resp_of m id) <> None ->
    solo i (t_setup cub bq sun vega id) m =
    (set_resp m id (fst (resp_setup cub bq sun vega (resp_of m id))), outcome (snd (resp_setup cub bq sun vega (resp_of m id)))).
  Proof.
    intros Hid Hw Hy. destruct (resp_of m id) as [ow oy oi ol os ov of] eqn:Er. cbn in Hw, Hy.
    destruct ow as [w|]; [|congruence]. destruct oy as [y|]; [|congruence].
    unfold t_setup, rget, a_get. cbn [Threads.solo fst snd]. rewrite Er. cbn [p_wave p_resp Threads.solo fst snd].
    rewrite Er. cbn [p_wave p_resp]. unfold resp_setup. cbn [p_wave p_resp].
    destruct (mk_cubic w (vec y)) as [it|e] eqn:Ec; [|cbn [Threads.solo fin fst snd]; rewrite <- Er, set_id; reflexivity].
    cbn [Threads.solo fst snd]. rewrite put_set. cbn [fst snd]. rewrite Er.
    unfold t_leff, rget, a_get. cbn [Threads.solo fst snd]. rewrite resp_set by auto.
    unfold put_interp at 1 2. cbn [p_wave p_resp p_interp p_leff p_solar p_vega2ab p_fwhm].
    cbn [Threads.solo fst snd]. rewrite put_set. cbn [fst snd]. rewrite resp_set, set_set by auto.
    unfold put_interp, put_leff. cbn [p_wave p_resp p_interp p_leff p_solar p_vega2ab p_fwhm].
    unfold t_solar, rget, a_get. cbn [Threads.solo fst snd]. rewrite resp_set by auto. cbn [p_wave p_interp].
    match goal with |- context [match ref_magnitude cub sun_scale sun (seen ?a ?b) with _ => _ end] =>
      destruct (ref_magnitude cub sun_scale sun (seen a b)) as [sm|e] eqn:Es end.
    2:{ match goal with |- context [ref_magnitude cub sun_scale sun ?r] => change (ref_magnitude cub sun_scale sun r)
          with (ref_magnitude cub sun_scale sun (seen (Some w) (Some it))) end. rewrite Es. reflexivity. }
    match goal with |- context [ref_magnitude cub sun_scale sun ?r] => change (ref_magnitude cub sun_scale sun r)
          with (ref_magnitude cub sun_scale sun (seen (Some w) (Some it))) end. rewrite Es.
    cbn [Threads.solo fst snd]. rewrite put_set. cbn [fst snd]. rewrite resp_set, set_set by auto.
    unfold put_solar. cbn [p_wave p_resp p_interp p_leff p_solar p_vega2ab p_fwhm].
    unfold t_vega, rget, a_get. cbn [Threads.solo fst snd]. rewrite resp_set by auto. cbn [p_wave p_interp].
    match goal with |- context [match ref_magnitude cub vega_scale vega (seen ?a ?b) with _ => _ end] =>
      destruct (ref_magnitude cub vega_scale vega (seen a b)) as [vm|e] eqn:Ev end.
    2:{ match goal with |- context [ref_magnitude cub vega_scale vega ?r] => change (ref_magnitude cub vega_scale vega r)
          with (ref_magnitude cub vega_scale vega (seen (Some w) (Some it))) end. rewrite Ev. reflexivity. }
    match goal with |- context [ref_magnitude cub vega_scale vega ?r] => change (ref_magnitude cub vega_scale vega r)
          with (ref_magnitude cub vega_scale vega (seen (Some w) (Some it))) end. rewrite Ev.
    cbn [Threads.solo fst snd]. rewrite put_set. cbn [fst snd]. rewrite resp_set, set_set by auto.
    unfold put_vega. cbn [p_wave p_resp p_interp p_leff p_solar p_vega2ab p_fwhm].
    unfold t_fwhm, rget, a_get. cbn [Threads.solo fst snd]. rewrite resp_set by auto. cbn [p_wave p_interp].
    destruct (fwhm_limits cub bq w it) as [fw|e] eqn:Ef; [|reflexivity].
    cbn [Threads.solo fst snd fin]. rewrite put_set. cbn [fst snd]. rewrite resp_set, set_set by auto. reflexivity.
  Qed.

  Lemma solo_fromdat i id tb m : id < length (m_objs m) ->
    solo i (t_fromdat cub bq sun vega id tb) m =
    (set_resp m id (fst (fromdat cub bq sun vega (resp_of m id) tb)), outcome (snd (fromdat cub bq sun vega (resp_of m id) tb))).
  Proof.
    intro Hid. destruct tb as [[[w0 y0]|e]|]; unfold t_fromdat, fromdat; cbn [fst snd];
      try (cbn [Threads.solo fin fst snd]; rewrite set_id; reflexivity).
    destruct (sort_pair w0 y0) as [[w y]|e]; cbn [fst snd]; [|cbn [Threads.solo fin fst snd]; rewrite set_id; reflexivity].
    cbn [Threads.solo]. rewrite !put_set. cbn [fst snd Threads.solo]. rewrite ?put_set. cbn [fst snd]. rewrite resp_set, set_set by auto.
    rewrite solo_setup.
    - rewrite resp_set, set_set by auto. reflexivity.
    - rewrite len_set; auto.
    - rewrite resp_set by auto. discriminate.
    - rewrite resp_set by auto. discriminate.
  Qed.

  (** A memory in which the entries of dictionary [d] are different objects. *)
  Definition wf_mem (m : mem T) (d : nat) : Prop :=
    d < length (m_dicts m) /\ NoDup (map snd (dict_of m d)) /\ Forall (fun id => id < length (m_objs m)) (map snd (dict_of m d)).

  Lemma dget_view (m : mem T) d n : dget (view m d) n = option_map (resp_of m) (dget (dict_of m d) n).
  Proof.
    unfold view. induction (dict_of m d) as [|[k v] l IH]; cbn [map dget fst snd option_map]; auto.
    destruct (String.eqb k n); auto.
  Qed.
  Lemma dmem_view (m : mem T) d n : dmem (view m d) n = dmem (dict_of m d) n.
  Proof. unfold dmem. rewrite dget_view. destruct (dget (dict_of m d) n); reflexivity. Qed.

  Lemma snd_dset {A} (d : dict A) k v x : In x (map snd (dset d k v)) -> x = v \/ In x (map snd d).
  Proof.
    induction d as [|[a b] d IH]; cbn [dset map snd In]; [intuition|]. destruct (String.eqb a k); cbn [map snd In]; intuition.
  Qed.
  Lemma nodup_dset {A} (d : dict A) k v : NoDup (map snd d) -> ~ In v (map snd d) -> NoDup (map snd (dset d k v)).
  Proof.
    induction d as [|[a b] d IH]; cbn [dset map snd]; intros H Hv; [repeat constructor; auto|].
    inversion H as [|? ? H1 H2]; subst. destruct (String.eqb a k); cbn [map snd].
    - constructor; auto. intro X. apply Hv. right; auto.
    - constructor; [|apply IH; auto; intro X; apply Hv; right; auto].
      intro X. apply snd_dset in X as [->|X]; [apply Hv; left; auto|contradiction].
  Qed.
  Lemma map_dset {A B} (f : A -> B) (d : dict A) k v :
    map (fun e => (fst e, f (snd e))) (dset d k v) = dset (map (fun e => (fst e, f (snd e))) d) k (f v).
  Proof.
    induction d as [|[a b] d IH]; cbn [dset map fst snd]; auto. destruct (String.eqb a k); cbn [map fst snd]; f_equal; auto.
  Qed.

  Definition grown (m m' : mem T) (d : nat) : Prop :=
    m_inst m' = m_inst m /\ m_seds m' = m_seds m /\ wf_mem m' d.

  Lemma solo_load i d name reload m : wf_mem m d ->
    let p := solo i (t_load cub bq sun vega fs d name reload) m in
    view (fst p) d = fst (load_response cub bq sun vega fs (view m d) name reload) /\
    snd p = outcome (snd (load_response cub bq sun vega fs (view m d) name reload)) /\ grown m (fst p) d.
  Proof.
    intros (Hd & Hn & Hf). cbv zeta. unfold t_load, a_get. cbn [Threads.solo fst snd]. unfold load_response. rewrite dmem_view.
    destruct (dmem (dict_of m d) name && negb reload) eqn:Eb; [cbn; repeat split; auto|].
    cbn [Threads.solo fst snd]. set (m1 := fst (a_newobj d name i m)).
    assert (Ed : dict_of m1 d = dset (dict_of m d) name (length (m_objs m))).
    { unfold m1, a_newobj, dict_of, set_objs, set_dicts. cbn [fst m_dicts]. rewrite nth_upd, Nat.eqb_refl by auto. reflexivity. }
    assert (Eo : m_objs m1 = m_objs m ++ [{| o_name := name; o_by := i; o_resp := blank |}]) by reflexivity.
    rewrite Ed, dget_dset, String.eqb_refl. cbn [Threads.solo].
    assert (Hl : length (m_objs m) < length (m_objs m1)) by (rewrite Eo, app_length; cbn; lia).
    rewrite solo_fromdat by auto. cbn [fst snd].
    assert (Eb' : resp_of m1 (length (m_objs m)) = blank).
    { unfold resp_of. rewrite Eo, app_nth2, Nat.sub_diag by auto. reflexivity. }
    rewrite Eb'. destruct (fromdat cub bq sun vega blank (fs (name ++ ".dat")%string)) as [r e]. cbn [fst snd].
    set (m2 := set_resp m1 (length (m_objs m)) r).
    assert (Ed2 : dict_of m2 d = dict_of m1 d) by reflexivity.
    assert (Hold : forall id, id < length (m_objs m) -> resp_of m2 id = resp_of m id).
    { intros id Hi. unfold resp_of, m2, set_resp, set_objs. cbn [m_objs]. rewrite nth_upd by auto.
      destruct (Nat.eqb_spec id (length (m_objs m))); [lia|]. rewrite Eo, app_nth1 by auto. reflexivity. }
    assert (Hnew : resp_of m2 (length (m_objs m)) = r) by (apply resp_set; auto).
    split; [|split; [reflexivity|]].
    - unfold view. rewrite Ed2, Ed, map_dset, Hnew. f_equal. apply map_ext_in. intros [k id] Hin. cbn [fst snd]. f_equal. apply Hold.
      rewrite Forall_forall in Hf. apply Hf. apply in_map_iff. exists (k, id); auto.
    - split; [reflexivity|]. split; [reflexivity|]. unfold wf_mem. rewrite Ed2, Ed.
      split; [cbn; rewrite length_upd; auto|]. split.
      + apply nodup_dset; auto. intro X. rewrite Forall_forall in Hf. apply Hf in X. lia.
      + rewrite Forall_forall in *. intros x X. unfold m2. rewrite len_set. apply snd_dset in X as [->|X]; auto. specialize (Hf x X).
        rewrite Eo, app_length; cbn; lia.
  Qed.

  Lemma grown_trans m1 m2 m3 d : grown m1 m2 d -> grown m2 m3 d -> grown m1 m3 d.
  Proof. intros (A & B & C) (D & E & F). repeat split; try apply F; congruence. Qed.

  Lemma solo_load_all i d names : forall m, wf_mem m d ->
    let p := solo i (t_load_all cub bq sun vega fs d names) m in
    view (fst p) d = fst (load_all cub bq sun vega fs names (view m d)) /\
    snd p = outcome (snd (load_all cub bq sun vega fs names (view m d))) /\ grown m (fst p) d.
  Proof.
    induction names as [|n r IH]; intros m Hm; cbv zeta; [cbn; repeat split; auto; apply Hm|].
    cbn [t_load_all load_all]. rewrite solo_pbind. pose proof (solo_load i d n false m Hm) as (V & S & Gr). cbv zeta in V, S, Gr.
    rewrite S. destruct (load_response cub bq sun vega fs (view m d) n false) as [d1 [e|]] eqn:E; cbn [outcome fst snd] in *; [auto|].
    specialize (IH (fst (solo i (t_load cub bq sun vega fs d n false) m)) (proj2 (proj2 Gr))). cbv zeta in IH.
    rewrite V in IH. destruct IH as (V2 & S2 & G2). split; [exact V2|]. split; [exact S2|]. eapply grown_trans; eauto.
  Qed.

  (** Steps on the spectra. *)
  Definition set_sed (m : mem T) (sid : nat) (s : sed T) : mem T := set_seds m (upd sid s (m_seds m)).
  Lemma sput_set sid u i m : a_sput no_sed sid u i m = (set_sed m sid (u (sed_of no_sed m sid)), tt).
  Proof. reflexivity. Qed.
  Lemma sed_set m sid s : sid < length (m_seds m) -> sed_of no_sed (set_sed m sid s) sid = s.
  Proof. intro H. unfold sed_of, set_sed, set_seds. cbn [m_seds]. rewrite nth_upd, Nat.eqb_refl by auto. reflexivity. Qed.
  Lemma sset_sset m sid s s' : set_sed (set_sed m sid s) sid s' = set_sed m sid s'.
  Proof. unfold set_sed, set_seds. cbn. rewrite upd_upd. reflexivity. Qed.
  Lemma slen_set m sid s : length (m_seds (set_sed m sid s)) = length (m_seds m).
  Proof. apply length_upd. Qed.
  Lemma sset_id m sid : set_sed m sid (sed_of no_sed m sid) = m.
  Proof. unfold set_sed, set_seds, sed_of. rewrite upd_nth_same. destruct m; reflexivity. Qed.
  Lemma view_sset m sid s d : view (set_sed m sid s) d = view m d.
  Proof. reflexivity. Qed.

  Lemma solo_redshift i sid z m : sid < length (m_seds m) ->
    solo i (t_redshift no_sed sid z) m =
    (set_sed m sid (fst (set_redshift (sed_of no_sed m sid) z)), outcome (snd (set_redshift (sed_of no_sed m sid) z))).
  Proof.
    intro H. unfold t_redshift, sget, a_get.
    repeat (first [progress cbn [Threads.solo fst snd] | rewrite sput_set | rewrite sset_sset | rewrite sed_set by (rewrite ?slen_set; auto)]).
    unfold set_redshift.
    set (s := sed_of no_sed m sid). unfold put_sz, put_sflux, put_swave. cbn [s_flag s_rwave s_rflux s_wave s_flux s_z s_interp s_bin].
    destruct (s_flag s) eqn:Ef; [|cbn [Threads.solo fin fst snd]; reflexivity].
    cbn [Threads.solo fst snd]. rewrite !sed_set by auto. cbn [s_wave s_flux]. unfold set_interp. cbn [s_wave s_flux].
    destruct (mk_cubic _ _) as [it|e]; cbn [Threads.solo fst snd fin].
    - repeat (first [progress cbn [Threads.solo fst snd] | rewrite sput_set | rewrite sset_sset | rewrite sed_set by (rewrite ?slen_set; auto)]).
      unfold put_sinterp, put_sflag. cbn. rewrite ?Ef. reflexivity.
    - cbn. reflexivity.
  Qed.

  (** Projections of a response read in two parts. *)
  Lemma project_arr_seen r w f : project_arr cub (seen (p_wave r) (p_interp r)) w f = project_arr cub r w f.
  Proof. reflexivity. Qed.

  Lemma solo_chunks i d name sid m : forall starts row,
    solo i (t_chunks no_sed cub d name sid starts row) m =
    (m, match starts with [] => Ok row | _ =>
        match dget (view m d) name with
        | None => Raise KeyError
        | Some r => foldM (fun row i =>
             let e := Nat.min (i + 1000) (s_nsed (sed_of no_sed m sid)) in
             do v <- project_arr cub r (vec (s_wave (sed_of no_sed m sid))) (flux_rows (s_flux (sed_of no_sed m sid)) i e);
             do vs <- bto n0 [e - i] v;
             Ok (splice i e (map cst vs) row)) starts row
        end end).
  Proof.
    induction starts as [|s0 starts IH]; intro row; [reflexivity|].
    cbn [t_chunks]. unfold sget, rget, a_get. cbn [Threads.solo fst snd]. rewrite dget_view.
    destruct (dget (dict_of m d) name) as [id|] eqn:E; [|reflexivity].
    cbn [option_map Threads.solo fst snd]. rewrite project_arr_seen. cbn [foldM].
    set (e := Nat.min (s0 + 1000) (s_nsed (sed_of no_sed m sid))).
    destruct (project_arr _ _ _ _) as [v|x]; cbn [bind]; [|reflexivity].
    destruct (bto n0 [e - s0] v) as [vs|x]; cbn [bind]; [|reflexivity].
    rewrite IH. f_equal. destruct starts as [|s1 starts]; [reflexivity|]. rewrite dget_view, E. reflexivity.
  Qed.

  Lemma solo_row i d name sid m : dmem (view m d) name = true ->
    solo i (t_row no_sed cub d name sid) m =
    (m, match dget (view m d) name with Some r => project_row cub r (sed_of no_sed m sid) | None => Raise KeyError end).
  Proof.
    intro Hm. unfold t_row, sget, rget, a_get. cbn [Threads.solo fst snd]. unfold project_row.
    destruct (s_flag (sed_of no_sed m sid)) eqn:Ef.
    - cbn [Threads.solo fst snd]. rewrite dget_view. destruct (dget (dict_of m d) name) as [id|]; [|reflexivity].
      cbn [Threads.solo fst snd option_map fin]. reflexivity.
    - cbn [Threads.solo fst snd]. rewrite solo_chunks. unfold dmem in Hm. destruct (dget (view m d) name) as [r|] eqn:E; [|discriminate].
      unfold project_chunks. destruct (chunk_starts 1000 (s_nsed (sed_of no_sed m sid))); reflexivity.
  Qed.

  Lemma solo_bands i d sid m : forall names, (forall n, In n names -> dmem (view m d) n = true) ->
    solo i (t_bands no_sed cub d names sid) m = (m, project_bands cub (view m d) names (sed_of no_sed m sid)).
  Proof.
    unfold project_bands. induction names as [|n r IH]; intro Hn; [reflexivity|].
    cbn [t_bands mapM]. rewrite solo_pbind, solo_row by (apply Hn; left; auto). cbn [fst snd].
    destruct (match dget (view m d) n with Some _ => _ | None => _ end) as [row|e]; cbn [bind]; [|reflexivity].
    rewrite solo_pbind, IH by (intros; apply Hn; right; auto). cbn [fst snd].
    destruct (mapM _ r) as [rows|e]; reflexivity.
  Qed.

  Lemma solo_loop i d names sid : forall zs m, (forall n, In n names -> dmem (view m d) n = true) -> sid < length (m_seds m) ->
    solo i (t_loop no_sed cub d names zs sid) m =
    (set_sed m sid (fst (z_loop cub (view m d) names zs (sed_of no_sed m sid))), snd (z_loop cub (view m d) names zs (sed_of no_sed m sid))).
  Proof.
    induction zs as [|z zs IH]; intros m Hn Hs; [cbn [t_loop Threads.solo fin z_loop fst snd]; rewrite sset_id; reflexivity|].
    cbn [t_loop z_loop]. rewrite solo_pbind, solo_redshift by auto. cbn [fst snd].
    destruct (set_redshift (sed_of no_sed m sid) z) as [s1 [e|]]; cbn [fst snd outcome]; [reflexivity|].
    rewrite solo_pbind, solo_bands by (intros; rewrite view_sset; auto). cbn [fst snd]. rewrite view_sset, sed_set by auto.
    destruct (project_bands cub (view m d) names s1) as [rows|e]; [|reflexivity].
    rewrite solo_pbind, IH by (rewrite ?view_sset, ?slen_set; auto). rewrite view_sset, sed_set by auto. cbn [fst snd]. rewrite sset_sset.
    destruct (z_loop cub (view m d) names zs s1) as [s2 [t|e]]; reflexivity.
  Qed.

  Lemma load_all_mem names : forall d d', load_all cub bq sun vega fs names d = (d', None) ->
    (forall n, dmem d n = true -> dmem d' n = true) /\ forall n, In n names -> dmem d' n = true.
  Proof.
    induction names as [|n r IH]; intros d d'; cbn [load_all]; [intro E; injection E as <-; split; [auto|intros n []]|].
    destruct (load_response cub bq sun vega fs d n false) as [d1 [e|]] eqn:E; [discriminate|]. intro E2.
    destruct (IH d1 d' E2) as [H1 H2].
    assert (M : forall k, dmem d k = true \/ k = n -> dmem d1 k = true).
    { intros k Hk. unfold load_response in E. destruct (dmem d n && negb false) eqn:Eb.
      - injection E as <-. destruct Hk as [| ->]; auto. apply andb_true_iff in Eb. tauto.
      - destruct (fromdat _ _ _ _ _ _) as [r0 e0]. injection E as <- _. unfold dmem. rewrite dget_dset.
        destruct (String.eqb_spec n k); auto. destruct Hk as [Hk|Hk]; [exact Hk|congruence]. }
    split; [intros k Hk; apply H1, M; auto|]. intros k [->|Hk]; [apply H1, M; auto|apply H2; auto].
  Qed.

  Lemma solo_dict i m d : m_inst m = Some d -> solo i (@t_dict T) m = (m, Ok d).
  Proof. intro H. unfold t_dict, a_get. cbn [Threads.solo fst snd]. rewrite H. cbn [Threads.solo fst snd fin]. rewrite H. reflexivity. Qed.

  (** fitter.py:80-113 run alone. *)
  Lemma solo_calc i names zs sid m d : m_inst m = Some d -> wf_mem m d -> sid < length (m_seds m) ->
    let p := solo i (t_calc no_sed cub bq sun vega fs names zs sid) m in
    let q := calc_A cub bq sun vega fs names zs (view m d) (sed_of no_sed m sid) in
    snd p = snd q /\ view (fst p) d = fst (fst q) /\ m_seds (fst p) = upd sid (snd (fst q)) (m_seds m).
  Proof.
    intros Hi Hm Hs. cbv zeta. unfold t_calc, calc_A. rewrite solo_pbind, (solo_dict i m d Hi). cbn [fst snd].
    rewrite solo_pbind. pose proof (solo_load_all i d names m Hm) as (V & S & (G1 & G2 & G3)). cbv zeta in V, S, G1, G2, G3.
    rewrite S. set (m1 := fst (solo i (t_load_all cub bq sun vega fs d names) m)) in *.
    assert (Es : sed_of no_sed m1 sid = sed_of no_sed m sid) by (unfold sed_of; rewrite G2; reflexivity).
    destruct (load_all cub bq sun vega fs names (view m d)) as [d' [e|]] eqn:El; cbn [outcome fst snd] in *.
    { split; [reflexivity|]. split; [exact V|]. rewrite G2. unfold sed_of. rewrite upd_nth_same. reflexivity. }
    unfold sget, a_get. cbn [Threads.solo fst snd].
    assert (Hn : forall n, In n names -> dmem (view m1 d) n = true) by (rewrite V; apply (load_all_mem names _ _ El)).
    assert (Hs1 : sid < length (m_seds m1)) by (rewrite G2; auto).
    rewrite solo_pbind, solo_loop by auto. rewrite V, Es. cbn [fst snd].
    destruct (z_loop cub d' names zs (sed_of no_sed m sid)) as [s1 [tab|e]]; cbn [fst snd].
    2:{ split; [reflexivity|]. split; [exact V|]. cbn. rewrite G2. reflexivity. }
    destruct (mk_linear zs _) as [A|e]; cbn [Threads.solo fin fst snd].
    2:{ split; [reflexivity|]. split; [exact V|]. cbn. rewrite G2. reflexivity. }
    rewrite solo_pbind, solo_redshift by (rewrite slen_set; auto). rewrite sed_set by auto. cbn [fst snd].
    destruct (set_redshift s1 n0) as [s2 [e|]]; cbn [outcome Threads.solo fin fst snd]; rewrite sset_sset;
      (split; [reflexivity|]); (split; [exact V|]); cbn; rewrite G2; reflexivity.
  Qed.
End Seq.
