(** Several threads that load responses and build design matrices (Threads.v). *)
From Coq Require Import String List Arith Lia Bool ZArith QArith.
From Verif Require Import Base BaseLemmas Num Toy Interp Utils Sed Response RespDict RespDictThms Fitter FitEx Threads ThreadsSeq ThreadsPar
  ThreadsInv ThreadsRun ThreadsEx.
Import ListNotations.
Local Open Scope nat_scope.

(* STATEMENTS *)

(** A thread that runs alone does what the sequential models of load_response and _calc_Amatrix (RespDict.v, Fitter.v) say: the
    result, the cache and the templates afterwards are theirs. *)
Lemma L_C85_sequential : forall (T : Type) (N : Num T) (no_sed : sed T) cub bq sun vega fs (m : mem T) (d : nat),
  sane m d -> NoDup (map snd (dict_of m d)) ->
  (forall name reload, exists k m' r,
     run (repeat 0 k) m [t_job no_sed cub bq sun vega fs (JLoad name reload)] = (m', [Ret r]) /\
     view m' d = fst (load_response cub bq sun vega fs (view m d) name reload) /\ m_seds m' = m_seds m /\
     r = match snd (load_response cub bq sun vega fs (view m d) name reload) with None => Ok None | Some e => Raise e end) /\
  (forall names zs sid, sid < length (m_seds m) -> exists k m' r,
     run (repeat 0 k) m [t_job no_sed cub bq sun vega fs (JBuild names zs sid)] = (m', [Ret r]) /\
     let q := calc_A cub bq sun vega fs names zs (view m d) (nth sid (m_seds m) no_sed) in
     view m' d = fst (fst q) /\ m_seds m' = upd sid (snd (fst q)) (m_seds m) /\ r = rmap Some (snd q)).
Proof.
  intros T N no_sed cub bq sun vega fs m d.
  intros (Hi & Hd & Hf) Hn. assert (W : wf_mem m d) by (split; [auto|split; auto]). split.
  - intros name reload. destruct (run_solo (t_job no_sed cub bq sun vega fs (JLoad name reload)) m) as [k Hk]. exists k.
    eexists _, _. split; [exact Hk|]. cbn [t_job]. rewrite solo_pbind, (solo_dict 0 m d Hi). cbn [fst snd]. rewrite solo_pbind.
    destruct (solo_load cub bq sun vega fs 0 d name reload m W) as (V & S & (_ & G & _)). cbv zeta in V, S, G. rewrite S.
    destruct (snd (load_response cub bq sun vega fs (view m d) name reload)) as [e|]; cbn [outcome solo fin fst snd]; auto.
  - intros names zs sid Hs. destruct (run_solo (t_job no_sed cub bq sun vega fs (JBuild names zs sid)) m) as [k Hk]. exists k.
    eexists _, _. split; [exact Hk|]. cbv zeta. cbn [t_job]. rewrite solo_pbind.
    destruct (solo_calc no_sed cub bq sun vega fs 0 names zs sid m d Hi W Hs) as (R & V & G). cbv zeta in R, V, G. unfold sed_of in R, V, G.
    rewrite <- V, <- G, <- R. destruct (snd (solo 0 (t_calc no_sed cub bq sun vega fs names zs sid) m)); cbn [solo fin fst snd rmap bind]; auto.
Qed.
Lemma E_C85_sequential : sane q_mem1 0 /\ NoDup (map snd (dict_of q_mem1 0)) /\ 1 < length (m_seds q_mem1).
Proof. repeat split; cbn; auto; repeat constructor; intros []. Qed.

(** No state is a dead end: the threads can always be run to their ends. *)
Lemma L_C85_no_deadlock : forall (T A : Type) (m : mem T) (ps : list (prog T A)), exists sched, all_done (snd (run sched m ps)).
Proof.
  intros T A m ps. apply run_all. Qed.
Lemma E_C85_no_deadlock :
  ~ all_done (snd (run [0; 1] q_mem [q_job (JLoad "u"%string false); q_job (JLoad "u"%string true)])).
Proof. intro H. apply done_all in H. revert H. vm_compute. discriminate. Qed.

(** Threads that call load_response, with or without reload, under any schedule: at every moment an entry of the cache is the
    object that was there at the start, or an object each of whose attributes is still None or has the value that fromdat gives it. *)
Lemma L_C85_every_moment : forall (T : Type) (N : Num T) (no_sed : sed T) cub bq sun vega fs (m : mem T) (d : nat)
  (loads : list (string * bool)) (sched : list nat),
  sane m d ->
  let c := run sched m (map (fun l => t_job no_sed cub bq sun vega fs (JLoad (fst l) (snd l))) loads) in
  (forall n, dmem (view m d) n = true -> dmem (view (fst c) d) n = true) /\
  forall n r, dget (view (fst c) d) n = Some r ->
    dget (view m d) n = Some r \/
    let f := fst (fromdat cub bq sun vega blank (fs (n ++ ".dat")%string)) in
    (p_wave r = None \/ p_wave r = p_wave f) /\ (p_resp r = None \/ p_resp r = p_resp f) /\
    (p_interp r = None \/ p_interp r = p_interp f) /\ (p_leff r = None \/ p_leff r = p_leff f) /\
    (p_solar r = None \/ p_solar r = p_solar f) /\ (p_vega2ab r = None \/ p_vega2ab r = p_vega2ab f) /\
    (p_fwhm r = None \/ p_fwhm r = p_fwhm f).
Proof.
  intros T N no_sed cub bq sun vega fs m d loads sched.
  intros Hs. cbv zeta. apply loads_moment; auto.
Qed.
Lemma E_C85_every_moment : sane q_mem 0.
Proof. repeat split; cbn; auto; repeat constructor. Qed.

(** ... and when they have all finished, every entry of the cache is the one that was there, or is loaded completely: what fromdat makes
    of a new object.  The names that were asked for are there; those that were not there before, or were asked for with reload=True, are
    the loaded ones.  A load returns nothing or raises the exception that its file causes, and with reload=True it raises that
    exception if there is one. *)
Lemma L_C85_all_loaded : forall (T : Type) (N : Num T) (no_sed : sed T) cub bq sun vega fs (m : mem T) (d : nat)
  (loads : list (string * bool)) (sched : list nat),
  sane m d ->
  let c := run sched m (map (fun l => t_job no_sed cub bq sun vega fs (JLoad (fst l) (snd l))) loads) in
  all_done (snd c) ->
  let f n := fromdat cub bq sun vega blank (fs (n ++ ".dat")%string) in
  (forall n r, dget (view (fst c) d) n = Some r -> dget (view m d) n = Some r \/ r = fst (f n)) /\
  (forall i n b, nth_error loads i = Some (n, b) ->
     dmem (view (fst c) d) n = true /\
     (b = true \/ dmem (view m d) n = false -> dget (view (fst c) d) n = Some (fst (f n))) /\
     exists r, nth_error (snd c) i = Some (Ret r) /\
       ((b = false /\ r = Ok None) \/ r = match snd (f n) with None => Ok None | Some e => Raise e end)).
Proof.
  intros T N no_sed cub bq sun vega fs m d loads sched.
  intros Hs. cbv zeta. intro Hd.
  pose proof (end_entries cub bq sun vega fs d m true nobody Hs nobody_inj
    (lpost cub bq sun vega fs d m loads) sched _ (r_loads no_sed cub bq sun vega fs d m loads Hs)) as He.
  specialize (He (fun i a m' H => proj2 (proj1 H)) Hd).
  set (c := run sched m (map (fun l => t_job no_sed cub bq sun vega fs (JLoad (fst l) (snd l))) loads)) in *.
  split.
  - intros n r H. destruct (He n r H) as [[H1 _]|H1]; auto.
  - intros i n b Hi.
    destruct (loads_done no_sed cub bq sun vega fs d m loads Hs sched i n b Hi Hd) as (r & Hr & Hb & Hp). fold c in Hr, Hb, Hp.
    split; [rewrite dmem_view; auto|]. split; [|exists r; split; [auto|tauto]].
    intro Hor. rewrite <- dmem_view in Hb. unfold dmem in Hb. destruct (dget (view (fst c) d) n) as [x|] eqn:Ex; [|discriminate]. f_equal.
    destruct (He n x Ex) as [[H1 (k & Hk & Hlt)]|H1]; [exfalso|exact H1]. destruct Hor as [-> |Hor].
    + destruct Hp as [[X _]|[_ Hp]]; [discriminate|]. specialize (Hp k Hk). lia.
    + unfold dmem in Hor. rewrite H1 in Hor. discriminate.
Qed.
Lemma E_C85_all_loaded : sane q_mem1 0 /\
  let c := run (concat (repeat [0; 1; 1] 30)) q_mem1 (map (fun l => q_job (JLoad (fst l) (snd l))) [("u", true); ("g", false)]%string) in
  all_done (snd c) /\ option_map p_leff (dget (view (fst c) 0) "u"%string) = Some (Some (24 # 7)%Q) /\
  option_map p_leff (dget (view q_mem1 0) "u"%string) = Some None /\ dmem (view q_mem1 0) "g"%string = false.
Proof.
  split; [repeat split; cbn; auto; repeat constructor|]. cbv zeta. split; [apply all_done_of; vm_compute; reflexivity|].
  split; [vm_compute; reflexivity|]. split; reflexivity.
Qed.

(** Threads of both kinds, without reload=True and each with its own templates: entries that are in the cache at the start are never
    replaced or changed, at any moment. *)
Lemma L_C85_cached_unchanged : forall (T : Type) (N : Num T) (no_sed : sed T) cub bq sun vega fs (m : mem T) (d : nat)
  (jobs : list (job T)) (sched : list nat),
  sane m d -> tame jobs m ->
  (forall i names zs sid n, nth_error jobs i = Some (JBuild names zs sid) -> In n names ->
     dmem (view m d) n = true \/ snd (fromdat cub bq sun vega blank (fs (n ++ ".dat")%string)) = None) ->
  let c := run sched m (map (t_job no_sed cub bq sun vega fs) jobs) in
  forall n r, dget (view m d) n = Some r -> dget (view (fst c) d) n = Some r.
Proof.
  intros T N no_sed cub bq sun vega fs m d jobs sched.
  intros Hs Ht Hl. cbv zeta. intros n r H. eapply jobs_cached; eauto.
Qed.
Lemma E_C85_cached_unchanged : sane q_mem1 0 /\ tame [JBuild ["u"; "g"]%string [0; 1]%Q 0; JLoad "g"%string false; JBuild ["u"%string] [0]%Q 1] q_mem1 /\
  snd (fromdat q_lin q_mid q_basel q_basel blank (q_fs "g.dat"%string)) = None.
Proof.
  split; [repeat split; cbn; auto; repeat constructor|]. split; [|reflexivity]. split; [|split].
  - intros i n H. do 3 (destruct i as [|i]; [discriminate|]). destruct i; discriminate.
  - intros i names zs sid H. do 3 (destruct i as [|i]; [injection H; intros; subst; cbn; auto with arith; discriminate|]). destruct i; discriminate.
  - intros i j names zs names' zs' sid H1 H2.
    do 3 (destruct i as [|i]; [do 3 (destruct j as [|j]; [try reflexivity; cbn in H1, H2; congruence|]); destruct j; discriminate|]).
    destruct i; discriminate.
Qed.

(** But a load may return before the response is usable: the name is entered in the cache first, and a second thread that asks for it
    returns at once, with an object without a wavelength array. *)
Lemma L_C85_half_loaded_refuted :
  exists (no_sed : sed Q) cub bq sun vega fs (m : mem Q) d n sched,
    sane m d /\ snd (fromdat cub bq sun vega blank (fs (n ++ ".dat")%string)) = None /\
    let c := run sched m (map (t_job no_sed cub bq sun vega fs) [JLoad n false; JLoad n false]) in
    nth_error (snd c) 1 = Some (Ret (Ok None)) /\ exists r, dget (view (fst c) d) n = Some r /\ p_wave r = None.
Proof.
  exists q_none, q_lin, q_mid, q_basel, q_basel, q_fs, q_mem, 0, "u"%string, [0; 0; 0; 0; 1; 1; 1]. fold q_job.
  split; [repeat split; cbn; auto; repeat constructor|]. split; [reflexivity|]. cbv zeta. split; [vm_compute; reflexivity|].
  exists blank. split; vm_compute; reflexivity.
Qed.

(** When no ResponseDict has been made yet, two threads may make two of them: both loads succeed, but the response of the first thread
    is not in the dictionary that ResponseDict() returns afterwards. *)
Lemma L_C85_two_dictionaries_refuted :
  exists (no_sed : sed Q) cub bq sun vega fs (m : mem Q) d sched,
    m_inst m = None /\
    let c := run sched m (map (t_job no_sed cub bq sun vega fs) [JLoad "u"%string false; JLoad "g"%string false]) in
    nth_error (snd c) 0 = Some (Ret (Ok None)) /\ nth_error (snd c) 1 = Some (Ret (Ok None)) /\
    m_inst (fst c) = Some d /\ dmem (view (fst c) d) "u"%string = false /\ dmem (view (fst c) d) "g"%string = true.
Proof.
  exists q_none, q_lin, q_mid, q_basel, q_basel, q_fs, q_start, 1, ([1; 0; 0; 0] ++ repeat 1 40 ++ repeat 0 40). fold q_job.
  split; [reflexivity|]. cbv zeta. repeat split; vm_compute; reflexivity.
Qed.

(** Threads that build design matrices, each with its own templates, while others load responses or build too (no reload=True; the files
    can be loaded): under any schedule a build that finishes has the result and leaves the templates in the state of the sequential
    program, or it raises TypeError, and that only if one of its responses was not in the cache at the start. *)
Lemma L_C86_private_templates : forall (T : Type) (N : Num T) (no_sed : sed T) cub bq sun vega fs (m : mem T) (d : nat)
  (jobs : list (job T)) (sched : list nat),
  sane m d -> tame jobs m ->
  (forall i names zs sid n, nth_error jobs i = Some (JBuild names zs sid) -> In n names ->
     dmem (view m d) n = true \/ snd (fromdat cub bq sun vega blank (fs (n ++ ".dat")%string)) = None) ->
  let c := run sched m (map (t_job no_sed cub bq sun vega fs) jobs) in
  forall i names zs sid r, nth_error jobs i = Some (JBuild names zs sid) -> nth_error (snd c) i = Some (Ret r) ->
  let q := calc_A cub bq sun vega fs names zs (view m d) (nth sid (m_seds m) no_sed) in
  (r = rmap Some (snd q) /\ nth_error (m_seds (fst c)) sid = Some (snd (fst q))) \/
  ((exists n, In n names /\ dmem (view m d) n = false) /\ r = Raise TypeError).
Proof.
  intros T N no_sed cub bq sun vega fs m d jobs sched.
  intros Hs Ht Hl. cbv zeta. intros i names zs sid r Hj Hr.
  pose proof (jobs_post no_sed cub bq sun vega fs d m jobs Hs Ht Hl sched i r Hr) as [_ H]. rewrite Hj in H. exact H.
Qed.
Lemma E_C86_private_templates : sane q_mem 0 /\
  let c := run (repeat 1 40 ++ concat (repeat [0; 1; 1; 2] 150)) q_mem (map q_job [JBuild ["u"; "g"]%string [0; 1]%Q 0; JLoad "g"%string false; JBuild ["u"%string] [0]%Q 1]) in
  all_done (snd c) /\ match nth_error (snd c) 0 with Some (Ret (Ok (Some A))) => length (a_rows A) = 2 | _ => False end.
Proof.
  split; [repeat split; cbn; auto; repeat constructor|]. cbv zeta. split; [apply all_done_of; vm_compute; reflexivity|vm_compute; reflexivity].
Qed.

(** When all its responses are in the cache, a build is not affected by the other threads at all. *)
Lemma L_C86_cached_exact : forall (T : Type) (N : Num T) (no_sed : sed T) cub bq sun vega fs (m : mem T) (d : nat)
  (jobs : list (job T)) (sched : list nat),
  sane m d -> tame jobs m ->
  (forall i names zs sid n, nth_error jobs i = Some (JBuild names zs sid) -> In n names ->
     dmem (view m d) n = true \/ snd (fromdat cub bq sun vega blank (fs (n ++ ".dat")%string)) = None) ->
  let c := run sched m (map (t_job no_sed cub bq sun vega fs) jobs) in
  forall i names zs sid r, nth_error jobs i = Some (JBuild names zs sid) -> nth_error (snd c) i = Some (Ret r) ->
  (forall n, In n names -> dmem (view m d) n = true) ->
  let q := calc_A cub bq sun vega fs names zs (view m d) (nth sid (m_seds m) no_sed) in
  r = rmap Some (snd q) /\ nth_error (m_seds (fst c)) sid = Some (snd (fst q)).
Proof.
  intros T N no_sed cub bq sun vega fs m d jobs sched.
  intros Hs Ht Hl. cbv zeta. intros i names zs sid r Hj Hr Hn.
  destruct (L_C86_private_templates T N no_sed cub bq sun vega fs m d jobs sched Hs Ht Hl i names zs sid r Hj Hr) as [H|[(n & H1 & H2) _]]; auto.
  rewrite (Hn n H1) in H2. discriminate.
Qed.
Lemma E_C86_cached_exact : sane q_mem1 0 /\ dmem (view q_mem1 0) "u"%string = true /\ tame [JBuild ["u"%string] [0; 1]%Q 0; JBuild ["u"%string] [1]%Q 1] q_mem1.
Proof.
  split; [repeat split; cbn; auto; repeat constructor|]. split; [reflexivity|]. split; [|split].
  - intros i n H. do 2 (destruct i as [|i]; [discriminate|]). destruct i; discriminate.
  - intros i names zs sid H. do 2 (destruct i as [|i]; [injection H; intros; subst; cbn; auto with arith|]). destruct i; discriminate.
  - intros i j names zs names' zs' sid H1 H2.
    do 2 (destruct i as [|i]; [do 2 (destruct j as [|j]; [try reflexivity; cbn in H1, H2; congruence|]); destruct j; discriminate|]).
    destruct i; discriminate.
Qed.

(** When they have all finished, the cache is complete. *)
Lemma L_C86_cache_complete : forall (T : Type) (N : Num T) (no_sed : sed T) cub bq sun vega fs (m : mem T) (d : nat)
  (jobs : list (job T)) (sched : list nat),
  sane m d -> tame jobs m ->
  (forall i names zs sid n, nth_error jobs i = Some (JBuild names zs sid) -> In n names ->
     dmem (view m d) n = true \/ snd (fromdat cub bq sun vega blank (fs (n ++ ".dat")%string)) = None) ->
  let c := run sched m (map (t_job no_sed cub bq sun vega fs) jobs) in
  all_done (snd c) ->
  forall n r, dget (view (fst c) d) n = Some r ->
    dget (view m d) n = Some r \/ r = fst (fromdat cub bq sun vega blank (fs (n ++ ".dat")%string)).
Proof.
  intros T N no_sed cub bq sun vega fs m d jobs sched.
  intros Hs Ht Hl. cbv zeta. intros Hd n r H. 
  destruct (end_entries cub bq sun vega fs d m false (own_of jobs) Hs (own_inj m jobs Ht)
    (post no_sed cub bq sun vega fs d m jobs) sched _ (r_jobs no_sed cub bq sun vega fs d m jobs Hs Ht Hl)
    (fun i a m' H => proj2 (proj1 H)) Hd n r H) as [[H1 _]|H1]; auto.
Qed.
Lemma E_C86_cache_complete : sane q_mem 0 /\
  let c := run (repeat 1 40 ++ concat (repeat [0; 1; 1; 2] 150)) q_mem (map q_job [JBuild ["u"; "g"]%string [0; 1]%Q 0; JLoad "g"%string false; JBuild ["u"%string] [0]%Q 1]) in
  all_done (snd c) /\ dmem (view (fst c) 0) "g"%string = true.
Proof.
  split; [repeat split; cbn; auto; repeat constructor|]. cbv zeta. split; [apply all_done_of; vm_compute; reflexivity|vm_compute; reflexivity].
Qed.

(** The TypeError does occur: a build that starts while another thread loads its response fails, although the sequential program
    (and a second attempt) succeeds. *)
Lemma L_C86_unaffected_by_loads_refuted :
  exists (no_sed : sed Q) cub bq sun vega fs (m : mem Q) d names zs sched,
    sane m d /\ tame [JLoad "u"%string false; JBuild names zs 0] m /\
    (exists A, snd (calc_A cub bq sun vega fs names zs (view m d) (nth 0 (m_seds m) no_sed)) = Ok A) /\
    let c := run sched m (map (t_job no_sed cub bq sun vega fs) [JLoad "u"%string false; JBuild names zs 0]) in
    all_done (snd c) /\ nth_error (snd c) 1 = Some (Ret (Raise TypeError)).
Proof.
  exists q_none, q_lin, q_mid, q_basel, q_basel, q_fs, q_mem, 0, ["u"%string], [0; 1]%Q, (repeat 0 4 ++ repeat 1 60 ++ repeat 0 60). fold q_job.
  split; [repeat split; cbn; auto; repeat constructor|]. split; [|split].
  - split; [|split].
    + intros i n H. do 2 (destruct i as [|i]; [discriminate|]). destruct i; discriminate.
    + intros i names zs sid H. do 2 (destruct i as [|i]; [try discriminate; injection H; intros; subst; cbn; auto with arith|]). destruct i; discriminate.
    + intros i j names zs names' zs' sid H1 H2.
      do 2 (destruct i as [|i]; [try discriminate; do 2 (destruct j as [|j]; [try reflexivity; cbn in H1, H2; congruence|]); destruct j; discriminate|]).
      destruct i; discriminate.
  - eexists. vm_compute. reflexivity.
  - cbv zeta. split; [apply all_done_of; vm_compute; reflexivity|vm_compute; reflexivity].
Qed.

(** With a shared Template object the tables can be wrong without any exception: two builds with the same object, all responses cached. *)
Lemma L_C86_shared_templates_refuted :
  exists (no_sed : sed Q) cub bq sun vega fs (m : mem Q) d names zs sched A B,
    sane m d /\ (forall n, In n names -> dmem (view m d) n = true) /\
    snd (calc_A cub bq sun vega fs names zs (view m d) (nth 0 (m_seds m) no_sed)) = Ok A /\
    let c := run sched m (map (t_job no_sed cub bq sun vega fs) [JBuild names zs 0; JBuild names zs 0]) in
    nth_error (snd c) 0 = Some (Ret (Ok (Some B))) /\ all_done (snd c) /\ A <> B.
Proof.
  exists q_none, q_lin, q_mid, q_basel, q_basel, q_fs, q_mem1, 0, ["u"%string], [0; 1]%Q, (repeat 0 27 ++ repeat 1 60 ++ repeat 0 60). fold q_job.
  eexists _, _. split; [repeat split; cbn; auto; repeat constructor|]. split; [intros n [<-|[]]; reflexivity|].
  split; [vm_compute; reflexivity|]. cbv zeta. split; [vm_compute; reflexivity|]. split; [apply all_done_of; vm_compute; reflexivity|]. discriminate.
Qed.
