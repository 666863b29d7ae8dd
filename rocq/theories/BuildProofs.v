(** Lemmas about the construction of Kcorrect objects: what it depends on. *)
From Coq Require Import String List Arith Lia Bool ZArith QArith.
From Verif Require Import Base BaseLemmas Num Interp Utils Sed Response RespDict RespDictThms Fitter FitSpec FitterProofs
  FitTable Kcorrect KSpec KTable BuildSpec.
Import ListNotations.
Local Open Scope nat_scope.

Section T.
  Context {T : Type} {N : Num T}.
  Variable cub : list T -> list T -> T -> T.
  Variable bq : (T -> T) -> T -> T -> res T.
  Variable sun vega : res (list T * list (basel_unit T)).

  Lemma same_rest_refl (s : sed T) : same_rest s s.
  Proof. repeat split; auto. Qed.
  Lemma same_rest_trans (a b c : sed T) : same_rest a b -> same_rest b c -> same_rest a c.
  Proof. intros (A1 & A2 & A3 & A4 & A5) (B1 & B2 & B3 & B4 & B5). repeat split; try congruence.
    intro H. rewrite B5 by congruence. auto. Qed.
  Lemma same_rest_sym (a b : sed T) : same_rest a b -> same_rest b a.
  Proof. intros (A1 & A2 & A3 & A4 & A5). repeat split; try congruence. intro H. symmetry. apply A5. congruence. Qed.

  Lemma set_redshift_rest (s : sed T) z : same_rest s (fst (set_redshift s z)).
  Proof.
    unfold set_redshift, set_interp; cbn [s_wave s_flux]. destruct (s_flag s) eqn:E.
    - destruct (mk_cubic _ _); cbn; repeat split; auto; congruence.
    - cbn. repeat split; auto.
  Qed.
  (** set_redshift depends on the rest-frame spectra only; the new state too unless it raises. *)
  Lemma set_redshift_same (s s' : sed T) z : same_rest s s' ->
    snd (set_redshift s z) = snd (set_redshift s' z) /\
    (snd (set_redshift s z) = None -> set_redshift s z = set_redshift s' z).
  Proof.
    intros (A1 & A2 & A3 & A4 & A5). unfold set_redshift, set_interp; cbn [s_wave s_flux s_rwave s_rflux s_z s_bin].
    rewrite A1, A2, A3. destruct (s_flag s) eqn:E.
    - destruct (mk_cubic _ _); cbn; rewrite ?A4; split; auto; discriminate.
    - cbn. rewrite A4, A5; auto.
  Qed.
  Lemma moved_rest (s : sed T) zs : same_rest s (moved s zs).
  Proof.
    unfold moved. revert s; induction zs as [|z zs IH]; intro s; cbn; [apply same_rest_refl|].
    eapply same_rest_trans; [apply (set_redshift_rest s z)|apply IH].
  Qed.

  Lemma z_loop_rest d names : forall zs (s : sed T), same_rest s (fst (z_loop cub d names zs s)).
  Proof.
    induction zs as [|z zs IH]; intro s; cbn [z_loop]; [apply same_rest_refl|].
    pose proof (set_redshift_rest s z) as H. destruct (set_redshift s z) as [s1 [e|]]; cbn [fst] in *; auto.
    destruct (project_bands cub d names s1); cbn [fst]; auto. specialize (IH s1).
    destruct (z_loop cub d names zs s1) as [s2 t]; cbn [fst] in *. eapply same_rest_trans; eauto.
  Qed.
  Lemma z_loop_same d names zs (s s' : sed T) : same_rest s s' ->
    snd (z_loop cub d names zs s) = snd (z_loop cub d names zs s') /\
    (zs <> [] -> forall l, snd (z_loop cub d names zs s) = Ok l -> z_loop cub d names zs s = z_loop cub d names zs s').
  Proof.
    intro H. destruct zs as [|z zs]; cbn [z_loop]; [split; auto; congruence|].
    destruct (set_redshift_same s s' z H) as [E1 E2].
    destruct (set_redshift s z) as [s1 [e|]] eqn:ES, (set_redshift s' z) as [s1' e']; cbn [snd] in *; subst.
    - split; auto. discriminate.
    - specialize (E2 eq_refl). injection E2 as <-. auto.
  Qed.

  Lemma calc_A_same fs names zs d (s s' : sed T) : same_rest s s' ->
    let '(d1, s1, r1) := calc_A cub bq sun vega fs names zs d s in
    let '(d2, s2, r2) := calc_A cub bq sun vega fs names zs d s' in
    d2 = d1 /\ r2 = r1 /\ (forall A, r1 = Ok A -> s2 = s1) /\ same_rest s s1.
  Proof.
    intro H. unfold calc_A. destruct (load_all cub bq sun vega fs names d) as [d1 [e|]].
    { repeat split; auto. discriminate. }
    assert (En : s_nsed s' = s_nsed s) by (unfold s_nsed; destruct H as (_ & -> & _); auto).
    pose proof (z_loop_same d1 names zs s s' H) as [E1 E2].
    pose proof (z_loop_rest d1 names zs s) as R1. pose proof (z_loop_rest d1 names zs s') as R2.
    destruct (z_loop cub d1 names zs s) as [s1 [tab|e]], (z_loop cub d1 names zs s') as [s1' r']; cbn [fst snd] in *; subst.
    2:{ repeat split; auto; try discriminate; apply R1. }
    rewrite En. destruct (mk_linear zs _) as [A|e]; [|repeat split; auto; try discriminate; apply R1].
    assert (R12 : same_rest s1 s1') by (eapply same_rest_trans; [apply same_rest_sym, R1|eapply same_rest_trans; [exact H|exact R2]]).
    destruct (set_redshift_same s1 s1' n0 R12) as [E3 E4]. pose proof (set_redshift_rest s1 n0) as R3.
    destruct (set_redshift s1 n0) as [s2 [e|]], (set_redshift s1' n0) as [s2' e']; cbn [fst snd] in *; subst.
    - split; auto. split; auto. split; [discriminate|]. eapply same_rest_trans; eauto.
    - specialize (E4 eq_refl). injection E4 as <-. split; auto. split; auto. split; auto. eapply same_rest_trans; eauto.
  Qed.

  (** After load_all without exception every name is cached; loading again changes nothing. *)
  Lemma load_response_ext fs d name : extends d (fst (load_response cub bq sun vega fs d name false)).
  Proof.
    intros n r H. unfold load_response. destruct (dmem d name) eqn:E; cbn [andb negb]; auto.
    destruct (fromdat _ _ _ _ _ _) as [r' e]. cbn [fst]. rewrite dget_dset. destruct (String.eqb_spec name n); auto.
    subst. unfold dmem in E. rewrite H in E. discriminate.
  Qed.
  Lemma load_response_mem fs d name d' : load_response cub bq sun vega fs d name false = (d', None) -> exists r, dget d' name = Some r.
  Proof.
    unfold load_response, dmem. destruct (dget d name) as [r|] eqn:E; cbn [andb negb].
    - intro H; injection H as <-. eauto.
    - destruct (fromdat _ _ _ _ _ _) as [r' e]. intro H; injection H as <- _. rewrite dget_dset, String.eqb_refl. eauto.
  Qed.
  Lemma load_all_ext fs names : forall d, extends d (fst (load_all cub bq sun vega fs names d)).
  Proof.
    induction names as [|n names IH]; intro d; cbn [load_all]; [intros ? ? ?; auto|].
    pose proof (load_response_ext fs d n) as H. destruct (load_response _ _ _ _ _ _ _ _) as [d' [e|]]; cbn [fst] in *; auto.
    intros x r Hx. apply IH. auto.
  Qed.
  Lemma load_all_mem fs names : forall d d', load_all cub bq sun vega fs names d = (d', None) ->
    forall n, In n names -> exists r, dget d' n = Some r.
  Proof.
    induction names as [|n names IH]; intros d d' H m Hm; [easy|]. cbn [load_all] in H.
    destruct (load_response _ _ _ _ _ _ _ _) as [d1 [e|]] eqn:E; [discriminate|].
    destruct Hm as [<-|Hm]; [|eapply IH; eauto].
    apply load_response_mem in E as [r Hr]. pose proof (load_all_ext fs names d1 n r Hr) as X. rewrite H in X. cbn in X. eauto.
  Qed.
  Lemma load_all_cached fs names : forall d, (forall n, In n names -> exists r, dget d n = Some r) ->
    load_all cub bq sun vega fs names d = (d, None).
  Proof.
    induction names as [|n names IH]; intros d H; cbn [load_all]; auto.
    destruct (H n (or_introl eq_refl)) as [r Hr]. unfold load_response, dmem. rewrite Hr. cbn [andb negb].
    apply IH. intros m Hm. apply H. cbn; auto.
  Qed.
  Lemma project_bands_ext d d' names (s : sed T) : extends d d' -> (forall n, In n names -> exists r, dget d n = Some r) ->
    project_bands cub d' names s = project_bands cub d names s.
  Proof.
    intros He H. unfold project_bands. induction names as [|n names IH]; auto. cbn [mapM].
    destruct (H n (or_introl eq_refl)) as [r Hr]. rewrite (He _ _ Hr), Hr, IH; auto. intros m Hm; apply H; cbn; auto.
  Qed.
  Lemma z_loop_ext d d' names zs : extends d d' -> (forall n, In n names -> exists r, dget d n = Some r) ->
    forall s : sed T, z_loop cub d' names zs s = z_loop cub d names zs s.
  Proof.
    intros He H. induction zs as [|z zs IH]; intro s; cbn [z_loop]; auto.
    destruct (set_redshift s z) as [s1 [e|]]; auto. rewrite (project_bands_ext d d'); auto.
    destruct (project_bands cub d names s1); auto. rewrite IH. auto.
  Qed.

  (** A design matrix built again, with a larger cache and other files, is the same. *)
  Lemma calc_A_again fs fs' names zs d d1 d' (s s' s1 : sed T) A : same_rest s s' -> extends d1 d' ->
    calc_A cub bq sun vega fs names zs d s = (d1, s1, Ok A) ->
    calc_A cub bq sun vega fs' names zs d' s' = (d', s1, Ok A) /\ (forall n, In n names -> exists r, dget d1 n = Some r) /\
    extends d d1 /\ same_rest s s1.
  Proof.
    intros Hs He H. pose proof (calc_A_same fs names zs d s s' Hs) as HS. rewrite H in HS.
    destruct (calc_A cub bq sun vega fs names zs d s') as [[d2 s2] r2] eqn:H'. destruct HS as (-> & -> & HS & HR).
    rewrite (HS A eq_refl) in H'. clear HS. revert H'. unfold calc_A. pose proof (load_all_ext fs names d) as X.
    destruct (load_all cub bq sun vega fs names d) as [d0 [e|]] eqn:EL; [discriminate|]. cbn [fst] in X.
    pose proof (load_all_mem _ _ _ _ EL) as HM. destruct (z_loop cub d0 names zs s') as [s3 [tab|e]] eqn:EZ; [|discriminate].
    destruct (mk_linear _ _) eqn:EM; [|discriminate]. destruct (set_redshift s3 n0) as [s4 [e|]] eqn:E4; [discriminate|].
    intro E; injection E as -> -> ->.
    rewrite load_all_cached by (intros n Hn; destruct (HM n Hn) as [r Hr]; eauto).
    rewrite (z_loop_ext d1 d'), EZ, EM, E4 by auto. auto.
  Qed.

  Lemma Kcorrect_same fs d k abc responses (s s' : sed T) t out map_ r0 r1 nz : same_rest s s' ->
    let '(d1, s1, o1) := Kcorrect cub bq sun vega fs d k abc responses s t out map_ r0 r1 nz in
    let '(d2, s2, o2) := Kcorrect cub bq sun vega fs d k abc responses s' t out map_ r0 r1 nz in
    d2 = d1 /\ o2 = o1 /\ (forall K, o1 = Ok K -> s2 = s1) /\ same_rest s s1 /\ same_rest s s2.
  Proof.
    intro H. unfold Kcorrect, set_Amatrix. cbn [f_resp f_zs f_sed Fitter f_kind f_abc].
    pose proof (calc_A_same fs responses (redshift_grid r0 r1 nz) d s s' H) as H1.
    pose proof (calc_A_same fs responses (redshift_grid r0 r1 nz) d s' s' (same_rest_refl s')) as H1'.
    destruct (calc_A cub bq sun vega fs responses (redshift_grid r0 r1 nz) d s) as [[d1 s1] [A|e]];
      destruct (calc_A cub bq sun vega fs responses (redshift_grid r0 r1 nz) d s') as [[d2 s2] r2];
      destruct H1 as (-> & -> & HA & HR), H1' as (_ & _ & _ & HR').
    2:{ cbn [f_sed]. do 4 (split; [auto; discriminate|]). exact (same_rest_trans _ _ _ H HR'). }
    rewrite (HA A eq_refl) in *. clear HA. cbn [f_sed f_zs f_A f_kind f_abc f_resp].
    set (o := match out with Some l => l | None => responses end). set (m := match map_ with Some l => l | None => responses end).
    destruct (negb _). { do 4 (split; [auto; discriminate|]). auto. }
    destruct (names_eqb o responses).
    - do 4 (split; [auto|]). auto.
    - pose proof (calc_A_same fs o (redshift_grid r0 r1 nz) d1 s1 s1 (same_rest_refl s1)) as H2.
      destruct (calc_A cub bq sun vega fs o (redshift_grid r0 r1 nz) d1 s1) as [[d3 s3] A']. destruct H2 as (_ & _ & _ & H2).
      assert (X : same_rest s s3) by (eapply same_rest_trans; eauto).
      do 4 (split; [auto|]). auto.
  Qed.

  Lemma Kcorrect_again fs fs' d d1 d' k abc responses (s s1 s' : sed T) t out map_ r0 r1 nz K : extends d1 d' -> same_rest s1 s' ->
    Kcorrect cub bq sun vega fs d k abc responses s t out map_ r0 r1 nz = (d1, s1, Ok K) ->
    Kcorrect cub bq sun vega fs' d' k abc responses s' t out map_ r0 r1 nz = (d', s1, Ok K) /\ extends d d1 /\ same_rest s s1.
  Proof.
    intros He Hs H. unfold Kcorrect, set_Amatrix in *. cbn [f_resp f_zs f_sed Fitter f_kind f_abc] in *.
    set (zs := redshift_grid r0 r1 nz) in *.
    set (o := match out with Some l => l | None => responses end) in *. set (m := match map_ with Some l => l | None => responses end) in *.
    destruct (calc_A cub bq sun vega fs responses zs d s) as [[d2 s2] [A|e]] eqn:EA; [|discriminate].
    cbn [f_sed f_zs f_A f_kind f_abc f_resp] in H. destruct (negb _) eqn:EN; [discriminate|].
    destruct (names_eqb o responses) eqn:EO.
    - injection H as <- <- H.
      assert (Hss : same_rest s s').
      { destruct (calc_A_again fs fs responses zs d d2 d2 s s s2 A (same_rest_refl s)) as (_ & _ & _ & X); auto; [intros ? ? ?; auto|].
        eapply same_rest_trans; eauto. }
      destruct (calc_A_again fs fs' responses zs d d2 d' s s' s2 A Hss He EA) as (-> & _ & X1 & X2).
      cbn [f_sed f_zs f_A f_kind f_abc f_resp]. cbn [bind] in *. rewrite H. auto.
    - destruct (calc_A cub bq sun vega fs o zs d2 s2) as [[d3 s3] A'] eqn:EB. injection H as -> -> H.
      destruct A' as [A'|]; [|discriminate].
      destruct (calc_A_again fs fs o zs d2 d1 d1 s2 s2 s1 A' (same_rest_refl s2)) as (_ & _ & Y1 & Y2); auto; [intros ? ? ?; auto|].
      assert (X : same_rest s s2 /\ extends d d2).
      { destruct (calc_A_again fs fs responses zs d d2 d2 s s s2 A (same_rest_refl s)) as (_ & _ & ? & ?); auto. intros ? ? ?; auto. }
      destruct X as [X1 X2].
      assert (Hss : same_rest s s') by (eapply same_rest_trans; [exact X1|eapply same_rest_trans; eauto]).
      assert (He' : extends d2 d') by (intros n r Hn; apply He, Y1, Hn).
      destruct (calc_A_again fs fs' responses zs d d2 d' s s' s2 A Hss He' EA) as (-> & _ & _ & _).
      cbn [f_sed f_zs f_A f_kind f_abc f_resp].
      destruct (calc_A_again fs fs' o zs d2 d1 d' s2 s2 s1 A' (same_rest_refl s2) He EB) as (-> & _ & _ & _).
      split; [rewrite <- H; reflexivity|]. split; [intros n r Hn; apply Y1, X2, Hn|]. exact (same_rest_trans _ _ _ X1 Y2).
  Qed.

  (** * When construction succeeds (stores exact) *)
  Hypothesis exact : forall x : T, cst x = x.
  Lemma bto_ok_row n (v : nd T) : v = scal (hd n0 (dat v)) \/ shp v = [n] -> exists l, bto n0 [n] v = Ok l.
  Proof.
    intros [->|H]; [rewrite bto_scal_rep; eauto|]. unfold bto. rewrite H. cbn [length Nat.sub strip1 shp dat].
    unfold bshape. cbn [rev app]. unfold bshape. cbn. rewrite Nat.eqb_refl. cbn. rewrite Nat.eqb_refl. cbn. eauto.
  Qed.
  Lemma project_core_ok rw rit sw sit n : exists v, project_core cub rw (Some rit) sw (Some sit) n = Ok v /\
    (v = scal (hd n0 (dat v)) \/ shp v = [n]).
  Proof.
    unfold project_core. destruct (where_ _); [eexists; split; [reflexivity|]; left; reflexivity|].
    destruct (Nat.eqb n 1); (eexists; split; [reflexivity|]); [left|right]; reflexivity.
  Qed.
  Lemma project_row_ok (r : resp T) (s s0 : sed T) z w rows : curve_set r -> at_z s0 z s ->
    s_rflux s0 = table w rows -> rect w rows -> rows <> [] -> sampled_at (s_rwave s0) (s_rflux s0) z ->
    exists l, project_row cub r s = Ok l.
  Proof.
    intros (rw & it & Hw & Hi) (Z1 & Z2 & Z3 & Z4 & Z5 & Z6 & Z7 & Z8) Hf Hr Hne (si & Hs). unfold project_row.
    assert (Hn : s_nsed s = length rows) by (unfold s_nsed; rewrite Z2, Hf; reflexivity).
    destruct (s_flag s) eqn:Ef.
    - unfold project_sed. rewrite Hw, Hi. destruct (Z8 ltac:(congruence)) as (it' & _ & ->).
      destruct (project_core_ok rw it (s_wave s) it' (s_nsed s)) as (v & -> & Hv). cbn [bind].
      destruct (bto_ok_row _ _ Hv) as [l ->]. cbn. eauto.
    - rewrite Hf, map1_table in Z7.
      rewrite (chunks_equal cub 1000 r s w (map (map (fun f => ndiv f (nadd n1 z))) rows)); auto.
      + unfold project_all, project_arr. rewrite <- Z6 in Hs. rewrite Hf, map1_table, <- Z7 in Hs.
        assert (Ew : map1 cst (vec (s_wave s)) = vec (s_wave s)).
        { unfold map1, vec; cbn [shp dat]. rewrite (map_ext _ _ exact), map_id. auto. }
        assert (Ex : map1 cst (s_flux s) = s_flux s).
        { unfold map1. rewrite (map_ext _ _ exact), map_id. destruct (s_flux s); auto. }
        rewrite Ew, Ex. cbn [dat vec shp ndim length Nat.eqb hd]. rewrite Hs.
        pose proof Hs as Hs'. unfold mk_cubic in Hs'. rewrite Z7 in Hs' |- *. unfold table in *.
        cbn [ndim shp length Nat.eqb negb lastd last hd] in *.
        destruct (Nat.eqb w (length (s_wave s))); [|discriminate]. change (Nat.leb 2 2) with true. cbv iota. cbn [bind].
        rewrite Hw, Hi. rewrite map_length.
        destruct (project_core_ok rw it (s_wave s) si (length rows)) as (v & -> & Hv). cbn [bind].
        destruct (bto_ok_row _ _ Hv) as [l ->]. cbn. eauto.
      + lia.
      + apply rect_map; auto.
      + rewrite map_length; auto.
      + intro X. apply map_eq_nil in X. contradiction.
  Qed.
  Lemma project_bands_ok d names (s s0 : sed T) z w rows :
    (forall n, In n names -> exists r, dget d n = Some r /\ curve_set r) -> at_z s0 z s ->
    s_rflux s0 = table w rows -> rect w rows -> rows <> [] -> sampled_at (s_rwave s0) (s_rflux s0) z ->
    exists l, project_bands cub d names s = Ok l.
  Proof.
    intros Hd Hz Hf Hr Hne Hs. unfold project_bands. induction names as [|n names IH]; cbn [mapM]; eauto.
    destruct (Hd n (or_introl eq_refl)) as (r & Hg & Hc). rewrite Hg.
    destruct (project_row_ok r s s0 z w rows Hc Hz Hf Hr Hne Hs) as [l ->]. cbn [bind].
    destruct IH as [l' ->]; [intros; apply Hd; cbn; auto|]. cbn. eauto.
  Qed.
  Lemma set_redshift_ok (s : sed T) z : sampled_at (s_rwave s) (s_rflux s) z -> exists s', set_redshift s z = (s', None).
  Proof.
    intros (it & H). unfold set_redshift, set_interp. cbn [s_wave s_flux]. rewrite H. destruct (s_flag s); eauto.
  Qed.
  Lemma sampled_rest (s s' : sed T) z : same_rest s s' -> sampled_at (s_rwave s) (s_rflux s) z -> sampled_at (s_rwave s') (s_rflux s') z.
  Proof. intros (-> & -> & _). auto. Qed.
  Lemma z_loop_ok d names w rows : (forall n, In n names -> exists r, dget d n = Some r /\ curve_set r) -> rect w rows -> rows <> [] ->
    forall zs (s : sed T), s_rflux s = table w rows -> (forall z, In z zs -> sampled_at (s_rwave s) (s_rflux s) z) ->
    exists s' tab, z_loop cub d names zs s = (s', Ok tab).
  Proof.
    intros Hd Hr Hne. induction zs as [|z zs IH]; intros s Hf Hs; cbn [z_loop]; eauto.
    destruct (set_redshift_ok s z) as [s1 E1]; [apply Hs; cbn; auto|].
    pose proof (set_redshift_rest s z) as R1. rewrite E1 in R1 |- *. cbn [fst] in R1. apply set_redshift_at_z in E1.
    destruct (project_bands_ok d names s1 s z w rows) as [l ->]; auto; [apply Hs; cbn; auto|].
    destruct (IH s1) as (s2 & tab & ->); [destruct R1 as (_ & -> & _); auto| |].
    - intros y Hy. eapply sampled_rest; eauto. apply Hs. cbn; auto.
    - cbn. eauto.
  Qed.
  Lemma calc_A_succeeds fs names zs d (s : sed T) w rows :
    (forall n, In n names -> exists r, dget d n = Some r /\ curve_set r) ->
    s_rflux s = table w rows -> rect w rows -> rows <> [] -> in_order zs -> zs <> [] ->
    (forall z, In z (n0 :: zs) -> sampled_at (s_rwave s) (s_rflux s) z) ->
    exists s' A, calc_A cub bq sun vega fs names zs d s = (d, s', Ok A).
  Proof.
    intros Hd Hf Hr Hne Ho Hz Hs. unfold calc_A.
    rewrite load_all_cached by (intros n Hn; destruct (Hd n Hn) as (r & ? & _); eauto).
    destruct (z_loop_ok d names w rows Hd Hr Hne zs s Hf) as (s1 & tab & EZ); [intros; apply Hs; cbn; auto|].
    pose proof (z_loop_rest d names zs s) as R1. rewrite EZ in *. cbn [fst] in R1.
    pose proof (z_loop_spec _ _ _ _ _ _ _ EZ) as (Lt & _ & _ & _ & _ & Hk).
    assert (Hns : s_nsed s = length rows) by (unfold s_nsed; rewrite Hf; reflexivity).
    assert (HR : rect (length names * length rows) tab).
    { unfold rect. apply Forall_forall. intros x Hx. apply (In_nth _ _ []) in Hx as (k & Hlt & <-).
      destruct (Hk k ltac:(lia)) as (sk & rw & Hzk & Hp & ->). apply project_bands_rect in Hp as (L & Rk & _).
      assert (s_nsed sk = length rows). { destruct Hzk as (_ & E & _). unfold s_nsed in *. rewrite E. auto. }
      rewrite (length_table (w := length rows)) by congruence. congruence. }
    rewrite Hns, mk_linear_in_order by auto.
    destruct (set_redshift_ok s1 n0) as [s2 ->]; [eapply sampled_rest; eauto; apply Hs; cbn; auto|]. eauto.
  Qed.
  Lemma Response_curve wave y r : Response cub bq sun vega wave y = Ok r -> curve_set r.
  Proof.
    unfold Response. destruct (sort_pair wave y) as [[w yy]|]; [|discriminate]. cbn [bind fst snd].
    unfold resp_setup, with_curve. cbn [p_wave p_resp].
    destruct (mk_cubic w (vec yy)) as [it|]; [|discriminate].
    destruct (ref_magnitude cub sun_scale sun _) as [sm|]; [|discriminate].
    destruct (ref_magnitude cub vega_scale vega _) as [vm|]; [|discriminate].
    destruct (fwhm_limits cub bq w it) as [fw|]; [|discriminate].
    intro H; injection H as <-. exists w, it. auto.
  Qed.
  Lemma load_obtainable fs d n : obtainable cub bq sun vega fs d n ->
    exists d', load_response cub bq sun vega fs d n false = (d', None) /\ (exists r, dget d' n = Some r /\ curve_set r) /\
      forall m, obtainable cub bq sun vega fs d m -> obtainable cub bq sun vega fs d' m.
  Proof.
    intros [(r & Hr & Hc)|(Hn & w & y & r & Hf & HR)]; unfold load_response, dmem.
    - rewrite Hr. cbn [andb negb]. eauto 6.
    - rewrite Hn. cbn [andb negb]. rewrite Hf. unfold fromdat. cbn [fst snd]. pose proof (Response_curve _ _ _ HR) as Hc.
      unfold Response in HR.
      destruct (sort_pair w y) as [p|]; [|discriminate]. cbn [bind] in HR.
      destruct (resp_setup _ _ _ _ _) as [r' [e|]]; [discriminate|]. injection HR as ->. eexists. split; [reflexivity|].
      split; [exists r; rewrite dget_dset, String.eqb_refl; auto|]. intros m Hm. unfold obtainable. rewrite dget_dset.
      destruct (String.eqb_spec n m); [left; eauto|exact Hm].
  Qed.
  Lemma load_all_obtainable fs names : forall d, (forall n, In n names -> obtainable cub bq sun vega fs d n) ->
    exists d', load_all cub bq sun vega fs names d = (d', None) /\
      (forall n, In n names -> exists r, dget d' n = Some r /\ curve_set r) /\
      forall m, obtainable cub bq sun vega fs d m -> obtainable cub bq sun vega fs d' m.
  Proof.
    induction names as [|n names IH]; intros d H; cbn [load_all]; [exists d; split; auto; split; auto; easy|].
    destruct (load_obtainable fs d n (H n (or_introl eq_refl))) as (d1 & E & (r & Hr & Hc) & Hk). rewrite E.
    destruct (IH d1) as (d2 & E2 & H2 & Hk2); [intros m Hm; apply Hk, H; cbn; auto|]. exists d2. split; auto. split; [|auto].
    intros m [<-|Hm]; auto. exists r. split; auto. pose proof (load_all_ext fs names d1 n r Hr) as X. rewrite E2 in X. exact X.
  Qed.
  Lemma calc_A_obtainable fs names zs d (s : sed T) w rows :
    (forall n, In n names -> obtainable cub bq sun vega fs d n) ->
    s_rflux s = table w rows -> rect w rows -> rows <> [] -> in_order zs -> zs <> [] ->
    (forall z, In z (n0 :: zs) -> sampled_at (s_rwave s) (s_rflux s) z) ->
    exists d' s' A, calc_A cub bq sun vega fs names zs d s = (d', s', Ok A) /\
      forall m, obtainable cub bq sun vega fs d m -> obtainable cub bq sun vega fs d' m.
  Proof.
    intros Hd Hf Hr Hne Ho Hz Hs. destruct (load_all_obtainable fs names d Hd) as (d' & EL & Hc & Hk).
    destruct (calc_A_succeeds fs names zs d' s w rows Hc Hf Hr Hne Ho Hz Hs) as (s' & A & E).
    exists d', s', A. split; auto. unfold calc_A in *. rewrite EL.
    rewrite load_all_cached in E by (intros n Hn; destruct (Hc n Hn) as (r & ? & _); eauto). exact E.
  Qed.
  Lemma Kcorrect_succeeds fs d k abc responses (s : sed T) t out map_ r0 r1 nz w rows :
    let o := match out with Some l => l | None => responses end in
    let m := match map_ with Some l => l | None => responses end in
    (forall n, In n responses \/ In n o -> obtainable cub bq sun vega fs d n) ->
    length m = length o -> (forall name, In name m -> In name responses) ->
    s_rflux s = table w rows -> rect w rows -> rows <> [] -> in_order (redshift_grid r0 r1 nz) -> 0 < nz ->
    (forall z, In z (n0 :: redshift_grid r0 r1 nz) -> sampled_at (s_rwave s) (s_rflux s) z) ->
    exists d' s' K, Kcorrect cub bq sun vega fs d k abc responses s t out map_ r0 r1 nz = (d', s', Ok K).
  Proof.
    intros o m Hd HL Hin Hf Hr Hne Ho Hnz Hs. unfold Kcorrect, set_Amatrix. cbn [f_resp f_zs f_sed Fitter f_kind f_abc]. fold o m.
    assert (Hz : redshift_grid r0 r1 nz <> []) by (unfold redshift_grid; destruct nz; [lia|discriminate]).
    destruct (calc_A_obtainable fs responses (redshift_grid r0 r1 nz) d s w rows) as (d1 & s1 & A & E1 & Hk); auto.
    pose proof (calc_A_same fs responses (redshift_grid r0 r1 nz) d s s (same_rest_refl s)) as R1. rewrite E1 in R1 |- *.
    destruct R1 as (_ & _ & _ & R1).
    cbn [f_sed f_zs f_A f_kind f_abc f_resp]. rewrite HL, Nat.eqb_refl. cbn [negb].
    destruct (make_imap_good _ _ Hin) as [im EM].
    destruct (names_eqb o responses).
    - cbn [bind]. rewrite EM. cbn. eauto.
    - pose proof R1 as (R2 & R3 & _).
      destruct (calc_A_obtainable fs o (redshift_grid r0 r1 nz) d1 s1 w rows) as (d2 & s2 & A2 & -> & _); auto.
      + congruence.
      + intros z Hz'. eapply sampled_rest; eauto.
      + cbn [bind]. rewrite EM. cbn. eauto.
  Qed.
End T.
