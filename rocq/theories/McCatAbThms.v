(** Monte Carlo catalogues of the instrument classes (C118): the proofs. *)
From Coq Require Import String List Arith Lia Bool QArith Qreals Reals Lra.
From Verif Require Import Base BaseLemmas Num Toy Spec Interp Sed Response RespDict Fitter FitSpec FitEx Kcorrect KSpec KEx CatSpec McCatSpec.
Import ListNotations.
Local Open Scope nat_scope.
(* STATEMENTS *)
From Verif Require Import Utils UtilsProofs UtilsReal FitterProofs FitterThms KcorrectProofs AbsmagProofs AbProofs AbThms CatThms FitRealThms McCatThms.

Lemma fit_catalogue_ab nnls rng (F : fitter xr) A nb nt mc (objs : list (xr * list R * list R)) cur :
  ready F A nb nt -> f_abc F = true -> f_kind F <> Plain -> ab_bands (f_kind F) nb ->
  Forall (fun o => length (snd (fst o)) = nb /\ length (snd o) = nb) objs ->
  fit_objects nnls rng F nb mc (map (fun o => finite_obj (fst (fst o)) (snd (fst o)) (snd o)) objs) cur =
  fit_objects nnls rng (without_ab F) nb mc (map (fun o => offset_obj (ab_offsets (f_kind F)) (fst (fst o)) (snd (fst o)) (snd o)) objs) cur.
Proof.
  intros (HA & Hr & Hn & Ht) Habc Hk Hb Ho. set (fin := fun o : xr * list R * list R => _). set (cor := fun o : xr * list R * list R => offset_obj _ _ _ _).
  assert (Hx : forall x : xr, cst x = x) by reflexivity.
  set (ms := map (fun o : xr * list R * list R => snd (fst o)) objs). set (ivs := map (fun o : xr * list R * list R => snd o) objs).
  assert (Rm : rect nb ms) by (unfold rect, ms; rewrite Forall_map; eapply Forall_impl; [|exact Ho]; cbn; tauto).
  assert (Ri : rect nb ivs) by (unfold rect, ivs; rewrite Forall_map; eapply Forall_impl; [|exact Ho]; cbn; tauto).
  assert (L : length ivs = length ms) by (unfold ivs, ms; rewrite !map_length; auto).
  assert (Em : objs_m nb (map fin objs) = table nb (map (map Fin) ms)) by (unfold objs_m, ms; rewrite !map_map; reflexivity).
  assert (Ei : objs_iv nb (map fin objs) = table nb (map (map Fin) ivs)) by (unfold objs_iv, ivs; rewrite !map_map; reflexivity).
  assert (Ez : objs_z (map fin objs) = objs_z (map cor objs)) by (unfold objs_z; rewrite !map_map; reflexivity).
  pose proof (to_ab_table (f_kind F) nb ms ivs Hk Hb Rm Ri L) as TA.
  match type of TA with _ = Ok (?a, Some ?b) => assert (Cm : objs_m nb (map cor objs) = a) by (unfold objs_m, ms; rewrite !map_map; reflexivity);
    assert (Ci : objs_iv nb (map cor objs) = b) by (unfold objs_iv, ivs; rewrite !map_map; reflexivity) end.
  rewrite <- Cm, <- Ci, <- Em, <- Ei in TA.
  assert (S : shp (objs_z (map fin objs)) = [length objs] /\ shp (objs_m nb (map fin objs)) = [length objs; nb] /\ shp (objs_iv nb (map fin objs)) = [length objs; nb]).
  { unfold objs_z, objs_m, objs_iv, table, vec. cbn [shp]. rewrite !map_length. auto. }
  destruct S as (Sz & Sm & Si). unfold fit_objects.
  rewrite (L_C61_fit xr _ nnls rng F (objs_z (map fin objs)) (objs_m nb (map fin objs)) (Some (objs_iv nb (map fin objs))) mc cur Hx Habc).
  2:{ right. exists (length objs). rewrite Sz, Hr, Hn. split; [reflexivity|]. repeat split; auto using some_shape, none_shape. }
  rewrite TA, Ez. reflexivity.
Qed.

Lemma filter_length_map A B (f : B -> bool) (g : A -> B) l : length (filter f (map g l)) = length (filter (fun x => f (g x)) l).
Proof. induction l as [|a l IH]; auto. cbn. destruct (f (g a)); cbn; auto. Qed.
Lemma filter_length_ext A (f g : A -> bool) l : (forall x, In x l -> f x = g x) -> length (filter f l) = length (filter g l).
Proof. intro H. rewrite (filter_ext_in f g l H). auto. Qed.

Lemma positive_error (v : R) : nltb (n0 : xr) (nsqrt (cst (Fin v))) = Rltb 0 v.
Proof.
  cbn [cst nsqrt Num_xr xsqrt nltb n0 xltb]. destruct (Rlt_le_dec v 0) as [E|E].
  - rewrite (Num.Rltb_true v 0 E). cbn. symmetry. apply Num.Rltb_false. lra.
  - rewrite (Num.Rltb_false v 0 E). cbn. destruct (Rlt_le_dec 0 v) as [E2|E2].
    + rewrite (Num.Rltb_true 0 v E2). apply Num.Rltb_true. apply sqrt_lt_R0; auto.
    + rewrite (Num.Rltb_false 0 v E2). apply Num.Rltb_false. replace v with 0%R by lra. rewrite sqrt_0. lra.
Qed.
Lemma measured_ab off z m iv : measured (offset_obj off z m iv) = measured (finite_obj z m iv).
Proof.
  unfold measured, offset_obj, finite_obj. cbn [o_iv]. rewrite !map_map, !filter_length_map.
  rewrite <- (UtilsReal.map_nth_seq iv 0%R) at 2. rewrite filter_length_map. apply filter_length_ext. intros k _.
  rewrite !positive_error. pose proof (pow_lt _ 2 (pow10_pos (-0.4 * off k))) as P. set (p := (pow10 (-0.4 * off k) ^ 2)%R) in *.
  set (v := nth k iv 0%R). assert (PI : (0 < / p)%R) by (apply Rinv_0_lt_compat; auto). unfold Rdiv. destruct (Rlt_le_dec 0 v) as [E|E].
  - rewrite (Num.Rltb_true 0 v E). apply Num.Rltb_true, Rmult_lt_0_compat; auto.
  - rewrite (Num.Rltb_false 0 v E). apply Num.Rltb_false. replace 0%R with (0 * / p)%R by ring. apply Rmult_le_compat_r; lra.
Qed.
Lemma fit_object_ab nnls rng (F : fitter xr) A nb nt mc z m iv k :
  ready F A nb nt -> f_abc F = true -> f_kind F <> Plain -> ab_bands (f_kind F) nb -> length m = nb -> length iv = nb ->
  fit_object nnls rng F mc (finite_obj z m iv) k = fit_object nnls rng (without_ab F) mc (offset_obj (ab_offsets (f_kind F)) z m iv) k.
Proof.
  intros (HA & Hr & Hn & Ht) Habc Hk Hb Lm Li. assert (Hx : forall x : xr, cst x = x) by reflexivity.
  unfold fit_object at 1. cbn [finite_obj o_z o_m o_iv].
  pose proof (to_ab_vec (f_kind F) m iv Hk) as TA. rewrite Lm in TA. specialize (TA Hb (eq_trans Li (eq_refl))).
  rewrite (L_C61_fit xr _ nnls rng F (scal z) (vec (map Fin m)) (Some (vec (map Fin iv))) mc k Hx Habc).
  2:{ left. rewrite Hr, Hn. split; [reflexivity|]. repeat split; try apply none_shape; apply some_shape; unfold vec; cbn [shp]; rewrite map_length; congruence. }
  rewrite TA. unfold fit_object, offset_obj, finite_obj. cbn [o_z o_m o_iv]. rewrite Lm, Li. reflexivity.
Qed.
Lemma ab_two k nb : k <> Plain -> ab_bands k nb -> nb <> 1.
Proof. intros Hk Hb. destruct k; try congruence; cbn in Hb; lia. Qed.
Lemma cor_ok off nb objs : Forall (fun o : xr * list R * list R => length (snd (fst o)) = nb /\ length (snd o) = nb) objs ->
  Forall (obj_ok nb) (map (fun o => offset_obj off (fst (fst o)) (snd (fst o)) (snd o)) objs).
Proof.
  intro H. apply Forall_map. eapply Forall_impl; [|exact H]. intros o [L1 L2]. split; cbn; rewrite !map_length, seq_length; auto.
Qed.
Lemma without_ready (F : fitter xr) A nb nt : ready F A nb nt -> ready (without_ab F) A nb nt.
Proof. intro H. exact H. Qed.

Lemma scatter_all A (P : A -> Prop) mask : forall old new, Forall P old -> Forall P new -> Forall P (scatter mask old new).
Proof.
  induction mask as [|b mask IH]; intros old new Ho Hn; destruct old as [|x old]; cbn; auto. inversion Ho; subst.
  destruct b; [destruct new as [|y new]; [|inversion Hn; subst]|]; constructor; auto.
Qed.
Lemma zip_all A B C (f : A -> B -> C) (P : A -> Prop) (Q : B -> Prop) (S : C -> Prop) l1 : (forall a b, P a -> Q b -> S (f a b)) ->
  forall l2, Forall P l1 -> Forall Q l2 -> Forall S (zip f l1 l2).
Proof.
  intro H. induction l1 as [|a l1 IH]; intros [|b l2] H1 H2; cbn; auto. inversion H1; inversion H2; subst. constructor; auto.
Qed.
Lemma gather_all A (P : A -> Prop) mask : forall l, Forall P l -> Forall P (gather mask l).
Proof.
  induction mask as [|b mask IH]; intros [|x l] H; cbn; auto. inversion H; subst. destruct b; [constructor|]; auto.
Qed.
Lemma fin_all_b l : Forall is_fin l <-> forallb (@nfin xr _) l = true.
Proof.
  rewrite forallb_forall, Forall_forall. split; intros H x Hx; specialize (H x Hx).
  - destruct H as [r ->]. reflexivity.
  - destruct x; try discriminate. eexists; reflexivity.
Qed.
Lemma fin_mul a b : is_fin a -> is_fin b -> is_fin (nmul a b).
Proof. intros [x ->] [y ->]. eexists. reflexivity. Qed.
Lemma draw_fin rng (m e : list xr) k : (forall n, is_fin (rng n)) -> Forall is_fin m -> Forall is_fin e -> Forall is_fin (fst (draw rng m e k)).
Proof.
  intros Hr Hm He. unfold draw. cbn [fst]. change (map cst m) with (map (fun x : xr => x) m). rewrite map_id.
  apply scatter_all; auto. apply zip_all with (P := is_fin) (Q := is_fin); [intros a b [x ->] [y ->]; eexists; reflexivity|apply gather_all; auto|].
  apply zip_all with (P := is_fin) (Q := is_fin); [apply fin_mul|apply Forall_map, Forall_forall; auto|].
  assert (G : Forall (fun x : xr => is_fin x /\ nltb n0 x = true) (gather (map (fun y => nltb n0 y) e) e)).
  { clear - He. induction e as [|x e IH]; cbn [map gather]; auto. inversion He; subst. destruct (nltb n0 x) eqn:E; auto. }
  apply Forall_map. eapply Forall_impl; [|exact G]. intros x [[r ->] P]. cbn in P. unfold Rltb in P. destruct (Rlt_dec 0 r) as [Q|]; [|discriminate].
  exists (1 / r)%R. cbn. rewrite Reqb_false by lra. reflexivity.
Qed.
Lemma ex_retry (W : nd xr) nb nt (b : list xr) : shp W = [nb; nt] -> forallb nfin (dat W) = true -> length b = nb -> Forall is_fin b ->
  exists c, nnls_retry ex_nnls W (vec b) = Ok (vec c) /\ length c = nt.
Proof.
  intros S FW L Fb. unfold nnls_retry, nnls_call. cbn [vec dat shp]. rewrite FW. apply fin_all_b in Fb. rewrite Fb, S. cbn [ndim length Nat.eqb hd shp]. unfold ndim. rewrite S. cbn [length Nat.eqb].
  rewrite L. cbn. rewrite ?Nat.eqb_refl. cbn. eexists. split; [reflexivity|].
  rewrite firstn_length, app_length, repeat_length. lia.
Qed.
Lemma ex_loop rng (W : nd xr) nb nt m e mc : shp W = [nb; nt] -> forallb nfin (dat W) = true -> length m = nb -> length e = nb ->
  (forall n, is_fin (rng n)) -> Forall is_fin m -> Forall is_fin e ->
  forall k, exists ms cs k', mc_loop ex_nnls rng nt W m e mc k = Ok (ms, cs, k').
Proof.
  intros S FW Lm Le Hr Hm He. induction mc as [|mc IH]; intro k; cbn [mc_loop]; [eauto|].
  pose proof (draw_fin rng m e k Hr Hm He) as D. destruct (draw rng m e k) as [x k1] eqn:ED. cbn [fst] in D.
  assert (Lx : length x = nb). { assert (X : x = fst (draw rng m e k)) by (rewrite ED; auto). rewrite X. unfold draw. cbn [fst]. rewrite length_scatter, map_length. auto. }
  destruct (ex_retry W nb nt (zip nmul x e) S FW) as (c & -> & Lc).
  { rewrite length_zip, Lx, Le. apply Nat.min_id. }
  { apply zip_all with (P := is_fin) (Q := is_fin); auto. apply fin_mul. }
  cbn [bind]. assert (B : exists c', bto n0 [nt] (map1 (@cst xr _) (vec c)) = Ok c').
  { eexists. rewrite <- Lc. apply (@bto_same _ n0 (map1 (@cst xr _) (vec c))). unfold wf, size, map1, vec. cbn [shp dat fold_right]. rewrite map_length. lia. }
  destruct B as [c' B]. rewrite B. cbn [bind]. destruct (IH k1) as (ms & cs & k' & ->). cbn [bind]. eauto.
Qed.
Lemma ex_fit rng (F : fitter xr) A x rows nb nt t (m iv : list R) mc k : no_ab F -> ready F A nb nt -> nb <> 1 -> length m = nb -> length iv = nb ->
  a_x A = map Fin x -> a_rows A = map (map Fin) rows -> grid_ok x -> in_range x t -> Forall (Rle 0) iv -> (forall n, is_fin (rng n)) ->
  exists r k', fit_object ex_nnls rng F mc (finite_obj (Fin t) m iv) k = Ok (r, k').
Proof.
  intros Hab H H1 Lm Li Hx Hrows Hg Hr Hv Hrng. pose proof H as (HA & Hb & Hn & Ht). pose proof Ht as (_ & Hl & H2 & _).
  unfold fit_object. fold (fit_object ex_nnls rng F mc (finite_obj (Fin t) m iv) k).
  rewrite (single_eq ex_nnls rng mc k Hab H H1) by (split; cbn; rewrite map_length; auto). cbn [finite_obj o_z o_m o_iv]. unfold fit1_spec.
  change (@cst xr _) with (fun x : xr => x). rewrite !map_id.
  assert (EO : out_of (a_x A) (Fin t) = false).
  { unfold out_of. rewrite Hx in *. rewrite map_length in *. change (@n0 xr Num_xr) with (Fin 0).
    rewrite map_nth. rewrite <- (map_nth Fin). clear - Hr H2.
    assert (EL : last (map Fin x) (Fin 0) = Fin (last x 0%R)).
    { clear. induction x as [|a [|b x] IH]; auto. }
    rewrite EL, map_nth. xcbn. cbn [xltb]. unfold in_range in Hr. rewrite !Num.Rltb_false by lra. auto. }
  rewrite EO. set (e := map nsqrt (map Fin iv)).
  assert (Fe : Forall is_fin e).
  { unfold e. rewrite map_map. apply Forall_map. eapply Forall_impl; [|exact Hv]. intros v P. exists (sqrt v). cbn [nsqrt Num_xr]. apply xsqrt_fin. auto. }
  assert (Fm : Forall is_fin (map Fin m)) by (apply Forall_map, Forall_forall; intros v _; eexists; reflexivity).
  assert (Le : length e = nb) by (unfold e; rewrite !map_length; auto).
  assert (FW : forallb nfin (dat (wmat A nb nt e (Fin t))) = true).
  { apply fin_all_b, Forall_forall. intros v Hv1. unfold wmat in Hv1; cbn [dat] in Hv1.
    apply in_concat in Hv1 as (r & Hr1 & Hr2). apply In_nth_error in Hr1 as [j Hj]. rewrite nth_error_zip in Hj.
    destruct (nth_error e j) as [w|] eqn:Ew; [|discriminate].
    destruct (nth_error (chunks nb nt (arow A (Fin t))) j) as [q|] eqn:Eq; [|discriminate]. injection Hj as <-.
    apply in_map_iff in Hr2 as (u & <- & Hin). apply fin_mul.
    - rewrite Forall_forall in Fe. apply Fe. eapply nth_error_In; eauto.
    - pose proof (arow_fin A x rows nb nt t Ht Hx Hrows Hg) as HF. unfold finite in HF. rewrite Forall_forall in HF.
      assert (Fu : xfin u = true).
      { apply HF. apply nth_error_In in Eq. rewrite <- (concat_chunks nb nt (arow A (Fin t))) by (apply arow_len; auto). apply in_concat. eauto. }
      destruct u; try discriminate. eexists; reflexivity. }
  destruct (ex_retry (wmat A nb nt e (Fin t)) nb nt (zip nmul (map Fin m) e)) as (c & Ec & _); auto.
  { rewrite length_zip, map_length, Lm, Le. apply Nat.min_id. }
  { apply zip_all with (P := is_fin) (Q := is_fin); auto. apply fin_mul. }
  assert (V : mk [nb] (zip nmul (map Fin m) e) = vec (zip nmul (map Fin m) e)) by (unfold vec; rewrite length_zip, map_length, Lm, Le, Nat.min_id; auto).
  rewrite V, Ec. cbn [bind]. destruct (Nat.eqb mc 0); [eauto|].
  destruct (ex_loop rng (wmat A nb nt e (Fin t)) nb nt (map Fin m) e mc) with (k := k) as (ms & cs & k' & E); auto; [rewrite map_length; auto|].
  rewrite E. cbn [bind]. eauto.
Qed.
Lemma ex_cat rng (F : fitter xr) A x rows nb nt mc (objs : list (xr * list R * list R)) cur : ready F A nb nt -> f_abc F = true -> f_kind F <> Plain ->
  ab_bands (f_kind F) nb -> a_x A = map Fin x -> a_rows A = map (map Fin) rows -> grid_ok x -> (forall n, is_fin (rng n)) ->
  Forall (fun o => length (snd (fst o)) = nb /\ length (snd o) = nb) objs -> length objs <> 1 ->
  Forall (fun o => exists t, fst (fst o) = Fin t /\ in_range x t) objs -> Forall (fun o => Forall (Rle 0) (snd o)) objs ->
  exists r k, fit_objects ex_nnls rng F nb mc (map (fun o => finite_obj (fst (fst o)) (snd (fst o)) (snd o)) objs) cur = Ok (r, k).
Proof.
  intros H Habc Hk Hb Hx Hrows Hg Hrng Ho Hn Hz Hv. rewrite (fit_catalogue_ab ex_nnls rng F A nb nt mc objs cur H Habc Hk Hb Ho).
  rewrite (fit_batch rng mc cur (@ex_nnls_shape xr _) (or_introl eq_refl : no_ab (without_ab F)) (without_ready _ _ _ _ H) (ab_two _ _ Hk Hb) (cor_ok _ nb objs Ho)) by (rewrite map_length; auto).
  assert (G : exists outs k, run_each (fit_object ex_nnls rng (without_ab F) mc) (map (fun o => offset_obj (ab_offsets (f_kind F)) (fst (fst o)) (snd (fst o)) (snd o)) objs) cur = Ok (outs, k)).
  { clear Hn. revert cur. induction objs as [|[[z m] iv] objs IH]; intro cur; cbn [map run_each fst snd]; [eauto|].
    destruct (Forall_inv Ho) as [L1 L2]. pose proof (Forall_inv_tail Ho) as Ho'. destruct (Forall_inv Hz) as (t & Et & Rt). pose proof (Forall_inv_tail Hz) as Hz'.
    pose proof (Forall_inv Hv) as V. pose proof (Forall_inv_tail Hv) as Hv'. cbn [fst snd] in L1, L2, Et, V. subst z.
    unfold offset_obj at 1.
    destruct (ex_fit rng (without_ab F) A x rows nb nt t (map (fun k => nth k m 0 * pow10 (-0.4 * ab_offsets (f_kind F) k))%R (seq 0 (length m)))
      (map (fun k => nth k iv 0 / pow10 (-0.4 * ab_offsets (f_kind F) k) ^ 2)%R (seq 0 (length iv))) mc cur) as (r & k & E); auto.
    - left; reflexivity.
    - apply (ab_two _ _ Hk Hb).
    - rewrite map_length, seq_length; auto.
    - rewrite map_length, seq_length; auto.
    - apply Forall_map, Forall_forall. intros j Hj. apply in_seq in Hj. unfold Rdiv. apply Rmult_le_pos.
      + rewrite Forall_forall in V. apply V, nth_In. lia.
      + apply Rlt_le, Rinv_0_lt_compat, pow_lt, pow10_pos.
    - rewrite E. destruct (IH Ho' Hz' Hv' k) as (outs & k' & E'). cbn [fst snd] in E'. rewrite E'. eauto. }
  destruct G as (outs & k & ->). eauto.
Qed.

(** The same for KcorrectSDSS and KcorrectGST with abcorrect=True and finite photometry: the parts of a catalogue give the
    arrays of the whole. *)
Lemma L_C118_split_ab :
  forall nnls rng (F : fitter xr) A nb nt mc (a b : list (xr * list R * list R)) cur,
    nnls_shape nnls -> ready F A nb nt -> f_abc F = true -> f_kind F <> Plain -> ab_bands (f_kind F) nb ->
    Forall (fun o => length (snd (fst o)) = nb /\ length (snd o) = nb) (a ++ b) -> length a <> 1 -> length b <> 1 ->
    let fit := fun l => fit_objects nnls rng F nb mc (map (fun o => finite_obj (fst (fst o)) (snd (fst o)) (snd o)) l) in
    (forall x k y k', fit a cur = Ok (x, k) -> fit b k = Ok (y, k') -> fit (a ++ b) cur = Ok (stack_out x y, k')) /\
    (forall e, fit a cur = Raise e -> fit (a ++ b) cur = Raise e) /\
    (forall x k e, fit a cur = Ok (x, k) -> fit b k = Raise e -> fit (a ++ b) cur = Raise e).
Proof.
  intros nnls rng F A nb nt mc a b cur Hs H Habc Hk Hb Ho La Lb fit. pose proof Ho as Ho2. apply Forall_app in Ho2 as [Oa Ob].
  assert (EQ : forall l k, Forall (fun o : xr * list R * list R => length (snd (fst o)) = nb /\ length (snd o) = nb) l -> fit l k = _)
    by (intros l k Hl; apply (fit_catalogue_ab nnls rng F A nb nt mc l k H Habc Hk Hb Hl)).
  rewrite (EQ (a ++ b)), (EQ a) by auto. rewrite map_app.
  destruct (L_C118_split xr _ nnls rng (without_ab F) A nb nt mc _ _ cur Hs (or_introl eq_refl) (without_ready _ _ _ _ H) (ab_two _ _ Hk Hb)
    (eq_ind _ _ (cor_ok (ab_offsets (f_kind F)) nb (a ++ b) Ho) _ (map_app _ a b))) as (P1 & P2 & P3); try (rewrite map_length; auto).
  split; [|split; [exact P2|]].
  - intros x k y k' E1 E2. rewrite EQ in E2 by auto. eapply P1; eauto.
  - intros x k e E1 E2. rewrite EQ in E2 by auto. eapply P3; eauto.
Qed.
Lemma E_C118_split_ab : exists x y k k',
  let A := {| a_x := [Fin 0; Fin 1]; a_rows := [map Fin [1; 2; 3; 4; 5]; map Fin [2; 3; 4; 5; 6]]; a_shape := [5; 1]%nat |}%R in
  let F := ex_fitter SDSS true ["u"; "g"; "r"; "i"; "z"]%string 1%nat (a_x A) (a_rows A) in
  let a := [(Fin 0, [1; 2; 3; 4; 5], [1; 1; 1; 1; 1]); (Fin (1 / 2), [0; -1; 3; 4; 5], [0; 1; 1; 0; 1])]%R in
  let b := [(Fin 1, [2; 2; 2; 2; 2], [4; 0; 4; 0; 4]); (Fin 0, [1; 1; 1; 1; 1], [1; 2; 3; 4; 5])]%R in
  let fit := fun l => fit_objects ex_nnls (fun n => Fin (INR n)) F 5 2 (map (fun o => finite_obj (fst (fst o)) (snd (fst o)) (snd o)) l) in
  nnls_shape (T := xr) ex_nnls /\ ready F A 5 1 /\ f_abc F = true /\ f_kind F <> Plain /\ ab_bands (f_kind F) 5 /\
  Forall (fun o : xr * list R * list R => length (snd (fst o)) = 5 /\ length (snd o) = 5) (a ++ b) /\
  fit a 0 = Ok (x, k) /\ fit b k = Ok (y, k').
Proof.
  assert (R1 : ready (ex_fitter SDSS true ["u"; "g"; "r"; "i"; "z"]%string 1%nat [Fin 0; Fin 1] [map Fin [1; 2; 3; 4; 5]; map Fin [2; 3; 4; 5; 6]])%R
    {| a_x := [Fin 0; Fin 1]; a_rows := [map Fin [1; 2; 3; 4; 5]; map Fin [2; 3; 4; 5; 6]]; a_shape := [5; 1]%nat |}%R 5 1)
    by (unfold ready, tab_ok, rect; cbn; repeat split; auto; repeat constructor).
  pose proof (fun objs cur => ex_cat (fun n => Fin (INR n)) _ _ [0; 1]%R [[1; 2; 3; 4; 5]; [2; 3; 4; 5; 6]]%R 5 1 2 objs cur R1 eq_refl ltac:(discriminate) eq_refl eq_refl eq_refl
    ltac:(repeat constructor; lra) (fun n => ex_intro _ (INR n) eq_refl)) as C.
  destruct (C [(Fin 0, [1; 2; 3; 4; 5], [1; 1; 1; 1; 1]); (Fin (1 / 2), [0; -1; 3; 4; 5], [0; 1; 1; 0; 1])]%R 0) as (x & k & Ea).
  { repeat constructor. } { discriminate. } { repeat constructor; eexists; (split; [reflexivity|unfold in_range; cbn; lra]). } { repeat constructor; cbn; lra. }
  destruct (C [(Fin 1, [2; 2; 2; 2; 2], [4; 0; 4; 0; 4]); (Fin 0, [1; 1; 1; 1; 1], [1; 2; 3; 4; 5])]%R k) as (y & k' & Eb).
  { repeat constructor. } { discriminate. } { repeat constructor; eexists; (split; [reflexivity|unfold in_range; cbn; lra]). } { repeat constructor; cbn; lra. }
  exists x, y, k, k'. cbv zeta. split; [apply ex_nnls_shape|]. split; [exact R1|]. split; [reflexivity|]. split; [discriminate|]. split; [reflexivity|].
  split; [repeat constructor|]. split; [exact Ea|exact Eb].
Qed.

(** ... and each object gets what it gets alone, the random stream being mc variates per measured band of the objects before
    it further on.  The AB correction does not change which bands are measured. *)
Lemma L_C118_offset_ab :
  forall nnls rng (F : fitter xr) A nb nt mc (objs : list (xr * list R * list R)) cur r cur',
    nnls_shape nnls -> ready F A nb nt -> f_abc F = true -> f_kind F <> Plain -> ab_bands (f_kind F) nb -> mc <> 0 ->
    Forall (fun o => length (snd (fst o)) = nb /\ length (snd o) = nb) objs -> length objs <> 1 ->
    let fin := fun o : xr * list R * list R => finite_obj (fst (fst o)) (snd (fst o)) (snd o) in
    let bands := fun l : list (xr * list R * list R) => list_sum (map (fun o => length (filter (fun v => if Rlt_dec 0 v then true else false) (snd o))) l) in
    fit_objects nnls rng F nb mc (map fin objs) cur = Ok (r, cur') ->
    exists c cm mm, r = Three c cm mm /\ cur' = cur + mc * bands objs /\
      forall i o, nth_error objs i = Some o ->
        exists ci cmi mmi k, fit_object nnls rng F mc (fin o) (cur + mc * bands (firstn i objs)) = Ok (Three ci cmi mmi, k) /\
          row i c = ci /\ row i cm = cmi /\ row i mm = mmi.
Proof.
  intros nnls rng F A nb nt mc objs cur r cur' Hs H Habc Hk Hb Hmc Ho Hn fin bands E.
  set (cor := fun o : xr * list R * list R => offset_obj (ab_offsets (f_kind F)) (fst (fst o)) (snd (fst o)) (snd o)).
  assert (B : forall l, bands l = measured_all (map cor l)).
  { intro l. unfold bands, measured_all. rewrite map_map. f_equal. apply map_ext. intros [[z m] iv]. unfold cor. cbn [fst snd]. rewrite measured_ab.
    unfold measured, finite_obj. cbn [o_iv]. rewrite map_map, filter_length_map. apply filter_length_ext. intros v _. rewrite positive_error. reflexivity. }
  unfold fin in E. rewrite (fit_catalogue_ab nnls rng F A nb nt mc objs cur H Habc Hk Hb Ho) in E. fold cor in E.
  destruct (L_C118_offset xr _ nnls rng (without_ab F) A nb nt mc (map cor objs) cur r cur' Hs (or_introl eq_refl) (without_ready _ _ _ _ H) (ab_two _ _ Hk Hb)
    Hmc (cor_ok _ nb objs Ho)) as (c & cm & mm & -> & -> & G); auto; [rewrite map_length; auto|].
  exists c, cm, mm. split; [reflexivity|]. split; [rewrite B; reflexivity|]. intros i o Hi.
  destruct (G i (cor o)) as (ci & cmi & mmi & E1 & R1 & R2 & R3); [rewrite nth_error_map, Hi; reflexivity|].
  rewrite firstn_map, <- B in E1. rewrite Forall_forall in Ho. destruct (Ho o (nth_error_In _ _ Hi)) as [L1 L2].
  exists ci, cmi, mmi. eexists. split; [unfold fin; rewrite (fit_object_ab nnls rng F A nb nt mc _ _ _ _ H Habc Hk Hb L1 L2); exact E1|].
  split; [rewrite R1; unfold map1; destruct ci as [s l]; cbn; f_equal; apply map_id|]. auto.
Qed.
Lemma E_C118_offset_ab : exists r k,
  let A := {| a_x := [Fin 0; Fin 1]; a_rows := [map Fin [1; 2; 3; 4; 5]; map Fin [2; 3; 4; 5; 6]]; a_shape := [5; 1]%nat |}%R in
  let F := ex_fitter SDSS true ["u"; "g"; "r"; "i"; "z"]%string 1%nat (a_x A) (a_rows A) in
  let objs := [(Fin 0, [1; 2; 3; 4; 5], [1; 1; 1; 1; 1]); (Fin (1 / 2), [0; -1; 3; 4; 5], [0; 1; 1; 0; 1])]%R in
  ready F A 5 1 /\ ab_bands (f_kind F) 5 /\
  fit_objects ex_nnls (fun n => Fin (INR n)) F 5 2 (map (fun o => finite_obj (fst (fst o)) (snd (fst o)) (snd o)) objs) 0 = Ok (r, k).
Proof.
  destruct E_C118_split_ab as (x & y & k & k' & _ & H1 & _ & _ & H2 & _ & H3 & _). exists x, k. cbv zeta. auto.
Qed.

(** So with abcorrect=True too an object's results depend on the other objects only through the number of measured bands of
    those before it. *)
Lemma L_C118_others_ab :
  forall nnls rng (F : fitter xr) A nb nt mc (objs objs' : list (xr * list R * list R)) cur c cm mm k c' cm' mm' k' i o,
    nnls_shape nnls -> ready F A nb nt -> f_abc F = true -> f_kind F <> Plain -> ab_bands (f_kind F) nb -> mc <> 0 ->
    Forall (fun o => length (snd (fst o)) = nb /\ length (snd o) = nb) objs -> length objs <> 1 ->
    Forall (fun o => length (snd (fst o)) = nb /\ length (snd o) = nb) objs' -> length objs' <> 1 ->
    let fit := fun l => fit_objects nnls rng F nb mc (map (fun o => finite_obj (fst (fst o)) (snd (fst o)) (snd o)) l) in
    let bands := fun l : list (xr * list R * list R) => list_sum (map (fun o => length (filter (fun v => if Rlt_dec 0 v then true else false) (snd o))) l) in
    fit objs cur = Ok (Three c cm mm, k) -> fit objs' cur = Ok (Three c' cm' mm', k') ->
    nth_error objs i = Some o -> nth_error objs' i = Some o -> bands (firstn i objs) = bands (firstn i objs') ->
    row i c = row i c' /\ row i cm = row i cm' /\ row i mm = row i mm'.
Proof.
  intros nnls rng F A nb nt mc objs objs' cur c cm mm k c' cm' mm' k' i o Hs H Habc Hk Hb Hmc O1 L1 O2 L2 fit bands E1 E2 I1 I2 M.
  destruct (L_C118_offset_ab _ _ _ _ _ _ _ _ _ _ _ Hs H Habc Hk Hb Hmc O1 L1 E1) as (c1 & cm1 & mm1 & X1 & _ & G1). injection X1 as <- <- <-.
  destruct (L_C118_offset_ab _ _ _ _ _ _ _ _ _ _ _ Hs H Habc Hk Hb Hmc O2 L2 E2) as (c2 & cm2 & mm2 & X2 & _ & G2). injection X2 as <- <- <-.
  destruct (G1 i o I1) as (d1 & dm1 & m1 & k1 & Y1 & -> & -> & ->). destruct (G2 i o I2) as (d2 & dm2 & m2 & k2 & Y2 & -> & -> & ->).
  unfold bands in M. rewrite M in Y1. rewrite Y1 in Y2. injection Y2 as -> -> -> _. auto.
Qed.
Lemma E_C118_others_ab : exists c cm mm k c' cm' mm' k',
  let A := {| a_x := [Fin 0; Fin 1]; a_rows := [map Fin [1; 2; 3; 4; 5]; map Fin [2; 3; 4; 5; 6]]; a_shape := [5; 1]%nat |}%R in
  let F := ex_fitter SDSS true ["u"; "g"; "r"; "i"; "z"]%string 1%nat (a_x A) (a_rows A) in
  let o := (Fin (1 / 2), [0; -1; 3; 4; 5], [0; 1; 1; 0; 1])%R in
  let objs := [(Fin 0, [1; 2; 3; 4; 5], [1; 0; 1; 1; 1])%R; o] in
  let objs' := [(Fin 1, [9; 8; 7; 6; 5], [2; 3; 4; 5; 0])%R; o; o] in
  let fit := fun l => fit_objects ex_nnls (fun n => Fin (INR n)) F 5 2 (map (fun o => finite_obj (fst (fst o)) (snd (fst o)) (snd o)) l) in
  let bands := fun l : list (xr * list R * list R) => list_sum (map (fun o => length (filter (fun v => if Rlt_dec 0 v then true else false) (snd o))) l) in
  ready F A 5 1 /\ ab_bands (f_kind F) 5 /\ fit objs 0 = Ok (Three c cm mm, k) /\ fit objs' 0 = Ok (Three c' cm' mm', k') /\
  bands (firstn 1 objs) = bands (firstn 1 objs').
Proof.
  assert (R1 : ready (ex_fitter SDSS true ["u"; "g"; "r"; "i"; "z"]%string 1%nat [Fin 0; Fin 1] [map Fin [1; 2; 3; 4; 5]; map Fin [2; 3; 4; 5; 6]])%R
    {| a_x := [Fin 0; Fin 1]; a_rows := [map Fin [1; 2; 3; 4; 5]; map Fin [2; 3; 4; 5; 6]]; a_shape := [5; 1]%nat |}%R 5 1)
    by (unfold ready, tab_ok, rect; cbn; repeat split; auto; repeat constructor).
  assert (C : forall objs, Forall (fun o => length (snd (fst o)) = 5 /\ length (snd o) = 5) objs -> length objs <> 1 ->
    Forall (fun o => exists t, fst (fst o) = Fin t /\ in_range [0; 1]%R t) objs -> Forall (fun o => Forall (Rle 0) (snd o)) objs ->
    exists c cm mm k, fit_objects ex_nnls (fun n => Fin (INR n)) (ex_fitter SDSS true ["u"; "g"; "r"; "i"; "z"]%string 1%nat [Fin 0; Fin 1] [map Fin [1; 2; 3; 4; 5]; map Fin [2; 3; 4; 5; 6]])%R
      5 2 (map (fun o => finite_obj (fst (fst o)) (snd (fst o)) (snd o)) objs) 0 = Ok (Three c cm mm, k)).
  { intros objs H1 H2 H3 H4.
    destruct (ex_cat (fun n => Fin (INR n)) _ _ [0; 1]%R [[1; 2; 3; 4; 5]; [2; 3; 4; 5; 6]]%R 5 1 2 objs 0 R1 eq_refl ltac:(discriminate) eq_refl eq_refl eq_refl
      ltac:(repeat constructor; lra) (fun n => ex_intro _ (INR n) eq_refl) H1 H2 H3 H4) as (r & k & E).
    destruct (L_C118_offset_ab _ _ _ _ _ _ 2 _ _ _ _ (@ex_nnls_shape xr _) R1 eq_refl ltac:(discriminate) eq_refl ltac:(discriminate) H1 H2 E) as (c & cm & mm & -> & _).
    exists c, cm, mm, k. exact E. }
  destruct (C [(Fin 0, [1; 2; 3; 4; 5], [1; 0; 1; 1; 1]); (Fin (1 / 2), [0; -1; 3; 4; 5], [0; 1; 1; 0; 1])]%R) as (c & cm & mm & k & Ea).
  { repeat constructor. } { discriminate. } { repeat constructor; eexists; (split; [reflexivity|unfold in_range; cbn; lra]). } { repeat constructor; cbn; lra. }
  destruct (C [(Fin 1, [9; 8; 7; 6; 5], [2; 3; 4; 5; 0]); (Fin (1 / 2), [0; -1; 3; 4; 5], [0; 1; 1; 0; 1]); (Fin (1 / 2), [0; -1; 3; 4; 5], [0; 1; 1; 0; 1])]%R) as (c' & cm' & mm' & k' & Eb).
  { repeat constructor. } { discriminate. } { repeat constructor; eexists; (split; [reflexivity|unfold in_range; cbn; lra]). } { repeat constructor; cbn; lra. }
  exists c, cm, mm, k, c', cm', mm', k'. cbv zeta. split; [exact R1|]. split; [reflexivity|]. split; [exact Ea|]. split; [exact Eb|].
  cbn [firstn map snd filter]. repeat (destruct (Rlt_dec _ _); try lra). reflexivity.
Qed.
