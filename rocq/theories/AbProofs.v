(** The AB corrections of fitter.py and kcorrect.py: supporting lemmas. *)
From Coq Require Import String List Arith Lia Bool ZArith QArith Qreals Reals Lra.
From Verif Require Import Base BaseLemmas Num Toy Spec Utils UtilsProofs UtilsReal Interp Sed Response RespDict Fitter FitSpec
  FitterProofs Kcorrect KSpec KcorrectProofs DerivedProofs McProofs.
Import ListNotations.
Local Open Scope nat_scope.

Lemma take_last_ok A idx (d : A) (a : nd A) : wf a -> shp a <> [] -> 0 < length idx -> Forall (fun k => k < lastd (shp a)) idx ->
  exists b, take_last idx d a = Ok b /\ shp b = lead (shp a) ++ [length idx] /\ wf b /\
    forall i, i < size (lead (shp a)) * length idx ->
      nth_error (dat b) i = nth_error (dat a) (i / length idx * lastd (shp a) + nth (i mod length idx) idx 0).
Proof.
  intros Hw Hs Hl Hi. unfold take_last. destruct (shp a) as [|s0 ss] eqn:Es; [congruence|]. rewrite <- Es in *.
  assert (Hf : forallb (fun k => k <? lastd (shp a)) idx = true).
  { apply forallb_forall. intros k Hk. rewrite Forall_forall in Hi. apply Nat.ltb_lt; auto. }
  rewrite Hf.
  assert (Hrows : forall r, In r (map (fun r => map (fun k => nth k r d) idx) (lrows a)) -> length r = length idx).
  { intros r Hr. apply in_map_iff in Hr as (x & <- & _). apply map_length. }
  eexists; split; [reflexivity|]. cbn [shp dat]. split; [reflexivity|]. split.
  - unfold wf; cbn [shp dat]. rewrite (length_concat_const _ Hrows), map_length, lrows_length, size_app. cbn. lia.
  - intros i Hii. rewrite (@nth_error_concat_flat A (length idx) _ i Hrows Hl), nth_error_map, nth_error_lrows by auto.
    assert (Hq : i / length idx < size (lead (shp a))) by (apply Nat.div_lt_upper_bound; lia).
    apply Nat.ltb_lt in Hq as Hq'. rewrite Hq'. cbn [option_map].
    assert (Hm : i mod length idx < length idx) by (apply Nat.mod_upper_bound; lia).
    rewrite nth_error_map, (nth_error_nth' idx 0) by auto. cbn [option_map].
    assert (Hk : nth (i mod length idx) idx 0 < lastd (shp a)).
    { rewrite Forall_forall in Hi. apply Hi. apply nth_In; auto. }
    assert (Hlen : length (dat a) = size (lead (shp a)) * lastd (shp a)) by (rewrite Hw; apply size_lead; auto).
    rewrite <- nth_error_nth' by (rewrite firstn_length, skipn_length, Hlen; nia).
    rewrite nth_error_firstn, nth_error_skipn. apply Nat.ltb_lt in Hk as Hk'. rewrite Hk'. reflexivity.
Qed.

Section X.
  Context {T : Type} {N : Num T}.

  Lemma set_list_ok jks (v : nd T) : forall a, wf a -> shp a <> [] -> wf v -> shp v = lead (shp a) ++ [5] ->
    Forall (fun jk => fst jk < 5 /\ snd jk < lastd (shp a)) jks -> NoDup (map snd jks) ->
    exists b, foldM (fun a jk => do c <- get_last (fst jk) n0 v; set_last (snd jk) n0 c a) jks a = Ok b /\
      shp b = shp a /\ wf b /\
      forall i, i < size (shp a) ->
        nth_error (dat b) i =
        match find (fun jk => Nat.eqb (snd jk) (i mod lastd (shp a))) jks with
        | Some jk => nth_error (dat v) (i / lastd (shp a) * 5 + fst jk)
        | None => nth_error (dat a) i
        end.
  Proof.
    induction jks as [|[j k] jks IH]; intros a Ha Hs Hv Sv HF HN.
    - exists a. repeat split; auto.
    - inversion HF as [|? ? [Hj Hk] HF']; subst. cbn [fst snd] in *. cbn [map] in HN. inversion HN as [|? ? Hnin HN']; subst.
      cbn [foldM fst snd].
      assert (L5 : lastd (shp v) = 5) by (rewrite Sv; apply lastd_snoc).
      assert (Lv : lead (shp v) = lead (shp a)) by (rewrite Sv; apply lead_snoc).
      destruct (@get_last_ok T j n0 v Hv ltac:(lia)) as (c & Ec & Sc & Wc & Nc). rewrite Ec. cbn [bind].
      destruct (@set_last_ok T k n0 c a Ha Wc Hs ltac:(congruence) Hk) as (a1 & E1 & S1 & W1 & N1). rewrite E1. cbn [bind].
      destruct (IH a1) as (b & Eb & Sb & Wb & Nb); rewrite ?S1; auto.
      exists b. split; auto. split; [congruence|]. split; auto. intros i Hi. rewrite S1 in Nb. rewrite Nb by auto. cbn [find snd].
      destruct (Nat.eqb_spec k (i mod lastd (shp a))) as [Ek|Ek].
      + assert (Hf : find (fun jk => Nat.eqb (snd jk) (i mod lastd (shp a))) jks = None).
        { destruct (find _ jks) as [p|] eqn:E; auto. apply find_some in E as [Hin He]. apply Nat.eqb_eq in He.
          exfalso. apply Hnin. rewrite Ek, <- He. apply in_map; auto. }
        rewrite Hf, N1 by auto. rewrite <- Ek, Nat.eqb_refl. cbn [fst]. rewrite Nc, L5; auto.
        rewrite Lv. rewrite size_lead in Hi by auto. apply Nat.div_lt_upper_bound; lia.
      + destruct (find _ jks); auto. rewrite N1 by auto. destruct (Nat.eqb_spec (i mod lastd (shp a)) k); congruence.
  Qed.

  Lemma sdss_cols_7 w : 7 <= w -> sdss_cols w = [2; 3; 4; 5; 6].
  Proof. intro H. unfold sdss_cols. cbn [filter]. rewrite !(proj2 (Nat.ltb_lt _ _)) by lia. auto. Qed.

  Lemma set_cols_ok (a v : nd T) : wf a -> shp a <> [] -> 7 <= lastd (shp a) -> wf v -> shp v = lead (shp a) ++ [5] ->
    exists b, set_cols a v = Ok b /\ shp b = shp a /\ wf b /\
      forall i, i < size (shp a) -> let k := i mod lastd (shp a) in
        nth_error (dat b) i =
        if Nat.leb 2 k && Nat.leb k 6 then nth_error (dat v) (i / lastd (shp a) * 5 + (k - 2)) else nth_error (dat a) i.
  Proof.
    intros Ha Hs Hw Hv Sv. unfold set_cols. rewrite sdss_cols_7 by auto. cbn [seq combine].
    destruct (set_list_ok [(0, 2); (1, 3); (2, 4); (3, 5); (4, 6)] v a Ha Hs Hv Sv) as (b & Eb & Sb & Wb & Nb).
    - repeat constructor; cbn [fst snd]; lia.
    - cbn. repeat constructor; cbn; lia.
    - exists b. repeat (split; [assumption|]). intros i Hi. rewrite Nb by auto. set (k := i mod lastd (shp a)). cbn [find fst snd].
      clearbody k. destruct k as [|[|[|[|[|[|[|k]]]]]]]; reflexivity.
  Qed.
End X.

Local Open Scope R_scope.

(** The offsets in magnitudes, as a list of reals. *)
Lemma gst_real s (m iv : list R) :
  s <> [] -> (7 <= lastd s)%nat -> length m = size s -> length iv = size s ->
  let ab := [-0.036; 0.012; 0.010; 0.028; 0.040] in
  let F := fun j => let k := (j mod lastd s)%nat in
                    if (Nat.leb 2 k && Nat.leb k 6)%bool then pow10 (-0.4 * nth (k - 2) ab 0) else 1 in
  gst_to_ab (rarr s m) (Some (rarr s iv)) =
  Ok (rarr s (map (fun j => nth j m 0 * F j) (seq 0 (size s))),
      Some (rarr s (map (fun j => nth j iv 0 / (F j)^2) (seq 0 (size s))))).
Proof.
  intros Hs Hw Hm Hi ab F. unfold gst_to_ab. cbn [rarr shp].
  rewrite sdss_cols_7 by auto.
  set (idx := [2; 3; 4; 5; 6]%nat).
  assert (HT : forall l : list R, length l = size s -> take_last idx n0 (rarr s l) =
     Ok (rarr (lead s ++ [5%nat]) (map (fun i => nth (i / 5 * lastd s + (i mod 5 + 2)) l 0) (seq 0 (size (lead s) * 5))))).
  { intros l Hl. destruct (take_last_ok xr idx n0 (rarr s l)) as (b & Eb & Sb & Wb & Nb); auto using wf_rarr.
    - cbn; lia.
    - cbn [rarr shp]. repeat constructor; lia.
    - rewrite Eb. f_equal. cbn [rarr shp dat] in Sb, Nb. change (length idx) with 5%nat in *.
      assert (Es : size (lead s ++ [5%nat]) = (size (lead s) * 5)%nat) by (rewrite size_app; cbn; lia).
      rewrite <- Es. apply rarr_of; auto. intros j Hj. rewrite Es in Hj. rewrite Nb by auto.
      assert (Hmod : (j mod 5 < 5)%nat) by (apply Nat.mod_upper_bound; lia).
      assert (Hn : nth (j mod 5) idx 0%nat = (j mod 5 + 2)%nat).
      { clear - Hmod. destruct (j mod 5)%nat as [|[|[|[|[|x]]]]]; cbn; lia. }
      rewrite Hn. apply nth_error_map_Fin. rewrite Hl, size_lead by auto.
      assert (j / 5 < size (lead s))%nat by (apply Nat.div_lt_upper_bound; lia). nia. }
  rewrite !HT by auto. cbn [bind].
  change (@default_abfix xr _) with (vec (map Fin ab)).
  assert (Es : size (lead s ++ [5%nat]) = (size (lead s) * 5)%nat) by (rewrite size_app; cbn; lia).
  rewrite sdss_ab_correct_real; rewrite ?map_length, ?seq_length, ?Es; auto using lastd_snoc.
  cbn [bind fst snd].
  assert (HS : forall (l v g : list R) , length l = size s -> length v = (size (lead s) * 5)%nat ->
    g = map (fun j => let k := (j mod lastd s)%nat in
           if (Nat.leb 2 k && Nat.leb k 6)%bool then nth (j / lastd s * 5 + (k - 2)) v 0 else nth j l 0) (seq 0 (size s)) ->
    set_cols (rarr s l) (rarr (lead s ++ [5%nat]) v) = Ok (rarr s g)).
  { intros l v g Hl Hv ->. destruct (set_cols_ok (rarr s l) (rarr (lead s ++ [5%nat]) v)) as (b & Eb & Sb & Wb & Nb); auto.
    - apply wf_rarr; auto.
    - apply wf_rarr; lia.
    - rewrite Eb. f_equal. cbn [rarr shp dat] in Sb, Nb. apply rarr_of; auto. intros j Hj. rewrite Nb by auto. cbv zeta.
      assert (Hq : (j / lastd s < size (lead s))%nat).
      { apply Nat.div_lt_upper_bound; [lia|]. rewrite size_lead in Hj by auto. lia. }
      destruct (Nat.leb_spec 2 (j mod lastd s)); [destruct (Nat.leb_spec (j mod lastd s) 6)|]; cbn [andb];
        apply nth_error_map_Fin; nia. }
  assert (HI : forall j, (j < size s)%nat -> (Nat.leb 2 (j mod lastd s) && Nat.leb (j mod lastd s) 6)%bool = true ->
     let i := (j / lastd s * 5 + (j mod lastd s - 2))%nat in
     (i < size (lead s) * 5)%nat /\ (i mod 5 = j mod lastd s - 2)%nat /\ (i / 5 * lastd s + (i mod 5 + 2) = j)%nat).
  { intros j Hj Hk i. apply andb_true_iff in Hk as [H2 H6]. apply Nat.leb_le in H2, H6.
    assert (Hq : (j / lastd s < size (lead s))%nat).
    { apply Nat.div_lt_upper_bound; [lia|]. rewrite size_lead in Hj by auto. lia. }
    assert (E1 : (i mod 5 = j mod lastd s - 2)%nat).
    { unfold i. rewrite Nat.add_comm, Nat.mod_add by lia. apply Nat.mod_small. lia. }
    assert (E2 : (i / 5 = j / lastd s)%nat).
    { unfold i. rewrite Nat.add_comm, Nat.div_add by lia. rewrite Nat.div_small by lia. lia. }
    split; [unfold i; nia|]. split; auto. rewrite E1, E2. pose proof (Nat.div_mod j (lastd s)). lia. }
  erewrite HS; [|auto|rewrite map_length, seq_length, ?Es; auto|reflexivity]. cbn [bind].
  erewrite HS; [|auto|rewrite map_length, seq_length, ?Es; auto|reflexivity]. cbn [bind].
  assert (HL : forall (l v : list R), length l = length v -> (forall j, (j < length l)%nat -> nth j l 0 = nth j v 0) -> rarr s l = rarr s v).
  { intros l v L H. f_equal. unfold rarr. f_equal. f_equal. apply nth_ext with (d := 0) (d' := 0); auto. }
  f_equal. f_equal; [|f_equal]; apply HL; rewrite ?map_length, ?seq_length; auto; intros j Hj;
    rewrite (nth_map_seq _ (size s) j) by auto; rewrite (nth_map_seq _ (size s) j) by auto; unfold F; cbv beta zeta;
    (destruct (Nat.leb 2 (j mod lastd s) && Nat.leb (j mod lastd s) 6)%bool eqn:Hk; [|first [lra | field]]);
    destruct (HI j Hj Hk) as (I1 & I2 & I3); rewrite nth_map_seq by (rewrite ?Es; auto);
    rewrite nth_map_seq by auto; rewrite I3, I2; auto.
Qed.
