(** AB corrections over the real numbers: supporting lemmas for C110. *)
From Coq Require Import String List Arith Lia Bool ZArith QArith Qreals Reals Lra.
From Verif Require Import Base BaseLemmas Num Toy Spec Utils UtilsProofs UtilsReal Interp Sed Response RespDict Fitter FitSpec
  FitterProofs Kcorrect KSpec KcorrectProofs DerivedProofs McProofs AbProofs CatSpec InstrSpec PipeSpec.
Import ListNotations.
Local Open Scope R_scope.

Lemma of_entries (a : nd R) s g : shp a = s -> wf a ->
  (forall j, (j < size s)%nat -> nth_error (dat a) j = Some (g j)) -> a = mk s (map g (seq 0 (size s))).
Proof.
  intros Hs Hw H. destruct a as [sa da]; cbn [shp dat] in *. subst sa. f_equal. unfold wf in Hw; cbn [shp dat] in Hw.
  apply nth_ext with (d := 0) (d' := 0); [rewrite map_length, seq_length; auto|]. intros j Hj. rewrite Hw in Hj.
  rewrite nth_map_seq by auto. apply nth_error_nth. auto.
Qed.
Lemma wf_mk {T} s (l : list T) : length l = size s -> wf (mk s l).
Proof. intro H. exact H. Qed.

Lemma sdss_ab_R s (m iv ab : list R) :
  lastd s = 5%nat -> length m = size s -> length iv = size s -> length ab = 5%nat ->
  sdss_ab_correct (mk s m) (Some (mk s iv)) (vec ab) =
  Ok (mk s (map (fun j => nth j m 0 * pow10 (-0.4 * nth (j mod 5) ab 0)) (seq 0 (size s))),
      Some (mk s (map (fun j => nth j iv 0 / (pow10 (-0.4 * nth (j mod 5) ab 0))^2) (seq 0 (size s))))).
Proof.
  intros H5 Hm Hi Ha.
  assert (Hsa : shp (vec ab) = [5%nat]) by (unfold vec; cbn [shp]; rewrite Ha; reflexivity).
  destruct (@sdss_ab_correct_spec R _ (mk s m) (vec ab) (Some (mk s iv)))
    as (am & ai & E & Sm & Wm & Nm & Hai); auto using wf_mk, wf_vec.
  { cbn [shp]. lia. }
  { intros v Ev. injection Ev as <-. split; [apply wf_mk; auto|reflexivity]. }
  destruct Hai as (a & -> & Sa & Wa & Na). rewrite E.
  cbn [shp] in Sm, Nm, Sa, Na. rewrite H5 in Nm, Na.
  assert (Hab : forall j, code_abfac (vec ab) (j mod 5) = pow10 (-0.4 * nth (j mod 5) ab 0)).
  { intro j. unfold code_abfac, vec; cbn [dat npow10 nmul nlit cst Num_R n0]. rewrite lit_m04. reflexivity. }
  assert (Hlt : forall j, Nat.ltb (j mod 5) 5 = true) by (intro; apply Nat.ltb_lt, Nat.mod_upper_bound; lia).
  f_equal. f_equal; [|f_equal].
  - apply of_entries; auto. intros j Hj. rewrite Nm by exact Hj. rewrite Hlt, Hab.
    cbn [dat]. rewrite (nth_error_nth' m 0) by lia. unfold store_if. cbn.
    destruct (Nat.eqb _ 1); reflexivity.
  - apply of_entries; auto. intros j Hj. rewrite Na by exact Hj. rewrite Hlt, Hab.
    cbn [dat]. rewrite (nth_error_nth' iv 0) by lia. unfold store_if, nsq. cbn [option_map cst Num_R nmul ndiv].
    rewrite sq_sqr. destruct (Nat.eqb _ 1); reflexivity.
Qed.

Lemma gst_R s (m iv : list R) :
  s <> [] -> (7 <= lastd s)%nat -> length m = size s -> length iv = size s ->
  let ab := [-0.036; 0.012; 0.010; 0.028; 0.040] in
  let F := fun j => let k := (j mod lastd s)%nat in
                    if (Nat.leb 2 k && Nat.leb k 6)%bool then pow10 (-0.4 * nth (k - 2) ab 0) else 1 in
  (@default_abfix R _) = vec ab ->
  gst_to_ab (mk s m) (Some (mk s iv)) =
  Ok (mk s (map (fun j => nth j m 0 * F j) (seq 0 (size s))),
      Some (mk s (map (fun j => nth j iv 0 / (F j)^2) (seq 0 (size s))))).
Proof.
  intros Hs Hw Hm Hi ab F Hd. unfold gst_to_ab. cbn [shp].
  rewrite sdss_cols_7 by auto.
  set (idx := [2; 3; 4; 5; 6]%nat).
  assert (HT : forall l : list R, length l = size s -> take_last idx n0 (mk s l) =
     Ok (mk (lead s ++ [5%nat]) (map (fun i => nth (i / 5 * lastd s + (i mod 5 + 2)) l 0) (seq 0 (size (lead s) * 5))))).
  { intros l Hl. destruct (take_last_ok R idx n0 (mk s l)) as (b & Eb & Sb & Wb & Nb); auto using wf_mk.
    - cbn; lia.
    - cbn [shp]. repeat constructor; lia.
    - rewrite Eb. f_equal. cbn [shp dat] in Sb, Nb. change (length idx) with 5%nat in *.
      assert (Es : size (lead s ++ [5%nat]) = (size (lead s) * 5)%nat) by (rewrite size_app; cbn; lia).
      rewrite <- Es. apply of_entries; auto. intros j Hj. rewrite Es in Hj. rewrite Nb by auto.
      assert (Hmod : (j mod 5 < 5)%nat) by (apply Nat.mod_upper_bound; lia).
      assert (Hn : nth (j mod 5) idx 0%nat = (j mod 5 + 2)%nat).
      { clear - Hmod. destruct (j mod 5)%nat as [|[|[|[|[|x]]]]]; cbn; lia. }
      rewrite Hn. apply nth_error_nth'. rewrite Hl, size_lead by auto.
      assert (j / 5 < size (lead s))%nat by (apply Nat.div_lt_upper_bound; lia). nia. }
  rewrite !HT by auto. cbn [bind].
  rewrite Hd.
  assert (Es : size (lead s ++ [5%nat]) = (size (lead s) * 5)%nat) by (rewrite size_app; cbn; lia).
  rewrite sdss_ab_R; rewrite ?map_length, ?seq_length, ?Es; auto using lastd_snoc.
  cbn [bind fst snd].
  assert (HS : forall (l v g : list R) , length l = size s -> length v = (size (lead s) * 5)%nat ->
    g = map (fun j => let k := (j mod lastd s)%nat in
           if (Nat.leb 2 k && Nat.leb k 6)%bool then nth (j / lastd s * 5 + (k - 2)) v 0 else nth j l 0) (seq 0 (size s)) ->
    set_cols (mk s l) (mk (lead s ++ [5%nat]) v) = Ok (mk s g)).
  { intros l v g Hl Hv ->. destruct (set_cols_ok (mk s l) (mk (lead s ++ [5%nat]) v)) as (b & Eb & Sb & Wb & Nb); auto.
    - apply wf_mk; lia.
    - rewrite Eb. f_equal. cbn [shp dat] in Sb, Nb. apply of_entries; auto. intros j Hj. rewrite Nb by auto. cbv zeta.
      assert (Hq : (j / lastd s < size (lead s))%nat).
      { apply Nat.div_lt_upper_bound; [lia|]. rewrite size_lead in Hj by auto. lia. }
      destruct (Nat.leb_spec 2 (j mod lastd s)); [destruct (Nat.leb_spec (j mod lastd s) 6)|]; cbn [andb];
        apply nth_error_nth'; nia. }
  assert (HI : forall j, (j < size s)%nat -> (Nat.leb 2 (j mod lastd s) && Nat.leb (j mod lastd s) 6)%bool = true ->
     let i := (j / lastd s * 5 + (j mod lastd s - 2))%nat in
     (i < size (lead s) * 5)%nat /\ (i mod 5 = j mod lastd s - 2)%nat /\ (i / 5 * lastd s + (i mod 5 + 2) = j)%nat).
  { intros j Hj Hk i. apply andb_true_iff in Hk as [H2 H6]. apply Nat.leb_le in H2, H6.
    assert (Hq : (j / lastd s < size (lead s))%nat).
    { apply Nat.div_lt_upper_bound; [lia|]. rewrite size_lead in Hj by auto. lia. }
    assert (E1 : (i mod 5 = j mod lastd s - 2)%nat).
    { unfold i. rewrite Nat.add_comm, Nat.mod_add by lia. apply Nat.mod_small. lia. }
    assert (E2 : (i / 5 = j / lastd s)%nat).
    { unfold i. rewrite Nat.add_comm, Nat.div_add by lia. rewrite Nat.div_small by lia. lia. }
    split; [unfold i; nia|]. split; auto. rewrite E1, E2. pose proof (Nat.div_mod j (lastd s)). lia. }
  erewrite HS; [|auto|rewrite map_length, seq_length, ?Es; auto|reflexivity]. cbn [bind].
  erewrite HS; [|auto|rewrite map_length, seq_length, ?Es; auto|reflexivity]. cbn [bind].
  assert (HL : forall (l v : list R), length l = length v -> (forall j, (j < length l)%nat -> nth j l 0 = nth j v 0) -> mk s l = mk s v).
  { intros l v L H. f_equal. apply nth_ext with (d := 0) (d' := 0); auto. }
  f_equal. f_equal; [|f_equal]; apply HL; rewrite ?map_length, ?seq_length; auto; intros j Hj;
    rewrite (nth_map_seq _ (size s) j) by auto; rewrite (nth_map_seq _ (size s) j) by auto; unfold F; cbv beta zeta;
    (destruct (Nat.leb 2 (j mod lastd s) && Nat.leb (j mod lastd s) 6)%bool eqn:Hk; [|first [lra | field]]);
    destruct (HI j Hj Hk) as (I1 & I2 & I3); rewrite nth_map_seq by (rewrite ?Es; auto);
    rewrite nth_map_seq by auto; rewrite I3, I2; auto.
Qed.

Lemma abfix_R : (@default_abfix R _) = vec [-0.036; 0.012; 0.010; 0.028; 0.040].
Proof. unfold default_abfix, vec. cbn. unfold Q2R; cbn. repeat (f_equal; try lra). Qed.

Lemma pow10_0 : pow10 0 = 1.
Proof. unfold pow10, Rpower. rewrite Rmult_0_l. apply exp_0. Qed.

(** to_ab of one object. *)
Lemma to_ab_R k (m iv : list R) : ab_bands k (length m) -> length iv = length m ->
  to_ab k (vec m) (Some (vec iv)) =
  Ok (vec (map (fun i => nth i m 0 * pow10 (-0.4 * ab_offsets k i)) (seq 0 (length m))),
      Some (vec (map (fun i => nth i iv 0 / pow10 (-0.4 * ab_offsets k i) ^ 2) (seq 0 (length iv))))).
Proof.
  intros Hb L.
  assert (V : forall l : list R, vec l = mk [length l] l) by reflexivity.
  assert (Sz : forall n, size [n] = n) by (intro n; unfold size; cbn; lia).
  rewrite !V, L, !map_length, !seq_length.
  destruct k; cbn [to_ab].
  - do 2 f_equal; [|f_equal]; f_equal; [rewrite <- L at 1|rewrite <- L]; apply nth_ext with (d := 0) (d' := 0);
      rewrite ?map_length, ?seq_length; auto; intros j Hj; rewrite nth_map_seq by lia; unfold ab_offsets;
      replace (-0.4 * 0) with 0 by ring; rewrite pow10_0; field.
  - cbn in Hb. rewrite abfix_R, sdss_ab_R; rewrite ?Sz; auto.
    do 2 f_equal; [|f_equal]; f_equal; apply map_ext_in; intros j Hj; apply in_seq in Hj; rewrite Nat.mod_small by lia; reflexivity.
  - cbn in Hb. rewrite gst_R; rewrite ?Sz; auto; try discriminate; try exact abfix_R.
    change (lastd [length m]) with (length m).
    do 2 f_equal; [|f_equal]; f_equal; apply map_ext_in; intros j Hj; apply in_seq in Hj; rewrite Nat.mod_small by lia; unfold ab_offsets;
      destruct (_ && _)%bool; try reflexivity; replace (-0.4 * 0) with 0 by ring; rewrite pow10_0; reflexivity.
Qed.

(** * Photometry of one object *)
Lemma fac_pos k j : 0 < pow10 (-0.4 * ab_offsets k j).
Proof. apply pow10_pos. Qed.
Lemma fac_inv x : pow10 (0.4 * x) = / pow10 (-0.4 * x).
Proof.
  assert (E : pow10 (0.4 * x) * pow10 (-0.4 * x) = 1).
  { unfold pow10. rewrite <- Rpower_plus. replace (0.4 * x + -0.4 * x) with 0 by lra. exact pow10_0. }
  pose proof (pow10_pos (-0.4 * x)). apply Rmult_eq_reg_r with (pow10 (-0.4 * x)); [|lra]. rewrite E, Rinv_l by lra. reflexivity.
Qed.

Lemma in_system_length k p : length (in_system k p) = length p.
Proof. unfold in_system. rewrite map_length, seq_length. auto. Qed.
Lemma in_system_nth k p j d : (j < length p)%nat -> nth j (in_system k p) d = nth j p 0 * pow10 (0.4 * ab_offsets k j).
Proof. intro H. unfold in_system. apply nth_map_seq. auto. Qed.

(** chi^2 by index. *)
Lemma chi2_sum iv : forall m p, length m = length iv -> length p = length iv ->
  chi2 iv m p = fold_right Rplus 0 (map (fun j => nth j iv 0 * ((nth j m 0 - nth j p 0) * (nth j m 0 - nth j p 0))) (seq 0 (length iv))).
Proof.
  unfold chi2, vsub. induction iv as [|w iv IH]; intros [|a m] [|b p] H1 H2; try discriminate; [reflexivity|].
  cbn [zip fold_right length seq map nth]. rewrite (IH m p) by (cbn in *; lia). f_equal. f_equal. rewrite <- seq_shift, map_map. reflexivity.
Qed.

Lemma chi2_ab k o p : length (o_iv o) = length (o_m o) -> length p = length (o_m o) ->
  chi2 (o_iv (in_ab k o)) (o_m (in_ab k o)) p = chi2 (o_iv o) (o_m o) (in_system k p).
Proof.
  intros L1 L2. cbn [in_ab o_iv o_m].
  rewrite !chi2_sum by (rewrite ?in_system_length, ?map_length, ?seq_length; congruence).
  rewrite map_length, seq_length. f_equal. apply map_ext_in. intros j Hj. apply in_seq in Hj.
  rewrite !nth_map_seq by lia. rewrite in_system_nth by lia. rewrite fac_inv. pose proof (fac_pos k j). field. lra.
Qed.
Lemma chi2_two k iv p q : length p = length iv -> length q = length iv ->
  chi2 (map (fun j => nth j iv 0 / pow10 (-0.4 * ab_offsets k j) ^ 2) (seq 0 (length iv))) p q = chi2 iv (in_system k p) (in_system k q).
Proof.
  intros L1 L2.
  rewrite !chi2_sum by (rewrite ?in_system_length, ?map_length, ?seq_length; congruence).
  rewrite map_length, seq_length. f_equal. apply map_ext_in. intros j Hj. apply in_seq in Hj.
  rewrite !nth_map_seq by lia. rewrite !in_system_nth by lia. rewrite fac_inv. pose proof (fac_pos k j). field. lra.
Qed.

Lemma iv_ab_nth k iv j w : nth_error iv j = Some w ->
  nth_error (map (fun j => nth j iv 0 / pow10 (-0.4 * ab_offsets k j) ^ 2) (seq 0 (length iv))) j = Some (w / pow10 (-0.4 * ab_offsets k j) ^ 2).
Proof.
  intro H. assert (Hj : (j < length iv)%nat) by (apply nth_error_Some; congruence).
  rewrite (nth_error_nth' _ 0) by (rewrite map_length, seq_length; auto). rewrite nth_map_seq by auto.
  rewrite (nth_error_nth _ _ 0 H). reflexivity.
Qed.
Lemma nonneg_ab k iv : nonneg iv -> nonneg (map (fun j => nth j iv 0 / pow10 (-0.4 * ab_offsets k j) ^ 2) (seq 0 (length iv))).
Proof.
  intro H. unfold nonneg. apply Forall_map, Forall_forall. intros j Hj. apply in_seq in Hj.
  unfold nonneg in H. rewrite Forall_forall in H. pose proof (H (nth j iv 0) (nth_In iv 0 (proj2 Hj))).
  unfold Rdiv. apply Rmult_le_pos; auto. left. apply Rinv_0_lt_compat, pow_lt, fac_pos.
Qed.

(** * Kcorrect objects with and without abcorrect *)
Lemma built_without_ab cub bq sun vega fs d k abc responses (s : sed R) t out map_ r0 r1 nz d' s' K :
  Kcorrect cub bq sun vega fs d k abc responses s t out map_ r0 r1 nz = (d', s', Ok K) ->
  Kcorrect cub bq sun vega fs d k false responses s t out map_ r0 r1 nz = (d', s', Ok (kwithout_ab K)).
Proof.
  unfold Kcorrect, set_Amatrix, Fitter.Fitter. cbn [f_kind f_abc f_resp f_sed f_zs f_A].
  destruct (calc_A cub bq sun vega fs responses (redshift_grid r0 r1 nz) d s) as [[d1 s1] [A|e]]; cbn [f_kind f_abc f_resp f_sed f_zs f_A]; [|discriminate].
  destruct (negb _); [discriminate|].
  destruct (names_eqb _ _).
  - cbn [bind]. destruct (make_imap _ _) as [im|e]; cbn [bind]; [|discriminate]. intro H. injection H as <- <- <-. reflexivity.
  - destruct (calc_A _ _ _ _ _ _ _ d1 s1) as [[d2 s2] [A2|e]]; cbn [bind]; [|discriminate].
    destruct (make_imap _ _) as [im|e]; cbn [bind]; [|discriminate]. intro H. injection H as <- <- <-. reflexivity.
Qed.

(** Photometry band by band, in AB maggies. *)
Definition ab_obs (k : abkind) (l : list obs) : list obs :=
  map (fun jb : nat * obs => (o_name (snd jb), (o_mag (snd jb) * pow10 (-0.4 * ab_offsets k (fst jb)), o_ivar (snd jb) / pow10 (-0.4 * ab_offsets k (fst jb)) ^ 2)))
    (combine (seq 0 (length l)) l).
Lemma nth_indexed (l : list obs) : forall i j, nth_error (combine (seq i (length l)) l) j = match nth_error l j with Some b => Some (i + j, b)%nat | None => None end.
Proof.
  induction l as [|b l IH]; intros i [|j]; cbn [length seq combine nth_error]; auto.
  - rewrite Nat.add_0_r. auto.
  - rewrite IH. destruct (nth_error l j); auto. do 2 f_equal. lia.
Qed.
Lemma ab_nth k l j : nth_error (ab_obs k l) j =
  match nth_error l j with
  | Some b => Some (o_name b, (o_mag b * pow10 (-0.4 * ab_offsets k j), o_ivar b / pow10 (-0.4 * ab_offsets k j) ^ 2))
  | None => None
  end.
Proof.
  unfold ab_obs. rewrite nth_error_map.
  rewrite nth_indexed. destruct (nth_error l j) as [b|]; reflexivity.
Qed.
Lemma ab_length k l : length (ab_obs k l) = length l.
Proof. unfold ab_obs. rewrite map_length, combine_length, seq_length. lia. Qed.
Lemma list_by_nth {A} (a b : list A) : (forall j, nth_error a j = nth_error b j) -> a = b.
Proof.
  revert b. induction a as [|x a IH]; intros [|y b] H; auto; [specialize (H 0%nat)|specialize (H 0%nat)|]; try discriminate.
  pose proof (H 0%nat) as H0. injection H0 as ->. f_equal. apply IH. intro j. exact (H (S j)).
Qed.
Lemma ab_names k l : map o_name (ab_obs k l) = map o_name l.
Proof. apply list_by_nth. intro j. rewrite !nth_error_map, ab_nth. destruct (nth_error l j); reflexivity. Qed.
Lemma in_ab_observed k z l : in_ab k (observed z l) = observed z (ab_obs k l).
Proof.
  assert (X : forall (f : obs -> R) (g : nat -> R -> R), map (fun j => g j (nth j (map f l) 0)) (seq 0 (length (map f l))) =
      map (fun jb : nat * obs => g (fst jb) (f (snd jb))) (combine (seq 0 (length l)) l)).
  { intros f g. apply list_by_nth. intro j. rewrite !nth_error_map, nth_error_seq, map_length.
    rewrite nth_indexed. destruct (Nat.ltb_spec j (length l)) as [H|H]; [|apply nth_error_None in H; rewrite H; reflexivity].
    destruct (nth_error l j) as [b|] eqn:E; [|apply nth_error_None in E; lia]. cbn [option_map Nat.add fst snd].
    rewrite (nth_error_nth (map f l) j 0 (map_nth_error f j l E)). reflexivity. }
  unfold in_ab, observed, ab_obs. cbn [o_z o_m o_iv]. rewrite !map_map.
  rewrite (X o_mag (fun j v => v * pow10 (-0.4 * ab_offsets k j))), (X o_ivar (fun j v => v / pow10 (-0.4 * ab_offsets k j) ^ 2)). reflexivity.
Qed.
Lemma ab_ivar_pos k j v : 0 < v / pow10 (-0.4 * ab_offsets k j) ^ 2 <-> 0 < v.
Proof.
  assert (P : 0 < pow10 (-0.4 * ab_offsets k j) ^ 2) by (apply pow_lt, pow10_pos). split; intro H.
  - apply Rmult_lt_reg_r with (/ pow10 (-0.4 * ab_offsets k j) ^ 2); [apply Rinv_0_lt_compat; auto|]. rewrite Rmult_0_l. exact H.
  - apply Rdiv_lt_0_compat; auto.
Qed.
Lemma ab_ivar k l : Forall (fun b => 0 <= o_ivar b) l -> Forall (fun b => 0 <= o_ivar b) (ab_obs k l).
Proof.
  intro H. apply Forall_forall. intros b Hb. apply In_nth_error in Hb as [j Hj]. rewrite ab_nth in Hj.
  destruct (nth_error l j) as [b0|] eqn:E; [|discriminate]. injection Hj as <-. unfold o_ivar at 1. cbn [snd].
  rewrite Forall_forall in H. apply nth_error_In in E. specialize (H b0 E).
  assert (P : 0 < pow10 (-0.4 * ab_offsets k j) ^ 2) by (apply pow_lt, pow10_pos).
  apply Rmult_le_pos; auto. left. apply Rinv_0_lt_compat. exact P.
Qed.
