(** Proofs about the model of utils.py: array-level lemmas (any arithmetic). *)
From Coq Require Import List Arith Lia Bool ZArith QArith.
From Verif Require Import Base BaseLemmas Num Utils.
Import ListNotations.
Local Open Scope nat_scope.

Lemma nth_error_full A s (x : A) j : j < size s -> nth_error (dat (full s x)) j = Some x.
Proof.
  intro H. unfold full; simpl. rewrite nth_error_repeat.
  apply Nat.ltb_lt in H. rewrite H. reflexivity.
Qed.

Section ColFold.
  Context {A : Type}.
  (** [step k] rewrites column [k] (last axis) of an array of shape [s]
      pointwise by [G], and leaves the other columns alone. *)
  Definition col_spec (s : list nat) (G : nat -> A -> A) (step : nd A -> nat -> res (nd A)) (k : nat) : Prop :=
    forall out, wf out -> shp out = s ->
      exists out', step out k = Ok out' /\ shp out' = s /\ wf out' /\
        forall j, j < size s ->
          nth_error (dat out') j =
          if Nat.eqb (j mod lastd s) k then option_map (G j) (nth_error (dat out) j)
          else nth_error (dat out) j.

  Lemma col_fold s G step n a out :
    (forall k, a <= k -> k < a + n -> col_spec s G step k) ->
    wf out -> shp out = s ->
    exists out', foldM step (seq a n) out = Ok out' /\ shp out' = s /\ wf out' /\
      forall j, j < size s ->
        nth_error (dat out') j =
        if Nat.leb a (j mod lastd s) && Nat.ltb (j mod lastd s) (a + n)
        then option_map (G j) (nth_error (dat out) j)
        else nth_error (dat out) j.
  Proof.
    revert a out; induction n as [|n IH]; intros a out Hk Hw Hs.
    - exists out. simpl. repeat split; auto. intros j Hj.
      destruct (Nat.leb_spec a (j mod lastd s)), (Nat.ltb_spec (j mod lastd s) (a + 0)); simpl; auto; lia.
    - simpl. destruct (Hk a ltac:(lia) ltac:(lia) out Hw Hs) as (o1 & E1 & S1 & W1 & N1).
      rewrite E1. simpl.
      destruct (IH (S a) o1) as (o2 & E2 & S2 & W2 & N2); auto.
      { intros k H1 H2. apply Hk; lia. }
      exists o2. repeat split; auto. intros j Hj. rewrite N2, N1 by exact Hj.
      destruct (Nat.eqb_spec (j mod lastd s) a) as [Ej|Ej].
      + rewrite Ej. destruct (Nat.leb_spec (S a) a); [lia|]. simpl.
        destruct (Nat.leb_spec a a), (Nat.ltb_spec a (a + S n)); simpl; auto; lia.
      + destruct (Nat.leb_spec (S a) (j mod lastd s)), (Nat.leb_spec a (j mod lastd s)),
          (Nat.ltb_spec (j mod lastd s) (S a + n)), (Nat.ltb_spec (j mod lastd s) (a + S n));
          simpl; auto; lia.
  Qed.
End ColFold.

Lemma lastd_cons_pos s : 0 < lastd s -> s <> [].
Proof. intros H E. subst. unfold lastd in H; simpl in H. lia. Qed.

Section Gen.
  Context {T : Type} {N : Num T}.

  (** One column store computed elementwise from column [k] of [src]. *)
  Lemma col_store_spec (src : nd T) s k (f : T -> T) :
    wf src -> shp src = s -> k < lastd s ->
    exists col, get_last k n0 src = Ok col /\ wf col /\ shp col = lead s /\
      (forall i, i < size (lead s) -> nth_error (dat col) i = nth_error (dat src) (i * lastd s + k)).
  Proof.
    intros Hw Hs Hk. subst s.
    destruct (get_last_ok n0 Hw Hk) as (b & E & S1 & W1 & N1).
    exists b. auto.
  Qed.

  Lemma col_loop_spec {C} (f : T -> C -> T) (dc : C) src facs : forall i out,
    wf src -> wf out -> shp out = shp src -> i + length facs <= lastd (shp src) ->
    exists out', col_loop f src facs i out = Ok out' /\ shp out' = shp src /\ wf out' /\
      forall j, j < size (shp src) ->
        nth_error (dat out') j =
        if Nat.leb i (j mod lastd (shp src)) && Nat.ltb (j mod lastd (shp src)) (i + length facs)
        then option_map (fun x => cst (f x (nth (j mod lastd (shp src) - i) facs dc)))
                        (nth_error (dat src) j)
        else nth_error (dat out) j.
  Proof.
    induction facs as [|c facs IH]; intros i out Hsrc Hout Hs Hlen; simpl.
    - exists out. repeat split; auto. intros j Hj.
      destruct (Nat.leb_spec i (j mod lastd (shp src))), (Nat.ltb_spec (j mod lastd (shp src)) (i + 0));
        simpl; auto; lia.
    - simpl in Hlen. set (m := lastd (shp src)) in *.
      assert (Hk : i < lastd (shp src)) by (fold m; lia).
      assert (Hne : shp out <> []) by (rewrite Hs; apply lastd_cons_pos; lia).
      destruct (get_last_ok n0 Hsrc Hk) as (col & Ec & Sc & Wc & Nc).
      rewrite Ec. simpl.
      destruct (@set_last_ok T i n0 (map1 (fun x => cst (f x c)) col) out) as (o1 & E1 & S1 & W1 & N1); auto.
      { apply wf_map1; auto. } { simpl. congruence. } { rewrite Hs; exact Hk. }
      rewrite E1. simpl.
      destruct (IH (S i) o1) as (o2 & E2 & S2 & W2 & N2); auto; try congruence; try lia.
      exists o2. repeat split; auto. intros j Hj. rewrite N2 by exact Hj. fold m.
      assert (Hmpos : 0 < m) by lia.
      rewrite Hs in N1. fold m in N1. rewrite N1 by exact Hj.
      destruct (Nat.eqb_spec (j mod m) i) as [Ej|Ej].
      + rewrite Ej, Nat.sub_diag. destruct (Nat.leb_spec (S i) i); [lia|].
        destruct (Nat.leb_spec i i); [|lia]. destruct (Nat.ltb_spec i (i + S (length facs))); [|lia].
        simpl. rewrite nth_error_map.
        assert (Hq : j / m < size (lead (shp src))).
        { apply Nat.div_lt_upper_bound; [lia|]. rewrite size_lead in Hj by congruence. fold m in Hj. lia. }
        rewrite Nc by exact Hq. fold m.
        replace (j / m * m + i) with j; [reflexivity|].
        rewrite (div_mod_idx j Hmpos) at 1. congruence.
      + destruct (Nat.leb_spec (S i) (j mod m)), (Nat.leb_spec i (j mod m)),
          (Nat.ltb_spec (j mod m) (S i + length facs)), (Nat.ltb_spec (j mod m) (i + S (length facs)));
          simpl; auto; try lia.
        replace (j mod m - i) with (S (j mod m - S i)) by lia. reflexivity.
  Qed.

  Lemma col_loop_short {C} (f : T -> C -> T) src facs : forall i out,
    wf src -> wf out -> shp out = shp src -> (shp src = [] \/ (i <= lastd (shp src) < i + length facs)) -> facs <> [] ->
    col_loop f src facs i out = Raise IndexError.
  Proof.
    induction facs as [|c facs IH]; intros i out Hsrc Hout Hs Hlen Hne; [congruence|].
    cbn [col_loop].
    destruct (Nat.le_gt_cases (lastd (shp src)) i) as [Hi|Hi].
    - rewrite get_last_err; [reflexivity|]. destruct Hlen; auto.
    - destruct Hlen as [Hn|Hlen]; [rewrite get_last_err; auto|]. simpl in Hlen.
      assert (Hsne : shp src <> []) by (apply lastd_cons_pos; lia).
      destruct (get_last_ok n0 Hsrc Hi) as (col & Ec & Sc & Wc & Nc). rewrite Ec. simpl.
      destruct (@set_last_ok T i n0 (map1 (fun x => cst (f x c)) col) out) as (o1 & E1 & S1 & W1 & N1); auto.
      { apply wf_map1; auto. } { congruence. } { simpl. congruence. } { rewrite Hs; exact Hi. }
      rewrite E1. simpl. apply IH; auto; try congruence; [right; lia|]. destruct facs; simpl in *; [lia|congruence].
  Qed.

  (** The per-band factor the code applies. *)
  Definition code_abfac (abfix : nd T) (k : nat) : T :=
    npow10 (nmul (nlit (-(2) # 5)) (cst (nth k (dat abfix) n0))).

  Definition store_if (b : bool) (x : T) : T := if b then x else cst x.

  Lemma dat_abfac (abfix : nd T) k d : wf abfix -> shp abfix = [5] -> k < 5 ->
    nth k (map (fun a => npow10 (nmul (nlit (-(2) # 5)) a)) (map cst (dat abfix))) d = code_abfac abfix k.
  Proof.
    intros Hw Hs Hk. assert (HL : length (dat abfix) = 5) by (rewrite Hw, Hs; reflexivity).
    rewrite map_map. unfold code_abfac.
    rewrite (nth_indep _ d (npow10 (nmul (nlit (-(2) # 5)) (cst n0)))) by (rewrite map_length; lia).
    rewrite (map_nth (fun x => npow10 (nmul (nlit (-(2) # 5)) (cst x)))). reflexivity.
  Qed.

  Lemma shape1 (s : list nat) : length s = 1 -> exists n, s = [n].
  Proof. destruct s as [|n [|]]; simpl; intro; try discriminate; eauto. Qed.

  Lemma sdss_ab_correct_spec (maggies abfix : nd T) (ivar : option (nd T)) :
    wf maggies -> wf abfix -> shp abfix = [5] -> 5 <= lastd (shp maggies) ->
    (ndim maggies = 1 -> lastd (shp maggies) = 5) ->
    (forall iv, ivar = Some iv -> wf iv /\ shp iv = shp maggies) ->
    exists am ai, sdss_ab_correct maggies ivar abfix = Ok (am, ai) /\
      shp am = shp maggies /\ wf am /\
      (forall j, j < size (shp maggies) -> nth_error (dat am) j =
         if Nat.ltb (j mod lastd (shp maggies)) 5
         then option_map (fun x => store_if (Nat.eqb (ndim maggies) 1)
                            (nmul (cst x) (code_abfac abfix (j mod lastd (shp maggies)))))
                         (nth_error (dat maggies) j)
         else Some n0) /\
      match ivar with
      | None => ai = None
      | Some iv => exists a, ai = Some a /\ shp a = shp maggies /\ wf a /\
         forall j, j < size (shp maggies) -> nth_error (dat a) j =
           if Nat.ltb (j mod lastd (shp maggies)) 5
           then option_map (fun x => store_if (Nat.eqb (ndim maggies) 1)
                              (ndiv (cst x) (nsq (code_abfac abfix (j mod lastd (shp maggies))))))
                           (nth_error (dat iv) j)
           else Some n0
      end.
  Proof.
    intros Hm Ha Hsa H5 Hd1 Hiv. unfold sdss_ab_correct.
    assert (HLa : length (dat abfix) = 5) by (rewrite Ha, Hsa; reflexivity).
    assert (Hshape : match option_map (map1 cst) ivar with
                     | Some iv => shape_eqb (shp (map1 cst maggies)) (shp iv) | None => true end = true).
    { destruct ivar as [iv|]; simpl; auto. destruct (Hiv iv eq_refl) as [_ ->]. apply shape_eqb_refl. }
    rewrite Hshape. simpl shp. rewrite Hsa. simpl shape_eqb. cbv iota.
    unfold ndim at 1; simpl shp. fold (ndim maggies).
    destruct (Nat.eqb_spec (ndim maggies) 1) as [E1|E1].
    - destruct (shape1 _ E1) as [n Hn]. specialize (Hd1 E1). rewrite Hn in *.
      change (lastd [n]) with n in *. subst n. simpl (size [5]). simpl Nat.eqb. cbv iota.
      rewrite bin_same; try (simpl; congruence); try (repeat apply wf_map1; auto).
      cbn [bind].
      assert (Hsz : forall j, j < size [5] -> j mod 5 = j /\ Nat.ltb j 5 = true).
      { intros j Hj. simpl in Hj. split; [apply Nat.mod_small; lia|apply Nat.ltb_lt; lia]. }
      assert (Key : forall (g : T -> T -> T) (h : T -> T) (a : nd T), wf a -> shp a = [5] ->
        forall j, j < size [5] ->
          nth_error (zip g (map cst (dat a)) (map h (map (fun a => npow10 (nmul (nlit (-(2) # 5)) a)) (map cst (dat abfix))))) j =
          (if Nat.ltb (j mod 5) 5 then option_map (fun x => g (cst x) (h (code_abfac abfix (j mod 5)))) (nth_error (dat a) j) else Some n0)).
      { intros g h a Hwa Hsha j Hj. destruct (Hsz j Hj) as [-> ->].
        rewrite nth_error_zip, !nth_error_map.
        rewrite (nth_error_nth' (dat abfix) n0) by (rewrite HLa; simpl in Hj; lia).
        simpl. unfold code_abfac. destruct (nth_error (dat a) j); reflexivity. }
      destruct ivar as [iv|].
      + destruct (Hiv iv eq_refl) as [Hwi Hsi]. simpl option_map. cbv iota.
        rewrite bin_same; try (simpl; congruence); try (repeat apply wf_map1; auto).
        cbn [bind]. do 2 eexists; split; [reflexivity|]. simpl.
        split; [congruence|]. split.
        { unfold wf; simpl. rewrite length_zip, !map_length, Hm, HLa, Hn. reflexivity. }
        split.
        { intros j Hj. pose proof (Key nmul (fun x => x) maggies Hm Hn j Hj) as K.
          rewrite map_id in K. exact K. }
        eexists; split; [reflexivity|]. simpl. split; [congruence|]. split.
        { unfold wf; simpl. rewrite length_zip, !map_length, Hwi, HLa, Hsi. reflexivity. }
        intros j Hj. exact (Key ndiv nsq iv Hwi Hsi j Hj).
      + simpl option_map. cbv iota. do 2 eexists; split; [reflexivity|]. simpl.
        split; [congruence|]. split.
        { unfold wf; simpl. rewrite length_zip, !map_length, Hm, HLa, Hn. reflexivity. }
        split; [|reflexivity].
        intros j Hj. pose proof (Key nmul (fun x => x) maggies Hm Hn j Hj) as K.
        rewrite map_id in K. exact K.
    - assert (Hlf : length (dat (map1 (fun a => npow10 (nmul (nlit (-(2) # 5)) a)) (map1 cst abfix))) = 5)
        by (simpl; rewrite !map_length; exact HLa).
      assert (Key : forall (g : T -> T -> T) (a : nd T), wf a -> shp a = shp maggies ->
        exists o, col_loop g (map1 cst a) (dat (map1 (fun a => npow10 (nmul (nlit (-(2) # 5)) a)) (map1 cst abfix))) 0
                    (full (shp maggies) n0) = Ok o /\ shp o = shp maggies /\ wf o /\
          forall j, j < size (shp maggies) -> nth_error (dat o) j =
            if Nat.ltb (j mod lastd (shp maggies)) 5
            then option_map (fun x => cst (g (cst x) (code_abfac abfix (j mod lastd (shp maggies))))) (nth_error (dat a) j)
            else Some n0).
      { intros g a Hwa Hsha.
        destruct (@col_loop_spec T g n0 (map1 cst a)
                    (dat (map1 (fun a => npow10 (nmul (nlit (-(2) # 5)) a)) (map1 cst abfix))) 0 (full (shp maggies) n0))
          as (o & E & So & Wo & No); auto using wf_map1, wf_full; try (simpl; congruence).
        { rewrite Hlf. simpl. rewrite Hsha. exact H5. }
        exists o. simpl in So. rewrite E. repeat split; auto; try congruence.
        intros j Hj. simpl shp in No. rewrite Hsha in No. rewrite No by exact Hj. rewrite Hlf.
        change (Nat.leb 0 (j mod lastd (shp maggies))) with true. change (0 + 5) with 5.
        cbn [andb map1 dat shp].
        destruct (Nat.ltb_spec (j mod lastd (shp maggies)) 5).
        - rewrite nth_error_map. rewrite Nat.sub_0_r.
          rewrite dat_abfac by auto. destruct (nth_error (dat a) j); reflexivity.
        - pose proof (@nth_error_full T (shp maggies) n0 j Hj) as Hf. exact Hf. }
      destruct (Key nmul maggies Hm eq_refl) as (o & E & So & Wo & No).
      simpl shp in *. rewrite E. cbn [bind].
      destruct ivar as [iv|]; cbn [option_map].
      + destruct (Hiv iv eq_refl) as [Hwi Hsi].
        destruct (Key (fun x c => ndiv x (nsq c)) iv Hwi Hsi) as (o2 & E2 & So2 & Wo2 & No2).
        rewrite E2. cbn [bind]. do 2 eexists; split; [reflexivity|].
        repeat split; auto. exists o2; repeat split; auto.
      + do 2 eexists; split; [reflexivity|]. repeat split; auto.
  Qed.

  Lemma sdss_ab_correct_1d_bad (maggies abfix : nd T) ivar :
    ndim maggies = 1 -> lastd (shp maggies) <> 5 ->
    sdss_ab_correct maggies ivar abfix = Raise TypeError.
  Proof.
    intros H1 H5. unfold sdss_ab_correct.
    destruct (match option_map (map1 cst) ivar with
              | Some iv => shape_eqb (shp (map1 cst maggies)) (shp iv) | None => true end); auto.
    destruct (shape_eqb (shp (map1 cst abfix)) [5]); auto.
    unfold ndim at 1; simpl shp. fold (ndim maggies). rewrite H1. simpl Nat.eqb. cbv iota.
    destruct (shape1 _ H1) as [n Hn]. rewrite Hn in *. change (lastd [n]) with n in H5.
    unfold size; simpl fold_right. rewrite Nat.mul_1_r.
    apply Nat.eqb_neq in H5. rewrite H5. reflexivity.
  Qed.

  Lemma sdss_ab_correct_nd_short (maggies abfix : nd T) ivar :
    wf maggies -> wf abfix -> shp abfix = [5] ->
    ndim maggies <> 1 -> (ndim maggies = 0 \/ lastd (shp maggies) < 5) ->
    (forall iv, ivar = Some iv -> shp iv = shp maggies) ->
    sdss_ab_correct maggies ivar abfix = Raise IndexError.
  Proof.
    intros Hm Ha Hsa H1 H5 Hiv. unfold sdss_ab_correct.
    assert (HLa : length (dat abfix) = 5) by (rewrite Ha, Hsa; reflexivity).
    assert (Hshape : match option_map (map1 cst) ivar with
                     | Some iv => shape_eqb (shp (map1 cst maggies)) (shp iv) | None => true end = true).
    { destruct ivar as [iv|]; simpl; auto. rewrite (Hiv iv eq_refl). apply shape_eqb_refl. }
    rewrite Hshape. simpl shp. rewrite Hsa. simpl shape_eqb. cbv iota.
    unfold ndim at 1; simpl shp. fold (ndim maggies). apply Nat.eqb_neq in H1 as H1'. rewrite H1'.
    rewrite col_loop_short; auto using wf_map1, wf_full.
    - simpl. rewrite !map_length, HLa. destruct H5 as [H5|H5]; [left|right; lia].
      unfold ndim in H5. destruct (shp maggies); auto; discriminate.
    - simpl. destruct (dat abfix); simpl in *; congruence.
  Qed.
End Gen.

Section Gen2.
  Context {T : Type} {N : Num T}.

  Lemma col_size {s : list nat} {j : nat} : s <> [] -> j < size s -> j / lastd s < size (lead s) /\ 0 < lastd s.
  Proof.
    intros Hs Hj. rewrite size_lead in Hj by auto.
    assert (0 < lastd s) by (destruct (lastd s); lia).
    split; auto. apply Nat.div_lt_upper_bound; lia.
  Qed.

  Lemma error_floor_spec (store : T -> T) (floor maggies ivar : nd T) :
    wf floor -> wf maggies -> wf ivar ->
    shp maggies <> [] -> ndim maggies <= 2 -> shp floor = [lastd (shp maggies)] -> shp ivar = shp maggies ->
    exists out, error_floor store floor maggies ivar = Ok out /\ shp out = shp maggies /\ wf out /\
      forall j, j < size (shp maggies) ->
        nth_error (dat out) j =
        Some (floor_entry store (nth (j mod lastd (shp maggies)) (dat floor) n0)
                (nth j (dat maggies) n0) (nth j (dat ivar) n0)).
  Proof.
    intros Hf Hm Hi Hne Hd Hsf Hsi. unfold error_floor.
    destruct (shp maggies) as [|s0 ss] eqn:Es; [congruence|]. rewrite <- Es in *.
    unfold ndim at 1. rewrite Hsf. change (length [lastd (shp maggies)]) with 1.
    change (size [lastd (shp maggies)]) with (lastd (shp maggies) * 1). rewrite Nat.mul_1_r, !Nat.eqb_refl.
    cbv iota. rewrite Hsi, shape_eqb_refl. apply Nat.leb_le in Hd. rewrite Hd. cbv iota.
    set (s := shp maggies) in *.
    set (step := fun (iv : nd T) (i : nat) => _).
    destruct (@col_fold T s
       (fun j iv => floor_entry store (nth (j mod lastd s) (dat floor) n0) (nth j (dat maggies) n0) iv)
       step (lastd s) 0 ivar) as (o & E & So & Wo & No); auto.
    { intros k _ Hk out Wout Sout. subst step. cbv beta.
      assert (Hk' : k < lastd (shp maggies)) by (fold s; lia).
      destruct (get_last_ok n0 Hm Hk') as (mc & Em & Sm & Wm & Nm). rewrite Em. cbn [bind].
      assert (Hk2 : k < lastd (shp out)) by (rewrite Sout; lia).
      destruct (get_last_ok n0 Wout Hk2) as (ic & Ei & Si & Wi & Ni). rewrite Ei. cbn [bind].
      rewrite Sout in Si, Ni. fold s in Sm, Nm.
      match goal with |- context [set_last k n0 ?v out] => set (vv := v) end.
      destruct (@set_last_ok T k n0 vv out) as (o1 & E1 & S1 & W1 & N1); auto.
      { unfold wf, vv; cbn [shp dat]. rewrite length_zip, Wm, Wi, Sm, Si. apply Nat.min_id. }
      { rewrite Sout; exact Hne. }
      { unfold vv; cbn [shp]. congruence. }
      exists o1. rewrite Sout in S1. repeat split; auto.
      intros j Hj. rewrite Sout in N1. rewrite N1 by exact Hj.
      destruct (Nat.eqb_spec (j mod lastd s) k) as [Ek|Ek]; auto.
      destruct (col_size Hne Hj) as [Hq Hpos].
      unfold vv; cbn [dat]. rewrite nth_error_zip, Nm, Ni by exact Hq.
      replace (j / lastd s * lastd s + k) with j by (rewrite (div_mod_idx j Hpos) at 1; congruence).
      rewrite (nth_error_nth' (dat maggies) n0) by (rewrite Hm; exact Hj).
      rewrite Ek. destruct (nth_error (dat out) j); reflexivity. }
    exists o. repeat split; auto. intros j Hj. rewrite No by exact Hj.
    destruct (col_size Hne Hj) as [Hq Hpos].
    assert (Hmod : j mod lastd s < lastd s) by (apply Nat.mod_upper_bound; lia).
    destruct (Nat.leb_spec 0 (j mod lastd s)); [|lia].
    destruct (Nat.ltb_spec (j mod lastd s) (0 + lastd s)); [|lia]. cbn [andb].
    rewrite (nth_error_nth' (dat ivar) n0) by (rewrite Hi, Hsi; exact Hj). reflexivity.
  Qed.

  (** What [sdss_asinh_to_maggies] puts at one entry. *)
  Definition asinh_flux_entry (b m e : T) : T :=
    cst (nmul (cst (asinh_maggies1 b (cst m))) (npow10 (nmul (nlit (2 # 5)) e))).

  Lemma asinh_spec (mag : nd T) (err ext : option (nd T)) :
    wf mag -> shp mag <> [] -> lastd (shp mag) = 5 ->
    (forall e, err = Some e -> wf e /\ shp e = shp mag) ->
    (forall e, ext = Some e -> wf e /\ shp e = shp mag) ->
    exists f iv, sdss_asinh_to_maggies mag err ext = Ok (f, iv) /\ shp f = shp mag /\ wf f /\
      (forall j, j < size (shp mag) -> nth_error (dat f) j =
         Some (asinh_flux_entry (nth (j mod 5) b0 n0) (nth j (dat mag) n0)
                 (match ext with Some e => cst (nth j (dat e) n0) | None => n0 end))) /\
      match err with
      | None => iv = None
      | Some er => exists v, iv = Some v /\ shp v = shp mag /\ wf v /\
          forall j, j < size (shp mag) -> nth_error (dat v) j =
            Some (cst (asinh_ivar1 (nth (j mod 5) b0 n0) (cst (nth j (dat mag) n0)) (cst (nth j (dat er) n0))))
      end.
  Proof.
    intros Hm Hne H5 Herr Hext. unfold sdss_asinh_to_maggies.
    assert (C1 : forall o : option (nd T), (forall e, o = Some e -> wf e /\ shp e = shp mag) ->
        match option_map (map1 cst) o with Some e => shape_eqb (shp (map1 cst mag)) (shp e) | None => true end = true).
    { intros [e|] He; cbn [option_map]; auto. destruct (He e eq_refl) as [_ Se].
      unfold map1; cbn [shp]. rewrite Se. apply shape_eqb_refl. }
    rewrite (C1 err Herr), (C1 ext Hext).
    change (shp (map1 cst mag)) with (shp mag).
    set (s := shp mag) in *.
    set (extd := match option_map (map1 cst) ext with Some e => e | None => full s n0 end).
    assert (Wx : wf extd /\ shp extd = s /\ forall j, j < size s ->
       nth_error (dat extd) j = Some (match ext with Some e => cst (nth j (dat e) n0) | None => n0 end)).
    { unfold extd. destruct ext as [e|]; cbn [option_map].
      - destruct (Hext e eq_refl) as [We Se]. split; [apply wf_map1; auto|]. split; [exact Se|].
        intros j Hj. rewrite nth_error_map1. rewrite (nth_error_nth' (dat e) n0) by (rewrite We, Se; exact Hj). reflexivity.
      - split; [apply wf_full|]. split; [reflexivity|]. intros j Hj. apply nth_error_full; auto. }
    destruct Wx as (Wx & Sx & Nx).
    destruct s as [|s0 ss] eqn:Es; [congruence|]. rewrite <- Es in *. subst s.
    rewrite H5. change (Nat.eqb 5 5) with true. cbv iota.
    assert (Hmc : wf (map1 cst mag)) by (apply wf_map1; auto).
    (* the maggies loop *)
    match goal with |- context [foldM ?st (seq 0 5) (full (shp mag) n0)] => set (step := st) end.
    assert (L1 : exists o, foldM step (seq 0 5) (full (shp mag) n0) = Ok o /\ shp o = shp mag /\ wf o /\
       forall j, j < size (shp mag) -> nth_error (dat o) j =
         Some (asinh_flux_entry (nth (j mod 5) b0 n0) (nth j (dat mag) n0)
                 (match ext with Some e => cst (nth j (dat e) n0) | None => n0 end))).
    { destruct (@col_fold T (shp mag)
         (fun j _ => asinh_flux_entry (nth (j mod 5) b0 n0) (nth j (dat mag) n0)
                 (match ext with Some e => cst (nth j (dat e) n0) | None => n0 end))
         step 5 0 (full (shp mag) n0)) as (o & E & So & Wo & No); auto using wf_full.
      { intros k _ Hk out Wout Sout. subst step. cbv beta.
        assert (Hk1 : k < lastd (shp (map1 cst mag))) by (cbn [map1 shp]; lia).
        destruct (get_last_ok n0 Hmc Hk1) as (mc & Em & Sm & Wm & Nm). rewrite Em. cbn [bind].
        cbn [map1 shp] in Sm, Nm. 
        match goal with |- context [set_last k n0 ?v out] => set (v1 := v) end.
        destruct (@set_last_ok T k n0 v1 out) as (o1 & E1 & S1 & W1 & N1); auto.
        { apply wf_map1; auto. } { congruence. } { unfold v1; cbn [map1 shp]; congruence. } { rewrite Sout; lia. }
        rewrite E1. cbn [bind].
        assert (Hk2 : k < lastd (shp o1)) by (rewrite S1, Sout; lia).
        destruct (get_last_ok n0 W1 Hk2) as (oc & Eo & Soc & Woc & Noc). rewrite Eo. cbn [bind].
        rewrite S1, Sout in Soc, Noc.
        assert (Hk3 : k < lastd (shp extd)) by (rewrite Sx; lia).
        destruct (get_last_ok n0 Wx Hk3) as (ec & Ee & Sec & Wec & Nec). rewrite Ee. cbn [bind].
        rewrite Sx in Sec, Nec.
        rewrite bin_same; auto; try congruence. cbn [bind].
        match goal with |- context [set_last k n0 ?v o1] => set (v2 := v) end.
        destruct (@set_last_ok T k n0 v2 o1) as (o2 & E2 & S2 & W2 & N2); auto.
        { unfold wf, v2; cbn [shp dat]. rewrite length_zip, Woc, Wec, Soc, Sec. apply Nat.min_id. }
        { congruence. } { unfold v2; cbn [shp]. congruence. }
        exists o2. repeat split; auto; try congruence.
        intros j Hj. rewrite S1, Sout in N2. rewrite N2 by exact Hj. rewrite Sout in N1.
        destruct (col_size Hne Hj) as [Hq Hpos].
        destruct (Nat.eqb_spec (j mod lastd (shp mag)) k) as [Ek|Ek].
        - unfold v2; cbn [dat]. rewrite nth_error_zip, Noc, Nec by exact Hq.
          assert (Ej : j / lastd (shp mag) * lastd (shp mag) + k = j)
            by (rewrite (div_mod_idx j Hpos) at 2; congruence).
          rewrite Ej, Nx by exact Hj. rewrite N1 by exact Hj.
          apply Nat.eqb_eq in Ek as Ek'. rewrite Ek'.
          unfold v1; cbn [map1 dat]. rewrite nth_error_map, Nm by exact Hq. rewrite Ej.
          change (dat (map1 cst mag)) with (map cst (dat mag)). rewrite nth_error_map.
          rewrite (nth_error_nth' (dat mag) n0) by (rewrite Hm; exact Hj). cbn [option_map].
          rewrite H5 in Ek. rewrite Ek.
          destruct (nth_error_lt (dat out) (i:=j)) as [x Hx]; [rewrite Wout, Sout; exact Hj|]. rewrite Hx.
          reflexivity.
        - rewrite N1 by exact Hj. apply Nat.eqb_neq in Ek. rewrite Ek. reflexivity. }
      exists o. repeat split; auto. intros j Hj. rewrite No by exact Hj. rewrite H5.
      assert (Hmod : j mod 5 < 5) by (apply Nat.mod_upper_bound; lia).
      destruct (Nat.leb_spec 0 (j mod 5)); [|lia].
      destruct (Nat.ltb_spec (j mod 5) (0 + 5)); [|lia]. cbn [andb].
      rewrite nth_error_full by exact Hj. reflexivity. }
    destruct L1 as (o & Eo & So & Wo & No). rewrite Eo. cbn [bind].
    destruct err as [er|]; cbn [option_map].
    2:{ do 2 eexists; split; [reflexivity|]. repeat split; auto. }
    destruct (Herr er eq_refl) as [We Se].
    match goal with |- context [foldM ?st (seq 0 5) (full (shp mag) n0)] => set (step2 := st) end.
    destruct (@col_fold T (shp mag)
         (fun j _ => cst (asinh_ivar1 (nth (j mod 5) b0 n0) (cst (nth j (dat mag) n0)) (cst (nth j (dat er) n0))))
         step2 5 0 (full (shp mag) n0)) as (o2 & E2 & So2 & Wo2 & No2); auto using wf_full.
    { intros k _ Hk out Wout Sout. subst step2. cbv beta.
      assert (Hk1 : k < lastd (shp (map1 cst mag))) by (cbn [map1 shp]; lia).
      destruct (get_last_ok n0 Hmc Hk1) as (mc & Em & Sm & Wm & Nm). rewrite Em. cbn [bind].
      cbn [map1 shp] in Sm, Nm.
      assert (Wer : wf (map1 cst er)) by (apply wf_map1; auto).
      assert (Hk2 : k < lastd (shp (map1 cst er))) by (cbn [map1 shp]; rewrite Se; lia).
      destruct (get_last_ok n0 Wer Hk2) as (ec & Ee & Sec & Wec & Nec). rewrite Ee. cbn [bind].
      cbn [map1 shp] in Sec, Nec. rewrite Se in Sec, Nec.
      rewrite bin_same; auto; try congruence. cbn [bind].
      match goal with |- context [set_last k n0 ?v out] => set (v2 := v) end.
      destruct (@set_last_ok T k n0 v2 out) as (o1 & E1 & S1 & W1 & N1); auto.
      { unfold wf, v2; cbn [shp dat]. rewrite length_zip, Wm, Wec, Sm, Sec. apply Nat.min_id. }
      { congruence. } { unfold v2; cbn [shp]. congruence. } { rewrite Sout; lia. }
      exists o1. repeat split; auto; try congruence.
      intros j Hj. rewrite Sout in N1. rewrite N1 by exact Hj.
      destruct (col_size Hne Hj) as [Hq Hpos].
      destruct (Nat.eqb_spec (j mod lastd (shp mag)) k) as [Ek|Ek]; auto.
      unfold v2; cbn [dat]. rewrite nth_error_zip, Nm, Nec by exact Hq.
      assert (Ej : j / lastd (shp mag) * lastd (shp mag) + k = j)
        by (rewrite (div_mod_idx j Hpos) at 2; congruence).
      rewrite Ej. cbn [map1 dat]. rewrite !nth_error_map.
      rewrite (nth_error_nth' (dat mag) n0) by (rewrite Hm; exact Hj).
      rewrite (nth_error_nth' (dat er) n0) by (rewrite We, Se; exact Hj). cbn [option_map].
      rewrite H5 in Ek. rewrite Ek.
      destruct (nth_error_lt (dat out) (i:=j)) as [x Hx]; [rewrite Wout, Sout; exact Hj|]. rewrite Hx.
      reflexivity. }
    rewrite E2. cbn [bind]. do 2 eexists; split; [reflexivity|]. repeat split; auto.
    exists o2. repeat split; auto. intros j Hj. rewrite No2 by exact Hj. rewrite H5.
    assert (Hmod : j mod 5 < 5) by (apply Nat.mod_upper_bound; lia).
    destruct (Nat.leb_spec 0 (j mod 5)); [|lia].
    destruct (Nat.ltb_spec (j mod 5) (0 + 5)); [|lia]. cbn [andb].
    rewrite nth_error_full by exact Hj. reflexivity.
  Qed.
End Gen2.
