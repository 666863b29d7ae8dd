(** Lemmas for absmag_mc and derived_mc. *)
From Coq Require Import String List Arith Bool Lia ZArith QArith.
From Verif Require Import Base BaseLemmas Num Interp Utils Sed Response RespDict Fitter FitSpec FitterProofs FitterMC
  Kcorrect KSpec KcorrectProofs DerivedProofs.
Import ListNotations.
Local Open Scope nat_scope.

Lemma Forall2_length' {A B} (P : A -> B -> Prop) l1 l2 : Forall2 P l1 l2 -> length l1 = length l2.
Proof. induction 1; cbn; auto. Qed.

Section M.
  Context {T : Type} {N : Num T}.

  Definition good (sh : list nat) (w : nat) (a : nd T) : Prop :=
    exists rows, a = arr sh w rows /\ rect w rows /\ length rows = size sh.

  Lemma good_iff sh w (a : nd T) : good sh w a <-> (shp a = sh ++ [w] /\ wf a).
  Proof.
    split.
    - intros (rows & -> & Hr & Hl). unfold arr; cbn; split; auto. unfold wf; cbn.
      rewrite (@length_concat_const T w), size_app; [cbn; rewrite Nat.mul_1_r; congruence|].
      intros r H. unfold rect in Hr. rewrite Forall_forall in Hr. auto.
    - intros [Hs Hw]. exists (lrows a).
      assert (Hne : shp a <> []) by (rewrite Hs; destruct sh; discriminate).
      assert (Hl : length (lrows a) = size sh) by (rewrite lrows_length, Hs, lead_snoc; auto).
      split; [|split; auto].
      + unfold arr. rewrite concat_lrows by auto. rewrite <- Hs. destruct a; auto.
      + apply Forall_forall. intros r Hr. rewrite (@lrows_row_length T a r Hw Hne Hr), Hs, lastd_snoc. auto.
  Qed.

  Lemma good_full sh w : good sh w (full (sh ++ [w]) n0).
  Proof. apply good_iff. split; auto. apply wf_full. Qed.

  Lemma get_full sh w i : i < w -> get_last i n0 (full (sh ++ [w]) n0) = Ok (full sh (n0 : T)).
  Proof.
    intro Hi. destruct (@get_last_ok T i n0 (full (sh ++ [w]) n0)) as (b & E & Hs & Hw & Hb).
    - apply wf_full.
    - unfold full; cbn [shp]. rewrite lastd_snoc. auto.
    - rewrite E. f_equal. unfold full in Hs; cbn [shp] in Hs. rewrite lead_snoc in Hs.
      unfold full in Hb; cbn [shp dat] in Hb. rewrite lead_snoc, lastd_snoc in Hb.
      destruct b as [bs bd]; cbn in *. subst bs. unfold full. f_equal. apply nth_error_ext. intro k.
      destruct (Nat.lt_ge_cases k (size sh)) as [Hk|Hk].
      + rewrite Hb by auto. rewrite !nth_error_repeat.
        assert (k * w + i < size (sh ++ [w])). { rewrite size_app; cbn. nia. }
        apply Nat.ltb_lt in H, Hk. rewrite H, Hk. auto.
      + rewrite (proj2 (nth_error_None bd k)) by (change (length bd) with (length (dat (mk sh bd))); rewrite Hw; auto).
        rewrite (proj2 (nth_error_None _ _)); auto. rewrite repeat_length. auto.
  Qed.

  (** What is stored for a value that can be broadcast to shape [sh]. *)
  Definition storable (sh : list nat) (v : nd T) : Prop := exists l, bto n0 sh (map1 cst v) = Ok l.
  Definition stored (sh : list nat) (v : nd T) : nd T :=
    mk sh (match bto n0 sh (map1 cst v) with Ok l => l | Raise _ => [] end).
  Lemma stored_same sh v : shp v = sh -> wf v -> storable sh v /\ stored sh v = map1 cst v.
  Proof.
    intros Hs Hw. assert (E : bto n0 sh (map1 cst v) = Ok (dat (map1 cst v))).
    { rewrite <- Hs. change (shp v) with (shp (map1 cst v)) at 1. apply bto_same. apply wf_map1; auto. }
    split; [eexists; eauto|]. unfold stored. rewrite E. unfold map1; cbn. rewrite Hs. auto.
  Qed.
  Lemma bto_length (d : T) sh v l : bto d sh v = Ok l -> length l = size sh.
  Proof.
    unfold bto. destruct (bshape _ _); [|discriminate]. destruct (shape_eqb _ _); [|discriminate].
    intro H; injection H as <-. rewrite map_length, seq_length. auto.
  Qed.

  Lemma set_last_bto (d : T) sh w rows k v l : rect w rows -> length rows = size sh -> k < w -> bto d sh v = Ok l ->
    set_last k d v (arr sh w rows) = Ok (arr sh w (zip (fun r x => upd k x r) rows l)).
  Proof.
    intros H L Hk Hv. unfold set_last. rewrite lrows_arr by auto. unfold arr; cbn [shp].
    rewrite snoc_match, lastd_snoc, lead_snoc. apply Nat.ltb_lt in Hk. rewrite Hk, Hv. auto.
  Qed.

  Lemma store_ok sh w i v (a : nd T) : good sh w a -> i < w -> storable sh v ->
    exists a', store_at i v a = Ok a' /\ good sh w a' /\ get_last i n0 a' = Ok (stored sh v) /\
      forall t, t <> i -> get_last t n0 a' = get_last t n0 a.
  Proof.
    intros (rows & -> & Hr & Hl) Hi (vs & Ev). unfold store_at, stored. rewrite Ev.
    pose proof (bto_length _ _ _ _ Ev) as Lv.
    rewrite (set_last_bto _ _ _ _ _ _ _ Hr Hl Hi Ev). eexists. split; [reflexivity|].
    assert (Hr' : rect w (zip (fun r x => upd i x r) rows vs)) by (apply rect_zip_upd; auto).
    assert (Hl' : length (zip (fun r x => upd i x r) rows vs) = size sh) by (rewrite length_zip; lia).
    split; [exists (zip (fun r x => upd i x r) rows vs); auto|]. split.
    - rewrite get_last_arr by auto. f_equal. f_equal. clear - Hi Hr Hl Lv.
      assert (E : length vs = length rows) by lia. clear Hl Lv. revert vs E.
      induction Hr as [|r rows H0 _ IH]; intros [|x vs] E; try discriminate; cbn; auto. f_equal; auto.
      apply nth_error_nth. rewrite nth_error_upd, Nat.eqb_refl. rewrite <- H0 in Hi.
      destruct (nth_error_lt r Hi) as [y ->]. auto.
    - intros t Ht. destruct (Nat.lt_ge_cases t w) as [Htw|Htw].
      + rewrite !get_last_arr by auto. f_equal. f_equal. clear - Ht Hr Hl Lv.
        assert (E : length vs = length rows) by lia. clear Hl Lv. revert vs E.
        induction Hr as [|r rows H0 _ IH]; intros [|x vs] E; try discriminate; cbn; auto. f_equal; auto.
        clear - Ht. revert i t Ht. induction r as [|y r IH]; intros [|i] [|t] Ht; cbn; auto; try congruence.
      + rewrite !get_last_arr_err by auto. auto.
  Qed.
  Lemma store_bad sh w i v (a : nd T) e : good sh w a -> i < w -> bto n0 sh (map1 cst v) = Raise e ->
    store_at i v a = Raise e.
  Proof.
    intros (rows & -> & Hr & Hl) Hi Ev. unfold store_at, set_last. unfold arr; cbn [shp].
    rewrite snoc_match, lastd_snoc, lead_snoc. apply Nat.ltb_lt in Hi. rewrite Hi, Ev. auto.
  Qed.

  (** Storing a list of results. *)
  Definition store_all (i : nat) (outs vals : list (nd T)) : res (list (nd T)) :=
    mapM (fun ov : nd T * nd T => store_at i (snd ov) (fst ov)) (combine outs vals).

  Definition goods (shs : list (list nat)) (w : nat) : list (nd T) -> Prop := Forall2 (fun sh a => good sh w a) shs.
  Definition shaped (shs : list (list nat)) : list (nd T) -> Prop := Forall2 storable shs.

  Lemma store_all_ok w i shs : i < w -> forall outs, goods shs w outs -> forall vals, shaped shs vals ->
    exists outs', store_all i outs vals = Ok outs' /\ goods shs w outs' /\
      forall q a, nth_error outs' q = Some a -> exists a0 sh v, nth_error outs q = Some a0 /\ nth_error shs q = Some sh /\
        nth_error vals q = Some v /\
        get_last i n0 a = Ok (stored sh v) /\ forall t, t <> i -> get_last t n0 a = get_last t n0 a0.
  Proof.
    intros Hi outs HG. induction HG as [|sh a0 shs outs H0 HG IH]; intros vals HV; inversion HV as [|? v ? vals' Hs HV']; subst.
    - exists []. repeat split; try constructor. intros [|] ? E; discriminate.
    - destruct (store_ok _ _ _ v _ H0 Hi Hs) as (a' & E & Hg & Hget & Hoth).
      destruct (IH vals' HV') as (outs' & E' & HG' & Hq).
      exists (a' :: outs'). unfold store_all in *; cbn [combine mapM fst snd]. rewrite E. cbn [bind]. rewrite E'. cbn [bind].
      repeat split; try constructor; auto. intros [|q] a Ea.
      + injection Ea as <-. exists a0, sh, v. repeat split; auto.
      + apply Hq; auto.
  Qed.

  (** A loop over draws that stores the results of each. *)
  Lemma loop_ok w shs (call : nat -> res (list (nd T))) (vals : nat -> list (nd T)) : forall n i outs,
    i + n <= w -> goods shs w outs ->
    (forall t, i <= t < i + n -> call t = Ok (vals t) /\ shaped shs (vals t)) ->
    exists outs', foldM (fun outs t => do vs <- call t; store_all t outs vs) (seq i n) outs = Ok outs' /\
      goods shs w outs' /\
      forall q a, nth_error outs' q = Some a -> exists a0 sh, nth_error outs q = Some a0 /\ nth_error shs q = Some sh /\
        (forall t, i <= t < i + n -> exists v, nth_error (vals t) q = Some v /\ get_last t n0 a = Ok (stored sh v)) /\
        (forall t, t < i \/ i + n <= t -> get_last t n0 a = get_last t n0 a0).
  Proof.
    induction n as [|n IH]; intros i outs Hw HG HC.
    - exists outs. cbn. repeat split; auto. intros q a E.
      assert (Hsh : exists sh, nth_error shs q = Some sh).
      { apply Forall2_length' in HG. apply nth_error_lt. rewrite HG. apply nth_error_Some. congruence. }
      destruct Hsh as [sh Hsh]. exists a, sh. repeat split; auto. intros; lia.
    - cbn [seq foldM]. destruct (HC i) as (E & V); [lia|]. rewrite E. cbn [bind].
      destruct (store_all_ok w i shs ltac:(lia) outs HG _ V) as (o1 & E1 & G1 & Q1).
      rewrite E1. cbn [bind]. destruct (IH (S i) o1) as (o2 & E2 & G2 & Q2); auto; try lia.
      { intros t Ht. apply HC. lia. }
      exists o2. repeat split; auto. intros q a Ea. destruct (Q2 q a Ea) as (a1 & sh1 & Ea1 & Es1 & In1 & Out1).
      destruct (Q1 q a1 Ea1) as (a0 & sh & v & Ea0 & Es & Ev & Hi & Ho). rewrite Es1 in Es. injection Es as ->.
      exists a0, sh. split; auto. split; auto. split.
      + intros t Ht. destruct (Nat.eq_dec t i) as [->|Hne].
        * exists v. split; auto. rewrite Out1 by lia. auto.
        * apply In1. lia.
      + intros t Ht. rewrite Out1 by lia. apply Ho. lia.
  Qed.

  Lemma loop_err w shs (call : nat -> res (list (nd T))) (vals : nat -> list (nd T)) e : forall n i outs j,
    goods shs w outs -> i <= j < i + n ->
    (forall t, i <= t < j -> t < w /\ call t = Ok (vals t) /\ shaped shs (vals t)) ->
    call j = Raise e ->
    foldM (fun outs t => do vs <- call t; store_all t outs vs) (seq i n) outs = Raise e.
  Proof.
    induction n as [|n IH]; intros i outs j HG Hj HC HE; [lia|]. cbn [seq foldM].
    destruct (Nat.eq_dec j i) as [->|Hne].
    - rewrite HE; auto.
    - destruct (HC i) as (Hi & E & V); [lia|]. rewrite E. cbn [bind].
      destruct (store_all_ok w i shs Hi outs HG _ V) as (o1 & E1 & G1 & Q1).
      rewrite E1. cbn [bind]. apply IH with (j := j); auto; try lia. intros t Ht. apply HC. lia.
  Qed.

  (** * Broadcasting a last axis of length 1 *)
  Lemma nth_repeat_lt {A} (x d : A) w j : j < w -> nth j (repeat x w) d = x.
  Proof. revert j. induction w as [|w IH]; intros [|j] H; cbn; auto; try lia. apply IH. lia. Qed.
  Lemma nth_replicate {A} (d : A) w l j : j < length l * w ->
    nth j (concat (map (fun x => repeat x w) l)) d = nth (j / w) l d.
  Proof.
    revert j. induction l as [|x l IH]; intros j Hj; cbn [map concat length] in *; [lia|].
    assert (Hw : w <> 0) by (intros ->; lia).
    destruct (Nat.lt_ge_cases j w) as [H|H].
    - rewrite app_nth1 by (rewrite repeat_length; auto). rewrite Nat.div_small by auto. cbn. apply nth_repeat_lt; auto.
    - rewrite app_nth2 by (rewrite repeat_length; auto). rewrite repeat_length, IH by lia.
      replace (j / w) with (S ((j - w) / w)); auto.
      replace j with ((j - w) + 1 * w) at 2 by lia. rewrite Nat.div_add by auto. lia.
  Qed.

  Lemma strip1_0 s : strip1 0 s = s.
  Proof. destruct s; auto. Qed.
  Lemma bto_one {A} (d : A) sh w v : shp v = sh ++ [1] -> wf v ->
    bto d (sh ++ [w]) v = Ok (dat (replicated sh w v)).
  Proof.
    intros Hs Hw. unfold bto. rewrite Hs, !app_length. cbn [length]. rewrite Nat.sub_diag, strip1_0. cbn [shp].
    assert (E : bshape (sh ++ [1]) (sh ++ [w]) = Some (sh ++ [w])).
    { unfold bshape. rewrite !rev_app_distr. cbn [rev app bshape_rev]. rewrite bshape_rev_refl.
      replace (if Nat.eqb 1 w then Some (1 :: rev sh) else if Nat.eqb 1 1 then Some (w :: rev sh) else
        if Nat.eqb w 1 then Some (1 :: rev sh) else None) with (Some (w :: rev sh)).
      - cbn. rewrite rev_involutive. auto.
      - destruct (Nat.eqb_spec 1 w); subst; auto. }
    rewrite E, shape_eqb_refl. f_equal. unfold replicated; cbn [dat]. rewrite size_app; cbn [size fold_right].
    rewrite Nat.mul_1_r. assert (L : length (dat v) = size sh).
    { rewrite Hw, Hs, size_app; cbn. lia. }
    rewrite <- L. apply nth_error_ext. intro j. rewrite nth_error_map, nth_error_seq.
    assert (LC : length (concat (map (fun x => repeat x w) (dat v))) = length (dat v) * w).
    { rewrite (@length_concat_const A w), map_length; auto. intros r Hr. apply in_map_iff in Hr as (x & <- & _).
      apply repeat_length. }
    destruct (Nat.ltb_spec j (length (dat v) * w)) as [Hj|Hj].
    - cbn [option_map]. rewrite (@nth_error_nth_lt _ _ _ d) by lia. f_equal. rewrite nth_replicate by auto.
      unfold bget; cbn [shp dat]. rewrite !rev_app_distr. cbn [rev app bpos_rev Nat.eqb Nat.add].
      rewrite Nat.mul_1_l, bpos_rev_same; auto. rewrite size_rev, <- L.
      apply Nat.div_lt_upper_bound; lia.
    - cbn. symmetry. apply nth_error_None. lia.
  Qed.
  Lemma bto_mismatch {A} (d : A) sh o w v : shp v = sh ++ [o] -> o <> w -> o <> 1 -> bto d (sh ++ [w]) v = Raise ValueError.
  Proof.
    intros Hs H1 H2. unfold bto. rewrite Hs, !app_length. cbn [length]. rewrite Nat.sub_diag, strip1_0. cbn [shp].
    unfold bshape. rewrite !rev_app_distr. cbn [rev app bshape_rev]. rewrite bshape_rev_refl.
    apply Nat.eqb_neq in H1 as E1, H2 as E2. rewrite E1, E2. destruct (Nat.eqb_spec w 1); auto. cbn.
    rewrite rev_involutive. destruct (shape_eqb _ _) eqn:E; auto. apply shape_eqb_eq in E.
    apply app_inv_head in E. injection E. congruence.
  Qed.

  (** Arrays of the shapes of one object or a batch. *)
  Lemma as_scal (a : nd T) : shp a = [] -> wf a -> exists x, a = scal x.
  Proof.
    destruct a as [s l]. unfold wf; cbn. intros -> H. cbn in H. destruct l as [|x [|]]; try discriminate. exists x. auto.
  Qed.
  Lemma as_vec (a : nd T) n : shp a = [n] -> wf a -> exists l, a = vec l /\ length l = n.
  Proof.
    destruct a as [s l]. unfold wf, vec; cbn. intros -> H. cbn in H. rewrite Nat.mul_1_r in H. exists l. rewrite H. auto.
  Qed.
  Lemma as_table (a : nd T) n w : shp a = [n; w] -> wf a -> exists rows, a = table w rows /\ length rows = n /\ rect w rows.
  Proof.
    intros Hs Hw. assert (G : good [n] w a) by (apply good_iff; auto). destruct G as (rows & -> & Hr & Hl).
    cbn in Hl. rewrite Nat.mul_1_r in Hl. exists rows. unfold arr, table. rewrite Hl. auto.
  Qed.
  Lemma as_zcs zs (rows : list (list T)) w : length zs = length rows -> rect w rows ->
    exists objs, zs = map fst objs /\ rows = map snd objs /\ Forall (zc_ok w) objs.
  Proof.
    intros L R. exists (combine zs rows). revert zs L. induction R as [|r rows Hr _ IH]; intros [|z zs] L; try discriminate.
    - repeat split; constructor.
    - cbn. destruct (IH zs) as (E1 & E2 & F); [injection L; auto|]. rewrite <- E1, <- E2. repeat split; auto.
  Qed.

  Lemma kval1_length (K : kcor T) A Ao nb no nt bs z c : kready K A Ao nb no nt -> length (kval1 K A Ao nb no nt bs z c) = no.
  Proof. intros (_ & _ & _ & _ & Hi & _). unfold kval1. rewrite kval_len; rewrite recon1_len; auto. Qed.
  Lemma kcorrect_shape K A Ao nb no nt sh z c bs kk : rounding N -> kready K A Ao nb no nt -> batch_shape sh ->
    shp z = sh -> wf z -> shp c = sh ++ [nt] -> wf c -> kcorrect K (Some z) (Some c) bs = Ok kk ->
    shp kk = sh ++ [no] /\ wf kk.
  Proof.
    intros HR HK [-> | [n ->]] Hz Wz Hc Wc H; cbn in Hc.
    - destruct (as_scal _ Hz Wz) as [x ->]. destruct (as_vec _ _ Hc Wc) as (cl & -> & L).
      rewrite (kc_scal K A Ao nb no nt) in H; auto. destruct (kbad _ _ _ _); [discriminate|]. injection H as <-.
      split; auto. unfold wf; cbn [shp dat]. rewrite (kval1_length K A Ao nb no nt) by auto. cbn; lia.
    - destruct (as_vec _ _ Hz Wz) as (zl & -> & L). destruct (as_table _ _ _ Hc Wc) as (rows & -> & Lr & Rr).
      destruct (as_zcs zl rows nt) as (objs & E1 & E2 & F); auto; try lia. rewrite E1, E2 in H.
      rewrite (kc_vec K A Ao nb no nt) in H; auto. destruct (_ || _); [discriminate|]. injection H as <-.
      assert (Ln : length objs = n) by (rewrite <- Lr, E2, map_length; auto).
      unfold table; cbn [shp]. rewrite map_length, Ln. split; auto. unfold wf; cbn [shp dat].
      rewrite (@length_concat_const T no), map_length; [cbn; lia|]. intros r Hr. apply in_map_iff in Hr as (x & <- & _).
      rewrite map_length. apply kval1_length; auto.
  Qed.

  (** * absmag_mc *)
  Variable distmod : T -> T.

  Lemma absmag_parts K m iv z c bs d r l k o : absmag distmod K m iv z c bs d r l k = Ok o ->
    length (parts o) = 1 + (if r then 1 else 0) + (if l then 1 else 0) + (if k then 1 else 0).
  Proof.
    unfold absmag, absmag_after. intro H.
    apply bind_ok in H as (p & _ & H). apply bind_ok in H as ([array dm] & _ & H). apply bind_ok in H as (kk & _ & H).
    destruct (q_m p); [|discriminate]. apply bind_ok in H as (um & _ & H).
    destruct (q_iv p); [|discriminate]. apply bind_ok in H as (ui & _ & H).
    destruct (shape_eqb (shp um) (shp kk)); [|discriminate]. destruct (Nat.eqb _ _); [|discriminate].
    apply bind_ok in H as (rec & Hr & H).
    assert (Lr : length rec = if r then 1 else 0).
    { destruct r; [|injection Hr as <-; auto]. apply bind_ok in Hr as (om & _ & Hr).
      destruct (shape_eqb (shp om) (shp kk)); [|discriminate]. injection Hr as <-. auto. }
    destruct rec as [|a [|]]; destruct r; try discriminate; destruct l, k; cbn in H; injection H as <-; auto.
  Qed.

  (** to_ab keeps the shapes of its arguments. *)
  Lemma set_last_shp i (v a b : nd T) : set_last i n0 v a = Ok b -> shp b = shp a.
  Proof.
    unfold set_last. destruct (shp a) eqn:E; [discriminate|]. rewrite <- E. destruct (Nat.ltb _ _); [|discriminate].
    intro H. apply bind_ok in H as (vs & _ & H). injection H as <-. auto.
  Qed.
  Lemma col_loop_shp {C} (f : T -> C -> T) src facs : forall i a b, col_loop f src facs i a = Ok b -> shp b = shp a.
  Proof.
    induction facs as [|c facs IH]; intros i a b H; cbn in H; [congruence|].
    apply bind_ok in H as (x & _ & H). apply bind_ok in H as (y & Hy & H). apply IH in H. apply set_last_shp in Hy. congruence.
  Qed.
  Lemma sdss_shp m iv fx m' iv' : sdss_ab_correct m iv fx = Ok (m', iv') ->
    shp m' = shp m /\ forall i, iv = Some i -> exists i', iv' = Some i' /\ shp i' = shp i.
  Proof.
    unfold sdss_ab_correct. change (shp (map1 cst m)) with (shp m). change (ndim (map1 cst m)) with (ndim m).
    change (shp (map1 cst fx)) with (shp fx). intro H.
    destruct (match option_map (map1 cst) iv with Some i => shape_eqb (shp m) (shp i) | None => true end) eqn:E0; [|discriminate].
    destruct (shape_eqb (shp fx) [5]) eqn:E1; [|discriminate]. apply shape_eqb_eq in E1.
    assert (ES : forall i, iv = Some i -> shp m = shp i).
    { intros i ->. cbn in E0. apply shape_eqb_eq in E0. auto. }
    destruct (Nat.eqb_spec (ndim m) 1) as [E2|E2].
    - destruct (Nat.eqb_spec (size (shp m)) 5) as [E3|E3]; [|discriminate].
      assert (E4 : shp m = [5]).
      { unfold ndim in E2. destruct (shp m) as [|n [|]]; try discriminate. cbn in E3. f_equal. lia. }
      apply bind_ok in H as (x & Hx & H). unfold bin in Hx. cbn [map1 shp] in Hx. rewrite E4, E1, bshape_refl in Hx.
      injection Hx as <-. destruct iv as [i|]; cbn [option_map] in H.
      + specialize (ES i eq_refl). apply bind_ok in H as (y & Hy & H). unfold bin in Hy. cbn [map1 shp] in Hy.
        rewrite <- ES, E4, E1, bshape_refl in Hy. injection Hy as <-. injection H as <- <-. split; cbn; [congruence|].
        intros i0 Hi0. injection Hi0 as <-. eexists. split; [reflexivity|]. cbn. congruence.
      + injection H as <- <-. split; cbn; [congruence|]. intros; discriminate.
    - apply bind_ok in H as (x & Hx & H). apply col_loop_shp in Hx. cbn in Hx. destruct iv as [i|]; cbn [option_map] in H.
      + specialize (ES i eq_refl). apply bind_ok in H as (y & Hy & H). apply col_loop_shp in Hy. cbn in Hy.
        injection H as <- <-. split; auto. intros i0 Hi0. injection Hi0 as <-. eexists. split; [reflexivity|]. congruence.
      + injection H as <- <-. split; auto. intros; discriminate.
  Qed.
  Lemma set_cols_shp a v b : set_cols a v = Ok b -> shp b = shp a.
  Proof.
    unfold set_cols. generalize (combine (seq 0 5) (sdss_cols (lastd (shp a)))) as l. intro l. revert a.
    induction l as [|jk l IH]; intros a H; cbn [foldM] in H; [congruence|].
    apply bind_ok in H as (x & Hx & H). apply bind_ok in Hx as (y & _ & Hx). apply set_last_shp in Hx. apply IH in H. congruence.
  Qed.
  Lemma to_ab_shp kd m iv m' iv' : to_ab kd m iv = Ok (m', iv') ->
    shp m' = shp m /\ forall i, iv = Some i -> exists i', iv' = Some i' /\ shp i' = shp i.
  Proof.
    destruct kd; cbn [to_ab].
    - intro H; injection H as <- <-. split; auto. intros i ->. eauto.
    - apply sdss_shp.
    - unfold gst_to_ab. intro H. apply bind_ok in H as (sm & _ & H). destruct iv as [i|]; [|discriminate].
      apply bind_ok in H as (si & _ & H). apply bind_ok in H as (r & _ & H). apply bind_ok in H as (x & Hx & H).
      destruct (snd r); [|discriminate]. apply bind_ok in H as (y & Hy & H). injection H as <- <-.
      apply set_cols_shp in Hx, Hy. split; auto. intros i0 Hi0. injection Hi0 as <-. eauto.
  Qed.
  Lemma process_shapes F z m iv c p : process_inputs F (Some z) m iv c = Ok p ->
    exists sh, sh = (if q_array p then [q_n p] else []) /\ shp z = sh /\
      (forall a, q_m p = Some a -> shp a = sh ++ [length (f_resp F)]) /\
      (forall a, q_iv p = Some a -> shp a = sh ++ [length (f_resp F)]) /\
      (forall a, c = Some a -> shp a = sh ++ [f_nsed F]).
  Proof.
    unfold process_inputs. change (ndim (map1 cst z)) with (ndim z). change (shp (map1 cst z)) with (shp z).
    destruct (Nat.leb_spec (ndim z) 1) as [Hd|]; [|discriminate].
    set (array := Nat.eqb (ndim z) 1). set (n := if array then size (shp z) else 1). set (nb := length (f_resp F)).
    set (sh := if array then [n] else []).
    assert (Esh : shp z = sh).
    { unfold sh, n, array, ndim in *. destruct (shp z) as [|a [|]]; cbn in *; auto; try lia. f_equal. lia. }
    assert (SO : forall w (o : option (nd T)), opt_shape_ok array n w (option_map (map1 cst) o) = true ->
      forall a, option_map (map1 cst) o = Some a -> shp a = sh ++ [w]).
    { intros w [o|] H a E; [|discriminate]. cbn in E. injection E as <-. cbn [option_map opt_shape_ok] in H.
      cbn [map1 shp] in *. unfold shape_ok in H. unfold sh. destruct array.
      - destruct (shp o) as [|x [|y [|]]]; try discriminate. apply andb_true_iff in H as [H1 H2].
        apply Nat.eqb_eq in H1, H2. subst. auto.
      - destruct (shp o) as [|x [|]]; try discriminate. apply Nat.eqb_eq in H. subst; auto. }
    destruct (opt_shape_ok array n nb (option_map (map1 cst) m)) eqn:E1; [|discriminate].
    destruct (opt_shape_ok array n nb (option_map (map1 cst) iv)) eqn:E2; [|discriminate].
    destruct (opt_shape_ok array n (f_nsed F) (option_map (map1 cst) c)) eqn:E3; [|discriminate].
    specialize (SO nb) as SOm. pose proof (SO nb iv E2) as Hiv. pose proof (SO nb m E1) as Hm.
    assert (Hcc : forall a, c = Some a -> shp a = sh ++ [f_nsed F]).
    { intros a ->. specialize (SO _ (Some a) E3 _ eq_refl). auto. }
    clear SO SOm.
    destruct (f_abc F); [destruct (option_map (map1 cst) m) as [m1|] eqn:Em|]; intro H.
    - apply bind_ok in H as ([m' iv'] & Hr & H). apply to_ab_shp in Hr as [R1 R2]. injection H as <-.
      exists sh. cbn [q_array q_n q_m q_iv fst snd]. repeat split; auto.
      + intros a E; injection E as <-. rewrite R1. auto.
      + intros a E. destruct (option_map (map1 cst) iv) as [i|] eqn:Ei; [|discriminate].
        destruct (R2 i eq_refl) as (i' & -> & R3). injection E as <-. rewrite R3. auto.
    - injection H as <-. exists sh. cbn [q_array q_n q_m q_iv]. repeat split; auto.
    - injection H as <-. exists sh. cbn [q_array q_n q_m q_iv]. repeat split; auto.
  Qed.
  Lemma take_last_shp idx (a b : nd T) : take_last idx n0 a = Ok b -> shp b = lead (shp a) ++ [length idx].
  Proof.
    unfold take_last. destruct (shp a) eqn:E; [discriminate|]. rewrite <- E. destruct (forallb _ _); [|discriminate].
    intro H. injection H as <-. auto.
  Qed.

  Lemma process_parts F z m iv c p : process_inputs F (Some z) m iv (Some c) = Ok p ->
    q_z p = map1 cst z /\ q_c p = Some (map1 cst c).
  Proof.
    unfold process_inputs. intro H. cbn [option_map] in H.
    repeat match type of H with (if ?x then _ else _) = _ => destruct x; [|discriminate] end.
    destruct (f_abc F), (option_map (map1 cst) m); [|injection H as <-; auto..].
    apply bind_ok in H as (r & _ & H). injection H as <-. auto.
  Qed.

  Lemma wf_take_last idx (a b : nd T) : take_last idx n0 a = Ok b -> wf b.
  Proof.
    unfold take_last. destruct (shp a) eqn:E; [discriminate|]. rewrite <- E in *. clear E.
    destruct (forallb _ _); [|discriminate]. intro H; injection H as <-. unfold wf; cbn [shp dat].
    rewrite (@length_concat_const T (length idx)), map_length, lrows_length, size_app; [cbn; lia|].
    intros r Hr. apply in_map_iff in Hr as (x & <- & _). apply map_length.
  Qed.

  Lemma recon_shape K A Ao nb no nt sh z c bs om : kready K A Ao nb no nt -> batch_shape sh ->
    shp z = sh -> wf z -> shp c = sh ++ [nt] -> wf c -> reconstruct_out K (Some z) (Some c) bs = Ok om ->
    wf om.
  Proof.
    intros ((HA & Hb & Hn & Ht) & HAo & Hto & Ho & HiL & Hf) [-> | [n ->]] Hz Wz Hc Wc H; cbn in Hc;
      unfold reconstruct_out in H; rewrite HAo in H.
    - destruct (as_scal _ Hz Wz) as [x ->]. destruct (as_vec _ _ Hc Wc) as (cl & -> & L).
      rewrite (reconstruct_scal _ x cl bs Hn Hto L) in H. destruct (out_of _ _); [discriminate|]. injection H as <-.
      unfold wf; cbn [shp dat]. rewrite recon1_len. cbn; lia.
    - destruct (as_vec _ _ Hz Wz) as (zl & -> & L). destruct (as_table _ _ _ Hc Wc) as (rows & -> & Lr & Rr).
      destruct (as_zcs zl rows nt) as (objs & E1 & E2 & F); auto; try lia. rewrite E1, E2 in H.
      rewrite (reconstruct_vec _ bs Hn Hto F) in H. destruct (existsb _ _); [discriminate|]. injection H as <-.
      unfold table, wf; cbn [shp dat].
      rewrite (@length_concat_const T no), map_length; [cbn; lia|]. intros r Hr. apply in_map_iff in Hr as (x & <- & _).
      apply recon1_len.
  Qed.

  Lemma absmag_shape K A Ao nb no nt sh m iv z c bs d r l k o : rounding N -> kready K A Ao nb no nt -> batch_shape sh ->
    shp z = sh -> wf z -> shp c = sh ++ [nt] -> wf c ->
    absmag distmod K m iv (Some z) (Some c) bs d r l k = Ok o ->
    Forall (fun v => shp v = sh ++ [no] /\ wf v) (parts o).
  Proof.
    intros HR HK Hsh Hz Wz Hc Wc H. unfold absmag, absmag_after in H.
    apply bind_ok in H as (p & HP & H). apply bind_ok in H as ([array dm] & _ & H). apply bind_ok in H as (kk & Hkk & H).
    destruct (process_parts _ _ _ _ _ _ HP) as [Ez Ec]. rewrite Ez, Ec in Hkk.
    assert (Wz' : wf (map1 cst z)) by (apply wf_map1; auto). assert (Wc' : wf (map1 cst c)) by (apply wf_map1; auto).
    destruct (kcorrect_shape K A Ao nb no nt sh (map1 cst z) (map1 cst c) bs kk HR HK Hsh Hz Wz' Hc Wc' Hkk) as [Sk Wk].
    destruct (q_m p) as [qm|]; [|discriminate]. apply bind_ok in H as (um & Hum & H).
    destruct (q_iv p) as [qi|] eqn:Eqi; [|discriminate]. apply bind_ok in H as (ui & Hui & H).
    destruct (shape_eqb (shp um) (shp kk)) eqn:E1; [|discriminate]. apply shape_eqb_eq in E1.
    destruct (Nat.eqb _ _) eqn:E2; [|discriminate]. apply Nat.eqb_eq in E2.
    apply wf_take_last in Hum as Wum. apply wf_take_last in Hui as Wui.
    apply bind_ok in H as (rec & Hr & H).
    assert (LD : length (dat kk) = size (sh ++ [no])) by (rewrite Wk, Sk; auto).
    assert (Lc : length (combine (dm_entries array (length (k_out K)) dm) (dat kk)) = size (sh ++ [no])).
    { rewrite combine_length. lia. }
    assert (LR : Forall (fun v => shp v = sh ++ [no] /\ wf v) rec).
    { destruct r; [|injection Hr as <-; auto]. apply bind_ok in Hr as (om & Hom & Hr).
      destruct (shape_eqb (shp om) (shp kk)) eqn:E3; [|discriminate]. apply shape_eqb_eq in E3. injection Hr as <-.
      rewrite Ez, Ec in Hom. pose proof (recon_shape K A Ao nb no nt sh (map1 cst z) (map1 cst c) bs om HK Hsh Hz Wz' Hc Wc' Hom) as Wo.
      repeat constructor; cbn [shp]; [congruence|]. unfold wf; cbn [shp dat]. rewrite length_zip, Lc, Wo, E3, Sk. lia. }
    assert (SU : shp ui = sh ++ [no]).
    { destruct HK as (_ & _ & _ & _ & Hi & _).
      destruct (process_shapes _ _ _ _ _ _ HP) as (sh' & _ & Es & Sm & Si & _).
      apply take_last_shp in Hui.
      rewrite Hui, Hi. f_equal. rewrite Si with (a := qi) by auto. rewrite lead_snoc. congruence. }
    assert (WA : Forall (fun v => shp v = sh ++ [no] /\ wf v)
       [mk (shp um) (zip (fun (x : T * T) (y : T * T) => absmag1 (fst x) (snd x) (fst y) (snd y))
                                   (combine (dat um) (dat ui)) (combine (dm_entries array (length (k_out K)) dm) (dat kk)))]).
    { repeat constructor; cbn [shp]; [congruence|]. unfold wf; cbn [shp dat].
      rewrite length_zip, combine_length, Lc, Wum, Wui, SU, E1, Sk. lia. }
    assert (WL : Forall (fun v => shp v = sh ++ [no] /\ wf v)
       [mk (shp um) (zip (fun x (y : T * T) => abslim1 x (fst y) (snd y)) (dat ui)
                      (combine (dm_entries array (length (k_out K)) dm) (dat kk)))]).
    { repeat constructor; cbn [shp]; [congruence|]. unfold wf; cbn [shp dat].
      rewrite length_zip, Lc, Wui, SU, E1, Sk. lia. }
    set (lim := if l then _ else _) in H. set (kcl := if k then _ else _) in H. set (am := mk _ _) in H, WA.
    assert (WAll : Forall (fun v => shp v = sh ++ [no] /\ wf v) (am :: rec ++ lim ++ kcl)).
    { inversion WA; subst. constructor; auto. apply Forall_app. split; auto. apply Forall_app. split.
      - unfold lim. destruct l; auto.
      - unfold kcl. destruct k; auto. }
    destruct (rec ++ lim ++ kcl) eqn:ER; injection H as <-; cbn [parts].
    - inversion WAll; auto.
    - auto.
  Qed.

  Definition mc_call (K : kcor T) mm iv z cm bs d r k (i : nat) : res (list (nd T)) :=
    do m <- get_last i n0 mm; do c <- get_last i n0 cm;
    do o <- absmag distmod K (Some m) iv z (Some c) bs d r false k; Ok (parts o).

  Lemma absmag_mc_eq K mm iv z cm bs d r k s mc : shp cm = s ++ [mc] ->
    absmag_mc distmod K mm iv z cm bs d r k =
    do outs <- foldM (fun outs t => do vs <- mc_call K mm iv z cm bs d r k t; store_all t outs vs) (seq 0 mc)
                     (repeat (full (shp mm) n0) (1 + (if r then 1 else 0) + (if k then 1 else 0)));
    match outs with [a] => Ok (Bare1 a) | l => Ok (Tuple l) end.
  Proof.
    intro Hs. unfold absmag_mc. rewrite Hs, snoc_match, lastd_snoc.
    assert (E : forall l outs, foldM (absmag_mc_step distmod K mm iv z cm bs d r k) l outs =
      foldM (fun outs t => do vs <- mc_call K mm iv z cm bs d r k t; store_all t outs vs) l outs).
    { induction l as [|t l IH]; intro outs; cbn [foldM]; auto.
      assert (E1 : absmag_mc_step distmod K mm iv z cm bs d r k outs t =
                   (do vs <- mc_call K mm iv z cm bs d r k t; store_all t outs vs)).
      { unfold absmag_mc_step, mc_call. destruct (get_last t n0 mm); auto. cbn [bind].
        destruct (get_last t n0 cm); auto. cbn [bind]. destruct (absmag _ _ _ _ _ _ _ _ _ _ _); auto. }
      rewrite E1. destruct (do vs <- mc_call K mm iv z cm bs d r k t; store_all t outs vs); cbn [bind]; auto. }
    rewrite E. auto.
  Qed.

  (** * derived and derived_mc *)
  Definition der_keys : list string := ["mremain"; "intsfh"; "mtol"; "b50"; "b300"; "b1000"; "metallicity"]%string.

  Lemma get_last_shp i (a b : nd T) sh w : shp a = sh ++ [w] -> get_last i n0 a = Ok b -> shp b = sh /\ i < w.
  Proof.
    intros Hs H. unfold get_last in H. rewrite Hs, snoc_match, lastd_snoc, lead_snoc in H.
    destruct (Nat.ltb_spec i w); [|discriminate]. injection H as <-. auto.
  Qed.
  Lemma solar_good dict dm sh w rm x rm' : good sh w rm -> solar_step dict dm rm x = Ok rm' -> good sh w rm'.
  Proof.
    intros G H. destruct x as [ir name]. unfold solar_step in H. destruct (dget dict name) as [r|]; [|discriminate].
    destruct dm as [dm|]; [|discriminate].
    assert (H' : exists sm, (do c <- get_last ir n0 rm;
          set_last ir n0 (mk (shp c) (zip (fun x d => ndiv x (npow10 (nmul (nlit (-(2) # 5)) (nadd sm d)))) (dat c) dm)) rm) = Ok rm').
    { destruct (p_solar r) as [s|], dm; try discriminate; eauto. }
    clear H. destruct H' as (sm & H). apply bind_ok in H as (c & Hc & H).
    apply good_iff in G as G'. destruct G' as [S W]. destruct (get_last_shp _ _ _ _ _ S Hc) as [Sc Hi].
    destruct G as (rows & -> & Hr & Hl).
    unfold set_last in H. change (shp (arr sh w rows)) with (sh ++ [w]) in H.
    rewrite snoc_match, lastd_snoc, lead_snoc in H. apply Nat.ltb_lt in Hi. rewrite Hi in H.
    apply bind_ok in H as (vs & Hv & H). rewrite lrows_arr in H by auto. injection H as <-.
    apply bto_length in Hv. exists (zip (fun r x => upd ir x r) rows vs). split; auto. split.
    - apply rect_zip_upd; auto.
    - rewrite length_zip; lia.
  Qed.
  Lemma solar_fold_good dict dm sh w l : forall rm rm', good sh w rm -> foldM (solar_step dict dm) l rm = Ok rm' -> good sh w rm'.
  Proof.
    induction l as [|x l IH]; intros rm rm' G H; cbn [foldM] in H; [congruence|].
    apply bind_ok in H as (y & Hy & H). apply (solar_good _ _ _ _ _ _ _ G) in Hy. eauto.
  Qed.

  Lemma reconout_good K A Ao nb no nt sh z c bs om : kready K A Ao nb no nt -> batch_shape sh ->
    shp z = sh -> wf z -> shp c = sh ++ [nt] -> wf c -> reconstruct_out K (Some z) (Some c) bs = Ok om -> good sh no om.
  Proof.
    intros HK Hsh Hz Wz Hc Wc H. apply good_iff.
    pose proof (recon_shape K A Ao nb no nt sh z c bs om HK Hsh Hz Wz Hc Wc H) as Wo. split; auto.
    destruct HK as ((HA & Hb & Hn & Ht) & HAo & Hto & Ho & HiL & Hf).
    unfold reconstruct_out in H; rewrite HAo in H. destruct Hsh as [-> | [n ->]].
    - destruct (as_scal _ Hz Wz) as [x ->]. destruct (as_vec _ _ Hc Wc) as (cl & -> & L).
      rewrite (reconstruct_scal _ x cl bs Hn Hto L) in H. destruct (out_of _ _); [discriminate|]. injection H as <-. auto.
    - destruct (as_vec _ _ Hz Wz) as (zl & -> & L). destruct (as_table _ _ _ Hc Wc) as (rows & -> & Lr & Rr).
      destruct (as_zcs zl rows nt) as (objs & E1 & E2 & F); auto; try lia. rewrite E1, E2 in H.
      rewrite (reconstruct_vec _ bs Hn Hto F) in H. destruct (existsb _ _); [discriminate|]. injection H as <-.
      unfold table; cbn [shp app]. rewrite map_length. f_equal. rewrite E2, map_length in Lr. auto.
  Qed.

  Lemma per_object_shape sh (l : list T) : batch_shape sh -> length l = size sh ->
    shp (per_object (negb (Nat.eqb (length sh) 0)) l) = sh /\ wf (per_object (negb (Nat.eqb (length sh) 0)) l).
  Proof.
    intros [-> | [n ->]] L; cbn in *.
    - unfold per_object, scal, wf; cbn. auto.
    - unfold per_object, vec, wf; cbn. rewrite Nat.mul_1_r in *. rewrite L. auto.
  Qed.

  Lemma derived_shape dict K A Ao nb no nt sh z c bs d o : kready K A Ao nb no nt -> batch_shape sh ->
    shp z = sh -> wf z -> shp c = sh ++ [nt] -> wf c -> (forall x, d = Some x -> wf x) ->
    derived distmod dict K (Some z) (Some c) bs d = Ok o ->
    map fst o = der_keys /\
    Forall2 (fun sh v => shp v = sh /\ wf v) [sh; sh; sh ++ [no]; sh; sh; sh; sh] (map snd o).
  Proof.
    intros HK Hsh Hz Wz Hc Wc Hd H. unfold derived in H.
    apply bind_ok in H as (p & HP & H). apply bind_ok in H as ([[array df] dm] & Had & H).
    destruct (process_parts _ _ _ _ _ _ HP) as [Ez Ec]. rewrite Ec in H, Had.
    destruct (tmpl_ok _ _); [|discriminate].
    assert (Wz' : wf (map1 cst z)) by (apply wf_map1; auto). assert (Wc' : wf (map1 cst c)) by (apply wf_map1; auto).
    assert (QA : forall z' c' q, batch_shape sh -> shp c' = sh ++ [nt] -> wf z' ->
       process_inputs (k_fit K) (Some z') None None (Some c') = Ok q ->
       q_array q = negb (Nat.eqb (length sh) 0) /\ length (dat (q_z q)) = size sh).
    { intros z' c' q Hb Sc' Wz1 HQ.
      destruct (process_parts _ _ _ _ _ _ HQ) as [Eq _]. rewrite Eq. unfold map1; cbn [dat]. rewrite map_length, Wz1.
      destruct (process_shapes _ _ _ _ _ _ HQ) as (s1 & Es1 & Es2 & _ & _ & S2). specialize (S2 _ eq_refl).
      rewrite S2 in Sc'. apply app_inj_tail in Sc' as [-> _]. rewrite Es2. split; auto.
      destruct Hb as [-> | [m ->]]; destruct (q_array q); auto; discriminate. }
    destruct (QA _ _ _ Hsh Hc Wz HP) as [QA1 QA2].
    assert (A1 : array = negb (Nat.eqb (length sh) 0) /\ length df = size sh).
    { destruct d as [x|].
      - apply bind_ok in Had as (q & HQ & Had). injection Had as <- <- _.
        destruct (QA x (map1 cst c) q Hsh Hc (Hd x eq_refl) HQ) as [B1 B2]. rewrite map_length. auto.
      - injection Had as <- <- _. rewrite !map_length. auto. }
    destruct A1 as [-> Ldf].
    apply bind_ok in H as (rm0 & Hrm0 & H). apply bind_ok in H as (rm & Hrm & H).
    destruct (_ || _) eqn:EB in H; [|discriminate]. injection H as <-. split; auto.
    assert (G : good sh no rm).
    { eapply solar_fold_good; [|exact Hrm]. eapply reconout_good; [exact HK|exact Hsh| | | | |exact Hrm0]; auto.
      - destruct Hsh as [-> | [n ->]]; auto. cbn [length Nat.eqb negb]. unfold full; cbn [shp]. rewrite QA2. cbn. f_equal. lia.
      - destruct (negb _); [apply wf_full|]. unfold wf, scal; auto. }
    assert (Lcs : length (lrows (map1 cst c)) = size sh).
    { rewrite lrows_length. cbn [map1 shp]. rewrite Hc, lead_snoc. auto. }
    assert (LW : forall v, length (weighted (lrows (map1 cst c)) v df) = size sh).
    { intro v. unfold weighted. rewrite length_zip, Lcs, Ldf. lia. }
    apply good_iff in G as G'. destruct G' as [Srm Wrm].
    assert (LR : forall (f : T -> T * T -> T) a b c0, length a = size sh -> length b = size sh -> length c0 = size sh ->
      length (zip f a (combine b c0)) = size sh).
    { intros. rewrite length_zip, combine_length. lia. }
    cbn [map snd]. repeat constructor; try (apply per_object_shape; auto); cbn [shp]; auto.
    unfold wf; cbn [shp dat]. destruct G as (rows & -> & Hr & Hl). rewrite lrows_arr by auto. rewrite Srm, size_app; cbn [size fold_right].
    rewrite (@length_concat_const T no), length_zip, LW, Hl; [lia|].
    intros r Hr'. apply In_nth_error in Hr' as [j Hj]. rewrite nth_error_zip in Hj.
    destruct (nth_error _ j) in Hj; [|discriminate]. destruct (nth_error rows j) eqn:E; [|discriminate]. injection Hj as <-.
    rewrite map_length. unfold rect in Hr. rewrite Forall_forall in Hr. apply Hr. eapply nth_error_In; eauto.
  Qed.

  Definition dmc_call dict K z cm bs d (i : nat) : res (list (nd T)) :=
    do o <- derived_slice distmod dict K z cm bs d i; Ok (map snd o).

  Lemma seven {B} (l : list B) : length l = 7 -> exists a b c d e f g, l = [a; b; c; d; e; f; g].
  Proof.
    intro L. do 7 (destruct l as [|? l]; [discriminate|]). destruct l; [|discriminate]. repeat eexists.
  Qed.
  Lemma dmc_step dict K z cm bs d mc i o outs : derived_slice distmod dict K z cm bs d i = Ok o -> map fst o = der_keys ->
    length outs = 7 ->
    derived_mc_step distmod dict K z cm bs d mc (Some (combine der_keys outs)) i =
    (do l <- store_all i outs (map snd o); Ok (Some (combine der_keys l))).
  Proof.
    intros Hs Hk Ho. unfold derived_mc_step. unfold derived_slice in Hs.
    destruct (get_last i n0 cm) as [c|]; [|discriminate]. cbn [bind] in *. rewrite Hs. cbn [bind].
    assert (L : length o = 7) by (rewrite <- (map_length fst), Hk; auto).
    destruct (seven _ L) as ([k1 v1] & [k2 v2] & [k3 v3] & [k4 v4] & [k5 v5] & [k6 v6] & [k7 v7] & ->).
    destruct (seven _ Ho) as (a1 & a2 & a3 & a4 & a5 & a6 & a7 & ->).
    unfold der_keys in Hk. cbn in Hk. injection Hk as -> -> -> -> -> -> ->.
    unfold der_keys, store_all. cbn [combine map fst snd mapM].
    repeat (match goal with |- context [dget ?x ?y] => let r := eval vm_compute in (dget x y) in change (dget x y) with r end;
      cbv iota; match goal with |- context [store_at i ?v ?a] => destruct (store_at i v a); cbn [bind]; [|reflexivity] end).
    reflexivity.
  Qed.
  Lemma dmc_first dict K z cm bs d mc i o : derived_slice distmod dict K z cm bs d i = Ok o -> map fst o = der_keys ->
    derived_mc_step distmod dict K z cm bs d mc None i =
    derived_mc_step distmod dict K z cm bs d mc
      (Some (combine der_keys (map (fun v => full (shp v ++ [mc]) n0) (map snd o)))) i.
  Proof.
    intros Hs Hk. unfold derived_mc_step. unfold derived_slice in Hs.
    destruct (get_last i n0 cm) as [c|]; [|discriminate]. cbn [bind] in *. rewrite Hs. cbn [bind].
    replace (combine der_keys (map (fun v => full (shp v ++ [mc]) n0) (map snd o)))
      with (map (fun kv : string * nd T => (fst kv, full (shp (snd kv) ++ [mc]) n0)) o); auto.
    rewrite <- Hk. clear. induction o as [|[k v] o IH]; cbn; auto. f_equal; auto.
  Qed.
End M.
