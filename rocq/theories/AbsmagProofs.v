(** Lemmas for the theorems about absmag. *)
From Coq Require Import String List Arith Lia Bool ZArith QArith Qreals Reals Lra.
From Verif Require Import Base BaseLemmas Num Interp InterpReal Sed Response RespDict Fitter FitSpec FitterProofs FitterMC
  Kcorrect KSpec KcorrectProofs XrAlg KEx.
Import ListNotations.
Local Open Scope nat_scope.

Section A.
  Context {T : Type} {N : Num T}.

  Lemma am_pack_0 r l k (a b c d : nd T) : nth_error (parts (am_pack r l k a b c d)) 0 = Some a.
  Proof. unfold am_pack. destruct r, l, k; reflexivity. Qed.
  Lemma am_pack_len r l k (a b c d : nd T) : length (parts (am_pack r l k a b c d)) = 1 + count r + count l + count k.
  Proof. destruct r, l, k; reflexivity. Qed.
  Lemma am_pack_nth r l k (a b c d : nd T) p x : nth_error (parts (am_pack r l k a b c d)) p = Some x ->
    (x = a /\ forall a b c d : nd T, nth_error (parts (am_pack r l k a b c d)) p = Some a) \/
    (x = b /\ forall a b c d : nd T, nth_error (parts (am_pack r l k a b c d)) p = Some b) \/
    (x = c /\ forall a b c d : nd T, nth_error (parts (am_pack r l k a b c d)) p = Some c) \/
    (x = d /\ forall a b c d : nd T, nth_error (parts (am_pack r l k a b c d)) p = Some d).
  Proof.
    destruct r, l, k, p as [|[|[|[|p]]]]; cbn; intro H; try (destruct p; discriminate H); try discriminate H;
      injection H as ->; auto 10.
  Qed.

  Lemma kval1_len (K : kcor T) A Ao nb no nt bs z c : kready K A Ao nb no nt -> length (kval1 K A Ao nb no nt bs z c) = no.
  Proof. intros (_ & _ & _ & _ & Hi & _). unfold kval1. rewrite kval_len; rewrite recon1_len; auto. Qed.

  Lemma picked_nth (K : kcor T) A Ao nb no nt (v : list T) : kready K A Ao nb no nt -> length v = nb ->
    length (picked K v) = no /\ forall j d, j < no -> nth_error (picked K v) j = Some (nth (in_band K j) v d).
  Proof.
    intros ((_ & Hb & _) & _ & _ & _ & Hi & Hf) Hv. unfold picked. split; [rewrite map_length; auto|].
    intros j d Hj. rewrite nth_error_map. assert (E : nth_error (k_imap K) j = Some (in_band K j)) by (apply nth_error_nth_lt; lia).
    rewrite E. cbn. f_equal. apply nth_indep. rewrite Forall_forall in Hf. rewrite Hv. apply Hf. eapply nth_error_In; eauto.
  Qed.
  Lemma nth_error_combine {A B} (l1 : list A) (l2 : list B) i a b : nth_error l1 i = Some a -> nth_error l2 i = Some b ->
    nth_error (combine l1 l2) i = Some (a, b).
  Proof. revert l2 i; induction l1 as [|x l1 IH]; intros [|y l2] [|i]; cbn; try congruence. apply IH. Qed.
  Lemma am_row_nth (K : kcor T) A Ao nb no nt (m iv : list T) dm k : kready K A Ao nb no nt ->
    length m = nb -> length iv = nb -> length k = no ->
    length (am_row K m iv dm k) = no /\
    forall j d, j < no -> nth_error (am_row K m iv dm k) j =
      Some (absmag1 (nth (in_band K j) m d) (nth (in_band K j) iv d) dm (nth j k d)).
  Proof.
    intros HK Hm Hi Hk. destruct (picked_nth K A Ao nb no nt m HK Hm) as [L1 P1].
    destruct (picked_nth K A Ao nb no nt iv HK Hi) as [L2 P2]. unfold am_row.
    split; [rewrite length_zip, combine_length; lia|]. intros j d Hj.
    rewrite nth_error_zip, (nth_error_combine _ _ _ _ _ (P1 j d Hj) (P2 j d Hj)), (nth_error_nth_lt k d) by lia. auto.
  Qed.
  Lemma rec_row_nth no (om : list T) dm k : length om = no -> length k = no -> length (rec_row om dm k) = no /\
    forall j d, j < no -> nth_error (rec_row om dm k) j = Some (absrec1 (nth j om d) dm (nth j k d)).
  Proof.
    intros L1 L2. unfold rec_row. split; [rewrite length_zip; lia|]. intros j d Hj.
    rewrite nth_error_zip, (nth_error_nth_lt om d), (nth_error_nth_lt k d) by lia. auto.
  Qed.
  Lemma lim_row_nth (K : kcor T) A Ao nb no nt (iv : list T) dm k : kready K A Ao nb no nt ->
    length iv = nb -> length k = no ->
    length (lim_row K iv dm k) = no /\
    forall j d, j < no -> nth_error (lim_row K iv dm k) j = Some (abslim1 (nth (in_band K j) iv d) dm (nth j k d)).
  Proof.
    intros HK Hi Hk. destruct (picked_nth K A Ao nb no nt iv HK Hi) as [L2 P2]. unfold lim_row.
    split; [rewrite length_zip; lia|]. intros j d Hj.
    rewrite nth_error_zip, (P2 j d Hj), (nth_error_nth_lt k d) by lia. auto.
  Qed.

  Lemma existsb_false_in {A} (f : A -> bool) l : existsb f l = false -> forall a, In a l -> f a = false.
  Proof.
    intros H a Hin. destruct (f a) eqn:E; auto. assert (existsb f l = true) by (apply existsb_exists; eauto). congruence.
  Qed.
  Lemma Forall2_map_map {A B C} (P : B -> C -> Prop) (f : A -> B) (g : A -> C) l :
    (forall a, In a l -> P (f a) (g a)) -> Forall2 P (map f l) (map g l).
  Proof. induction l; cbn; intro H; constructor; auto. Qed.
  Lemma map_cst_id : (forall x : T, cst x = x) -> forall l : list T, map cst l = l.
  Proof. intros H l. rewrite (map_ext _ _ H). apply map_id. Qed.

  (** The right-hand sides of [am_scal], without and with the range checks. *)
  Definition obj_out distmod (K : kcor T) A Ao nb no nt bs wd r l k (o : kobj T) : am_out T :=
    let kk := kval1 K A Ao nb no nt bs (ko_z o) (ko_c o) in
    let dm := dm_val distmod wd (ko_z o) (ko_d o) in
    am_pack r l k (mk [no] (am_row K (map cst (ko_m o)) (map cst (ko_iv o)) dm kk))
               (mk [no] (rec_row (recon1 Ao no nt bs (cst (ko_z o)) (map cst (ko_c o))) dm kk))
               (mk [no] (lim_row K (map cst (ko_iv o)) dm kk)) (mk [no] kk).
  Definition obj_res distmod (K : kcor T) A Ao nb no nt bs wd r l k (o : kobj T) : res (am_out T) :=
    if kbad A Ao bs (ko_z o) then Raise ValueError
    else if r && out_of (a_x Ao) (shifted bs (cst (ko_z o))) then Raise ValueError
    else Ok (obj_out distmod K A Ao nb no nt bs wd r l k o).
  Lemma obj_eq distmod (K : kcor T) A Ao nb no nt bs wd r l k (o : kobj T) : rounding N -> kready K A Ao nb no nt ->
    no_ab (k_fit K) -> kobj_ok nb nt o ->
    absmag_object distmod K bs wd r l k o = obj_res distmod K A Ao nb no nt bs wd r l k o.
  Proof. apply am_scal. Qed.
End A.

Lemma Q2R_m25 : Q2R (-(5) # 2) = (-5 / 2)%R.
Proof. unfold Q2R; cbn. lra. Qed.
Lemma Q2R_9999 : Q2R (-(9999) # 1) = (-9999)%R.
Proof. unfold Q2R; cbn. lra. Qed.
Lemma xltb_xleb x : xltb (Fin 0) x = true -> xleb x (Fin 0) = false.
Proof.
  destruct x; cbn; auto; try discriminate. unfold Rltb, Rleb. destruct (Rlt_dec 0 r), (Rle_dec r 0); auto; try discriminate. lra.
Qed.
Lemma xmul_1 x : xmul x (Fin 1) = x.
Proof.
  destruct x; cbn; rewrite ?Rmult_1_r; auto; unfold xsign_inf; rewrite (proj2 (Rltb_iff 0 1)) by lra; auto.
Qed.
Lemma Rltb_false x y : (y <= x)%R -> Rltb x y = false.
Proof. intro H. unfold Rltb. destruct (Rlt_dec x y); auto. lra. Qed.

Lemma log10_div a b : (0 < a)%R -> (0 < b)%R -> log10 (a / b) = (log10 a - log10 b)%R.
Proof.
  intros Ha Hb. unfold log10, Rdiv. rewrite ln_mult, ln_Rinv; auto; [lra|]. apply Rinv_0_lt_compat; auto.
Qed.
Lemma log10_mult a b : (0 < a)%R -> (0 < b)%R -> log10 (a * b) = (log10 a + log10 b)%R.
Proof. intros Ha Hb. unfold log10, Rdiv. rewrite ln_mult; auto. lra. Qed.
Lemma dm_xr x : (0 < x)%R -> @dm_of_distance xr _ (Fin x) = Fin (5 * log10 (x / (1 / 100000))).
Proof.
  intro Hx. unfold dm_of_distance, dfactor_of, parsec10, nsq. cbn [nlit Num_xr ndiv nmul nlog10].
  assert (E : Q2R (1 # 100000) = (1 / 100000)%R) by (unfold Q2R; cbn; lra). rewrite E. clear E.
  cbn [xdiv]. rewrite Reqb_false by lra. cbn [xmul xlog].
  set (y := (x / (1 / 100000))%R). assert (Hy : (0 < y)%R) by (apply Rdiv_lt_0_compat; lra).
  assert (Hyy : (0 < y * y)%R) by (apply Rmult_lt_0_compat; auto).
  rewrite Rltb_false, Reqb_false by lra. cbn [xmul]. f_equal. rewrite log10_mult by auto. unfold Q2R; cbn. lra.
Qed.
Lemma xdiff a b d1 d2 k v1 v2 : nsub (nsub a (Fin d1)) k = Fin v1 -> nsub (nsub b (Fin d2)) k = Fin v2 -> a = b -> (v1 - v2 = d2 - d1)%R.
Proof.
  intros H1 H2 ->. destruct b, k; cbn in *; try discriminate. injection H1 as <-. injection H2 as <-. lra.
Qed.

Lemma x_arow0 : arow x_tab (Fin 0) = [Fin 1; Fin 2].
Proof.
  unfold arow. cbn [a_x x_tab search nltb Num_xr xltb]. rewrite Rltb_false by lra.
  cbn [Nat.max Nat.min length Nat.sub nth a_rows x_tab zip]. cbn [nsub ndiv nmul nadd Num_xr xsub xopp xadd xdiv].
  rewrite !Reqb_false by lra. cbn [xmul xadd]. f_equal; [f_equal; field|]. f_equal. f_equal. field.
Qed.
Lemma x_kval0 : nth 0 (kval1 x_kcor x_tab x_tab 2 2 1 (Fin 0) (Fin 0) [Fin 1]) NaN = Fin 0.
Proof.
  assert (S0 : shifted (Fin 0) (Fin 0) = Fin 0). { unfold shifted. cbn. f_equal. lra. }
  assert (R0 : recon1 x_tab 2 1 (Fin 0) (Fin 0) [Fin 1] = [Fin 1; Fin 2]).
  { unfold recon1. rewrite S0, x_arow0. cbn [chunks firstn skipn map]. unfold dotp, nsum. cbn [zip fold_left].
    cbn [nmul nadd ndiv n0 n1 Num_xr xmul xadd xdiv]. rewrite !Reqb_false by lra. f_equal; [f_equal; field|]. f_equal. f_equal. field. }
  unfold kval1, zero_of. cbn [cst Num_xr map nlit nmul xmul].
  assert (E : Q2R (0 # 1) = 0%R) by (unfold Q2R; cbn; lra). change (@n0 xr Num_xr) with (Fin 0). rewrite E, Rmult_0_l, !R0.
  unfold kval, nsum. cbn [fold_left nadd n0 nltb Num_xr xadd xltb]. rewrite (proj2 (Rltb_iff _ _)) by lra.
  cbn [k_imap x_kcor map nth zip]. unfold m25. cbn [ndiv nlog10 nmul nlit Num_xr xdiv]. rewrite !Reqb_false by lra. cbn [xlog].
  rewrite !Rltb_false, !Reqb_false by lra. cbn [xmul]. f_equal. unfold log10. replace (1 / 1)%R with 1%R by field. rewrite ln_1. lra.
Qed.
