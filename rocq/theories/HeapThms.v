(** Properties of the caller's arrays (C55, C68, C69): the proofs.  Prop_Heap.v restates them. *)
From Coq Require Import String List Arith Lia Bool ZArith QArith Qreals Reals Lra.
From Verif Require Import Base BaseLemmas Num Toy Spec Interp Utils UtilsProofs UtilsReal Sed Response RespDict Fitter FitSpec
  FitterProofs FitterMC FitEx Kcorrect KSpec KEx KcorrectProofs DerivedProofs McProofs AbsmagProofs AbProofs Heap HeapSpec
  HeapProofs HeapEx AbThms.
Import ListNotations.
Local Open Scope R_scope.

Lemma fit_h_eq T (N : Num T) nnls rng (F : fitter T) h z xm xiv mc cur h' r :
  process_h F h (Some z) xm xiv None = (h', r) ->
  fit_coeffs_h nnls rng F h (Some z) xm xiv mc cur = (h', do p <- r; fit_after nnls rng F p mc cur).
Proof. intro E. unfold fit_coeffs_h. rewrite E. destruct r; auto. Qed.
Lemma absmag_h_eq T (N : Num T) distmod (K : kcor T) h xm xiv z c bs d r l k h' p :
  process_h (k_fit K) h z xm xiv c = (h', p) ->
  absmag_h distmod K h xm xiv z c bs d r l k = (h', do p <- p; absmag_after distmod K p bs d r l k).
Proof. intro E. unfold absmag_h. rewrite E. destruct p; auto. Qed.

Lemma xr_cst (x : xr) : cst x = x.
Proof. reflexivity. Qed.
Lemma xr_holds h v : holds32 (T := xr) h v.
Proof. apply Forall_forall. intros; reflexivity. Qed.
Lemma factor_pos b : 0 < gst_factor b.
Proof. unfold gst_factor. destruct (_ && _)%bool; [|lra]. unfold pow10, Rpower. apply exp_pos. Qed.

Lemma gst_real' s (m iv : list R) : s <> [] -> (7 <= lastd s)%nat -> length m = size s -> length iv = size s ->
  to_ab GST (rarr s m) (Some (rarr s iv)) = Ok (gst_maggies 1 s m, Some (gst_ivar 1 s iv)).
Proof.
  intros Hs Hw Hm Hi. pose proof (gst_real s m iv Hs Hw Hm Hi) as E. cbv zeta in E. cbn [to_ab]. rewrite E.
  unfold gst_maggies, gst_ivar. change (last s 0%nat) with (lastd s). f_equal. f_equal; [|f_equal]; f_equal; apply map_ext; intro j.
  - rewrite pow_1. unfold gst_factor, abfix. auto.
  - rewrite pow_1. unfold gst_factor, abfix. auto.
Qed.
Definition corr_m n s (m : list R) := map (fun j => nth j m 0 * gst_factor (j mod last s 0%nat) ^ n) (seq 0 (size s)).
Definition corr_iv n s (m : list R) := map (fun j => nth j m 0 / (gst_factor (j mod last s 0%nat) ^ 2) ^ n) (seq 0 (size s)).
Lemma corr_m_len n s m : length (corr_m n s m) = size s.
Proof. unfold corr_m. rewrite map_length, seq_length. auto. Qed.
Lemma corr_iv_len n s m : length (corr_iv n s m) = size s.
Proof. unfold corr_iv. rewrite map_length, seq_length. auto. Qed.
Lemma corr_m_S n s m : corr_m 1 s (corr_m n s m) = corr_m (S n) s m.
Proof.
  unfold corr_m at 1 3. apply map_ext_in. intros j Hj. apply in_seq in Hj. unfold corr_m. rewrite nth_map_seq by lia. cbn [pow]. ring.
Qed.
Lemma corr_iv_S n s m : corr_iv 1 s (corr_iv n s m) = corr_iv (S n) s m.
Proof.
  unfold corr_iv at 1 3. apply map_ext_in. intros j Hj. apply in_seq in Hj. unfold corr_iv. rewrite nth_map_seq by lia.
  pose proof (factor_pos (j mod last s 0%nat)). set (f := gst_factor _) in *. rewrite pow_1. cbn [pow].
  assert (0 < (f * (f * 1)) ^ n).
  { apply pow_lt. nra. }
  field. split; lra.
Qed.
Lemma corr_m_0 s m : length m = size s -> corr_m 0 s m = m.
Proof. intro H. unfold corr_m. apply nth_ext with (d := 0) (d' := 0); rewrite map_length, seq_length; auto.
  intros j Hj. rewrite nth_map_seq by auto. cbn [pow]. ring. Qed.
Lemma corr_iv_0 s m : length m = size s -> corr_iv 0 s m = m.
Proof. intro H. unfold corr_iv. apply nth_ext with (d := 0) (d' := 0); rewrite map_length, seq_length; auto.
  intros j Hj. rewrite nth_map_seq by auto. cbn [pow]. field. Qed.

(** One accepted call on float32 arrays. *)
Lemma process_real (F : fitter xr) h vm vi z c s m iv :
  f_abc F = true -> f_kind F = GST -> (7 <= length (f_resp F))%nat -> last s 0%nat = length (f_resp F) ->
  view_ok vm -> view_ok vi -> v_f32 vm = true -> v_f32 vi = true -> (forall c, In c (v_cells vm) -> In c (v_cells vi) -> False) ->
  read h vm = rarr s m -> read h vi = rarr s iv ->
  documented (length (f_resp F)) (f_nsed F) z (Some (rarr s m)) (Some (rarr s iv)) c ->
  exists h', process_h F h (Some z) (Some (Ref vm)) (Some (Ref vi)) c =
    (h', process_inputs F (Some z) (Some (rarr s m)) (Some (rarr s iv)) c) /\
    read h' vm = gst_maggies 1 s m /\ read h' vi = gst_ivar 1 s iv /\
    (forall k, ~ In k (v_cells vm) -> ~ In k (v_cells vi) -> h' k = h k).
Proof.
  intros Ha Hk H7 Hl Hvm Hvi Fm Fi Hap Rm Ri D.
  pose proof (process_h_spec F h z (Ref vm) (Ref vi) c) as P.
  destruct (process_h F h (Some z) (Some (Ref vm)) (Some (Ref vi)) c) as [h' r]. cbn [value] in P.
  destruct P as (Er & Hb & _ & Hc); try (split; auto; intros; apply xr_holds); [exact Hap|].
  rewrite Rm, Ri in Er. exists h'. split; [congruence|].
  destruct Hc as (m' & iv' & Et & Em & Ei).
  { repeat split; auto. cbn [value]. rewrite Rm, Ri. auto. }
  cbn [value] in *. rewrite Rm, Ri in Et.
  assert (Ls : lastd s = length (f_resp F)) by exact Hl.
  assert (Ne : s <> []). { intro; subst s; cbn in Ls; lia. }
  assert (Lm : length m = size s /\ length iv = size s).
  { destruct Hvm as [A _], Hvi as [B _]. unfold read, rarr in Rm, Ri. injection Rm as R1 R2. injection Ri as R3 R4.
    split; [rewrite <- R1, <- A|rewrite <- R3, <- B]; rewrite <- (map_length Fin), <- ?R2, <- ?R4, map_length; auto. }
  assert (Id : forall l, map1 cst (rarr s l) = rarr s l) by (intro l; apply map1_id; reflexivity).
  rewrite !Id, gst_real' in Et by (try lia; tauto). injection Et as <- <-.
  split; [exact (Em Fm)|]. split; [exact (Ei Fi)|].
  intros k K1 K2. apply Hb. intros x [<-|[<-|[]]] _; cbn [cells]; auto.
Qed.

Lemma doc_call (nb nt : nat) (s : list nat) (z m iv : nd xr) c :
  (s = [nb] \/ exists n, s = [n; nb]) -> shp z = removelast s -> shp m = s -> shp iv = s ->
  (forall a, c = Some a -> shp a = removelast s ++ [nt]) -> documented nb nt z (Some m) (Some iv) c.
Proof.
  intros [->|(n & ->)] Hz Hm Hi Hc; cbn in *; [left|right; exists n]; repeat split; auto; intros a E; injection E as <-; auto.
Qed.
Lemma shape_last (nb : nat) s : (s = [nb] \/ exists n, s = [n; nb]) -> last s 0%nat = nb.
Proof. intros [->|(n & ->)]; reflexivity. Qed.

Lemma history nnls rng distmod (K : kcor xr) h vm vi s m iv ks :
  let F := k_fit K in let nb := length (f_resp F) in
  f_abc F = true -> f_kind F = GST -> (7 <= nb)%nat -> (s = [nb] \/ exists n, s = [n; nb]) ->
  view_ok vm -> view_ok vi -> v_f32 vm = true -> v_f32 vi = true -> (forall c, In c (v_cells vm) -> In c (v_cells vi) -> False) ->
  read h vm = rarr s m -> read h vi = rarr s iv -> length m = size s -> length iv = size s ->
  Forall (call_ok (f_nsed F) s) ks ->
  let h' := calls_h nnls rng distmod K (Some (Ref vm)) (Some (Ref vi)) ks h in
  read h' vm = gst_maggies (length ks) s m /\ read h' vi = gst_ivar (length ks) s iv /\
  (forall c, ~ In c (v_cells vm) -> ~ In c (v_cells vi) -> h' c = h c).
Proof.
  intros F nb Ha Hk H7 Hs Hvm Hvi Fm Fi Hap. revert h. induction ks as [|k ks IH] using rev_ind; intros h Rm Ri Lm Li Hok; cbv zeta.
  - cbn [calls_h fold_left length]. fold (corr_m 0 s m). unfold gst_maggies, gst_ivar.
    fold (corr_m 0 s m) (corr_iv 0 s iv). rewrite corr_m_0, corr_iv_0 by auto. auto.
  - apply Forall_app in Hok as [Hok Hk1]. inversion Hk1 as [|? ? Hk0 _]; subst.
    specialize (IH h Rm Ri Lm Li Hok). cbv zeta in IH. unfold calls_h in *. rewrite fold_left_app. cbn [fold_left].
    set (h1 := fold_left _ ks h) in *. clearbody h1. destruct IH as (Rm1 & Ri1 & Ho).
    rewrite app_length. cbn [length]. rewrite Nat.add_1_r.
    assert (P : forall z c, shp z = removelast s -> (forall a, c = Some a -> shp a = removelast s ++ [f_nsed F]) ->
      exists h', process_h F h1 (Some z) (Some (Ref vm)) (Some (Ref vi)) c = (h', process_inputs F (Some z) (Some (gst_maggies (length ks) s m)) (Some (gst_ivar (length ks) s iv)) c) /\
        read h' vm = gst_maggies (S (length ks)) s m /\ read h' vi = gst_ivar (S (length ks)) s iv /\
        (forall c, ~ In c (v_cells vm) -> ~ In c (v_cells vi) -> h' c = h1 c)).
    { intros z c Hz Hc. unfold gst_maggies, gst_ivar in *.
      fold (corr_m (length ks) s m) (corr_iv (length ks) s iv) (corr_m (S (length ks)) s m) (corr_iv (S (length ks)) s iv) in *.
      destruct (process_real F h1 vm vi z c s (corr_m (length ks) s m) (corr_iv (length ks) s iv)) as (h' & E & E1 & E2 & E3); auto.
      - apply shape_last; auto.
      - apply doc_call with (s := s); auto.
      - exists h'. split; auto. split; [|split; auto].
        + rewrite E1. unfold gst_maggies. fold (corr_m 1 s (corr_m (length ks) s m)). rewrite corr_m_S. auto.
        + rewrite E2. unfold gst_ivar. fold (corr_iv 1 s (corr_iv (length ks) s iv)). rewrite corr_iv_S. auto. }
    destruct k as [z mc cur|z c bs d r l kc]; cbn [call_h call_ok] in *.
    + destruct (P z None Hk0) as (h' & E & E1 & E2 & E3); [discriminate|]. fold F. rewrite (fit_h_eq _ _ _ _ _ _ _ _ _ _ _ _ _ E). cbn [fst].
      repeat split; auto. intros c C1 C2. rewrite E3, Ho; auto.
    + destruct Hk0 as [Hz Hc]. destruct (P z (Some c) Hz) as (h' & E & E1 & E2 & E3); [congruence|].
      rewrite (absmag_h_eq _ _ _ _ _ _ _ _ _ _ _ _ _ _ _ _ E). cbn [fst].
      repeat split; auto. intros x C1 C2. rewrite E3, Ho; auto.
Qed.

(** absmag uses inverse variances only through their sign, unless limits are requested. *)
Section Sign.
  Context {T : Type} {N : Num T}.
  Definition sg (x : T) : bool * bool := (nltb n0 x, nleb x n0).
  Definition absmag_sg (m : T) (s : bool * bool) (dm k : T) : T :=
    let gd := (nltb n0 m && fst s)%bool in
    let bd := (nleb m n0 || snd s)%bool in
    let v := if gd then cst (cst (m25 * nlog10 m) - dm - k)%num else n0 in
    if bd then sentinel else v.
  Lemma absmag1_sg m iv dm k : absmag1 m iv dm k = absmag_sg m (sg iv) dm k.
  Proof. reflexivity. Qed.

  Lemma take_last_map {A B} (f : A -> B) idx d (a : nd A) :
    take_last idx (f d) (map1 f a) = rmap (map1 f) (take_last idx d a).
  Proof.
    unfold take_last. change (shp (map1 f a)) with (shp a). destruct (shp a) as [|n s] eqn:E; auto. rewrite <- E.
    destruct (forallb _ _); auto. cbn [rmap]. unfold map1 at 2. cbn [shp dat]. f_equal. f_equal.
    rewrite lrows_map1, concat_map_map, !map_map. f_equal. apply map_ext. intro r. rewrite map_map. apply map_ext. intro k.
    apply map_nth.
  Qed.

  Lemma zip_sg l : forall (um u1 u2 : list T), map sg u1 = map sg u2 ->
    zip (fun (x : T * T) (y : T * T) => absmag1 (fst x) (snd x) (fst y) (snd y)) (combine um u1) l =
    zip (fun (x : T * T) (y : T * T) => absmag1 (fst x) (snd x) (fst y) (snd y)) (combine um u2) l.
  Proof.
    induction l as [|y l IH]; intros [|x um] [|a u1] [|b u2] H; cbn [combine zip map] in *; auto; try discriminate.
    injection H as H1 H2 H3. f_equal; auto. cbn [fst snd]. rewrite !absmag1_sg. unfold sg. rewrite H1, H2. auto.
  Qed.

  Lemma absmag_after_sg distmod (K : kcor T) p1 p2 iv1 iv2 bs d r k :
    q_array p1 = q_array p2 -> q_z p1 = q_z p2 -> q_m p1 = q_m p2 -> q_c p1 = q_c p2 ->
    q_iv p1 = Some iv1 -> q_iv p2 = Some iv2 -> map1 sg iv1 = map1 sg iv2 ->
    absmag_after distmod K p1 bs d r false k = absmag_after distmod K p2 bs d r false k.
  Proof.
    intros Ea Ez Em Ec Ei1 Ei2 Hs. unfold absmag_after. rewrite Ea, Ez, Em, Ec, Ei1, Ei2.
    destruct (match d with Some _ => _ | None => _ end) as [[array dm]|]; auto. cbn [bind].
    destruct (kcorrect K _ _ _) as [kk|]; auto. cbn [bind]. destruct (q_m p2) as [m|]; auto.
    destruct (take_last (k_imap K) n0 m) as [um|]; auto. cbn [bind].
    pose proof (take_last_map sg (k_imap K) n0 iv1) as H1. pose proof (take_last_map sg (k_imap K) n0 iv2) as H2.
    rewrite Hs, H2 in H1. destruct (take_last (k_imap K) n0 iv1) as [u1|], (take_last (k_imap K) n0 iv2) as [u2|]; cbn [rmap] in H1;
      try discriminate; [|congruence].
    injection H1 as H1s H1d. cbn [bind]. destruct (shape_eqb _ _); auto. destruct (Nat.eqb _ _); auto.
    rewrite (zip_sg _ (dat um) (dat u1) (dat u2)) by congruence. reflexivity.
  Qed.
End Sign.

Lemma get_last_seq {A} (d : A) i w (s : list nat) (a : nd A) : shp a = s ++ [w] -> wf a -> (i < w)%nat ->
  get_last i d a = Ok (mk s (map (fun j => nth (j * w + i) (dat a) d) (seq 0 (size s)))).
Proof.
  intros Hs Hw Hi. destruct (@get_last_ok A i d a Hw) as (b & E & Sb & Wb & Nb); [rewrite Hs, lastd_snoc; auto|].
  rewrite E. f_equal. rewrite Hs, lead_snoc, ?lastd_snoc in *. destruct b as [sb db]. unfold wf in *. cbn [shp dat] in *. subst sb.
  f_equal. rewrite Hs, size_app in Hw. cbn [size fold_right] in Hw.
  apply nth_error_ext. intro j. rewrite nth_error_map, nth_error_seq. cbn [Nat.add].
  destruct (Nat.ltb_spec j (size s)); cbn [option_map].
  - rewrite Nb by auto. apply nth_error_nth_lt. nia.
  - apply nth_error_None. lia.
Qed.

Lemma nth_map_seq_gen {A} (f : nat -> A) n d i : (i < n)%nat -> nth i (map f (seq 0 n)) d = f i.
Proof.
  intro H. apply nth_error_nth. rewrite nth_error_map, nth_error_seq. apply Nat.ltb_lt in H. rewrite H. reflexivity.
Qed.

Section MC.
  Variables (distmod : xr -> xr) (K : kcor xr) (vmm vi : view) (s : list nat) (mc nt : nat) (m iv : list R) (z cm : nd xr) (bs : xr)
            (d : option (nd xr)) (rec kc : bool) (h0 : heap xr).
  Let F := k_fit K.
  Let nb := length (f_resp F).
  Hypothesis Ha : f_abc F = true.
  Hypothesis Hk : f_kind F = GST.
  Hypothesis H7 : (7 <= nb)%nat.
  Hypothesis Hs : s = [nb] \/ exists n, s = [n; nb].
  Hypothesis Hvm : view_ok vmm.
  Hypothesis Hvi : view_ok vi.
  Hypothesis Fm : v_f32 vmm = true.
  Hypothesis Fi : v_f32 vi = true.
  Hypothesis Hap : forall c, In c (v_cells vmm) -> In c (v_cells vi) -> False.
  Hypothesis Sm : v_shape vmm = s ++ [mc].
  Hypothesis Si : v_shape vi = s.
  Hypothesis Lm : length m = (size s * mc)%nat.
  Hypothesis Li : length iv = size s.
  Hypothesis Hz : shp z = removelast s.
  Hypothesis Hc : shp cm = removelast s ++ [nt; mc].
  Hypothesis Hnt : f_nsed F = nt.

  Definition inv (i : nat) (h : heap xr) : Prop :=
    read h vi = gst_ivar i s iv /\
    (forall j, (j < size s * mc)%nat -> h (nth j (v_cells vmm) 0%nat) =
       Fin (if Nat.ltb (j mod mc) i then nth j m 0 * gst_factor ((j / mc) mod last s 0%nat) else nth j m 0)) /\
    (forall c, ~ In c (v_cells vmm) -> ~ In c (v_cells vi) -> h c = h0 c).

  Definition vslice (i : nat) : view :=
    {| v_shape := s; v_cells := map (fun j => nth (j * mc + i) (v_cells vmm) 0%nat) (seq 0 (size s)); v_f32 := true |}.

  Lemma slice_eq i : (i < mc)%nat -> slice i (Ref vmm) = Ok (Ref (T := xr) (vslice i)).
  Proof.
    intro Hi. unfold slice. rewrite (get_last_seq 0%nat i mc s); auto.
    - cbn [bind shp dat]. rewrite Fm. reflexivity.
    - unfold wf. cbn [shp dat]. destruct Hvm as [E _]. rewrite E. auto.
  Qed.

  Lemma len_cells : length (v_cells vmm) = (size s * mc)%nat.
  Proof. destruct Hvm as [E _]. rewrite E, Sm, size_app. cbn. lia. Qed.

  Lemma vslice_in i c : In c (v_cells (vslice i)) -> (i < mc)%nat ->
    exists j, (j < size s)%nat /\ c = nth (j * mc + i) (v_cells vmm) 0%nat.
  Proof. cbn [vslice v_cells]. intros H Hi. apply in_map_iff in H as (j & <- & H). apply in_seq in H. exists j. split; auto. lia. Qed.

  Lemma idx_lt i j : (i < mc)%nat -> (j < size s)%nat -> (j * mc + i < size s * mc)%nat.
  Proof. nia. Qed.

  Lemma vslice_ok i : (i < mc)%nat -> view_ok (vslice i).
  Proof.
    intro Hi. split; cbn [vslice v_cells v_shape]; [rewrite map_length, seq_length; auto|].
    apply NoDup_nth with (d := 0%nat). rewrite map_length, seq_length. intros a b Ha' Hb E.
    rewrite !nth_map_seq_gen in E by auto. destruct Hvm as [_ Hd].
    apply (proj1 (NoDup_nth (v_cells vmm) 0%nat) Hd) in E; rewrite ?len_cells; try (apply idx_lt; auto). nia.
  Qed.

  Lemma mod_div_idx i j : (i < mc)%nat -> ((j * mc + i) mod mc = i /\ (j * mc + i) / mc = j)%nat.
  Proof.
    intro Hi. split.
    - rewrite Nat.add_comm, Nat.mod_add by lia. apply Nat.mod_small; auto.
    - rewrite Nat.add_comm, Nat.div_add by lia. rewrite Nat.div_small; auto.
  Qed.

  Definition mslice (i : nat) : list R := map (fun j => nth (j * mc + i) m 0) (seq 0 (size s)).

  Lemma sg_div x p q : 0 < p -> 0 < q -> sg (Fin (x / p)) = sg (Fin (x / q)).
  Proof.
    intros Hp Hq. assert (E : forall p, 0 < p -> sg (Fin (x / p)) = sg (Fin x)).
    { intros t Ht. assert (Hi : 0 < / t) by (apply Rinv_0_lt_compat; auto).
      unfold sg. cbn [nltb nleb n0 Num_xr xltb xleb]. unfold Rltb, Rleb, Rdiv. f_equal.
      - destruct (Rlt_dec 0 (x * / t)), (Rlt_dec 0 x); auto; exfalso; nra.
      - destruct (Rle_dec (x * / t) 0), (Rle_dec x 0); auto; exfalso; nra. }
    rewrite !E; auto.
  Qed.

  Lemma nb_last : last s 0%nat = nb.
  Proof. apply shape_last. auto. Qed.
  Lemma s_ne : s <> [].
  Proof. destruct Hs as [->|(n & ->)]; discriminate. Qed.

  Lemma absmag_iv (mm iv1 iv2 : list R) c : length mm = size s -> length iv1 = size s -> length iv2 = size s ->
    shp c = removelast s ++ [nt] ->
    (forall j, (j < size s)%nat -> exists p q, 0 < p /\ 0 < q /\ nth j iv1 0 = nth j iv 0 / p /\ nth j iv2 0 = nth j iv 0 / q) ->
    absmag distmod K (Some (rarr s mm)) (Some (rarr s iv1)) (Some z) (Some c) bs d rec false kc =
    absmag distmod K (Some (rarr s mm)) (Some (rarr s iv2)) (Some z) (Some c) bs d rec false kc.
  Proof.
    intros Hm H1 H2 Sc Hpq.
    assert (D : forall m1 i1, documented (length (f_resp (k_fit K))) (f_nsed (k_fit K)) z (Some (rarr s m1)) (Some (rarr s i1)) (Some c)).
    { intros. apply doc_call with (s := s); auto. intros a E. injection E as <-. fold F. rewrite Hnt. auto. }
    assert (L7 : (7 <= lastd s)%nat) by (unfold lastd; rewrite nb_last; auto).
    rewrite !L_C61_absmag by auto. fold F. rewrite Hk, !gst_real' by (auto; apply s_ne).
    unfold absmag. cbn [k_fit kwithout_ab]. rewrite !process_inputs_ok; try (left; reflexivity); try apply D.
    cbn [bind]. eapply absmag_after_sg; try reflexivity. cbn [plain_pin q_iv option_map].
    rewrite !map1_id by reflexivity. unfold gst_ivar, map1, rarr. cbn [shp dat]. f_equal. rewrite !map_map.
    apply map_ext_in. intros j Hj. apply in_seq in Hj. destruct (Hpq j ltac:(lia)) as (p & q & Hp & Hq & -> & ->).
    pose proof (factor_pos (j mod last s 0%nat)) as Hf. set (f := gst_factor _) in *. rewrite pow_1.
    assert (Hff : 0 < f ^ 2) by (apply pow_lt; auto).
    replace (nth j iv 0 / p / f ^ 2) with (nth j iv 0 / (p * f ^ 2)) by (field; split; lra).
    replace (nth j iv 0 / q / f ^ 2) with (nth j iv 0 / (q * f ^ 2)) by (field; split; lra).
    apply sg_div; nra.
  Qed.

  Lemma mslice_len i : length (mslice i) = size s.
  Proof. unfold mslice. rewrite map_length, seq_length. auto. Qed.

  Lemma step i h : (i < mc)%nat -> inv i h -> forall c, get_last i n0 cm = Ok c ->
    exists h', absmag_h distmod K h (Some (Ref (vslice i))) (Some (Ref vi)) (Some z) (Some c) bs d rec false kc =
      (h', absmag distmod K (Some (rarr s (mslice i))) (Some (rarr s iv)) (Some z) (Some c) bs d rec false kc) /\ inv (S i) h'.
  Proof.
    intros Hi (I1 & I2 & I3) c Ec.
    assert (Sc : shp c = removelast s ++ [nt]).
    { apply (get_last_shp i cm c (removelast s ++ [nt]) mc); auto. rewrite Hc, <- app_assoc. auto. }
    assert (Rs : read h (vslice i) = rarr s (mslice i)).
    { unfold read, rarr, mslice. cbn [vslice v_shape v_cells]. f_equal. rewrite !map_map. apply map_ext_in. intros j Hj. apply in_seq in Hj.
      rewrite I2 by (apply idx_lt; lia). destruct (mod_div_idx i j Hi) as [-> _]. rewrite Nat.ltb_irrefl. auto. }
    destruct (process_real F h (vslice i) vi z (Some c) s (mslice i) (corr_iv i s iv)) as (h' & E & E1 & E2 & E3); auto.
    - apply nb_last.
    - apply vslice_ok; auto.
    - intros x Hx Hx'. destruct (vslice_in i x Hx Hi) as (j & Hj & ->). apply (Hap _) in Hx'; auto. apply nth_In.
      rewrite len_cells. apply idx_lt; auto.
    - apply doc_call with (s := s); auto. intros a E. injection E as <-. rewrite Hnt. auto.
    - exists h'. split.
      + rewrite (absmag_h_eq _ _ _ _ _ _ _ _ _ _ _ _ _ _ _ _ E). f_equal.
        change (absmag distmod K (Some (rarr s (mslice i))) (Some (rarr s (corr_iv i s iv))) (Some z) (Some c) bs d rec false kc =
                absmag distmod K (Some (rarr s (mslice i))) (Some (rarr s iv)) (Some z) (Some c) bs d rec false kc).
        apply absmag_iv; auto using mslice_len, corr_iv_len. intros j Hj. unfold corr_iv. rewrite nth_map_seq by auto.
        exists ((gst_factor (j mod last s 0%nat) ^ 2) ^ i), 1. pose proof (factor_pos (j mod last s 0%nat)) as Hf.
        split; [apply pow_lt, pow_lt; auto|]. split; [lra|]. split; [auto|field].
      + split; [|split].
        * rewrite E2. unfold gst_ivar. fold (corr_iv 1 s (corr_iv i s iv)) (corr_iv (S i) s iv). rewrite corr_iv_S. auto.
        * intros j Hj. assert (Hmc : (0 < mc)%nat) by lia.
          pose proof (Nat.div_mod j mc ltac:(lia)) as Hdm. pose proof (Nat.mod_upper_bound j mc ltac:(lia)) as Hmod.
          assert (Hq : (j / mc < size s)%nat) by (apply Nat.div_lt_upper_bound; lia).
          destruct (Nat.eq_dec (j mod mc) i) as [Ej|Ej].
          -- rewrite Ej. replace (Nat.ltb i (S i)) with true by (symmetry; apply Nat.ltb_lt; lia).
             assert (Ex : nth_error (dat (read h' (vslice i))) (j / mc) = Some (h' (nth j (v_cells vmm) 0%nat))).
             { unfold read. cbn [dat vslice v_cells]. rewrite !nth_error_map, nth_error_seq. cbn [Nat.add].
               apply Nat.ltb_lt in Hq. rewrite Hq. cbn [option_map]. do 3 f_equal. lia. }
             rewrite E1 in Ex. unfold gst_maggies, rarr in Ex. cbn [dat] in Ex. rewrite !nth_error_map, nth_error_seq in Ex.
             cbn [Nat.add] in Ex. apply Nat.ltb_lt in Hq as Hq'. rewrite Hq' in Ex. cbn [option_map] in Ex. injection Ex as <-. f_equal.
             rewrite Rmult_1_r. f_equal. unfold mslice. rewrite nth_map_seq by auto. f_equal. lia.
          -- rewrite E3.
             ++ rewrite I2 by auto. replace (Nat.ltb (j mod mc) (S i)) with (Nat.ltb (j mod mc) i); auto.
                destruct (Nat.ltb_spec (j mod mc) i), (Nat.ltb_spec (j mod mc) (S i)); auto; lia.
             ++ intro Hx. destruct (vslice_in i _ Hx Hi) as (j' & Hj' & Ex). destruct Hvm as [_ Hd].
                apply (proj1 (NoDup_nth (v_cells vmm) 0%nat) Hd) in Ex; rewrite ?len_cells; auto; [|apply idx_lt; auto].
                apply Ej. rewrite Ex. apply mod_div_idx; auto.
             ++ intro Hx. apply (Hap (nth j (v_cells vmm) 0%nat)); auto. apply nth_In. rewrite len_cells. auto.
        * intros x X1 X2. rewrite E3; auto. intro Hx. apply X1. destruct (vslice_in i _ Hx Hi) as (j' & Hj' & ->).
          apply nth_In. rewrite len_cells. apply idx_lt; auto.
  Qed.

  Lemma get_m i : (i < mc)%nat -> get_last i n0 (rarr (s ++ [mc]) m) = Ok (rarr s (mslice i)).
  Proof.
    intro Hi. rewrite (get_last_seq n0 i mc s); auto.
    - f_equal. unfold rarr, mslice. cbn [dat]. f_equal. rewrite map_map. apply map_ext. intro j.
      change (n0 : xr) with (Fin 0). apply map_nth.
    - unfold wf, rarr. cbn [shp dat]. rewrite map_length, size_app. cbn. lia.
  Qed.

  Lemma draws : forall n i h outs, (i + n <= mc)%nat -> inv i h ->
    exists h', absmag_draws_h distmod K h (Ref vmm) (Some (Ref vi)) (Some z) cm bs d rec kc outs (seq i n) =
      (h', foldM (absmag_mc_step distmod K (rarr (s ++ [mc]) m) (Some (rarr s iv)) (Some z) cm bs d rec kc) (seq i n) outs) /\
      (exists j, (i <= j <= i + n)%nat /\ inv j h') /\
      (forall o, foldM (absmag_mc_step distmod K (rarr (s ++ [mc]) m) (Some (rarr s iv)) (Some z) cm bs d rec kc) (seq i n) outs = Ok o ->
         inv (i + n) h').
  Proof.
    induction n as [|n IH]; intros i h outs Hi I.
    - exists h. cbn [seq absmag_draws_h foldM]. split; auto. rewrite Nat.add_0_r. split; [exists i; split; auto; lia|auto].
    - cbn [seq absmag_draws_h foldM]. rewrite slice_eq by lia. unfold absmag_mc_step at 1 3. rewrite get_m by lia. cbn [bind].
      destruct (get_last i n0 cm) as [c|e] eqn:Ec; cbn [bind].
      2:{ exists h. split; auto. split; [exists i; split; auto; lia|discriminate]. }
      destruct (step i h ltac:(lia) I c Ec) as (h1 & E & I1). rewrite E.
      destruct (absmag _ _ _ _ _ _ _ _ _ _ _) as [o|e]; cbn [bind].
      2:{ exists h1. split; auto. split; [exists (S i); split; auto; lia|discriminate]. }
      destruct (mapM _ _) as [outs'|e]; cbn [bind].
      2:{ exists h1. split; auto. split; [exists (S i); split; auto; lia|discriminate]. }
      destruct (IH (S i) h1 outs' ltac:(lia) I1) as (h' & E' & (j & Hj & Ij) & Ho). exists h'. split; auto. split.
      + exists j. split; auto. lia.
      + replace (i + S n)%nat with (S i + n)%nat by lia. auto.
  Qed.
End MC.

Lemma seq_view a n s b : size s = n -> view_ok {| v_shape := s; v_cells := seq a n; v_f32 := b |}.
Proof. intro H. split; cbn [v_cells v_shape]; [rewrite seq_length; auto|apply seq_NoDup]. Qed.
Lemma x_apart : forall c, In c (v_cells x_vm) -> In c (v_cells x_vi) -> False.
Proof. intros c A B. apply in_seq in A, B. lia. Qed.
Lemma x_read a s : read x_mem {| v_shape := s; v_cells := seq a (size s); v_f32 := true |} =
  rarr s (map (fun c => INR c + 1) (seq a (size s))).
Proof. unfold read, rarr. cbn [v_shape v_cells]. f_equal. rewrite map_map. reflexivity. Qed.
Lemma x_corrects : corrects (k_fit x_kcor7) x_mem (scal (Fin (1/2))) (Ref x_vm) (Ref x_vi) None.
Proof. split; [reflexivity|]. split; [reflexivity|]. split; [cbn; lia|]. left. repeat split; intros a E; try discriminate; injection E as <-; reflexivity. Qed.

Lemma slice_f32 T (N : Num T) i (x y : arg T) : slice i x = Ok y -> ~ is_f32 x -> ~ is_f32 y.
Proof.
  destruct x as [a|v]; cbn [slice]; intros E H; apply bind_ok in E as (b & _ & E); injection E as <-; auto.
Qed.
Lemma slice_value T (N : Num T) h i (x : arg T) : (forall v, x = Ref v -> length (v_cells v) = size (v_shape v)) ->
  match slice i x with Ok y => get_last i n0 (value h x) = Ok (value h y) | Raise e => get_last i n0 (value h x) = Raise e end.
Proof.
  intro Hv. destruct x as [a|v]; cbn [slice value].
  - destruct (get_last i n0 a); cbn [bind]; auto.
  - specialize (Hv v eq_refl). unfold read, get_last. cbn [shp dat]. destruct (v_shape v) as [|n0' s0] eqn:Es; [reflexivity|]. rewrite <- Es in Hv |- *.
    destruct (Nat.ltb_spec i (lastd (v_shape v))) as [Hi|Hi]; [|reflexivity]. cbn [bind value]. unfold read. cbn [v_shape v_cells].
    f_equal. unfold lrows. cbn [shp dat]. f_equal. rewrite <- map_chunks, !map_map. apply map_ext_in. intros r Hr.
    assert (Lr : length r = lastd (v_shape v)).
    { eapply chunks_rows; [|exact Hr]. rewrite Hv. apply size_lead. congruence. }
    apply nth_error_nth. rewrite nth_error_map. rewrite (nth_error_nth' r 0%nat) by lia. reflexivity.
Qed.

Lemma draws_harmless T (N : Num T) distmod (K : kcor T) h xm xiv z cm bs d r k :
  harmless (k_fit K) (Some xm) xiv -> (forall v, xm = Ref v -> length (v_cells v) = size (v_shape v)) ->
  forall l outs, absmag_draws_h distmod K h xm xiv z cm bs d r k outs l =
    (h, foldM (absmag_mc_step distmod K (value h xm) (option_map (value h) xiv) z cm bs d r k) l outs).
Proof.
  intros Hh Hv l. induction l as [|i l IH]; intro outs; cbn [absmag_draws_h foldM]; auto.
  unfold absmag_mc_step at 1. pose proof (slice_value T N h i xm Hv) as Hs.
  destruct (slice i xm) as [y|e] eqn:Ey; rewrite Hs; cbn [bind]; auto.
  destruct (get_last i n0 cm) as [c|]; cbn [bind]; auto.
  assert (Hh' : harmless (k_fit K) (Some y) xiv).
  { destruct Hh as [H|[H|[H|[H|H]]]]; [left; auto|right; left; auto| |discriminate|do 4 right; auto].
    right. right. left. intros x [E|E].
    - injection E as <-. eapply slice_f32; eauto.
    - apply H; auto. }
  unfold absmag_h. rewrite process_h_harmless by auto. cbn [option_map]. fold (absmag distmod K (Some (value h y)) (option_map (value h) xiv) z (Some c) bs d r false k).
  unfold absmag at 1. destruct (process_inputs _ _ _ _ _) as [p|]; cbn [bind]; auto.
  destruct (absmag_after _ _ _ _ _ _ _ _) as [o|]; cbn [bind]; auto.
  destruct (mapM _ _) as [outs'|]; cbn [bind]; auto.
Qed.

(* STATEMENTS *)

(** C55.  What a call of fit_coeffs does to the arrays passed to it.  The result is that of the value model.  If the object
    is a KcorrectGST with abcorrect=True and the arguments are accepted, the float32 arrays contain the corrected photometry
    afterwards, whether the fit succeeds or not; in all other cases, and for all other cells, memory is unchanged. *)
Lemma L_C55_fit_in_place :
  forall (T : Type) (N : Num T) nnls rng (F : fitter T) (h : heap T) z xm xiv mc cur,
    arg_ok h xm -> arg_ok h xiv -> apart xm xiv ->
    let (h', r) := fit_coeffs_h nnls rng F h (Some z) (Some xm) (Some xiv) mc cur in
    r = fit_coeffs nnls rng F (Some z) (Some (value h xm)) (Some (value h xiv)) mc cur /\
    same_but [xm; xiv] h h' /\
    (~ corrects F h z xm xiv None -> same_mem h h') /\
    (corrects F h z xm xiv None -> exists m' iv',
       to_ab GST (map1 cst (value h xm)) (Some (map1 cst (value h xiv))) = Ok (m', Some iv') /\
       (is_f32 xm -> value h' xm = m') /\ (is_f32 xiv -> value h' xiv = iv')).
Proof.
  intros T N nnls rng F h z xm xiv mc cur Hm Hi Hap. pose proof (process_h_spec F h z xm xiv None Hm Hi Hap) as P.
  destruct (process_h F h (Some z) (Some xm) (Some xiv) None) as [h' r] eqn:E. rewrite (fit_h_eq _ _ _ _ _ _ _ _ _ _ _ _ _ E).
  destruct P as (-> & Hb & Hs & Hc). split; [reflexivity|]. split; [auto|]. split; [tauto|auto].
Qed.
Lemma E_C55_fit_in_place : arg_ok x_mem (Ref x_vm) /\ arg_ok x_mem (Ref x_vi) /\ apart (T := xr) (Ref x_vm) (Ref x_vi) /\
  corrects (k_fit x_kcor7) x_mem (scal (Fin (1/2))) (Ref x_vm) (Ref x_vi) None /\ is_f32 (T := xr) (Ref x_vm).
Proof.
  split; [split; [apply seq_view; reflexivity|intros; apply xr_holds]|].
  split; [split; [apply seq_view; reflexivity|intros; apply xr_holds]|].
  split; [exact x_apart|]. split; [exact x_corrects|reflexivity].
Qed.

(** The same for absmag. *)
Lemma L_C55_absmag_in_place :
  forall (T : Type) (N : Num T) distmod (K : kcor T) (h : heap T) z xm xiv c bs d r l k,
    arg_ok h xm -> arg_ok h xiv -> apart xm xiv ->
    let (h', o) := absmag_h distmod K h (Some xm) (Some xiv) (Some z) c bs d r l k in
    o = absmag distmod K (Some (value h xm)) (Some (value h xiv)) (Some z) c bs d r l k /\
    same_but [xm; xiv] h h' /\
    (~ corrects (k_fit K) h z xm xiv c -> same_mem h h') /\
    (corrects (k_fit K) h z xm xiv c -> exists m' iv',
       to_ab GST (map1 cst (value h xm)) (Some (map1 cst (value h xiv))) = Ok (m', Some iv') /\
       (is_f32 xm -> value h' xm = m') /\ (is_f32 xiv -> value h' xiv = iv')).
Proof.
  intros T N distmod K h z xm xiv c bs d r l k Hm Hi Hap. pose proof (process_h_spec (k_fit K) h z xm xiv c Hm Hi Hap) as P.
  destruct (process_h (k_fit K) h (Some z) (Some xm) (Some xiv) c) as [h' p] eqn:E.
  rewrite (absmag_h_eq _ _ _ _ _ _ _ _ _ _ _ _ _ _ _ _ E).
  destruct P as (-> & Hb & Hs & Hc). split; [reflexivity|]. split; [auto|]. split; [tauto|auto].
Qed.
Lemma E_C55_absmag_in_place : arg_ok x_mem (Ref x_vm64) /\ arg_ok x_mem (Ref x_vi) /\ apart (T := xr) (Ref x_vm64) (Ref x_vi) /\
  ~ is_f32 (T := xr) (Ref x_vm64) /\ is_f32 (T := xr) (Ref x_vi).
Proof.
  split; [split; [apply seq_view; reflexivity|intros; apply xr_holds]|].
  split; [split; [apply seq_view; reflexivity|intros; apply xr_holds]|].
  split; [exact x_apart|]. split; [cbn; discriminate|reflexivity].
Qed.

(** abcorrect=False, the classes Kcorrect and KcorrectSDSS, lists and arrays of other types than float32, and calls without
    maggies or ivar never modify memory, whatever arrays share memory. *)
Lemma L_C55_untouched :
  forall (T : Type) (N : Num T) nnls rng distmod (K : kcor T) (h : heap T) z xm xiv,
    harmless (k_fit K) xm xiv ->
    (forall mc cur, fit_coeffs_h nnls rng (k_fit K) h z xm xiv mc cur =
       (h, fit_coeffs nnls rng (k_fit K) z (option_map (value h) xm) (option_map (value h) xiv) mc cur)) /\
    (forall c bs d r l k, absmag_h distmod K h xm xiv z c bs d r l k =
       (h, absmag distmod K (option_map (value h) xm) (option_map (value h) xiv) z c bs d r l k)) /\
    (forall x cm bs d r k, xm = Some x -> (forall v, x = Ref v -> length (v_cells v) = size (v_shape v)) ->
       absmag_mc_h distmod K h x xiv z cm bs d r k =
       (h, absmag_mc distmod K (value h x) (option_map (value h) xiv) z cm bs d r k)).
Proof.
  intros T N nnls rng distmod K h z xm xiv H. split; [|split].
  - intros mc cur. unfold fit_coeffs_h, fit_coeffs. destruct z as [z|]; auto. rewrite process_h_harmless by auto.
    destruct (process_inputs _ _ _ _ _); auto.
  - intros. unfold absmag_h, absmag. rewrite process_h_harmless by auto. destruct (process_inputs _ _ _ _ _); auto.
  - intros x cm bs d r k -> Hv. unfold absmag_mc_h, absmag_mc. destruct (shp cm) as [|n s] eqn:E; auto. rewrite <- E.
    rewrite draws_harmless by auto. destruct (foldM _ _ _) as [[|a [|b l]]|]; auto.
Qed.
Lemma E_C55_untouched : harmless (k_fit x_kcor7) (Some (Ref x_vm64)) (Some (Lit (vec [Fin 1; Fin 1]))) /\
  harmless (k_fit x_kcor5) (Some (Ref x_vm)) (Some (Ref x_vm)) /\ f_abc (k_fit x_kcor5) = true.
Proof.
  split; [|split; [right; left; discriminate|reflexivity]]. right. right. left.
  intros x [E|E]; injection E as <-; cbn; auto; discriminate.
Qed.

(** Repeated calls: each accepted call of fit_coeffs or absmag corrects float32 photometry once more. *)
Lemma L_C55_history :
  forall nnls rng distmod (K : kcor xr) (h : heap xr) vm vi s (m iv : list R) ks,
    let F := k_fit K in let nb := length (f_resp F) in
    f_abc F = true -> f_kind F = GST -> (7 <= nb)%nat -> (s = [nb] \/ exists n, s = [n; nb]) ->
    view_ok vm -> view_ok vi -> v_f32 vm = true -> v_f32 vi = true ->
    (forall c, In c (v_cells vm) -> In c (v_cells vi) -> False) ->
    read h vm = rarr s m -> read h vi = rarr s iv -> length m = size s -> length iv = size s ->
    Forall (call_ok (f_nsed F) s) ks ->
    let h' := calls_h nnls rng distmod K (Some (Ref vm)) (Some (Ref vi)) ks h in
    let n := length ks in
    read h' vm = gst_maggies n s m /\ read h' vi = gst_ivar n s iv /\
    (forall c, ~ In c (v_cells vm) -> ~ In c (v_cells vi) -> h' c = h c) /\
    (* the next call works with photometry corrected n + 1 times *)
    (forall z mc cur, call_ok (f_nsed F) s (CallFit z mc cur) ->
       snd (fit_coeffs_h nnls rng F h' (Some z) (Some (Ref vm)) (Some (Ref vi)) mc cur) =
       fit_coeffs nnls rng (without_ab F) (Some z) (Some (gst_maggies (S n) s m)) (Some (gst_ivar (S n) s iv)) mc cur) /\
    (forall z c bs d r l k, call_ok (f_nsed F) s (CallAbsmag z c bs d r l k) ->
       snd (absmag_h distmod K h' (Some (Ref vm)) (Some (Ref vi)) (Some z) (Some c) bs d r l k) =
       absmag distmod (kwithout_ab K) (Some (gst_maggies (S n) s m)) (Some (gst_ivar (S n) s iv)) (Some z) (Some c) bs d r l k).
Proof.
  intros nnls rng distmod K h vm vi s m iv ks F nb Ha Hk H7 Hs Hvm Hvi Fm Fi Hap Rm Ri Lm Li Hok h' n.
  destruct (history nnls rng distmod K h vm vi s m iv ks Ha Hk H7 Hs Hvm Hvi Fm Fi Hap Rm Ri Lm Li Hok) as (Em & Ei & Ho).
  fold h' in Em, Ei, Ho. fold n in Em, Ei. split; auto. split; auto. split; auto.
  assert (Hne : s <> []) by (destruct Hs as [->|(? & ->)]; discriminate).
  assert (L7 : (7 <= lastd s)%nat) by (unfold lastd; rewrite (shape_last nb s Hs); auto).
  unfold gst_maggies, gst_ivar in *.
  fold (corr_m n s m) (corr_iv n s iv) (corr_m (S n) s m) (corr_iv (S n) s iv) in *.
  assert (Ht : to_ab GST (rarr s (corr_m n s m)) (Some (rarr s (corr_iv n s iv))) =
               Ok (rarr s (corr_m (S n) s m), Some (rarr s (corr_iv (S n) s iv)))).
  { rewrite gst_real' by (auto using corr_m_len, corr_iv_len). unfold gst_maggies, gst_ivar.
    fold (corr_m 1 s (corr_m n s m)) (corr_iv 1 s (corr_iv n s iv)). rewrite corr_m_S, corr_iv_S. auto. }
  split.
  - intros z mc cur Hz. cbn [call_ok] in Hz.
    assert (D : documented nb (f_nsed F) z (Some (rarr s (corr_m n s m))) (Some (rarr s (corr_iv n s iv))) None)
      by (apply doc_call with (s := s); auto; discriminate).
    destruct (process_real F h' vm vi z None s (corr_m n s m) (corr_iv n s iv)) as (h2 & E & _); auto using shape_last.
    + rewrite (fit_h_eq _ _ _ _ _ _ _ _ _ _ _ _ _ E). cbn [snd].
      transitivity (fit_coeffs nnls rng F (Some z) (Some (rarr s (corr_m n s m))) (Some (rarr s (corr_iv n s iv))) mc cur); auto.
      rewrite L_C61_fit, Hk, Ht by auto. auto.
  - intros z c bs d r l k [Hz Hc].
    assert (D : documented nb (f_nsed F) z (Some (rarr s (corr_m n s m))) (Some (rarr s (corr_iv n s iv))) (Some c)).
    { apply doc_call with (s := s); auto. intros a E. injection E as <-. auto. }
    destruct (process_real F h' vm vi z (Some c) s (corr_m n s m) (corr_iv n s iv)) as (h2 & E & _); auto using shape_last.
    + rewrite (absmag_h_eq _ _ _ _ _ _ _ _ _ _ _ _ _ _ _ _ E). cbn [snd].
      transitivity (absmag distmod K (Some (rarr s (corr_m n s m))) (Some (rarr s (corr_iv n s iv))) (Some z) (Some c) bs d r l k); auto.
      rewrite L_C61_absmag by auto. fold F. rewrite Hk, Ht. auto.
Qed.
Lemma E_C55_history :
  read x_mem x_vm = rarr [7%nat] (map (fun c => INR c + 1) (seq 0 7)) /\ view_ok x_vm /\ view_ok x_vi /\
  Forall (call_ok (f_nsed (k_fit x_kcor7)) [7%nat])
    [CallFit (scal (Fin (1/2))) 0 0; CallAbsmag (scal (Fin (1/2))) (vec [Fin 2]) (Fin 0) None false false false].
Proof.
  split; [exact (x_read 0 [7%nat])|]. split; [apply seq_view; reflexivity|]. split; [apply seq_view; reflexivity|].
  repeat constructor.
Qed.

(** C68.  A direct call of KcorrectGST.to_ab writes the correction into its arguments, whatever their type. *)
Lemma L_C68_direct :
  forall (h : heap xr) vm vi s (m iv : list R),
    s <> [] -> (7 <= last s 0)%nat -> view_ok vm -> view_ok vi -> (forall c, In c (v_cells vm) -> In c (v_cells vi) -> False) ->
    read h vm = rarr s m -> read h vi = rarr s iv -> length m = size s -> length iv = size s ->
    let (h', r) := to_ab_call GST h vm (Some vi) in
    r = Ok (gst_maggies 1 s m, Some (gst_ivar 1 s iv)) /\
    read h' vm = gst_maggies 1 s m /\ read h' vi = gst_ivar 1 s iv /\
    (forall c, ~ In c (v_cells vm) -> ~ In c (v_cells vi) -> h' c = h c).
Proof.
  intros h vm vi s m iv Hne H7 Hvm Hvi Hap Rm Ri Lm Li. unfold to_ab_call. cbn [option_map]. rewrite Rm, Ri.
  set (f := fun v => {| v_shape := v_shape v; v_cells := v_cells v; v_f32 := true |}).
  pose proof (gst_h_spec h (Ref (f vm)) (Ref (f vi))) as G. cbv zeta in G. cbn [alias f v_f32] in G.
  change (read h (f vm)) with (read h vm) in G. cbn [value] in G.
  change (read h (f vm)) with (read h vm) in G. change (read h (f vi)) with (read h vi) in G. rewrite Rm, Ri in G.
  assert (Id : forall l, map1 cst (rarr s l) = rarr s l) by (intro l; apply map1_id; reflexivity).
  rewrite !Id in G.
  change (gst_to_ab_h h (Some (f vm)) (Some (f vi)) (rarr s m) (Some (rarr s iv)))
    with (to_ab_h GST h (Some vm) (Some vi) (rarr s m) (Some (rarr s iv))) in G.
  change (gst_to_ab (rarr s m) (Some (rarr s iv))) with (to_ab GST (rarr s m) (Some (rarr s iv))) in G.
  rewrite gst_real' in G by auto.
  destruct (to_ab_h GST h (Some vm) (Some vi) (rarr s m) (Some (rarr s iv))) as [h' r].
  destruct G as (-> & Hb & iv' & Ei & _ & _ & _ & G1 & G2); try (split; auto; intros; apply xr_holds); auto.
  injection Ei as <-. split; auto. split; [apply G1; reflexivity|]. split; [apply G2; reflexivity|].
  intros c C1 C2. apply Hb. intros x [<-|[<-|[]]] _; auto.
Qed.
Lemma E_C68_direct : view_ok x_vm64 /\ v_f32 x_vm64 = false /\ (7 <= last [7] 0)%nat /\
  read x_mem x_vi = rarr [7%nat] (map (fun c => INR c + 1) (seq 7 7)).
Proof. split; [apply seq_view; reflexivity|]. split; [reflexivity|]. split; [cbn; lia|]. exact (x_read 7 [7%nat]). Qed.

(** The to_ab of the other classes leaves memory alone. *)
Lemma L_C68_direct_other :
  forall (T : Type) (N : Num T) k (h : heap T) vm vi, k <> GST ->
    to_ab_call k h vm vi = (h, to_ab k (read h vm) (option_map (read h) vi)).
Proof. intros T N [] h vm vi H; try reflexivity. congruence. Qed.
Lemma E_C68_direct_other : SDSS <> GST /\ Plain <> GST.
Proof. split; discriminate. Qed.

(** Passing the same float32 array as maggies and as ivar makes KcorrectGST fit corrected inverse variances instead of
    corrected maggies. *)
Lemma L_C68_same_array :
  forall nnls rng (F : fitter xr) (h : heap xr) v s (m : list R) z mc cur,
    let nb := length (f_resp F) in
    f_abc F = true -> f_kind F = GST -> (7 <= nb)%nat -> (s = [nb] \/ exists n, s = [n; nb]) ->
    view_ok v -> v_f32 v = true -> read h v = rarr s m -> length m = size s -> shp z = removelast s ->
    snd (fit_coeffs_h nnls rng F h (Some z) (Some (Ref v)) (Some (Ref v)) mc cur) =
    fit_coeffs nnls rng (without_ab F) (Some z) (Some (gst_ivar 1 s m)) (Some (gst_ivar 1 s m)) mc cur.
Proof.
  intros nnls rng F h v s m z mc cur nb Ha Hk H7 Hs Hv Hf Rm Lm Hz.
  assert (Hne : s <> []) by (destruct Hs as [->|(? & ->)]; discriminate).
  assert (L7 : (7 <= lastd s)%nat) by (unfold lastd; rewrite (shape_last nb s Hs); auto).
  assert (D : forall a b : list R, documented nb (f_nsed F) z (Some (rarr s a)) (Some (rarr s b)) None)
    by (intros; apply doc_call with (s := s); auto; discriminate).
  assert (Id : forall l, map1 cst (rarr s l) = rarr s l) by (intro l; apply map1_id; reflexivity).
  unfold fit_coeffs_h, process_h. cbn [option_map value obind alias]. rewrite Hf, Rm.
  rewrite (process_inputs_ok (no_ab_without F) (D m m)), Ha. cbn [plain_pin q_m q_iv option_map q_array q_n q_z q_c].
  rewrite !Id, Hk. cbn [to_ab_h]. unfold gst_to_ab_h.
  assert (W : wf (rarr s m)) by (unfold wf, rarr; cbn [shp dat]; rewrite map_length; auto).
  destruct (gst_long (rarr s m) (rarr s m) W W Hne eq_refl L7) as (m' & iv' & E & Fm & Fi). rewrite E.
  change (gst_to_ab (rarr s m) (Some (rarr s m))) with (to_ab GST (rarr s m) (Some (rarr s m))) in E.
  rewrite gst_real' in E by auto. injection E as <- <-.
  cbn [write_if read_if option_map].
  assert (Sv : v_shape v = s) by (change (shp (read h v) = s); rewrite Rm; auto).
  set (m1 := gst_maggies 1 s m) in *. set (i1 := gst_ivar 1 s m) in *.
  assert (R1 : read (write_cols h v m1) v = m1).
  { destruct Fm as (S1 & W1 & N1). cbn [rarr shp] in S1, N1. apply read_write; auto; rewrite Sv; auto.
    intros i Hi Hb. rewrite Rm. apply N1; auto. }
  assert (R2 : read (write_cols (write_cols h v m1) v i1) v = i1).
  { destruct Fm as (S1 & W1 & N1), Fi as (S2 & W2 & N2). cbn [rarr shp] in S1, N1, S2, N2. apply read_write; auto; rewrite Sv; auto.
    intros i Hi Hb. rewrite R1, N1, N2; auto. }
  rewrite R2. cbn [snd]. unfold fit_coeffs.
  assert (Ei1 : i1 = rarr s (corr_iv 1 s m)) by reflexivity. rewrite Ei1.
  rewrite (process_inputs_ok (no_ab_without F) (D _ _)). cbn [bind]. unfold plain_pin. cbn [option_map]. rewrite !Id. symmetry. apply fit_after_ab.
Qed.
Lemma E_C68_same_array : view_ok x_vm /\ v_f32 x_vm = true /\ read x_mem x_vm = rarr [7%nat] (map (fun c => INR c + 1) (seq 0 7)) /\
  gst_maggies 1 [7%nat] (map (fun c => INR c + 1) (seq 0 7)) <> gst_ivar 1 [7%nat] (map (fun c => INR c + 1) (seq 0 7)).
Proof.
  split; [apply seq_view; reflexivity|]. split; auto. split; [exact (x_read 0 [7%nat])|].
  unfold gst_maggies, gst_ivar, rarr. intro H. injection H. intros _ _ _ _ H2 _ _. clear H. revert H2.
  unfold gst_factor. cbn [Nat.leb andb Nat.sub nth abfix]. set (p := pow10 _).
  assert (Hp : 1 < p).
  { unfold p, pow10, Rpower. rewrite <- exp_0. apply exp_increasing. assert (0 < ln 10) by (rewrite <- ln_1; apply ln_increasing; lra). nra. }
  intro E. apply (f_equal (fun x => x * (p * p))) in E.
  replace ((1 + 1 + 1) / (p * (p * 1) * 1) * (p * p)) with 3 in E by (field; lra). nra.
Qed.

(** C69.  absmag_mc of a KcorrectGST object with abcorrect=True and float32 arrays: the maggies of every draw are corrected in
    place once, the inverse variances once per draw.  The absolute magnitudes are nevertheless those of the value model
    (they depend on the sign of ivar only).  If a draw raises, the draws made so far have been corrected. *)
Lemma L_C69_mc_in_place :
  forall distmod (K : kcor xr) (h : heap xr) vmm vi s mc (m iv : list R) z cm bs d r k,
    let F := k_fit K in let nb := length (f_resp F) in
    f_abc F = true -> f_kind F = GST -> (7 <= nb)%nat -> (s = [nb] \/ exists n, s = [n; nb]) ->
    view_ok vmm -> view_ok vi -> v_f32 vmm = true -> v_f32 vi = true ->
    (forall c, In c (v_cells vmm) -> In c (v_cells vi) -> False) ->
    read h vmm = rarr (s ++ [mc]) m -> read h vi = rarr s iv -> length m = (size s * mc)%nat -> length iv = size s ->
    shp z = removelast s -> shp cm = removelast s ++ [f_nsed F; mc] ->
    let (h', o) := absmag_mc_h distmod K h (Ref vmm) (Some (Ref vi)) (Some z) cm bs d r k in
    o = absmag_mc distmod K (rarr (s ++ [mc]) m) (Some (rarr s iv)) (Some z) cm bs d r k /\
    (exists n, (n <= mc)%nat /\ read h' vmm = gst_maggies_mc n s mc m /\ read h' vi = gst_ivar n s iv /\
       forall out, o = Ok out -> n = mc) /\
    (forall c, ~ In c (v_cells vmm) -> ~ In c (v_cells vi) -> h' c = h c).
Proof.
  intros distmod K h vmm vi s mc m iv z cm bs d r k F nb Ha Hk H7 Hs Hvm Hvi Fm Fi Hap Rm Ri Lm Li Hz Hc.
  assert (Sm : v_shape vmm = s ++ [mc]) by (change (shp (read h vmm) = s ++ [mc]); rewrite Rm; auto).
  assert (Si : v_shape vi = s) by (change (shp (read h vi) = s); rewrite Ri; auto).
  assert (Lc : length (v_cells vmm) = (size s * mc)%nat).
  { destruct Hvm as [E _]. rewrite E, Sm, size_app. cbn. lia. }
  assert (I0 : inv vmm vi s mc m iv h 0 h).
  { split; [|split; auto].
    - rewrite Ri. unfold gst_ivar. fold (corr_iv 0 s iv). rewrite corr_iv_0; auto.
    - intros j Hj. cbn [Nat.ltb Nat.leb]. assert (E : nth_error (dat (read h vmm)) j = Some (h (nth j (v_cells vmm) 0%nat))).
      { unfold read. cbn [dat]. rewrite nth_error_map, (nth_error_nth' _ 0%nat) by lia. auto. }
      rewrite Rm in E. unfold rarr in E. cbn [dat] in E. rewrite nth_error_map, (nth_error_nth' _ 0) in E by lia. injection E as E. congruence. }
  destruct (draws distmod K vmm vi s mc (f_nsed F) m iv z cm bs d r k h Ha Hk H7 Hs Hvm Hvi Fm Fi Hap Sm Si Lm Li Hz Hc eq_refl
              mc 0 h (repeat (full (shp (value h (Ref vmm))) n0) (1 + (if r then 1 else 0) + (if k then 1 else 0))) ltac:(lia) I0)
    as (h' & E & (n & Hn & In') & Ho).
  unfold absmag_mc_h, absmag_mc. destruct (shp cm) as [|a l] eqn:Ec; [destruct (removelast s); discriminate|]. rewrite <- Ec in *.
  assert (Lcm : lastd (shp cm) = mc).
  { rewrite Hc. replace (removelast s ++ [f_nsed F; mc]) with ((removelast s ++ [f_nsed F]) ++ [mc]) by (rewrite <- app_assoc; auto).
    apply lastd_snoc. }
  rewrite Lcm, E. cbn [value]. change (shp (read h vmm)) with (v_shape vmm) in *. cbn [value] in E, Ho.
  change (shp (read h vmm)) with (v_shape vmm) in *. rewrite Sm in *. change (shp (rarr (s ++ [mc]) m)) with (s ++ [mc]).
  assert (W : forall n, inv vmm vi s mc m iv h n h' -> read h' vmm = gst_maggies_mc n s mc m).
  { intros n' (_ & B & _). unfold read, gst_maggies_mc, rarr. rewrite Sm. f_equal.
    rewrite map_map. apply nth_error_ext. intro j. rewrite !nth_error_map, nth_error_seq. cbn [Nat.add].
    destruct (Nat.ltb_spec j (size s * mc)) as [Hj|Hj]; cbn [option_map].
    - rewrite (nth_error_nth' _ 0%nat) by lia. cbn [option_map]. rewrite B by auto. auto.
    - rewrite (proj2 (nth_error_None (v_cells vmm) j)) by lia. auto. }
  destruct (foldM _ _ _) as [outs|e] eqn:Ef; cbn [bind].
  2:{ split; auto. split; [|apply In']. exists n. split; [lia|]. split; [auto|]. split; [apply In'|discriminate]. }
  specialize (Ho outs eq_refl).
  destruct outs as [|a0 [|b0 l0]]; (split; [reflexivity|]; split; [|apply Ho]; exists mc; split; [lia|]; split; [auto|]; split; [apply Ho|auto]).
Qed.
Lemma E_C69_mc_in_place :
  read x_mem x_vmc = rarr [7; 2]%nat (map (fun c => INR c + 1) (seq 20 14)) /\ view_ok x_vmc /\
  (forall c, In c (v_cells x_vmc) -> In c (v_cells x_vi) -> False) /\
  shp (full [1; 2]%nat (Fin 1)) = removelast [7%nat] ++ [f_nsed (k_fit x_kcor7); 2%nat].
Proof.
  split; [exact (x_read 20 [7; 2]%nat)|]. split; [apply seq_view; reflexivity|].
  split; [intros c A B; apply in_seq in A, B; lia|reflexivity].
Qed.
