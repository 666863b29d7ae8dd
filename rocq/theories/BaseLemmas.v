(** Lemmas about the list and array operations of [Base]. *)
From Coq Require Import List Arith Lia Bool.
From Verif Require Import Base.
Import ListNotations.
Set Implicit Arguments.

(** * res *)
Lemma bind_ok A B (r : res A) (f : A -> res B) b :
  bind r f = Ok b -> exists a, r = Ok a /\ f a = Ok b.
Proof. destruct r; simpl; intro H; [eauto|discriminate]. Qed.

Lemma bind_raise A B (r : res A) (f : A -> res B) e :
  bind r f = Raise e -> r = Raise e \/ exists a, r = Ok a /\ f a = Raise e.
Proof. destruct r; simpl; intro H; [right; eauto|left; congruence]. Qed.

Lemma mapM_ok_length A B (f : A -> res B) l ys : mapM f l = Ok ys -> length ys = length l.
Proof.
  revert ys; induction l as [|x r IH]; simpl; intros ys H.
  - injection H as <-; reflexivity.
  - destruct (f x) eqn:Hx; simpl in H; [|discriminate].
    destruct (mapM f r) eqn:Hr; simpl in H; [|discriminate].
    injection H as <-; simpl; f_equal; auto.
Qed.

Lemma mapM_ok_nth A B (f : A -> res B) l ys : mapM f l = Ok ys ->
  forall i x, nth_error l i = Some x -> exists y, nth_error ys i = Some y /\ f x = Ok y.
Proof.
  revert ys; induction l as [|x r IH]; simpl; intros ys H i a Hi.
  - destruct i; discriminate.
  - destruct (f x) as [y|] eqn:Hx; simpl in H; [|discriminate].
    destruct (mapM f r) as [ys'|] eqn:Hr; simpl in H; [|discriminate].
    injection H as <-. destruct i; simpl in *.
    + injection Hi as <-; eauto.
    + eapply IH; eauto.
Qed.

Lemma mapM_ext A B (f g : A -> res B) l :
  (forall x, In x l -> f x = g x) -> mapM f l = mapM g l.
Proof.
  induction l as [|x r IH]; simpl; intro H; [reflexivity|].
  rewrite H by auto. rewrite IH by auto. reflexivity.
Qed.

Lemma mapM_all_ok A B (f : A -> res B) (g : A -> B) l :
  (forall x, In x l -> f x = Ok (g x)) -> mapM f l = Ok (map g l).
Proof.
  induction l as [|x r IH]; simpl; intro H; [reflexivity|].
  rewrite H by auto. simpl. rewrite IH by auto. reflexivity.
Qed.

Lemma foldM_inv A S (f : S -> A -> res S) (P : S -> Prop) l s s' :
  P s -> (forall s x s', In x l -> P s -> f s x = Ok s' -> P s') ->
  foldM f l s = Ok s' -> P s'.
Proof.
  revert s; induction l as [|x r IH]; simpl; intros s Hs Hstep H.
  - injection H as <-; exact Hs.
  - destruct (f s x) as [s1|] eqn:Hx; simpl in H; [|discriminate].
    apply (IH s1); [eapply Hstep; eauto| |exact H].
    intros s2 y s3 Hy Hs2 Hf. eapply Hstep; eauto.
Qed.

(** * nth_error *)
Lemma nth_error_ext A (l1 l2 : list A) :
  (forall i, nth_error l1 i = nth_error l2 i) -> l1 = l2.
Proof.
  revert l2; induction l1 as [|x r IH]; intros [|y r2] H; auto.
  - specialize (H 0); discriminate.
  - specialize (H 0); discriminate.
  - f_equal; [specialize (H 0); simpl in H; congruence|].
    apply IH; intro i; apply (H (S i)).
Qed.

Lemma nth_error_firstn A (l : list A) m k :
  nth_error (firstn m l) k = if Nat.ltb k m then nth_error l k else None.
Proof.
  revert m k; induction l as [|x r IH]; intros [|m] [|k]; simpl; auto.
  - destruct (_ <? _); reflexivity.
  - rewrite IH. reflexivity.
Qed.

Lemma nth_error_skipn A (l : list A) n k :
  nth_error (skipn n l) k = nth_error l (n + k).
Proof.
  revert l; induction n as [|n IH]; intros [|x r]; simpl; auto.
  destruct k; reflexivity.
Qed.

Lemma nth_error_seq a n i : nth_error (seq a n) i = if Nat.ltb i n then Some (a + i) else None.
Proof.
  revert a i; induction n as [|n IH]; intros a i; simpl.
  - destruct i; reflexivity.
  - destruct i; simpl; [f_equal; lia|]. rewrite IH.
    change (S i <? S n) with (i <? n). destruct (i <? n); [f_equal; lia|reflexivity].
Qed.

Lemma nth_error_nth_lt A (l : list A) i d : i < length l -> nth_error l i = Some (nth i l d).
Proof. intro H. apply nth_error_nth'. exact H. Qed.

Lemma nth_error_repeat A (x : A) n i : nth_error (repeat x n) i = if Nat.ltb i n then Some x else None.
Proof.
  revert i; induction n as [|n IH]; intros [|i]; simpl; auto. rewrite IH. reflexivity.
Qed.

(** * zip *)
Lemma nth_error_zip A B C (f : A -> B -> C) l1 l2 i :
  nth_error (zip f l1 l2) i =
  match nth_error l1 i, nth_error l2 i with
  | Some a, Some b => Some (f a b) | _, _ => None end.
Proof.
  revert l2 i; induction l1 as [|a r IH]; intros [|b r2] [|i]; simpl; auto.
  destruct (nth_error r i); reflexivity.
Qed.

Lemma length_zip A B C (f : A -> B -> C) l1 l2 :
  length (zip f l1 l2) = Nat.min (length l1) (length l2).
Proof. revert l2; induction l1 as [|a r IH]; intros [|b r2]; simpl; auto. Qed.

Lemma zip_map_l A A' B C (f : A -> B -> C) (g : A' -> A) l1 l2 :
  zip f (map g l1) l2 = zip (fun a b => f (g a) b) l1 l2.
Proof. revert l2; induction l1 as [|a r IH]; intros [|b r2]; simpl; auto. rewrite IH; auto. Qed.

Lemma zip_map_r A B B' C (f : A -> B -> C) (g : B' -> B) l1 l2 :
  zip f l1 (map g l2) = zip (fun a b => f a (g b)) l1 l2.
Proof. revert l2; induction l1 as [|a r IH]; intros [|b r2]; simpl; auto. rewrite IH; auto. Qed.

Lemma map_zip A B C D (g : C -> D) (f : A -> B -> C) l1 l2 :
  map g (zip f l1 l2) = zip (fun a b => g (f a b)) l1 l2.
Proof. revert l2; induction l1 as [|a r IH]; intros [|b r2]; simpl; auto. rewrite IH; auto. Qed.

Lemma zip_same A B (f : A -> A -> B) l : zip f l l = map (fun x => f x x) l.
Proof. induction l as [|a r IH]; simpl; auto. rewrite IH; auto. Qed.

Lemma zip_ext A B C (f g : A -> B -> C) l1 l2 :
  (forall a b, In a l1 -> In b l2 -> f a b = g a b) -> zip f l1 l2 = zip g l1 l2.
Proof.
  revert l2; induction l1 as [|a r IH]; intros [|b r2] H; simpl; auto.
  rewrite H by (simpl; auto). rewrite IH; [reflexivity|]. intros; apply H; simpl; auto.
Qed.

Lemma zip_firstn A B C (f : A -> B -> C) n l1 l2 :
  zip f (firstn n l1) (firstn n l2) = firstn n (zip f l1 l2).
Proof. revert l1 l2; induction n as [|n IH]; intros [|a r] [|b r2]; simpl; auto. rewrite IH; auto. Qed.

Lemma zip_skipn A B C (f : A -> B -> C) n l1 l2 :
  zip f (skipn n l1) (skipn n l2) = skipn n (zip f l1 l2).
Proof.
  revert l1 l2; induction n as [|n IH]; intros [|a r] [|b r2]; simpl; auto.
  destruct (skipn n r); reflexivity.
Qed.

Lemma zip_app A B C (f : A -> B -> C) a1 a2 b1 b2 : length a1 = length b1 ->
  zip f (a1 ++ a2) (b1 ++ b2) = zip f a1 b1 ++ zip f a2 b2.
Proof.
  revert b1; induction a1 as [|a r IH]; intros [|b r2] H; simpl in *; try discriminate; auto.
  rewrite IH by lia. reflexivity.
Qed.

Lemma zip_repeat_r A B C (f : A -> B -> C) l (x : B) n : length l <= n ->
  zip f l (repeat x n) = map (fun a => f a x) l.
Proof.
  revert n; induction l as [|a r IH]; intros [|n] H; simpl in *; auto; try lia.
  rewrite IH by lia. reflexivity.
Qed.

(** * upd *)
Lemma length_upd A k (v : A) l : length (upd k v l) = length l.
Proof. revert k; induction l as [|x r IH]; intros [|k]; simpl; auto. Qed.

Lemma nth_error_upd A k (v : A) l i :
  nth_error (upd k v l) i =
  if Nat.eqb i k then match nth_error l i with Some _ => Some v | None => None end
  else nth_error l i.
Proof.
  revert k i; induction l as [|x r IH]; intros k i.
  - simpl. destruct i; simpl; destruct k; simpl; try reflexivity; destruct (Nat.eqb i k); reflexivity.
  - destruct k, i; simpl; auto.
Qed.

Lemma upd_same_eq A k (v : A) l : nth_error l k = Some v -> upd k v l = l.
Proof.
  intro H. apply nth_error_ext; intro i. rewrite nth_error_upd.
  destruct (Nat.eqb_spec i k) as [->|]; auto. rewrite H; auto.
Qed.

(** * chunks *)
Lemma length_chunks A n m (l : list A) : length (chunks n m l) = n.
Proof. revert l; induction n as [|n IH]; intro l; simpl; auto. Qed.

Lemma nth_error_chunks A n m (l : list A) i :
  nth_error (chunks n m l) i =
  if Nat.ltb i n then Some (firstn m (skipn (i * m) l)) else None.
Proof.
  revert l i; induction n as [|n IH]; intros l [|i]; simpl; auto.
  rewrite IH. change (S i <? S n) with (i <? n).
  destruct (i <? n); auto. f_equal. f_equal.
  apply nth_error_ext; intro k. rewrite !nth_error_skipn. f_equal. lia.
Qed.

Lemma concat_chunks A n m (l : list A) : length l = n * m -> concat (chunks n m l) = l.
Proof.
  revert l; induction n as [|n IH]; intros l H; simpl in *.
  - destruct l; [reflexivity|discriminate].
  - rewrite IH; [apply firstn_skipn|]. rewrite skipn_length. lia.
Qed.

Lemma chunks_rows A n m (l : list A) r : length l = n * m -> In r (chunks n m l) -> length r = m.
Proof.
  revert l; induction n as [|n IH]; intros l H Hr; simpl in *; [contradiction|].
  destruct Hr as [<-|Hr].
  - rewrite firstn_length. lia.
  - eapply IH; [|exact Hr]. rewrite skipn_length; lia.
Qed.

Lemma chunks_concat A m (ls : list (list A)) :
  (forall r, In r ls -> length r = m) -> chunks (length ls) m (concat ls) = ls.
Proof.
  induction ls as [|r ls IH]; intro H; simpl; auto.
  assert (Hr : length r = m) by (apply H; simpl; auto).
  f_equal.
  - rewrite firstn_app, Hr, Nat.sub_diag, firstn_O, app_nil_r. rewrite <- Hr. apply firstn_all.
  - rewrite skipn_app, Hr, Nat.sub_diag. simpl. rewrite <- Hr, skipn_all. simpl.
    rewrite Hr. apply IH. intros; apply H; simpl; auto.
Qed.

Lemma length_concat_const A m (ls : list (list A)) :
  (forall r, In r ls -> length r = m) -> length (concat ls) = length ls * m.
Proof.
  induction ls as [|r ls IH]; intro H; simpl; auto.
  rewrite app_length, IH by (intros; apply H; simpl; auto). rewrite H by (simpl; auto). reflexivity.
Qed.

Lemma nth_error_concat_const A m (ls : list (list A)) i k :
  (forall r, In r ls -> length r = m) -> k < m ->
  nth_error (concat ls) (i * m + k) =
  match nth_error ls i with Some r => nth_error r k | None => None end.
Proof.
  revert i; induction ls as [|r ls IH]; intros i H Hk; simpl.
  - assert (E : forall n, nth_error (@nil A) n = None) by (intros [|n]; reflexivity).
    rewrite !E. destruct i; reflexivity.
  - assert (Hr : length r = m) by (apply H; simpl; auto).
    destruct i; simpl.
    + rewrite nth_error_app1 by lia. reflexivity.
    + rewrite nth_error_app2 by lia.
      replace (m + i * m + k - length r) with (i * m + k) by lia.
      apply IH; auto. intros; apply H; simpl; auto.
Qed.

Lemma div_mod_idx m j : 0 < m -> j = (j / m) * m + j mod m.
Proof. intro H. pose proof (Nat.div_mod j m). lia. Qed.

Lemma nth_error_concat_flat A m (ls : list (list A)) j :
  (forall r, In r ls -> length r = m) -> 0 < m ->
  nth_error (concat ls) j =
  match nth_error ls (j / m) with Some r => nth_error r (j mod m) | None => None end.
Proof.
  intros H Hm. rewrite (div_mod_idx j Hm) at 1.
  apply nth_error_concat_const; auto. apply Nat.mod_upper_bound; lia.
Qed.

Lemma map_chunks A B (f : A -> B) n m l : map (map f) (chunks n m l) = chunks n m (map f l).
Proof. revert l; induction n as [|n IH]; intro l; simpl; auto. rewrite IH, firstn_map, skipn_map. auto. Qed.

Lemma chunks_zip A B C (f : A -> B -> C) n m l1 l2 :
  chunks n m (zip f l1 l2) = zip (zip f) (chunks n m l1) (chunks n m l2).
Proof.
  revert l1 l2; induction n as [|n IH]; intros l1 l2; simpl; auto.
  rewrite <- zip_firstn, <- zip_skipn, IH. reflexivity.
Qed.

Lemma concat_map_map A B (f : A -> B) ls : map f (concat ls) = concat (map (map f) ls).
Proof. induction ls as [|r ls IH]; simpl; auto. rewrite map_app, IH. auto. Qed.

(** * gather / scatter *)
Lemma scatter_gather A B (f : B -> A) mask (old : list A) (src : list B) :
  length old = length mask -> length src = length mask ->
  scatter mask old (map f (gather mask src)) =
  zip (fun (b : bool * A) s => if fst b then f s else snd b) (zip pair mask old) src.
Proof.
  revert old src; induction mask as [|b mask IH]; intros [|x old] [|s src] H1 H2;
    simpl in *; try discriminate; auto.
  destruct b; simpl; rewrite IH by lia; reflexivity.
Qed.

Lemma gather_zip A B C (f : A -> B -> C) mask l1 l2 :
  length l1 = length l2 ->
  zip f (gather mask l1) (gather mask l2) = gather mask (zip f l1 l2).
Proof.
  revert l1 l2; induction mask as [|b mask IH]; intros [|x l1] [|y l2] H; simpl in *; auto; try discriminate.
  destruct b; simpl; rewrite IH by lia; reflexivity.
Qed.

Lemma gather_map A B (f : A -> B) mask l : gather mask (map f l) = map f (gather mask l).
Proof.
  revert l; induction mask as [|b mask IH]; intros [|x l]; simpl; auto.
  destruct b; simpl; rewrite IH; reflexivity.
Qed.

Lemma length_scatter A mask (old new : list A) : length (scatter mask old new) = length old.
Proof.
  revert old new; induction mask as [|b mask IH]; intros [|x old] new; simpl; auto.
  destruct b; [destruct new|]; simpl; auto.
Qed.

(** The store [old[mask] = new], read back at position [i]. *)
Lemma nth_error_scatter_gather A mask (old src : list A) i :
  length old = length mask -> length src = length mask ->
  nth_error (scatter mask old (gather mask src)) i =
  match nth_error mask i with
  | Some true => nth_error src i
  | _ => nth_error old i
  end.
Proof.
  revert old src i; induction mask as [|b mask IH]; intros [|x old] [|s src] i H1 H2;
    simpl in *; try discriminate.
  - destruct i; reflexivity.
  - destruct b, i; simpl; auto.
Qed.

(** * shapes *)
Lemma shape_eqb_refl s : shape_eqb s s = true.
Proof. induction s as [|a s IH]; simpl; auto. rewrite Nat.eqb_refl; auto. Qed.

Lemma shape_eqb_eq s t : shape_eqb s t = true <-> s = t.
Proof.
  split; [|intros ->; apply shape_eqb_refl].
  revert t; induction s as [|a s IH]; intros [|b t] H; simpl in H; try discriminate; auto.
  apply andb_prop in H as [H1 H2]. apply Nat.eqb_eq in H1. f_equal; auto.
Qed.

Lemma shape_eqb_neq s t : shape_eqb s t = false <-> s <> t.
Proof.
  rewrite <- shape_eqb_eq. destruct (shape_eqb s t); split; intros; congruence.
Qed.

Lemma size_app s t : size (s ++ t) = size s * size t.
Proof. unfold size. induction s as [|a s IH]; simpl; [lia|]. rewrite IH. lia. Qed.

Lemma size_rev s : size (rev s) = size s.
Proof. induction s as [|a s IH]; simpl; auto. rewrite size_app, IH. unfold size at 2. simpl. unfold size. lia. Qed.

Lemma lead_snoc s m : lead (s ++ [m]) = s.
Proof. unfold lead. apply removelast_last. Qed.
Lemma lastd_snoc s m : lastd (s ++ [m]) = m.
Proof. unfold lastd. apply last_last. Qed.

Lemma shape_snoc s : s <> [] -> s = lead s ++ [lastd s].
Proof. intro H. unfold lead, lastd. apply app_removelast_last; auto. Qed.

Lemma size_lead s : s <> [] -> size s = size (lead s) * lastd s.
Proof.
  intro H. rewrite (shape_snoc H) at 1. rewrite size_app. unfold size at 2. simpl. lia.
Qed.

Lemma wf_vec A (l : list A) : wf (vec l).
Proof. unfold wf, vec, size; simpl; lia. Qed.
Lemma wf_scal A (x : A) : wf (scal x).
Proof. reflexivity. Qed.
Lemma wf_full A s (x : A) : wf (full s x).
Proof. unfold wf, full; simpl. apply repeat_length. Qed.
Lemma wf_map1 A B (f : A -> B) a : wf a -> wf (map1 f a).
Proof. unfold wf, map1; simpl. rewrite map_length; auto. Qed.

Lemma lrows_length A (a : nd A) : length (lrows a) = size (lead (shp a)).
Proof. apply length_chunks. Qed.

Lemma lrows_row_length A (a : nd A) r : wf a -> shp a <> [] -> In r (lrows a) -> length r = lastd (shp a).
Proof. intros Hw Hs Hr. eapply chunks_rows; [|exact Hr]. rewrite Hw. apply size_lead; auto. Qed.

Lemma concat_lrows A (a : nd A) : wf a -> shp a <> [] -> concat (lrows a) = dat a.
Proof. intros Hw Hs. apply concat_chunks. rewrite Hw. apply size_lead; auto. Qed.

Lemma nth_error_lrows A (a : nd A) i : wf a -> shp a <> [] ->
  nth_error (lrows a) i =
  if Nat.ltb i (size (lead (shp a)))
  then Some (firstn (lastd (shp a)) (skipn (i * lastd (shp a)) (dat a))) else None.
Proof. intros. unfold lrows. apply nth_error_chunks. Qed.

Lemma lrows_map1 A B (f : A -> B) a : lrows (map1 f a) = map (map f) (lrows a).
Proof. unfold lrows, map1; simpl. rewrite map_chunks. reflexivity. Qed.

(** * broadcasting *)
Lemma bshape_rev_refl s : bshape_rev s s = Some s.
Proof. induction s as [|a s IH]; simpl; auto. rewrite IH, Nat.eqb_refl. auto. Qed.

Lemma bshape_refl s : bshape s s = Some s.
Proof. unfold bshape. rewrite bshape_rev_refl. simpl. rewrite rev_involutive. auto. Qed.

Lemma bpos_rev_same s j : j < size s -> bpos_rev s s j = j.
Proof.
  revert j; induction s as [|a s IH]; intros j H; simpl in *.
  - unfold size in H; simpl in H. lia.
  - change (size (a :: s)) with (a * size s) in H.
    assert (Ha : a <> 0) by (intro; subst; simpl in H; lia).
    assert (Hj : j / a < size s) by (apply Nat.div_lt_upper_bound; lia).
    rewrite IH by exact Hj.
    destruct (Nat.eqb_spec a 1) as [->|Hn].
    + rewrite Nat.div_1_r. lia.
    + rewrite (Nat.div_mod j a) at 3 by exact Ha. lia.
Qed.

Lemma bget_same A (a : nd A) j d : j < size (shp a) -> bget a (shp a) j d = nth j (dat a) d.
Proof. intro H. unfold bget. rewrite bpos_rev_same; auto. rewrite size_rev; auto. Qed.

Lemma bto_same A (d : A) v : wf v -> bto d (shp v) v = Ok (dat v).
Proof.
  intro Hw. unfold bto. rewrite Nat.sub_diag. simpl.
  rewrite bshape_refl, shape_eqb_refl.
  f_equal. apply nth_error_ext; intro i. rewrite nth_error_map, nth_error_seq.
  destruct (Nat.ltb_spec i (size (shp v))).
  - simpl. change (mk (shp v) (dat v)) with (mk (shp v) (dat v)).
    assert (E : bget (mk (shp v) (dat v)) (shp v) i d = nth i (dat v) d)
      by (apply (bget_same (mk (shp v) (dat v))); exact H).
    rewrite E. symmetry. apply nth_error_nth'. rewrite Hw; auto.
  - symmetry. apply nth_error_None. rewrite Hw; auto.
Qed.

Lemma bin_same A B C (f : A -> B -> C) da db a b :
  shp a = shp b -> wf a -> wf b ->
  bin f da db a b = Ok (mk (shp a) (zip f (dat a) (dat b))).
Proof.
  intros Hs Ha Hb. unfold bin. rewrite <- Hs, bshape_refl. do 2 f_equal.
  apply nth_error_ext; intro i. rewrite nth_error_map, nth_error_seq, nth_error_zip.
  destruct (Nat.ltb_spec i (size (shp a))) as [H|H]; simpl.
  - rewrite bget_same by exact H. rewrite Hs in *. rewrite bget_same by exact H.
    rewrite (nth_error_nth' (dat a) da) by (rewrite Ha, Hs; exact H).
    rewrite (nth_error_nth' (dat b) db) by (rewrite Hb; exact H). reflexivity.
  - assert (E : nth_error (dat a) i = None) by (apply nth_error_None; rewrite Ha; auto).
    rewrite E. reflexivity.
Qed.

(** array op scalar *)
Lemma bpos_rev_nil o j : bpos_rev [] o j = 0.
Proof. reflexivity. Qed.
Lemma bshape_nil_r s : bshape s [] = Some s.
Proof. unfold bshape. simpl. destruct (rev s) eqn:E; simpl; rewrite <- ?E.
  - apply (f_equal (@rev nat)) in E. rewrite rev_involutive in E. subst; auto.
  - change (n :: l) with (n :: l). rewrite <- (rev_involutive s), E. reflexivity.
Qed.
Lemma bshape_nil_l s : bshape [] s = Some s.
Proof. unfold bshape. simpl. rewrite rev_involutive. reflexivity. Qed.

Lemma bin_scal_r A B C (f : A -> B -> C) da db a y :
  wf a -> bin f da db a (scal y) = Ok (mk (shp a) (map (fun x => f x y) (dat a))).
Proof.
  intro Ha. unfold bin, scal; simpl. rewrite bshape_nil_r. do 2 f_equal.
  apply nth_error_ext; intro i. rewrite !nth_error_map, nth_error_seq.
  destruct (Nat.ltb_spec i (size (shp a))) as [H|H]; simpl.
  - rewrite bget_same by exact H. unfold bget at 1; simpl.
    rewrite (nth_error_nth' (dat a) da) by (rewrite Ha; exact H). reflexivity.
  - assert (E : nth_error (dat a) i = None) by (apply nth_error_None; rewrite Ha; auto).
    rewrite E. reflexivity.
Qed.

Lemma bto_scal A (d : A) o x : bto d o (scal x) = Ok (repeat x (size o)).
Proof.
  unfold bto, scal. cbn [shp dat length].
  replace (strip1 (0 - length o) []) with (@nil nat) by reflexivity.
  rewrite bshape_nil_l, shape_eqb_refl. f_equal.
  apply nth_error_ext; intro i. rewrite nth_error_map, nth_error_seq, nth_error_repeat.
  destruct (i <? size o); reflexivity.
Qed.

(** * a[..., k] and a[..., k] = v, by flat position *)
Lemma get_last_ok A k (d : A) a : wf a -> k < lastd (shp a) ->
  exists b, get_last k d a = Ok b /\ shp b = lead (shp a) /\ wf b /\
    forall i, i < size (lead (shp a)) ->
      nth_error (dat b) i = nth_error (dat a) (i * lastd (shp a) + k).
Proof.
  intros Hw Hk. unfold get_last.
  assert (Hs : shp a <> []) by (intro E; rewrite E in Hk; simpl in Hk; unfold lastd in Hk; simpl in Hk; lia).
  destruct (shp a) as [|s0 ss] eqn:Es; [congruence|]. rewrite <- Es in *.
  apply Nat.ltb_lt in Hk as Hk'. rewrite Hk'.
  eexists; split; [reflexivity|]. simpl. split; [reflexivity|]. split.
  - unfold wf; simpl. rewrite map_length. apply lrows_length.
  - intros i Hi. rewrite nth_error_map. rewrite nth_error_lrows by auto.
    apply Nat.ltb_lt in Hi as Hi'. rewrite Hi'. simpl.
    assert (Hlen : length (dat a) = size (lead (shp a)) * lastd (shp a))
      by (rewrite Hw; apply size_lead; auto).
    rewrite <- nth_error_nth' by
      (rewrite firstn_length, skipn_length, Hlen; nia).
    rewrite nth_error_firstn, Hk', nth_error_skipn. f_equal.
Qed.

Lemma get_last_err A k (d : A) a : (shp a = [] \/ lastd (shp a) <= k) -> get_last k d a = Raise IndexError.
Proof.
  intros H. unfold get_last. destruct (shp a) eqn:E; auto.
  destruct H as [H|H]; [discriminate|]. apply Nat.ltb_ge in H. rewrite H; auto.
Qed.

Lemma set_last_ok A k (d : A) v a : wf a -> wf v -> shp a <> [] -> shp v = lead (shp a) -> k < lastd (shp a) ->
  exists b, set_last k d v a = Ok b /\ shp b = shp a /\ wf b /\
    forall j, j < size (shp a) ->
      nth_error (dat b) j =
      if Nat.eqb (j mod lastd (shp a)) k then nth_error (dat v) (j / lastd (shp a))
      else nth_error (dat a) j.
Proof.
  intros Hw Hv Hs Hsv Hk. unfold set_last.
  destruct (shp a) as [|s0 ss] eqn:Es; [congruence|]. rewrite <- Es in *.
  apply Nat.ltb_lt in Hk as Hk'. rewrite Hk', <- Hsv, bto_same by auto. simpl.
  assert (Hlen : length (dat a) = size (lead (shp a)) * lastd (shp a))
    by (rewrite Hw; apply size_lead; auto).
  assert (Hrows : forall r, In r (zip (fun r x => upd k x r) (lrows a) (dat v)) -> length r = lastd (shp a)).
  { intros r Hr. apply In_nth_error in Hr as [i Hi]. rewrite nth_error_zip in Hi.
    destruct (nth_error (lrows a) i) as [r0|] eqn:E0; [|discriminate].
    destruct (nth_error (dat v) i); [|discriminate]. injection Hi as <-.
    rewrite length_upd. eapply lrows_row_length; eauto. eapply nth_error_In; eauto. }
  eexists; split; [reflexivity|]. simpl. split; [reflexivity|]. split.
  - unfold wf; simpl. rewrite (length_concat_const _ Hrows), length_zip, lrows_length, Hv, Hsv, Nat.min_id.
    symmetry; apply size_lead; auto.
  - intros j Hj. set (m := lastd (shp a)) in *.
    assert (Hm : 0 < m) by lia.
    rewrite (@nth_error_concat_flat A m _ j Hrows Hm), nth_error_zip, nth_error_lrows by auto.
    assert (Hq : j / m < size (lead (shp a))).
    { apply Nat.div_lt_upper_bound; [lia|]. rewrite size_lead in Hj by auto. fold m in Hj. lia. }
    apply Nat.ltb_lt in Hq as Hq'. rewrite Hq'. fold m.
    assert (Hvl : j / m < length (dat v)) by (rewrite Hv, Hsv; exact Hq).
    destruct (nth_error (dat v) (j / m)) as [x|] eqn:Ev; [|apply nth_error_None in Ev; lia].
    rewrite nth_error_upd.
    assert (Hmod : j mod m < m) by (apply Nat.mod_upper_bound; lia).
    rewrite nth_error_firstn. apply Nat.ltb_lt in Hmod as Hmod'. rewrite Hmod', nth_error_skipn.
    rewrite <- (div_mod_idx j Hm).
    destruct (j mod m =? k); auto.
    destruct (nth_error (dat a) j) eqn:Ej; auto.
    exfalso. apply nth_error_None in Ej. rewrite Hw in Ej. lia.
Qed.

Lemma nth_error_map1 A B (f : A -> B) a i : nth_error (dat (map1 f a)) i = option_map f (nth_error (dat a) i).
Proof. unfold map1; simpl. apply nth_error_map. Qed.

Lemma nth_error_lt A (l : list A) i : i < length l -> exists x, nth_error l i = Some x.
Proof. intro H. destruct (nth_error l i) eqn:E; eauto. apply nth_error_None in E. lia. Qed.
