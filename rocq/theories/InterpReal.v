(** Lemmas about sorting, np.unique and the trapezoid rule (Interp.v), mostly over the reals. *)
From Coq Require Import List Arith Lia Bool Reals Lra Sorting.Sorted Sorting.Permutation QArith Qreals.
From Verif Require Import Base BaseLemmas Num Interp.
Import ListNotations.

(** * Sorting, any arithmetic *)
Section AnyNum.
  Context {T : Type} {N : Num T}.
  Lemma insert_perm {A} (key : A -> T) x l : Permutation (insert key x l) (x :: l).
  Proof.
    induction l as [|y r IH]; cbn [insert]; auto. destruct (nltb (key y) (key x)); auto.
    rewrite IH. apply perm_swap.
  Qed.
  Lemma isort_perm {A} (key : A -> T) l : Permutation (isort key l) l.
  Proof.
    induction l as [|x r IH]; cbn [isort]; auto. rewrite insert_perm. auto.
  Qed.
  Lemma isort_length {A} (key : A -> T) l : length (isort key l) = length l.
  Proof. apply Permutation_length, isort_perm. Qed.
  Lemma insert_map {A B} (f : A -> B) (key : B -> T) x l :
    map f (insert (fun a => key (f a)) x l) = insert key (f x) (map f l).
  Proof.
    induction l as [|y r IH]; cbn [insert map]; auto. destruct (nltb _ _); cbn [map]; congruence.
  Qed.
  Lemma isort_map {A B} (f : A -> B) (key : B -> T) l :
    map f (isort (fun a => key (f a)) l) = isort key (map f l).
  Proof. induction l as [|x r IH]; cbn [isort map]; auto. rewrite insert_map, IH. reflexivity. Qed.

  Lemma map_fst_combine {A B} (l : list A) : forall m : list B, length l = length m -> map fst (combine l m) = l.
  Proof. induction l; intros [|y m] H; cbn in *; try lia; auto. f_equal; auto. Qed.
  Lemma map_snd_combine {A B} (l : list A) : forall m : list B, length l = length m -> map snd (combine l m) = m.
  Proof. induction l; intros [|y m] H; cbn in *; try lia; auto. f_equal; auto. Qed.

  Lemma argsort_perm l : Permutation (argsort l) (seq 0 (length l)).
  Proof.
    unfold argsort. rewrite (Permutation_map snd (isort_perm fst _)).
    rewrite map_snd_combine by (rewrite seq_length; auto). apply Permutation_refl.
  Qed.
  Lemma argsort_length l : length (argsort l) = length l.
  Proof. rewrite (Permutation_length (argsort_perm l)), seq_length. reflexivity. Qed.
  Lemma argsort_lt l k : In k (argsort l) -> (k < length l)%nat.
  Proof. intro H. apply (Permutation_in _ (argsort_perm l)), in_seq in H. lia. Qed.

  (** Sorting pairs through argsort is sorting the pairs. *)
  Lemma argsort_pairs (w y : list T) (d : T) : length y = length w ->
    map (fun k => (nth k w d, nth k y d)) (argsort w) = isort fst (combine w y).
  Proof.
    intro H. unfold argsort. rewrite map_map.
    set (g := fun p : T * nat => (nth (snd p) w d, nth (snd p) y d)).
    change (fun x : T * nat => (nth (snd x) w d, nth (snd x) y d)) with g.
    assert (E : isort (fun p : T * nat => fst (g p)) (combine w (seq 0 (length w))) =
                isort fst (combine w (seq 0 (length w)))).
    { assert (Hk : forall p, In p (combine w (seq 0 (length w))) -> fst (g p) = fst p).
      { intros [a k] Hp. unfold g; cbn [fst snd].
        apply In_nth_error in Hp as [i Hi]. 
        assert (Hc : forall (l : list T) (m : list nat) i, nth_error (combine l m) i =
          match nth_error l i, nth_error m i with Some a, Some b => Some (a,b) | _, _ => None end).
        { induction l as [|x l IHl]; intros [|z m] [|j]; cbn; auto. destruct (nth_error l j); auto. }
        rewrite Hc, nth_error_seq in Hi. destruct (nth_error w i) eqn:Ew; [|discriminate].
        destruct (Nat.ltb_spec i (length w)); [|discriminate]. injection Hi as <- <-.
        cbn. apply nth_error_nth. exact Ew. }
      revert Hk. generalize (combine w (seq 0 (length w))). induction l as [|p l IHl]; intro Hk; cbn [isort]; auto.
      rewrite IHl by (intros; apply Hk; right; auto).
      assert (Hp : fst (g p) = fst p) by (apply Hk; left; auto).
      assert (Hl : forall q, In q (isort fst l) -> fst (g q) = fst q).
      { intros q Hq. apply Hk. right. apply (Permutation_in _ (isort_perm fst l)). auto. }
      revert Hl. generalize (isort fst l). induction l0 as [|q r IHr]; intro Hl; cbn [insert]; auto.
      rewrite Hp, (Hl q) by (left; auto). destruct (nltb _ _); auto. f_equal. apply IHr.
      intros; apply Hl; right; auto. }
    rewrite <- E, isort_map. f_equal.
    unfold g. clear E. apply nth_error_ext. intro i.
    assert (Hc : forall (A B : Type) (l : list A) (m : list B) i, nth_error (combine l m) i =
          match nth_error l i, nth_error m i with Some a, Some b => Some (a,b) | _, _ => None end).
    { induction l as [|x l IHl]; intros [|z m] [|j]; cbn; auto. destruct (nth_error l j); auto. }
    rewrite nth_error_map, !Hc, nth_error_seq. cbn [option_map].
    destruct (nth_error w i) as [a|] eqn:Ew; [|reflexivity].
    assert (Hi : (i < length w)%nat) by (apply nth_error_Some; congruence).
    apply Nat.ltb_lt in Hi as Hi'. rewrite Hi'. cbn [option_map snd Nat.add].
    rewrite (nth_error_nth' y d) by lia. rewrite (nth_error_nth _ _ d Ew). reflexivity.
  Qed.
End AnyNum.

Local Open Scope R_scope.

(** * Sorting over the reals *)
Lemma insert_sorted {A} (key : A -> R) x l :
  StronglySorted (fun a b => key a <= key b) l -> StronglySorted (fun a b => key a <= key b) (insert key x l).
Proof.
  induction 1 as [|y r Hr IH Hf]; cbn [insert].
  - repeat constructor.
  - rcbn. destruct (Rltb (key y) (key x)) eqn:E.
    + apply Rltb_iff in E. constructor; auto.
      rewrite Forall_forall in *. intros z Hz. apply (Permutation_in _ (insert_perm key x r)) in Hz.
      destruct Hz as [<-|Hz]; [lra|auto].
    + apply Rltb_niff in E. constructor; [constructor; auto|]. constructor; auto.
      rewrite Forall_forall in *. intros z Hz. specialize (Hf z Hz). lra.
Qed.
Lemma isort_sorted {A} (key : A -> R) l : StronglySorted (fun a b => key a <= key b) (isort key l).
Proof. induction l; cbn [isort]; [constructor|]. apply insert_sorted; auto. Qed.

Lemma same_iff a b : same a b = true <-> a = b.
Proof.
  unfold same. rcbn. rewrite andb_true_iff, !negb_true_iff, !Rltb_niff. split; intro; subst; lra.
Qed.

Lemma dedup_cons x y r : dedup (x :: y :: r) = if same x y then dedup (y :: r) else x :: dedup (y :: r).
Proof. reflexivity. Qed.

Lemma dedup_in (l : list R) : forall t, In t (dedup l) <-> In t l.
Proof.
  induction l as [|x r IH]; intro t; [reflexivity|]. destruct r as [|y r]; [reflexivity|].
  rewrite dedup_cons. destruct (same x y) eqn:E.
  - apply same_iff in E. subst. rewrite IH. cbn. tauto.
  - cbn [In]. rewrite IH. reflexivity.
Qed.
Lemma dedup_sorted (l : list R) : StronglySorted Rle l -> StronglySorted Rlt (dedup l).
Proof.
  induction 1 as [|x r Hr IH Hf]; [constructor|]. destruct r as [|y r]; [repeat constructor|].
  rewrite dedup_cons. destruct (same x y) eqn:E; auto.
  constructor; auto. rewrite Forall_forall. intros t Ht. apply (proj1 (dedup_in (y :: r) t)) in Ht.
  assert (Hxy : x <> y) by (intro; subst; rewrite (proj2 (same_iff y y) eq_refl) in E; discriminate).
  apply Forall_inv in Hf as Hy. inversion Hr as [|? ? Hr' Hf']; subst.
  destruct Ht as [<-|Ht]; [lra|]. rewrite Forall_forall in Hf'. specialize (Hf' t Ht). lra.
Qed.

Lemma unique_in (l : list R) t : In t (unique l) <-> In t l.
Proof.
  unfold unique. rewrite dedup_in. split; apply Permutation_in; [|apply Permutation_sym]; apply isort_perm.
Qed.
Lemma unique_sorted (l : list R) : StronglySorted Rlt (unique l).
Proof. unfold unique. apply dedup_sorted. apply (isort_sorted (fun x => x)). Qed.

Lemma sorted_ext (l m : list R) :
  StronglySorted Rlt l -> StronglySorted Rlt m -> (forall t, In t l <-> In t m) -> l = m.
Proof.
  intro Hl. revert m. induction Hl as [|x l Hl IH Hf]; intros m Hm H.
  - destruct m as [|y m]; auto. exfalso. apply (proj2 (H y)). left; auto.
  - destruct m as [|y m]. { exfalso. apply (proj1 (H x)). left; auto. }
    inversion Hm as [|? ? Hm' Hf']; subst.
    assert (Hxy : x = y).
    { rewrite Forall_forall in Hf, Hf'.
      destruct (proj1 (H x) (or_introl eq_refl)) as [?|Hx]; auto.
      destruct (proj2 (H y) (or_introl eq_refl)) as [?|Hy]; auto.
      specialize (Hf y Hy). specialize (Hf' x Hx). lra. }
    subst y. f_equal. apply IH; auto. intro t. specialize (H t). cbn [In] in H.
    rewrite Forall_forall in Hf, Hf'. split; intro Ht.
    + destruct (proj1 H (or_intror Ht)) as [<-|]; auto. specialize (Hf _ Ht). lra.
    + destruct (proj2 H (or_intror Ht)) as [<-|]; auto. specialize (Hf' _ Ht). lra.
Qed.

(** * Trapezoid rule over the reals *)
Lemma q2 : Q2R 2 = 2. Proof. unfold Q2R; simpl; lra. Qed.

Lemma fold_add_acc (l : list R) : forall a, fold_left Rplus l a = a + fold_left Rplus l 0.
Proof.
  induction l as [|x l IH]; intro a; cbn [fold_left]; [lra|].
  rewrite (IH (a + x)), (IH (0 + x)). lra.
Qed.
Lemma nsum_cons (x : R) l : nsum (x :: l) = x + nsum l.
Proof. unfold nsum. rcbn. cbn [fold_left]. rewrite fold_add_acc. lra. Qed.
Lemma nsum_nil : nsum (@nil R) = 0. Proof. reflexivity. Qed.

Lemma trapz_cons2 (y0 y1 : R) y (x0 x1 : R) x :
  trapz (y0 :: y1 :: y) (x0 :: x1 :: x) = (x1 - x0) * (y1 + y0) / 2 + trapz (y1 :: y) (x1 :: x).
Proof. unfold trapz. cbn [trapz_terms]. rewrite nsum_cons. rcbn. rewrite q2. reflexivity. Qed.
Lemma trapz_1 (y0 : R) x : trapz [y0] x = 0.
Proof. unfold trapz. destruct x; reflexivity. Qed.
Lemma trapz_nil (x : list R) : trapz [] x = 0. Proof. reflexivity. Qed.

(** Summation by parts: the swapped call is the boundary term minus the proper one. *)
Lemma trapz_swap (x y : list R) : length x = length y -> x <> [] ->
  trapz x y + trapz y x = last x 0 * last y 0 - hd 0 x * hd 0 y.
Proof.
  revert y. induction x as [|x0 x IH]; intros [|y0 y] Hl Hn; try discriminate; [contradiction|].
  destruct x as [|x1 x], y as [|y1 y]; try discriminate.
  - rewrite !trapz_1. cbn. lra.
  - rewrite !trapz_cons2. specialize (IH (y1 :: y)).
    change (last (x0 :: x1 :: x) 0) with (last (x1 :: x) 0).
    change (last (y0 :: y1 :: y) 0) with (last (y1 :: y) 0).
    cbn [hd] in *. injection Hl as Hl. assert (IH' := IH (f_equal S Hl) ltac:(discriminate)). clear IH. nra.
Qed.

Lemma trapz_lin (a b : R) (y z : list R) : length y = length z -> forall x,
  trapz (zip (fun u v => a * u + b * v) y z) x = a * trapz y x + b * trapz z x.
Proof.
  revert z. induction y as [|y0 y IH]; intros [|z0 z] Hl x; try discriminate.
  - cbn [zip]. rewrite !trapz_nil. lra.
  - destruct y as [|y1 y], z as [|z1 z]; try discriminate; cbn [zip].
    + rewrite !trapz_1. lra.
    + destruct x as [|x0 [|x1 x]]; try (unfold trapz; cbn [trapz_terms]; rewrite ?nsum_nil; lra).
      rewrite !trapz_cons2. injection Hl as Hl.
      specialize (IH (z1 :: z) (f_equal S Hl) (x1 :: x)). cbn [zip] in IH. rewrite IH. lra.
Qed.

(** The same in the second argument. *)
Lemma trapz_lin2 (a b : R) (y z : list R) : length y = length z -> forall x,
  trapz x (zip (fun u v => a * u + b * v) y z) = a * trapz x y + b * trapz x z.
Proof.
  revert z. induction y as [|y0 y IH]; intros [|z0 z] Hl x; try discriminate.
  - cbn [zip]. assert (E : trapz x (@nil R) = 0) by (destruct x as [|? [|]]; reflexivity). rewrite E. lra.
  - destruct y as [|y1 y], z as [|z1 z]; try discriminate; cbn [zip].
    + assert (E : forall u, trapz x [u] = 0) by (intro; destruct x as [|? [|]]; reflexivity). rewrite !E. lra.
    + destruct x as [|x0 [|x1 x]]; try (unfold trapz; cbn [trapz_terms]; rewrite ?nsum_nil; lra).
      rewrite !trapz_cons2. injection Hl as Hl.
      specialize (IH (z1 :: z) (f_equal S Hl) (x1 :: x)). cbn [zip] in IH. rewrite IH. lra.
Qed.

Lemma trapz_nonneg (f : R -> R) (x : list R) : StronglySorted Rlt x ->
  (forall t, In t x -> 0 <= f t) -> 0 <= trapz (map f x) x.
Proof.
  induction 1 as [|x0 x Hx IH Hf]; intro H; [rewrite trapz_nil; lra|].
  destruct x as [|x1 x]; [cbn [map]; rewrite trapz_1; lra|]. cbn [map]. rewrite trapz_cons2.
  apply Forall_inv in Hf. assert (0 <= f x0) by (apply H; left; auto).
  assert (0 <= f x1) by (apply H; right; left; auto).
  assert (0 <= trapz (map f (x1 :: x)) (x1 :: x)) by (apply IH; intros; apply H; right; auto).
  cbn [map] in *. assert (0 <= (x1 - x0) * (f x1 + f x0)) by (apply Rmult_le_pos; lra). lra.
Qed.

(** Strict: some sample is positive and there are at least two samples. *)
Lemma trapz_pos (f : R -> R) (x : list R) : StronglySorted Rlt x -> (2 <= length x)%nat ->
  (forall t, In t x -> 0 <= f t) -> (exists t, In t x /\ 0 < f t) -> 0 < trapz (map f x) x.
Proof.
  induction 1 as [|x0 x Hx IH Hf]; intros Hl H (t & Ht & Hp); [cbn in Hl; lia|].
  destruct x as [|x1 x]; [cbn in Hl; lia|]. cbn [map]. rewrite trapz_cons2.
  apply Forall_inv in Hf. assert (H0 : 0 <= f x0) by (apply H; left; auto).
  assert (H1 : 0 <= f x1) by (apply H; right; left; auto).
  assert (Hr : 0 <= trapz (map f (x1 :: x)) (x1 :: x)) by (apply trapz_nonneg; auto; intros; apply H; right; auto).
  cbn [map] in Hr.
  assert (Hq : 0 <= (x1 - x0) * (f x1 + f x0)) by (apply Rmult_le_pos; lra).
  destruct Ht as [->|Ht].
  - assert (0 < (x1 - t) * (f x1 + f t)) by (apply Rmult_lt_0_compat; lra). lra.
  - destruct (Req_dec t x1) as [->|Hne].
    + assert (0 < (x1 - x0) * (f x1 + f x0)) by (apply Rmult_lt_0_compat; lra). lra.
    + destruct Ht as [->|Ht]; [contradiction|]. destruct x as [|x2 x]; [contradiction|].
      assert (0 < trapz (map f (x1 :: x2 :: x)) (x1 :: x2 :: x)).
      { apply IH; [cbn; lia| |]. - intros; apply H; right; auto. - exists t. split; auto. right; auto. }
      cbn [map] in *. lra.
Qed.

(** Comparing two integrands. *)
Lemma trapz_le (f g : R -> R) (x : list R) : StronglySorted Rlt x ->
  (forall t, In t x -> f t <= g t) -> trapz (map f x) x <= trapz (map g x) x.
Proof.
  induction 1 as [|x0 x Hx IH Hf]; intro H; [rewrite !trapz_nil; lra|].
  destruct x as [|x1 x]; [cbn [map]; rewrite !trapz_1; lra|]. cbn [map]. rewrite !trapz_cons2.
  apply Forall_inv in Hf. assert (f x0 <= g x0) by (apply H; left; auto).
  assert (f x1 <= g x1) by (apply H; right; left; auto).
  assert (trapz (map f (x1 :: x)) (x1 :: x) <= trapz (map g (x1 :: x)) (x1 :: x)) by (apply IH; intros; apply H; right; auto).
  cbn [map] in *.
  assert ((x1 - x0) * (f x1 + f x0) <= (x1 - x0) * (g x1 + g x0)) by (apply Rmult_le_compat_l; lra). lra.
Qed.

Lemma trapz_scale (c : R) (f : R -> R) (x : list R) : trapz (map (fun t => c * f t) x) x = c * trapz (map f x) x.
Proof.
  assert (E : map (fun t => c * f t) x = zip (fun u v => c * u + 0 * v) (map f x) (map f x)).
  { rewrite zip_map_l, zip_map_r, zip_same. apply map_ext. intro. lra. }
  rewrite E, trapz_lin by reflexivity. lra.
Qed.
