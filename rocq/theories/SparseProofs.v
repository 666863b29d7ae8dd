(** Facts for C102: nonnegative coefficients can be replaced by few of them (Caratheodory's theorem for cones). *)
From Coq Require Import List Arith Bool Reals Lra Lia.
From Verif Require Import Base BaseLemmas FitSpec FitReal SparseSpec.
Import ListNotations.
Local Open Scope R_scope.

(** * Sums over indices *)
Definition sm (l : list nat) (f : nat -> R) : R := fold_right Rplus 0 (map f l).
Lemma sm_ext l f g : (forall i, In i l -> f i = g i) -> sm l f = sm l g.
Proof. induction l as [|a l IH]; intro H; [reflexivity|]. unfold sm in *. cbn. rewrite IH; [|intros; apply H; right; auto]. rewrite (H a); [auto|left; auto]. Qed.
Lemma sm_lin l a b f g : sm l (fun i => a * f i + b * g i) = a * sm l f + b * sm l g.
Proof. induction l as [|x l IH]; unfold sm in *; cbn; [ring|rewrite IH; ring]. Qed.
Lemma sm_zero l f : (forall i, In i l -> f i = 0) -> sm l f = 0.
Proof. induction l as [|x l IH]; intro H; [reflexivity|]. unfold sm in *. cbn. rewrite IH; [|intros; apply H; right; auto]. rewrite (H x); [ring|left; auto]. Qed.
Lemma sm_one l k f : NoDup l -> In k l -> sm l (fun i => f i * (if Nat.eqb i k then 1 else 0)) = f k.
Proof.
  induction l as [|x l IH]; intros ND H; [destruct H|]. inversion ND as [|? ? Nx Nl]; subst. unfold sm in *. cbn.
  destruct (Nat.eqb_spec x k) as [->|E].
  - fold (sm l (fun i => f i * (if Nat.eqb i k then 1 else 0))). rewrite sm_zero; [ring|].
    intros i Hi. destruct (Nat.eqb_spec i k); [subst; contradiction|ring].
  - destruct H as [H|H]; [contradiction|]. rewrite (IH Nl H). ring.
Qed.

(** * More unknowns than equations *)
Lemma filter_split (S : nat -> bool) k : forall l, NoDup l -> In k l -> S k = true ->
  length (filter S l) = Datatypes.S (length (filter (fun i => S i && negb (Nat.eqb i k)) l)).
Proof.
  induction l as [|x l IH]; intros ND H HS; [destruct H|]. inversion ND as [|? ? Nx Nl]; subst. cbn.
  destruct (Nat.eqb_spec x k) as [->|E].
  - rewrite HS. cbn. f_equal. f_equal. clear IH ND H Nl. induction l as [|y l IH]; [reflexivity|]. cbn.
    destruct (Nat.eqb_spec y k) as [->|]; [exfalso; apply Nx; left; auto|]. rewrite andb_true_r, IH; auto. intro; apply Nx; right; auto.
  - rewrite andb_true_r. destruct H as [H|H]; [contradiction|]. destruct (S x); cbn; rewrite (IH Nl H HS); auto.
Qed.
Lemma dependent l : NoDup l -> forall (M : list (nat -> R)) (S : nat -> bool), (length M < length (filter S l))%nat ->
  exists d, (forall i, S i = false -> d i = 0) /\ (exists i, In i l /\ d i <> 0) /\ forall r, In r M -> sm l (fun i => r i * d i) = 0.
Proof.
  intros ND M. remember (length M) as m eqn:Lm. revert M Lm.
  induction m as [|m IH]; intros M Lm S HS.
  - destruct M; [|discriminate]. destruct (filter S l) as [|k l'] eqn:E; [cbn in HS; lia|].
    assert (Hk : In k (filter S l)) by (rewrite E; left; auto). apply filter_In in Hk as [Hk1 Hk2].
    exists (fun i => if Nat.eqb i k then 1 else 0). split; [|split].
    + intros i Hi. destruct (Nat.eqb_spec i k); [subst; congruence|auto].
    + exists k. rewrite Nat.eqb_refl. split; [auto|lra].
    + intros r [].
  - destruct M as [|r M]; [discriminate|]. cbn in Lm. injection Lm as Lm.
    destruct (existsb (fun k => S k && if Req_EM_T (r k) 0 then false else true) l) eqn:E.
    + apply existsb_exists in E as (k & Hk & E). apply andb_true_iff in E as [Sk E]. destruct (Req_EM_T (r k) 0) as [|Rk]; [discriminate|].
      destruct (IH (map (fun q i => q i - q k / r k * r i) M) ltac:(rewrite map_length; auto) (fun i => S i && negb (Nat.eqb i k))) as (d & D1 & (j & Hj & Dj) & D3).
      { rewrite (filter_split S k l ND Hk Sk) in HS. lia. }
      assert (Dk : d k = 0) by (apply D1; rewrite Nat.eqb_refl, andb_false_r; auto).
      set (a := - (sm l (fun i => r i * d i)) / r k).
      assert (EX : forall q, sm l (fun i => q i * (d i + a * (if Nat.eqb i k then 1 else 0))) = sm l (fun i => q i * d i) + a * q k).
      { intro q. rewrite <- (sm_one l k q ND Hk) at 1. rewrite (sm_ext l _ (fun i => 1 * (q i * d i) + a * (q i * (if Nat.eqb i k then 1 else 0)))) by (intros; ring).
        rewrite sm_lin. ring. }
      exists (fun i => d i + a * (if Nat.eqb i k then 1 else 0)). split; [|split].
      * intros i Hi. rewrite D1 by (rewrite Hi; auto). destruct (Nat.eqb_spec i k); [subst; congruence|ring].
      * exists j. split; auto. destruct (Nat.eqb_spec j k); [subst; contradiction|]. rewrite Rmult_0_r, Rplus_0_r. auto.
      * intros q [<-|Hq]; rewrite EX.
        -- unfold a. field. auto.
        -- specialize (D3 _ (in_map _ _ _ Hq)). cbn in D3.
           rewrite (sm_ext l _ (fun i => 1 * (q i * d i) + (- (q k / r k)) * (r i * d i))) in D3 by (intros; ring).
           rewrite sm_lin in D3. unfold a. transitivity (1 * sm l (fun i => q i * d i) + - (q k / r k) * sm l (fun i => r i * d i)); [field; auto|auto].
    + destruct (IH M Lm S ltac:(lia)) as (d & D1 & D2 & D3). exists d. split; [|split]; auto.
      intros q [<-|Hq]; auto. apply sm_zero. intros i Hi.
      destruct (S i) eqn:Si; [|rewrite D1 by auto; ring].
      destruct (Req_EM_T (r i) 0) as [->|Ri]; [ring|]. exfalso.
      assert (T : existsb (fun k => S k && if Req_EM_T (r k) 0 then false else true) l = true).
      { apply existsb_exists. exists i. split; auto. rewrite Si. destruct (Req_EM_T (r i) 0); [contradiction|auto]. }
      congruence.
Qed.

(** * Fewer nonzero coefficients *)
Definition nz (c : nat -> R) (i : nat) : bool := if Req_EM_T (c i) 0 then false else true.
Lemma nz_true c i : nz c i = true <-> c i <> 0.
Proof. unfold nz. destruct (Req_EM_T (c i) 0); split; intro H; auto; try discriminate; contradiction. Qed.
Lemma nz_false c i : nz c i = false <-> c i = 0.
Proof. unfold nz. destruct (Req_EM_T (c i) 0); split; intro H; auto; try discriminate; contradiction. Qed.
(** The first bound met along a direction. *)
Lemma first_met (c d : nat -> R) : (forall i, 0 <= c i) -> forall l, (exists i, In i l /\ 0 < d i) ->
  exists k, In k l /\ 0 < d k /\ forall i, In i l -> 0 <= c i - c k / d k * d i.
Proof.
  intro Hc. assert (Neg : forall t i, 0 <= t -> d i <= 0 -> 0 <= c i - t * d i).
  { intros t i Ht Hi. specialize (Hc i). assert (0 <= t * (- d i)) by (apply Rmult_le_pos; lra). lra. }
  assert (Pos : forall k, 0 < d k -> 0 <= c k / d k) by (intros; apply Rmult_le_pos; [auto|left; apply Rinv_0_lt_compat; auto]).
  induction l as [|x l IH]; intros (i & Hi & Di); [destruct Hi|].
  destruct (existsb (fun i => if Rlt_dec 0 (d i) then true else false) l) eqn:E.
  - apply existsb_exists in E as (j & Hj & E). destruct (Rlt_dec 0 (d j)) as [Dj|]; [|discriminate].
    destruct (IH (ex_intro _ j (conj Hj Dj))) as (k & Hk & Dk & K).
    destruct (Rlt_dec 0 (d x)) as [Dx|Dx].
    + destruct (Rle_dec (c k / d k) (c x / d x)) as [Q|Q].
      * exists k. split; [right; auto|]. split; auto. intros y [<-|Hy]; auto.
        assert (c k / d k * d x <= c x / d x * d x) by (apply Rmult_le_compat_r; lra).
        assert (c x / d x * d x = c x) by (field; lra). lra.
      * exists x. split; [left; auto|]. split; auto. intros y [<-|Hy]; [assert (c x / d x * d x = c x) by (field; lra); lra|].
        destruct (Rle_dec (d y) 0) as [Dy|Dy]; [apply Neg; auto|].
        assert (c x / d x * d y <= c k / d k * d y) by (apply Rmult_le_compat_r; lra). specialize (K y Hy). lra.
    + exists k. split; [right; auto|]. split; auto. intros y [<-|Hy]; auto. apply Neg; auto. lra.
  - assert (L : forall y, In y l -> d y <= 0).
    { intros y Hy. destruct (Rle_dec (d y) 0); auto. exfalso.
      assert (T : existsb (fun i => if Rlt_dec 0 (d i) then true else false) l = true).
      { apply existsb_exists. exists y. split; auto. destruct (Rlt_dec 0 (d y)); auto. lra. }
      congruence. }
    destruct Hi as [->|Hi]; [|specialize (L i Hi); lra].
    exists i. split; [left; auto|]. split; auto. intros y [<-|Hy]; [assert (c i / d i * d i = c i) by (field; lra); lra|apply Neg; auto].
Qed.
Lemma filter_fewer (P Q : nat -> bool) k : forall l, (forall i, P i = true -> Q i = true) -> In k l -> Q k = true -> P k = false ->
  (length (filter P l) < length (filter Q l))%nat.
Proof.
  induction l as [|x l IH]; intros H Hk Qk Pk; [destruct Hk|]. cbn.
  assert (Le : (length (filter P l) <= length (filter Q l))%nat).
  { clear - H. induction l as [|y l IH]; cbn; auto. destruct (P y) eqn:E; [rewrite (H y E); cbn; lia|]. destruct (Q y); cbn; lia. }
  destruct Hk as [->|Hk].
  - rewrite Qk, Pk. cbn. lia.
  - specialize (IH H Hk Qk Pk). destruct (P x) eqn:E; [rewrite (H x E); cbn; lia|]. destruct (Q x); cbn; lia.
Qed.
Lemma caratheodory l : NoDup l -> forall (M : list (nat -> R)) (c : nat -> R), (forall i, 0 <= c i) ->
  exists x : nat -> R, (forall i, 0 <= x i) /\ (forall i, c i = 0 -> x i = 0) /\ (length (filter (nz x) l) <= length M)%nat /\
    forall r, In r M -> sm l (fun i => r i * x i) = sm l (fun i => r i * c i).
Proof.
  intros ND M c. remember (length (filter (nz c) l)) as m eqn:Em. revert c Em.
  induction m as [m IH] using lt_wf_ind. intros c Em Hc.
  destruct (le_lt_dec m (length M)) as [Hm|Hm]; [exists c; repeat split; auto; lia|].
  destruct (dependent l ND M (nz c) ltac:(lia)) as (d & D1 & D2 & D3).
  assert (exists d, (forall i, nz c i = false -> d i = 0) /\ (exists i, In i l /\ 0 < d i) /\ forall r, In r M -> sm l (fun i => r i * d i) = 0) as (e & E1 & E2 & E3).
  { destruct D2 as (i & Hi & Di). destruct (Rlt_dec 0 (d i)) as [P|P]; [exists d; split; auto; split; eauto|].
    exists (fun i => - d i). split; [|split].
    - intros j Hj. rewrite D1; auto; ring.
    - exists i. split; auto. lra.
    - intros r Hr. rewrite (sm_ext l _ (fun i => (-1) * (r i * d i) + 0 * 0)) by (intros; ring). rewrite sm_lin, D3 by auto. ring. }
  clear d D1 D2 D3. destruct (first_met c e Hc l E2) as (k & Hk & Dk & K).
  set (t := c k / e k) in *.
  set (x := fun i => if in_dec Nat.eq_dec i l then c i - t * e i else c i).
  assert (X1 : forall i, 0 <= x i) by (intro i; unfold x; destruct (in_dec Nat.eq_dec i l); auto).
  assert (X2 : forall i, c i = 0 -> x i = 0).
  { intros i Hi. unfold x. destruct (in_dec Nat.eq_dec i l); auto. rewrite (E1 i), Hi by (apply nz_false; auto). ring. }
  assert (Ck : c k <> 0) by (intro Q; rewrite (E1 k) in Dk by (apply nz_false; auto); lra).
  assert (Xk : x k = 0) by (unfold x; destruct (in_dec Nat.eq_dec k l); [unfold t; field; lra|contradiction]).
  assert (Lt : (length (filter (nz x) l) < m)%nat).
  { rewrite Em. apply (filter_fewer _ _ k); auto.
    - intros i Hi. apply nz_true in Hi. apply nz_true. intro Q. auto.
    - apply nz_true; auto.
    - apply nz_false; auto. }
  destruct (IH _ Lt x eq_refl X1) as (y & Y1 & Y2 & Y3 & Y4). exists y. split; [auto|]. split; [auto|]. split; [auto|].
  intros r Hr. rewrite (Y4 r Hr). rewrite (sm_ext l _ (fun i => 1 * (r i * c i) + (- t) * (r i * e i))).
  - rewrite sm_lin, (E3 r Hr). ring.
  - intros i Hi. unfold x. destruct (in_dec Nat.eq_dec i l); [ring|contradiction].
Qed.

(** * For lists *)
Lemma dot_sm : forall n (r c : list R), length r = n -> length c = n -> dot r c = sm (seq 0 n) (fun i => nth i r 0 * nth i c 0).
Proof.
  induction n as [|n IH]; intros r c Hr Hc.
  - destruct r; [|discriminate]. destruct c; [|discriminate]. reflexivity.
  - destruct r as [|a r]; [discriminate|]. destruct c as [|b c]; [discriminate|]. injection Hr as Hr. injection Hc as Hc.
    change (a * b + dot r c = a * b + sm (seq 1 n) (fun i => nth i (a :: r) 0 * nth i (b :: c) 0)). f_equal.
    rewrite (IH r c Hr Hc). unfold sm. rewrite <- seq_shift, map_map. reflexivity.
Qed.
Lemma used_nz : forall c, used c = length (filter (nz (fun i => nth i c 0)) (seq 0 (length c))).
Proof.
  induction c as [|a c IH]; [reflexivity|]. cbn [length seq filter]. rewrite <- seq_shift. unfold used in *. cbn [filter].
  assert (E : length (filter (nz (fun i => nth i (a :: c) 0)) (map S (seq 0 (length c)))) = length (filter (nz (fun i => nth i c 0)) (seq 0 (length c)))).
  { generalize (seq 0 (length c)). induction l as [|x l IL]; [reflexivity|]. cbn [map filter].
    change (nz (fun i => nth i (a :: c) 0) (S x)) with (nz (fun i => nth i c 0) x). destruct (nz (fun i => nth i c 0) x); cbn; auto. }
  change (nz (fun i => nth i (a :: c) 0) 0%nat) with (if Req_EM_T a 0 then false else true). destruct (Req_EM_T a 0); cbn [length]; rewrite E, IH; auto.
Qed.
Lemma nth_tab (f : nat -> R) n i : (i < n)%nat -> nth i (map f (seq 0 n)) 0 = f i.
Proof. intro H. rewrite (nth_indep _ 0 (f 0%nat)) by (rewrite map_length, seq_length; auto). rewrite map_nth, seq_nth; auto. Qed.
Lemma nonneg_nth c i : nonneg c -> 0 <= nth i c 0.
Proof. intro H. destruct (le_lt_dec (length c) i) as [L|L]; [rewrite nth_overflow by auto; lra|]. unfold nonneg in H. rewrite Forall_forall in H. apply H, nth_In; auto. Qed.
Lemma few (M : list (list R)) c n : rect n M -> length c = n -> nonneg c ->
  exists x, length x = n /\ nonneg x /\ within c x /\ (used x <= length M)%nat /\ mulmv M x = mulmv M c.
Proof.
  intros HM Lc Nc.
  destruct (caratheodory (seq 0 n) (seq_NoDup n 0) (map (fun r i => nth i r 0) M) (fun i => nth i c 0) (fun i => nonneg_nth c i Nc))
    as (x & X1 & X2 & X3 & X4).
  set (y := map x (seq 0 n)). assert (Ly : length y = n) by (unfold y; rewrite map_length, seq_length; auto).
  assert (Y : forall i, (i < n)%nat -> nth i y 0 = x i) by (intros; apply nth_tab; auto).
  exists y. split; auto. split; [|split; [|split]].
  - unfold y, nonneg. rewrite Forall_forall. intros v Hv. apply in_map_iff in Hv as (i & <- & _). auto.
  - intros i Hi. destruct (le_lt_dec n i); [rewrite nth_overflow; auto; lia|]. rewrite Y by auto. auto.
  - rewrite used_nz, Ly. rewrite map_length in X3.
    rewrite (filter_ext_in _ (nz x)); auto. intros i Hi. apply in_seq in Hi. unfold nz. rewrite Y by lia. reflexivity.
  - unfold mulmv. apply map_ext_in. intros r Hr. unfold rect in HM. rewrite Forall_forall in HM. specialize (HM r Hr).
    rewrite !(dot_sm n) by auto. specialize (X4 _ (in_map _ _ _ Hr)). cbn in X4. rewrite <- X4.
    apply sm_ext. intros i Hi. apply in_seq in Hi. rewrite Y by lia. reflexivity.
Qed.
(** Coefficients that no others with the same templates can cancel are no more than the equations. *)
Lemma few_basic (M : list (list R)) c n : rect n M -> length c = n ->
  (forall y, length y = n -> within c y -> (forall v, In v (mulmv M y) -> v = 0) -> y = repeat 0 n) -> (used c <= length M)%nat.
Proof.
  intros HM Lc H. destruct (le_lt_dec (used c) (length M)) as [L|L]; auto. exfalso.
  rewrite used_nz, Lc in L.
  destruct (dependent (seq 0 n) (seq_NoDup n 0) (map (fun r i => nth i r 0) M) (nz (fun i => nth i c 0)) ltac:(rewrite map_length; auto)) as (d & D1 & (k & Hk & Dk) & D3).
  set (y := map d (seq 0 n)). assert (Ly : length y = n) by (unfold y; rewrite map_length, seq_length; auto).
  assert (Y : forall i, (i < n)%nat -> nth i y 0 = d i) by (intros; apply nth_tab; auto). apply in_seq in Hk.
  assert (E : y = repeat 0 n).
  { apply H; auto.
    - intros i Hi. destruct (le_lt_dec n i); [rewrite nth_overflow; auto; lia|]. rewrite Y by auto. apply D1, nz_false; auto.
    - intros v Hv. apply in_map_iff in Hv as (r & <- & Hr). unfold rect in HM. rewrite Forall_forall in HM. specialize (HM r Hr).
      rewrite (dot_sm n) by auto. specialize (D3 _ (in_map _ _ _ Hr)). cbn in D3. refine (eq_trans _ D3).
      apply sm_ext. intros i Hi. apply in_seq in Hi. rewrite Y by lia. reflexivity. }
  apply Dk. rewrite <- (Y k) by lia. rewrite E. apply nth_repeat.
Qed.
