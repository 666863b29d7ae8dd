(** Least squares in exact arithmetic: the exact solver meets the contract, and the geometry of a minimiser. *)
From Coq Require Import List Arith Bool Lia Reals Lra.
From Verif Require Import Base BaseLemmas Num FitSpec FitterProofs FitReal NnlsSpec.
Import ListNotations.
Local Open Scope R_scope.

Lemma lincomb_length a b : forall x y, length x = length y -> length (lincomb a b x y) = length x.
Proof. intros x y H. unfold lincomb. rewrite length_zip. lia. Qed.
Lemma dot_comm : forall a b, dot a b = dot b a.
Proof.
  unfold dot. induction a as [|x a IH]; intros [|y b]; cbn [zip fold_right]; auto. rewrite IH. lra.
Qed.
Lemma dot_lin_l a b r c1 c2 : length c1 = length c2 -> dot (lincomb a b c1 c2) r = a * dot c1 r + b * dot c2 r.
Proof. intro H. rewrite dot_comm, dot_lin by auto. rewrite (dot_comm r c1), (dot_comm r c2). auto. Qed.
Lemma mulmv_length A x : length (mulmv A x) = length A.
Proof. unfold mulmv. apply map_length. Qed.
Lemma mulmv_lin a b A x y : length x = length y -> mulmv A (lincomb a b x y) = lincomb a b (mulmv A x) (mulmv A y).
Proof.
  intro H. unfold mulmv. induction A as [|r A IH]; [reflexivity|]. cbn [map]. rewrite IH, dot_lin by auto. reflexivity.
Qed.
Lemma mulmv_cons A t x n : rect (S n) A -> mulmv A (t :: x) = lincomb t 1 (map (hd 0) A) (mulmv (map (@tl R) A) x).
Proof.
  unfold mulmv. induction 1 as [|r A Hr HA IH]; [reflexivity|]. destruct r as [|h r]; [discriminate|].
  cbn [map hd tl]. rewrite IH. unfold lincomb. cbn [zip]. f_equal. unfold dot; cbn [zip fold_right]. lra.
Qed.
Lemma rect_tl n A : rect (S n) A -> rect n (map (@tl R) A).
Proof.
  unfold rect. intro H. apply Forall_map. eapply Forall_impl; [|apply H]. intros [|x r] Hr; cbn in *; [discriminate|lia].
Qed.
Lemma sumsq_dot a : sumsq a = dot a a.
Proof. unfold sumsq, dot. induction a as [|x a IH]; cbn [map zip fold_right]; auto. rewrite IH. auto. Qed.
Lemma vsub_lincomb : forall a b, vsub a b = lincomb 1 (-1) a b.
Proof.
  unfold vsub, lincomb. induction a as [|x a IH]; intros [|y b]; cbn [zip]; auto. rewrite IH. f_equal. lra.
Qed.
Lemma dot_self_nonneg a : 0 <= dot a a.
Proof. unfold dot. induction a as [|x a IH]; cbn [zip fold_right]; [lra|]. pose proof (Rle_0_sqr x). unfold Rsqr in *. lra. Qed.
Lemma dot_self_null a : dot a a = 0 -> forall b, dot a b = 0.
Proof.
  induction a as [|x a IH]; intros H b; [reflexivity|]. unfold dot in *. cbn [zip fold_right] in *.
  pose proof (dot_self_nonneg a) as Hp. unfold dot in Hp. pose proof (Rle_0_sqr x) as Hx. unfold Rsqr in Hx.
  assert (x = 0) by (apply Rsqr_0_uniq; unfold Rsqr; lra). subst x.
  destruct b as [|y b]; [reflexivity|]. cbn [zip fold_right]. rewrite IH by lra. lra.
Qed.

(** * Unconstrained least squares *)
(** A vector that vanishes outside the mask. *)
Definition within (S : list bool) (z : list R) : Prop := Forall2 (fun s v => s = false -> v = 0) S z.
Lemma within_length S z : within S z -> length z = length S.
Proof. induction 1; cbn; auto. Qed.
Lemma within_lin S a b x y : within S x -> within S y -> within S (lincomb a b x y).
Proof.
  intro H. revert y. induction H as [|s v S x Hs H IH]; intros y Hy; inversion Hy; subst; [constructor|].
  constructor; [|apply IH; auto]. intro E. rewrite Hs, H2 by auto. lra.
Qed.
Lemma lsq_within S : forall A b, within S (lsq S A b).
Proof.
  induction S as [|s S IH]; intros A b; cbn [lsq]; [constructor|]. destruct s.
  - destruct (Req_EM_T _ _); constructor; try discriminate; [apply IH|apply within_lin; apply IH].
  - constructor; [auto|apply IH].
Qed.

Lemma dot_lin3 r a b c d e x y z w : length x = length y -> length z = length w -> length x = length z -> e = 1 ->
  dot (lincomb a b (lincomb c d x y) (lincomb e (-1) z w)) r =
  a * (c * dot x r + d * dot y r) + b * (dot z r - dot w r).
Proof.
  intros H1 H2 H3 ->. rewrite dot_lin_l by (rewrite !lincomb_length; congruence). rewrite !dot_lin_l by auto. lra.
Qed.

Lemma lsq_orth S : forall A b z, rect (length S) A -> length b = length A -> within S z ->
  dot (lincomb 1 (-1) b (mulmv A (lsq S A b))) (mulmv A z) = 0.
Proof.
  induction S as [|s S IH]; intros A b z HR Hb Hz.
  - inversion Hz; subst. rewrite dot_comm. cbn [lsq].
    assert (E : mulmv A [] = repeat 0 (length A)).
    { unfold mulmv. clear. induction A; cbn [map length repeat]; auto. rewrite IHA. f_equal. unfold dot. destruct a; reflexivity. }
    rewrite E, dot_comm. apply dot_zero.
  - inversion Hz as [|s' v S' z' Hs Hz']; subst. cbn [length] in HR. pose proof (rect_tl _ _ HR) as HT.
    set (A' := map (@tl R) A) in *. set (a := map (hd 0) A).
    assert (La : length a = length A) by apply map_length.
    assert (LA' : length A' = length A) by apply map_length.
    assert (Ob : forall y, within S y -> dot (lincomb 1 (-1) b (mulmv A' (lsq S A' b))) (mulmv A' y) = 0).
    { intros. apply IH; auto. congruence. }
    assert (Oa : forall y, within S y -> dot (lincomb 1 (-1) a (mulmv A' (lsq S A' a))) (mulmv A' y) = 0).
    { intros. apply IH; auto. congruence. }
    pose proof (lsq_within S A' b) as Wb. pose proof (lsq_within S A' a) as Wa.
    cbn [lsq]. fold A'. fold a. set (be := lsq S A' b) in *. set (al := lsq S A' a) in *.
    set (a' := lincomb 1 (-1) a (mulmv A' al)) in *. set (b' := lincomb 1 (-1) b (mulmv A' be)) in *.
    assert (La' : length a' = length A). { unfold a'. rewrite lincomb_length; auto. rewrite mulmv_length. congruence. }
    assert (Lb' : length b' = length A). { unfold b'. rewrite lincomb_length; auto. rewrite mulmv_length. congruence. }
    assert (Lbe : length be = length al) by (rewrite (within_length _ _ Wb), (within_length _ _ Wa); auto).
    (* the product with the first column *)
    assert (Da : forall r, dot r a = dot r a' + dot r (mulmv A' al)).
    { intro r. unfold a'. rewrite dot_lin by (rewrite mulmv_length; congruence). lra. }
    rewrite (mulmv_cons A v z' (length S) HR). fold A'. fold a.
    rewrite dot_lin by (rewrite mulmv_length; congruence).
    assert (E0 : lincomb 1 (-1) b (mulmv A (0 :: be)) = b').
    { rewrite (mulmv_cons A 0 be (length S) HR). fold A'. fold a. unfold b'. f_equal.
      assert (HL : length a = length (mulmv A' be)) by (rewrite mulmv_length; congruence).
      clear - HL. revert HL. generalize a as u. generalize (mulmv A' be) as w. induction w as [|y w IHw]; intros [|x u] H; try discriminate; auto.
      unfold lincomb; cbn [zip]. f_equal; [lra|apply IHw; cbn in H; lia]. }
    destruct s.
    + destruct (Req_EM_T (dot a' a') 0) as [E|E].
      * rewrite E0, Ob by auto. rewrite Da, (Ob al) by auto. rewrite (dot_comm b' a'), dot_self_null by auto. lra.
      * set (t := dot b' a' / dot a' a').
        assert (ER : forall r, dot (lincomb 1 (-1) b (mulmv A (t :: lincomb 1 (- t) be al))) r = dot b' r - t * dot a' r).
        { intro r. rewrite (mulmv_cons A _ _ (length S) HR). fold A'. fold a.
          rewrite mulmv_lin by auto.
          assert (L1 : length (lincomb 1 (- t) (mulmv A' be) (mulmv A' al)) = length A).
          { rewrite lincomb_length; rewrite !mulmv_length; auto. }
          rewrite dot_lin_l by (rewrite lincomb_length; congruence).
          rewrite dot_lin_l by congruence. rewrite dot_lin_l by (rewrite !mulmv_length; auto).
          unfold b', a'. rewrite !dot_lin_l by (rewrite mulmv_length; congruence). lra. }
        rewrite !ER. rewrite (Ob z'), (Oa z') by auto. rewrite !Da, (Ob al), (Oa al) by auto.
        unfold t. field. auto.
    + rewrite E0. rewrite Hs by auto. rewrite Ob by auto. lra.
Qed.

(** * From any nonnegative vector to a candidate at least as good *)
Definition objective A b x : R := sumsq (vsub (mulmv A x) b).

Lemma objective_move A b n x y t : rect n A -> length b = length A -> length x = n -> length y = n ->
  objective A b (lincomb (1 - t) t y x) =
  objective A b y + 2 * t * dot (vsub (mulmv A y) b) (vsub (mulmv A x) (mulmv A y))
  + t * t * sumsq (vsub (mulmv A x) (mulmv A y)).
Proof.
  intros HR Hb Hx Hy. unfold objective. rewrite mulmv_lin by congruence. rewrite !sumsq_dot.
  assert (L1 : length (mulmv A x) = length b) by (rewrite mulmv_length; auto).
  assert (L2 : length (mulmv A y) = length b) by (rewrite mulmv_length; auto).
  revert L1 L2. generalize (mulmv A x) as u. generalize (mulmv A y) as w. clear. unfold dot, vsub, lincomb.
  induction b as [|c b IH]; intros [|w0 w] [|u0 u] H1 H2; try discriminate; cbn [zip fold_right]; [lra|].
  rewrite IH by (cbn in *; lia). lra.
Qed.

Definition supp (y : list R) : list bool := map (fun v => if Req_EM_T v 0 then false else true) y.
Definition weight (y : list R) : nat := length (filter (fun b : bool => b) (supp y)).
Lemma supp_within y x : length x = length y -> (Forall2 (fun u v => u = 0 -> v = 0) y x <-> within (supp y) x).
Proof.
  intro HL. unfold within, supp. split.
  - induction 1 as [|u v y x H HF IH]; constructor; [|apply IH; cbn in HL; lia]. destruct (Req_EM_T u 0); auto. discriminate.
  - revert x HL. induction y as [|u y IH]; intros [|v x] HL H; try discriminate; constructor; inversion H; subst.
    + intros ->. apply H3. destruct (Req_EM_T 0 0); [auto|lra].
    + apply IH; auto.
Qed.
Lemma weight_lt : forall y x, Forall2 (fun u v => u = 0 -> v = 0) y x ->
  (weight x <= weight y)%nat /\ ((exists j u, nth_error y j = Some u /\ nth_error x j = Some 0 /\ u <> 0) -> (weight x < weight y)%nat).
Proof.
  unfold weight, supp. induction 1 as [|u v y x H HF (IH1 & IH2)]; cbn [map filter].
  - split; [auto|]. intros (j & u & Hj & _). destruct j; discriminate.
  - assert (T : forall c : bool, length (if c then c :: filter (fun b : bool => b) (map (fun v => if Req_EM_T v 0 then false else true) y)
                 else filter (fun b : bool => b) (map (fun v => if Req_EM_T v 0 then false else true) y)) =
              ((if c then 1 else 0) + length (filter (fun b : bool => b) (map (fun v => if Req_EM_T v 0 then false else true) y)))%nat) by (intros []; auto).
    split.
    + destruct (Req_EM_T v 0), (Req_EM_T u 0); cbn [length]; try lia. exfalso; auto.
    + intros (j & w & Hj & Hx & Hw). destruct j as [|j]; cbn in Hj, Hx.
      * injection Hj as ->. injection Hx as ->. destruct (Req_EM_T 0 0); [|lra]. destruct (Req_EM_T w 0); [lra|]. cbn [length]. lia.
      * assert (Hlt := IH2 (ex_intro _ j (ex_intro _ w (conj Hj (conj Hx Hw))))).
        destruct (Req_EM_T v 0), (Req_EM_T u 0); cbn [length]; try lia. exfalso; auto.
Qed.

Lemma lin_nonneg t : 0 <= t <= 1 -> forall y x, nonneg y -> nonneg x -> nonneg (lincomb (1 - t) t y x).
Proof.
  intros Ht y x Hy. revert x. induction Hy as [|u y Hu Hy IH]; intros x Hx; [constructor|].
  inversion Hx; subst; [constructor|]. unfold lincomb; cbn [zip]. constructor; [|apply IH; auto].
  pose proof (Rmult_le_pos (1 - t) u ltac:(lra) Hu). pose proof (Rmult_le_pos t x0 ltac:(lra) H). lra.
Qed.
Lemma lin_between t s : 0 <= t <= s -> forall y x, nonneg y -> length x = length y ->
  nonneg (lincomb (1 - s) s y x) -> nonneg (lincomb (1 - t) t y x).
Proof.
  intros Ht y x Hy. revert x. induction Hy as [|u y Hu Hy IH]; intros [|v x] HL Hx; try discriminate; [constructor|].
  unfold lincomb in *; cbn [zip] in *. inversion Hx; subst. constructor; [|apply IH; auto].
  destruct (Rle_dec u v) as [Hl|Hl].
  - pose proof (Rmult_le_pos t (v - u) ltac:(lra) ltac:(lra)). lra.
  - pose proof (Rmult_le_compat_r (u - v) t s ltac:(lra) ltac:(lra)). lra.
Qed.

Lemma to_face : forall y x, nonneg y -> Forall2 (fun u v => u = 0 -> v = 0) y x ->
  nonneg x \/
  exists t, 0 <= t <= 1 /\ nonneg (lincomb (1 - t) t y x) /\
    exists j u, nth_error y j = Some u /\ nth_error (lincomb (1 - t) t y x) j = Some 0 /\ u <> 0.
Proof.
  intros y x Hy HF. revert Hy. induction HF as [|u v y x H HF IH]; intro Hy; [left; constructor|].
  inversion Hy as [|u' y' Hu Hy']; subst. specialize (IH Hy').
  assert (HL : length x = length y) by (clear - HF; induction HF; cbn; auto).
  assert (Q : v < 0 -> 0 <= u / (u - v) <= 1 /\ (1 - u / (u - v)) * u + u / (u - v) * v = 0 /\ u <> 0).
  { intro Hv. assert (u <> 0) by (intro; specialize (H ltac:(auto)); lra). assert (0 < u - v) by lra.
    split; [|split; auto; field; lra]. split.
    - apply Rmult_le_pos; [lra|]. apply Rlt_le, Rinv_0_lt_compat; lra.
    - apply (Rmult_le_reg_r (u - v)); [lra|]. unfold Rdiv. rewrite Rmult_assoc, Rinv_l by lra. lra. }
  destruct IH as [Hn|(t & Ht & Hn & j & w & Hj & Hz & Hw)].
  - destruct (Rlt_dec v 0) as [Hv|Hv]; [|left; constructor; auto; lra].
    destruct (Q Hv) as (Ht & Hz & Hu0). right. exists (u / (u - v)). split; auto.
    unfold lincomb; cbn [zip]. split; [constructor; [lra|apply lin_nonneg; auto]|].
    exists 0%nat, u. cbn [nth_error]. repeat split; auto. rewrite Hz; auto.
  - right. destruct (Rle_dec 0 ((1 - t) * u + t * v)) as [Hp|Hp].
    + exists t. split; auto. unfold lincomb in *; cbn [zip]. split; [constructor; auto|]. exists (S j), w. auto.
    + assert (Hv : v < 0).
      { destruct (Rlt_dec v 0); auto. exfalso. apply Hp. pose proof (Rmult_le_pos (1 - t) u ltac:(lra) Hu).
        pose proof (Rmult_le_pos t v ltac:(lra) ltac:(lra)). lra. }
      destruct (Q Hv) as (Ht' & Hz' & Hu0). exists (u / (u - v)). split; auto.
      assert (u / (u - v) <= t).
      { assert (Hd : 0 < u - v) by lra. apply (Rmult_le_reg_r (u - v)); auto. unfold Rdiv. rewrite Rmult_assoc, Rinv_l by lra. lra. }
      unfold lincomb; cbn [zip]. split.
      * constructor; [lra|]. apply (lin_between _ t); auto. lra.
      * exists 0%nat, u. cbn [nth_error]. rewrite Hz'. auto.
Qed.

Lemma face_support t y x : Forall2 (fun u v => u = 0 -> v = 0) y x ->
  Forall2 (fun u v => u = 0 -> v = 0) y (lincomb (1 - t) t y x).
Proof.
  induction 1 as [|u v y x H HF IH]; unfold lincomb; cbn [zip]; constructor; auto. intro E. rewrite (H E), E. lra.
Qed.

Lemma masks_all n : forall S, length S = n -> In S (masks n).
Proof.
  induction n as [|n IH]; intros [|s S] H; try discriminate; [left; auto|]. cbn [masks]. apply in_or_app.
  destruct s; [left|right]; apply in_map; apply IH; cbn in H; lia.
Qed.
Lemma masks_length n : forall S, In S (masks n) -> length S = n.
Proof.
  induction n as [|n IH]; intros S H; cbn [masks] in H; [destruct H as [<-|[]]; auto|].
  apply in_app_or in H as [H|H]; apply in_map_iff in H as (S' & <- & H); cbn; f_equal; auto.
Qed.
Lemma nonnegb_iff l : nonnegb l = true <-> nonneg l.
Proof.
  unfold nonnegb, nonneg. rewrite forallb_forall, Forall_forall. split; intros H x Hx; specialize (H x Hx);
  destruct (Rle_dec 0 x); auto; discriminate.
Qed.

Lemma toward A b n y : rect n A -> length b = length A -> length y = n ->
  let x := lsq (supp y) A b in
  length x = n /\ Forall2 (fun u v => u = 0 -> v = 0) y x /\
  (forall t, 0 <= t <= 1 -> objective A b (lincomb (1 - t) t y x) <= objective A b y) /\ objective A b x <= objective A b y.
Proof.
  intros HR Hb Hy x.
  assert (Ls : length (supp y) = n) by (unfold supp; rewrite map_length; auto).
  pose proof (lsq_within (supp y) A b) as Wx; fold x in Wx.
  assert (Lx : length x = n) by (rewrite (within_length _ _ Wx); auto).
  assert (HF : Forall2 (fun u v => u = 0 -> v = 0) y x) by (apply supp_within; auto; congruence).
  assert (Wy : within (supp y) y) by (apply supp_within; auto; clear; induction y; constructor; auto).
  assert (Mv : forall t, 0 <= t <= 1 -> objective A b (lincomb (1 - t) t y x) <= objective A b y).
  { intros t Ht. rewrite (objective_move A b n x y t HR Hb Lx Hy).
    set (d := sumsq (vsub (mulmv A x) (mulmv A y))).
    assert (Hd : 0 <= d) by (unfold d; rewrite sumsq_dot; apply dot_self_nonneg).
    assert (E : dot (vsub (mulmv A y) b) (vsub (mulmv A x) (mulmv A y)) = - d).
    { assert (O1 := lsq_orth (supp y) A b x ltac:(rewrite Ls; auto) Hb Wx); fold x in O1.
      assert (O2 := lsq_orth (supp y) A b y ltac:(rewrite Ls; auto) Hb Wy); fold x in O2.
      unfold d. rewrite sumsq_dot, !vsub_lincomb.
      rewrite !dot_lin, !dot_lin_l in * by (rewrite ?lincomb_length, ?mulmv_length; rewrite ?mulmv_length; auto).
      rewrite (dot_comm (mulmv A x) (mulmv A y)) in *. lra. }
    rewrite E.
    assert (t * t * d <= t * d).
    { rewrite Rmult_assoc. apply Rmult_le_compat_l; [lra|]. rewrite <- (Rmult_1_l d) at 2. apply Rmult_le_compat_r; lra. }
    pose proof (Rmult_le_pos t d ltac:(lra) Hd). lra. }
  repeat split; auto. specialize (Mv 1 ltac:(lra)). replace (lincomb (1 - 1) 1 y x) with x in Mv; auto.
  clear - Lx Hy. subst n. revert Lx. generalize x as w. induction y as [|u y IHy]; intros [|v w] H; try discriminate; auto.
  unfold lincomb; cbn [zip]. f_equal; [lra|apply IHy; cbn in H; lia].
Qed.

Lemma candidate A b n : rect n A -> length b = length A -> forall k y, (weight y < k)%nat -> length y = n -> nonneg y ->
  exists S, length S = n /\ nonneg (lsq S A b) /\ objective A b (lsq S A b) <= objective A b y.
Proof.
  intros HR Hb. induction k as [|k IH]; intros y Hk Hy Hn; [lia|].
  destruct (toward A b n y HR Hb Hy) as (Lx & HF & Mv & M1). set (x := lsq (supp y) A b) in *.
  destruct (to_face y x Hn HF) as [Hx|(t & Ht & Ht1 & Hj)].
  - exists (supp y). repeat split; auto. unfold supp. rewrite map_length; auto.
  - pose proof (face_support t y x HF) as HF'. pose proof (proj2 (weight_lt _ _ HF') Hj) as Hw.
    destruct (IH (lincomb (1 - t) t y x)) as (S & LS & NS & OS); auto; [lia|rewrite lincomb_length; congruence|].
    exists S. repeat split; auto. specialize (Mv t Ht). lra.
Qed.

Lemma argmin_le f x0 l : f (argmin f l x0) <= f x0 /\ (forall x, In x l -> f (argmin f l x0) <= f x).
Proof.
  unfold argmin. induction l as [|y l (IH0 & IH)]; cbn [fold_right]; [split; [lra|intros x []]|].
  destruct (Rle_dec _ _) as [H|H].
  - split; [lra|]. intros x [<-|Hx]; [lra|]. specialize (IH x Hx). lra.
  - split; [lra|]. intros x [<-|Hx]; [lra|]. auto.
Qed.
Lemma argmin_in f x0 l : argmin f l x0 = x0 \/ In (argmin f l x0) l.
Proof.
  unfold argmin. induction l as [|y l IH]; cbn [fold_right]; auto. destruct (Rle_dec _ _); [right; left; auto|].
  destruct IH; [left|right; right]; auto.
Qed.

Lemma nnls_exact_contract : nnls_contract nnls_exact.
Proof.
  intros mi n A b x HR HL H. unfold nnls_exact in H.
  set (f := fun x => sumsq (vsub (mulmv A x) b)) in *. set (L := filter nonnegb _) in *.
  assert (Ex : x = argmin f L (repeat 0 n)) by congruence. clear H.
  assert (HI : forall y, In y L -> length y = n /\ nonneg y).
  { intros y Hy. apply filter_In in Hy as [Hy Hn]. apply nonnegb_iff in Hn. split; auto.
    apply in_map_iff in Hy as (S & <- & HS). rewrite (within_length _ _ (lsq_within S A b)). apply masks_length; auto. }
  assert (HX : length x = n /\ nonneg x).
  { rewrite Ex. destruct (argmin_in f (repeat 0 n) L) as [->|Hin]; [|auto]. split; [apply repeat_length|].
    unfold nonneg. apply Forall_forall. intros v Hv. apply repeat_spec in Hv. lra. }
  split; [apply HX|]. split; [apply HX|]. intros y Ly Ny. fold (f x). fold (f y).
  destruct (candidate A b n HR (eq_sym HL) (Datatypes.S (weight y)) y (le_n _) Ly Ny) as (S & LS & NS & OS).
  rewrite Ex. destruct (argmin_le f (repeat 0 n) L) as [_ Hm].
  eapply Rle_trans; [apply (Hm (lsq S A b))|exact OS]. apply filter_In. split; [|apply nonnegb_iff; auto].
  apply in_map_iff. exists S. split; auto. apply masks_all; auto.
Qed.
Lemma nnls_exact_shape : nnls_shape nnls_exact.
Proof.
  intros mi n A b x H. unfold nnls_exact in H.
  set (f := fun x => sumsq (vsub (mulmv A x) b)) in *. set (L := filter nonnegb _) in *.
  assert (Ex : x = argmin f L (repeat 0 n)) by congruence. rewrite Ex.
  destruct (argmin_in f (repeat 0 n) L) as [->|Hin]; [apply repeat_length|].
  apply filter_In in Hin as [Hy _]. apply in_map_iff in Hy as (S & <- & HS).
  rewrite (within_length _ _ (lsq_within S A b)). apply masks_length; auto.
Qed.
