From Coq Require Import List Arith Lia Reals Lra Sorting.Sorted.
From Coquelicot Require Import Coquelicot.
From Verif Require Import Spec QuadSpec.
Import ListNotations.
Local Open Scope R_scope.

Lemma mvt f df a b : a <= b -> (forall t, a <= t <= b -> is_derive f t (df t)) ->
  exists c, a <= c <= b /\ f b - f a = df c * (b - a).
Proof.
  intros Hab Hd.
  destruct (MVT_gen f a b df) as (c & Hc & E).
  - intros x Hx. rewrite Rmin_left, Rmax_right in Hx by auto. apply Hd. lra.
  - intros x Hx. rewrite Rmin_left, Rmax_right in Hx by auto. apply continuity_pt_filterlim.
    apply (ex_derive_continuous f x). exists (df x). apply Hd; auto.
  - rewrite Rmin_left, Rmax_right in Hc by auto. exists c. split; auto.
Qed.

Lemma der_plus (f g : R -> R) (x a b : R) : is_derive f x a -> is_derive g x b -> is_derive (fun t => f t + g t) x (a + b).
Proof. intros F G. exact (is_derive_plus f g x a b F G). Qed.
Lemma der_minus (f g : R -> R) (x a b : R) : is_derive f x a -> is_derive g x b -> is_derive (fun t => f t - g t) x (a - b).
Proof. intros F G. exact (is_derive_minus f g x a b F G). Qed.
Lemma der_sq (M x : R) : is_derive (fun t => M / 2 * t ^ 2) x (M * x).
Proof. auto_derive; auto. field. Qed.
Lemma der_lin (M x : R) : is_derive (fun t => M * t) x M.
Proof. auto_derive; auto. ring. Qed.

(** A curve that bends upwards lies below its chord. *)
Lemma below_chord H H1 H2 a b t : a <= t <= b ->
  (forall t, a <= t <= b -> is_derive H t (H1 t)) -> (forall t, a <= t <= b -> is_derive H1 t (H2 t)) ->
  (forall t, a <= t <= b -> 0 <= H2 t) -> H t * (b - a) <= H a * (b - t) + H b * (t - a).
Proof.
  intros Ht D1 D2 P.
  destruct (mvt H H1 a t) as (x & Hx & E1); [lra|intros; apply D1; lra|].
  destruct (mvt H H1 t b) as (y & Hy & E2); [lra|intros; apply D1; lra|].
  destruct (mvt H1 H2 x y) as (z & Hz & E3); [lra|intros; apply D2; lra|].
  assert (M : H1 x <= H1 y). { assert (0 <= H2 z * (y - x)) by (apply Rmult_le_pos; [apply P|]; lra). lra. }
  assert (K : (H t - H a) * (b - t) <= (H b - H t) * (t - a)).
  { rewrite E1, E2. replace (H1 x * (t - a) * (b - t)) with (H1 x * ((t - a) * (b - t))) by ring.
    replace (H1 y * (b - t) * (t - a)) with (H1 y * ((t - a) * (b - t))) by ring.
    apply Rmult_le_compat_r; auto. apply Rmult_le_pos; lra. }
  nra.
Qed.

Lemma near_chord H H1 H2 M a b t : a <= t <= b ->
  (forall t, a <= t <= b -> is_derive H t (H1 t)) -> (forall t, a <= t <= b -> is_derive H1 t (H2 t)) ->
  (forall t, a <= t <= b -> Rabs (H2 t) <= M) ->
  Rabs (H t * (b - a) - (H a * (b - t) + H b * (t - a))) <= M / 2 * (t - a) * (b - t) * (b - a).
Proof.
  intros Ht D1 D2 P. apply Rabs_le.
  assert (B : forall t, a <= t <= b -> - M <= H2 t <= M).
  { intros u Hu. specialize (P u Hu). split; [|apply Rle_trans with (2 := P); apply Rle_abs].
    pose proof (Rle_abs (- H2 u)) as Q. rewrite Rabs_Ropp in Q. lra. }
  split.
  - pose proof (below_chord (fun u => M / 2 * u ^ 2 - H u) (fun u => M * u - H1 u) (fun u => M - H2 u) a b t Ht) as K.
    cbn beta in K. enough (X : (M / 2 * t ^ 2 - H t) * (b - a) <= (M / 2 * a ^ 2 - H a) * (b - t) + (M / 2 * b ^ 2 - H b) * (t - a)).
    { assert (E : M / 2 * (t - a) * (b - t) * (b - a) = M / 2 * (a ^ 2 * (b - t) + b ^ 2 * (t - a) - t ^ 2 * (b - a))) by (field).
      rewrite E. nra. }
    apply K.
    + intros u Hu. apply der_minus; [apply der_sq|apply D1; auto].
    + intros u Hu. apply der_minus; [apply der_lin|apply D2; auto].
    + intros u Hu. specialize (B u Hu). lra.
  - pose proof (below_chord (fun u => M / 2 * u ^ 2 + H u) (fun u => M * u + H1 u) (fun u => M + H2 u) a b t Ht) as K.
    cbn beta in K. enough (X : (M / 2 * t ^ 2 + H t) * (b - a) <= (M / 2 * a ^ 2 + H a) * (b - t) + (M / 2 * b ^ 2 + H b) * (t - a)).
    { assert (E : M / 2 * (t - a) * (b - t) * (b - a) = M / 2 * (a ^ 2 * (b - t) + b ^ 2 * (t - a) - t ^ 2 * (b - a))) by (field).
      rewrite E. nra. }
    apply K.
    + intros u Hu. apply der_plus; [apply der_sq|apply D1; auto].
    + intros u Hu. apply der_plus; [apply der_lin|apply D2; auto].
    + intros u Hu. specialize (B u Hu). lra.
Qed.

(** One step of the trapezoid rule. *)
Lemma cell_error M h a b : a < b -> curved M h a b ->
  exists I, is_RInt h a b I /\ Rabs ((b - a) * (h a + h b) / 2 - I) <= M / 12 * (b - a) ^ 3.
Proof.
  intros Hab (H & H1 & H2 & Eh & D1 & D2 & B).
  assert (C : ex_RInt h a b).
  { apply ex_RInt_ext with (f := H).
    - intros x Hx. rewrite Rmin_left, Rmax_right in Hx by lra. symmetry. apply Eh. lra.
    - apply (ex_RInt_continuous H). intros x Hx. rewrite Rmin_left, Rmax_right in Hx by lra.
      apply (ex_derive_continuous H x). exists (H1 x). apply D1; auto. }
  destruct C as (I & HI). exists I. split; auto.
  set (chord := fun t => (H a * (b - t) + H b * (t - a)) / (b - a)).
  set (cap := fun t => M / 2 * (t - a) * (b - t)).
  assert (IC : is_RInt chord a b ((b - a) * (h a + h b) / 2)).
  { rewrite (Eh a), (Eh b) by lra.
    set (P := fun t => (H b * (t - a) ^ 2 - H a * (b - t) ^ 2) / 2 / (b - a)).
    evar_last. { apply (is_RInt_derive P chord).
      - intros x _. unfold P, chord. auto_derive; auto. field. lra.
      - intros x _. unfold chord. apply (ex_derive_continuous (fun t => (H a * (b - t) + H b * (t - a)) / (b - a))). auto_derive. auto. }
    unfold minus, plus, opp, P; cbn. field. lra. }
  assert (IM : is_RInt cap a b (M / 12 * (b - a) ^ 3)).
  { set (P := fun t => M / 2 * ((t - a) ^ 2 * (b - a) / 2 - (t - a) ^ 3 / 3)).
    evar_last. { apply (is_RInt_derive P cap).
      - intros x _. unfold P, cap. auto_derive; auto. field.
      - intros x _. unfold cap. apply (ex_derive_continuous (fun t => M / 2 * (t - a) * (b - t))). auto_derive. auto. }
    unfold minus, plus, opp, P; cbn. field. }
  assert (Q : forall t, a < t < b -> chord t - cap t <= h t <= chord t + cap t).
  { intros t Ht. assert (Ht' : a <= t <= b) by lra. pose proof (near_chord H H1 H2 M a b t Ht' D1 D2 B) as K.
    rewrite (Eh t) by lra. unfold chord, cap. apply Rabs_def2_le in K || apply Rabs_le_between in K.
    assert (E : H t = H t * (b - a) / (b - a)) by (field; lra). rewrite E.
    assert (E2 : M / 2 * (t - a) * (b - t) = M / 2 * (t - a) * (b - t) * (b - a) / (b - a)) by (field; lra). rewrite E2.
    split; [apply Rle_trans with (((H a * (b - t) + H b * (t - a)) - M / 2 * (t - a) * (b - t) * (b - a)) / (b - a)); [right; field; lra|] |
            apply Rle_trans with (((H a * (b - t) + H b * (t - a)) + M / 2 * (t - a) * (b - t) * (b - a)) / (b - a)); [|right; field; lra]];
      apply Rmult_le_compat_r; try lra; left; apply Rinv_0_lt_compat; lra. }
  apply Rabs_le. split.
  - assert (X : I <= (b - a) * (h a + h b) / 2 + M / 12 * (b - a) ^ 3).
    { apply (is_RInt_le h (fun t => plus (chord t) (cap t)) a b); auto; [lra| |].
      - apply @is_RInt_plus; auto.
      - intros t Ht. apply Q in Ht. unfold plus; cbn. lra. }
    lra.
  - assert (X : (b - a) * (h a + h b) / 2 - M / 12 * (b - a) ^ 3 <= I).
    { apply (is_RInt_le (fun t => minus (chord t) (cap t)) h a b); auto; [lra| |].
      - apply @is_RInt_minus; auto.
      - intros t Ht. apply Q in Ht. unfold minus, plus, opp; cbn. lra. }
    lra.
Qed.

(** [P] holds of every two neighbours in the list. *)
Fixpoint neighbours (P : R -> R -> Prop) (g : list R) : Prop :=
  match g with
  | a :: r => match r with b :: _ => P a b /\ neighbours P r | [] => True end
  | [] => True
  end.

Lemma neighbours_adjacent (P : R -> R -> Prop) g : StronglySorted Rlt g -> (forall a b, adjacent g a b -> P a b) -> neighbours P g.
Proof.
  induction g as [|a [|b r] IH]; intros Hs H; cbn; auto.
  inversion Hs as [|? ? Hs' Ha]; subst. inversion Ha as [|? ? Hab Har]; subst. rewrite Forall_forall in Ha.
  inversion Hs' as [|? ? Hs'' Hb]; subst. rewrite Forall_forall in Hb. split.
  - apply H. split; [left; auto|]. split; [right; left; auto|]. split; auto.
    intros t [->|[->|Ht]]; [left; lra|right; lra|right; left; apply Hb; auto].
  - apply (IH Hs'). intros u v (Hu & Hv & Huv & Hn). apply H. split; [right; auto|]. split; [right; auto|]. split; auto.
    intros t [->|Ht]; auto. left. left. apply Ha. auto.
Qed.

(** Errors of the steps that telescope. *)
Lemma trapezoid_error (e : R -> R) h g : StronglySorted Rlt g -> g <> [] ->
  (forall a b, adjacent g a b -> exists I, is_RInt h a b I /\ Rabs ((b - a) * (h a + h b) / 2 - I) <= e b - e a) ->
  exists I, is_RInt h (hd 0 g) (last g 0) I /\ Rabs (trapezoid h g - I) <= e (last g 0) - e (hd 0 g).
Proof.
  intros Hs Hn H. apply neighbours_adjacent in H; auto.
  induction g as [|a [|b r] IH]; [contradiction| |].
  - exists 0. split; [apply @is_RInt_point|]. cbn. rewrite Rminus_0_r, Rabs_R0. lra.
  - inversion Hs as [|? ? Hs' Ha]; subst. destruct H as [(I1 & R1 & E1) H].
    destruct (IH Hs' ltac:(discriminate) H) as (I2 & R2 & E2).
    exists (I1 + I2). split.
    + change (last (a :: b :: r) 0) with (last (b :: r) 0). cbn [hd] in *. apply (is_RInt_Chasles h a b _ I1 I2); auto.
    + change (trapezoid h (a :: b :: r)) with ((b - a) * (h a + h b) / 2 + trapezoid h (b :: r)).
      change (last (a :: b :: r) 0) with (last (b :: r) 0). cbn [hd] in *.
      replace ((b - a) * (h a + h b) / 2 + trapezoid h (b :: r) - (I1 + I2)) with (((b - a) * (h a + h b) / 2 - I1) + (trapezoid h (b :: r) - I2)) by ring.
      eapply Rle_trans; [apply Rabs_triang|]. lra.
Qed.

Lemma sorted_bounds g t : StronglySorted Rlt g -> In t g -> hd 0 g <= t <= last g 0.
Proof.
  intros Hs. revert t. induction g as [|a r IH]; intros t Ht; [contradiction|].
  inversion Hs as [|? ? Hs' Ha]; subst. rewrite Forall_forall in Ha. cbn [hd].
  destruct r as [|b r]. { destruct Ht as [->|[]]. cbn. lra. }
  change (last (a :: b :: r) 0) with (last (b :: r) 0). destruct Ht as [->|Ht].
  - pose proof (Ha b (or_introl eq_refl)). pose proof (IH Hs' b (or_introl eq_refl)). cbn [hd] in *. lra.
  - pose proof (IH Hs' t Ht). pose proof (Ha t Ht). lra.
Qed.

Lemma rint_zero h a b : a <= b -> (forall t, a < t < b -> h t = 0) -> is_RInt h a b 0.
Proof.
  intros Hab Hz. apply is_RInt_ext with (f := fun _ => 0).
  - intros t Ht. rewrite Rmin_left, Rmax_right in Ht by auto. symmetry. auto.
  - evar_last; [apply @is_RInt_const|]. unfold Hierarchy.scal; cbn. unfold mult; cbn. ring.
Qed.

(** A curve that is 0 outside [lo, hi] and at its ends, on a grid with points at lo, hi and beyond. *)
Lemma trapezoid_inside M d h g lo hi : StronglySorted Rlt g -> In lo g -> In hi g -> lo < hi ->
  (forall t, t <= lo \/ hi <= t -> h t = 0) ->
  (forall a b, adjacent g a b -> lo <= a -> b <= hi -> curved M h a b /\ b - a <= d) ->
  exists I, is_RInt h lo hi I /\ Rabs (trapezoid h g - I) <= M / 12 * d ^ 2 * (hi - lo).
Proof.
  intros Hs Hlo Hhi Hl Hz Hc.
  set (clamp := fun t => Rmax lo (Rmin hi t)).
  assert (C1 : forall t, t <= lo -> clamp t = lo). { intros t Ht. unfold clamp. rewrite Rmin_right, Rmax_left by lra. auto. }
  assert (C2 : forall t, hi <= t -> clamp t = hi). { intros t Ht. unfold clamp. rewrite Rmin_left, Rmax_right by lra. auto. }
  assert (C3 : forall t, lo <= t <= hi -> clamp t = t). { intros t Ht. unfold clamp. rewrite Rmin_right, Rmax_right by lra. auto. }
  assert (Hne : g <> []) by (intros ->; contradiction).
  destruct (trapezoid_error (fun t => M / 12 * d ^ 2 * clamp t) h g Hs Hne) as (I & HI & E).
  - intros a b Had. destruct Had as (Ha & Hb & Hab & Hn) eqn:Eq. clear Eq.
    destruct (Rle_dec b lo) as [Hbl|Hbl]; [|destruct (Rle_dec hi a) as [Hah|Hah]].
    + exists 0. split; [apply rint_zero; [lra|]; intros; apply Hz; lra|]. rewrite !C1, !Hz by lra. rewrite Rabs_right; lra.
    + exists 0. split; [apply rint_zero; [lra|]; intros; apply Hz; lra|]. rewrite !C2, !Hz by lra. rewrite Rabs_right; lra.
    + assert (Hla : lo <= a) by (destruct (Hn lo Hlo); lra). assert (Hbh : b <= hi) by (destruct (Hn hi Hhi); lra).
      destruct (Hc a b) as (Hcu & Hd); [repeat split; auto|auto|auto|].
      assert (HM : 0 <= M). { destruct Hcu as (? & ? & H2 & _ & _ & _ & B). specialize (B a ltac:(lra)). pose proof (Rabs_pos (H2 a)). lra. }
      destruct (cell_error M h a b Hab Hcu) as (I & HI & E). exists I. split; auto. rewrite !C3 by lra.
      eapply Rle_trans; [exact E|]. replace (M / 12 * d ^ 2 * b - M / 12 * d ^ 2 * a) with (M / 12 * (d ^ 2 * (b - a))) by ring.
      apply Rmult_le_compat_l; [lra|]. replace ((b - a) ^ 3) with ((b - a) ^ 2 * (b - a)) by ring.
      apply Rmult_le_compat_r; [lra|]. apply pow_incr. lra.
  - pose proof (sorted_bounds g lo Hs Hlo) as Bl. pose proof (sorted_bounds g hi Hs Hhi) as Bh.
    rewrite (C1 (hd 0 g)), (C2 (last g 0)) in E by lra. exists I. split; [|replace (M / 12 * d ^ 2 * (hi - lo)) with (M / 12 * d ^ 2 * hi - M / 12 * d ^ 2 * lo) by ring; auto].
    pose proof (rint_zero h (hd 0 g) lo (proj1 Bl) ltac:(intros; apply Hz; lra)) as Z1.
    pose proof (rint_zero h hi (last g 0) (proj2 Bh) ltac:(intros; apply Hz; lra)) as Z2.
    apply is_RInt_swap in Z1. apply is_RInt_swap in Z2.
    pose proof (is_RInt_Chasles h lo (hd 0 g) (last g 0) _ _ Z1 HI) as X.
    pose proof (is_RInt_Chasles h lo (last g 0) hi _ _ X Z2) as Y.
    evar_last; [exact Y|]. unfold plus, opp; cbn. ring.
Qed.

(** * Curves with bounded second derivatives *)
Lemma curved_mono M M' h a b : M <= M' -> curved M h a b -> curved M' h a b.
Proof. intros Hle (H & H1 & H2 & A & B & C & D). exists H, H1, H2. split; [|split; [|split]]; auto. intros t Ht. specialize (D t Ht). lra. Qed.
Lemma curved_sub M h a b a' b' : a <= a' -> b' <= b -> curved M h a b -> curved M h a' b'.
Proof. intros Ha Hb (H & H1 & H2 & A & B & C & D). exists H, H1, H2. split; [|split; [|split]]; intros t Ht; [apply A|apply B|apply C|apply D]; lra. Qed.
Lemma curved_ext M h h' a b : (forall t, a <= t <= b -> h' t = h t) -> curved M h a b -> curved M h' a b.
Proof. intros E (H & H1 & H2 & A & B & C & D). exists H, H1, H2. split; [|split; [|split]]; auto. intros t Ht. rewrite E by auto. auto. Qed.

Lemma cont_bounded f df a b : a <= b -> (forall t, a <= t <= b -> is_derive f t (df t)) -> exists K, 0 <= K /\ forall t, a <= t <= b -> Rabs (f t) <= K.
Proof.
  intros Hab Hd. destruct (continuity_ab_maj (fun t => Rabs (f t)) a b Hab) as (m & Hm & _).
  - intros c Hc. apply (continuity_pt_comp f Rabs).
    + apply continuity_pt_filterlim. apply (ex_derive_continuous f c). exists (df c). auto.
    + apply Rcontinuity_abs.
  - exists (Rabs (f m)). split; [apply Rabs_pos|auto].
Qed.

Lemma der_mult (f g : R -> R) (x a b : R) : is_derive f x a -> is_derive g x b -> is_derive (fun t => f t * g t) x (a * g x + f x * b).
Proof. intros F G. apply (is_derive_mult f g x a b F G). intros u v. apply Rmult_comm. Qed.

Lemma curved_mult M N f g a b : a <= b -> curved M f a b -> curved N g a b -> exists K, 0 <= K /\ curved K (fun t => f t * g t) a b.
Proof.
  intros Hab (F & F1 & F2 & AF & BF & CF & DF) (G & G1 & G2 & AG & BG & CG & DG).
  destruct (cont_bounded F F1 a b Hab BF) as (KF & P1 & Q1). destruct (cont_bounded F1 F2 a b Hab CF) as (KF1 & P2 & Q2).
  destruct (cont_bounded G G1 a b Hab BG) as (KG & P3 & Q3). destruct (cont_bounded G1 G2 a b Hab CG) as (KG1 & P4 & Q4).
  assert (HM : 0 <= M) by (pose proof (DF a ltac:(lra)); pose proof (Rabs_pos (F2 a)); lra).
  assert (HN : 0 <= N) by (pose proof (DG a ltac:(lra)); pose proof (Rabs_pos (G2 a)); lra).
  exists (M * KG + KF1 * KG1 + (KF1 * KG1 + KF * N)). split.
  { repeat apply Rplus_le_le_0_compat; apply Rmult_le_pos; auto. }
  exists (fun t => F t * G t), (fun t => F1 t * G t + F t * G1 t), (fun t => (F2 t * G t + F1 t * G1 t) + (F1 t * G1 t + F t * G2 t)).
  split; [|split; [|split]].
  - intros t Ht. rewrite AF, AG by auto. auto.
  - intros t Ht. apply der_mult; auto.
  - intros t Ht. apply der_plus; apply der_mult; auto.
  - intros t Ht. repeat (eapply Rle_trans; [apply Rabs_triang|]; apply Rplus_le_compat); rewrite Rabs_mult; apply Rmult_le_compat; auto; apply Rabs_pos.
Qed.
Lemma curved_pow1 a b : curved 0 (fun t => t) a b.
Proof.
  exists (fun t => t), (fun _ => 1), (fun _ => 0). split; [|split; [|split]]; auto.
  - intros. apply @is_derive_id.
  - intros. apply @is_derive_const.
  - intros. rewrite Rabs_R0. lra.
Qed.
Lemma curved_const c a b : curved 0 (fun _ => c) a b.
Proof.
  exists (fun _ => c), (fun _ => 0), (fun _ => 0). split; [|split; [|split]]; auto.
  - intros. apply @is_derive_const.
  - intros. apply @is_derive_const.
  - intros. rewrite Rabs_R0. lra.
Qed.
Lemma curved_inv a b : 0 < a -> a <= b -> exists K, 0 <= K /\ curved K (fun t => / t) a b.
Proof.
  intros Ha Hab. destruct (cont_bounded (fun t => 2 / t ^ 3) (fun t => - 6 / t ^ 4) a b Hab) as (K & HK & B).
  - intros t Ht. auto_derive; [|field; lra]. assert (0 < t * (t * (t * 1))) by (repeat apply Rmult_lt_0_compat; lra). lra.
  - exists K. split; auto. exists (fun t => / t), (fun t => - / t ^ 2), (fun t => 2 / t ^ 3). split; [|split; [|split]]; auto.
    + intros t Ht. auto_derive; [lra|field; lra].
    + intros t Ht. assert (0 < t * (t * 1)) by (repeat apply Rmult_lt_0_compat; lra). auto_derive; [lra|field; lra].
Qed.
