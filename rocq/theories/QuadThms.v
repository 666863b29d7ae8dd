(** Theorems about the accuracy of the integrals that Response.project computes (response.py:314-411). *)
From Coquelicot Require Import Coquelicot.
From Coq Require Import List Arith Lia Bool ZArith QArith Qreals Reals Lra Classical_Prop FunctionalExtensionality Sorting.Sorted Sorting.Permutation.
From Verif Require Import Base BaseLemmas Num Toy Interp InterpReal Spec Utils Sed Response ResponseProofs
  ResponseObj ResponseFwhm LinInterp ResponseEx Spline SplineSpec QuadSpec.
Import ListNotations.
Local Open Scope R_scope.
(* STATEMENTS *)
From Verif Require Import SedThms ResponseThms SplineProofs SplineThms QuadProofs.

Lemma locate xs a b : StronglySorted Rlt xs -> a < b -> nth 0 xs 0 <= a -> b <= last xs 0 -> (forall t, In t xs -> t <= a \/ b <= t) ->
  exists i, (S i < length xs)%nat /\ nth i xs 0 <= a /\ b <= nth (S i) xs 0 /\ adjacent xs (nth i xs 0) (nth (S i) xs 0).
Proof.
  induction xs as [|x [|x' xs] IH]; intros Hs Hab Ha Hb Hn; [cbn in Ha, Hb; lra|cbn in Ha, Hb; lra|].
  inversion Hs as [|? ? Hs' Hx]; subst. rewrite Forall_forall in Hx. inversion Hs' as [|? ? Hs'' Hx']; subst. rewrite Forall_forall in Hx'.
  destruct (Hn x' ltac:(cbn; auto)) as [L|L].
  - destruct (IH Hs' Hab L Hb) as (i & Li & Ai & Bi & (I1 & I2 & I3 & I4)). { intros t Ht. apply Hn. right. auto. }
    exists (S i). split; [cbn [length] in *; lia|]. split; [exact Ai|]. split; [exact Bi|].
    split; [right; exact I1|]. split; [right; exact I2|]. split; [exact I3|]. intros t [<-|Ht]; [|apply I4; auto].
    left. left. apply (Hx (nth i (x' :: xs) 0)). apply nth_In. lia.
  - exists 0%nat. cbn [nth length] in *. split; [lia|]. split; [lra|]. split; [lra|].
    split; [left; auto|]. split; [right; left; auto|]. split; [apply Hx; left; auto|].
    intros t [<-|[<-|Ht]]; [left; lra|right; lra|right; left; apply Hx'; auto].
Qed.

Lemma uniform (Q : R -> R -> Prop) (P : R -> R -> R -> Prop) (g : list R) :
  (forall M M' a b, M <= M' -> P M a b -> P M' a b) ->
  (forall a b, In a g -> In b g -> Q a b -> exists M, 0 <= M /\ P M a b) ->
  exists M, 0 <= M /\ forall a b, In a g -> In b g -> Q a b -> P M a b.
Proof.
  intros Hm H.
  assert (X : forall l : list (R * R), (forall p, In p l -> In (fst p) g /\ In (snd p) g) ->
    exists M, 0 <= M /\ forall p, In p l -> Q (fst p) (snd p) -> P M (fst p) (snd p)).
  { induction l as [|p l IH]; intro Hl. - exists 0. split; [lra|]. intros p []. -
    destruct IH as (M & HM & B). { intros q Hq. apply Hl. right; auto. }
    destruct (classic (Q (fst p) (snd p))) as [Hq|Hq].
    - destruct (Hl p (or_introl eq_refl)) as [G1 G2]. destruct (H _ _ G1 G2 Hq) as (M' & HM' & B').
      exists (Rmax M M'). split; [apply Rle_trans with M; auto; apply Rmax_l|]. intros q [<-|Hin] Hqq.
      + eapply Hm; [apply Rmax_r|auto].
      + eapply Hm; [apply Rmax_l|auto].
    - exists M. split; auto. intros q [<-|Hin] Hqq; [contradiction|auto]. }
  destruct (X (list_prod g g)) as (M & HM & B).
  - intros [a b] Hp. apply in_prod_iff in Hp. auto.
  - exists M. split; auto. intros a b Ha Hb Hq. apply (B (a, b)); auto. apply in_prod_iff. auto.
Qed.

Lemma edge_zero cub w yy t : splines cub -> StronglySorted Rlt w -> (4 <= length w)%nat -> length yy = length w ->
  nth 0 yy 0 = 0 -> last yy 0 = 0 -> t <= nth 0 w 0 \/ last w 0 <= t -> spline cub w yy t = 0.
Proof.
  intros Hc Hs H4 Hl E0 E1 Ht.
  assert (A0 : spline cub w yy (nth 0 w 0) = 0) by (rewrite L_C78_at_samples by (auto; lia); auto).
  assert (A1 : spline cub w yy (last w 0) = 0).
  { rewrite !last_nth_eq in *. rewrite L_C78_at_samples by (auto; lia). rewrite <- Hl. auto. }
  destruct Ht as [[Ht|Ht]|[Ht|Ht]]; [| rewrite Ht; auto | | rewrite <- Ht; auto]; unfold spline.
  - destruct (Rlt_dec t (nth 0 w 0)); [auto|lra].
  - destruct (Rlt_dec t (nth 0 w 0)); [auto|]. destruct (Rlt_dec (last w 0) t); [auto|lra].
Qed.

Lemma cubic_curved p a b : a <= b -> exists K, 0 <= K /\ curved K (peval p) a b.
Proof.
  intro Hab. destruct (cont_bounded (pd2 p) (fun _ => pd3 p) a b Hab) as (K & HK & B).
  - intros t _. unfold pd2, pd3. auto_derive; auto. ring.
  - exists K. split; auto. exists (peval p), (pd1 p), (pd2 p). split; [|split; [|split]]; auto; intros t _; unfold peval, pd1, pd2; auto_derive; auto; ring.
Qed.

(** Between neighbouring samples the spline is a cubic. *)
Lemma spline_curved cub xs ys a b : splines cub -> StronglySorted Rlt xs -> (4 <= length xs)%nat -> length ys = length xs ->
  a < b -> nth 0 xs 0 <= a -> b <= last xs 0 -> (forall t, In t xs -> t <= a \/ b <= t) -> exists K, 0 <= K /\ curved K (spline cub xs ys) a b.
Proof.
  intros Hc Hs H4 Hl Hab Ha Hb Hn. destruct (locate xs a b Hs Hab Ha Hb Hn) as (i & Li & Ai & Bi & _).
  destruct (Hc xs ys Hs H4 Hl) as (p & _ & Hp). destruct (cubic_curved (p i) a b) as (K & HK & C); [lra|].
  exists K. split; auto. eapply curved_ext; [|exact C]. intros t Ht. rewrite spline_in by lra. apply Hp; auto. lra.
Qed.

Lemma ab_curved a b : 0 < a -> a <= b -> exists K, 0 <= K /\ curved K (fun t => ab_flux t * t) a b.
Proof.
  intros Ha Hab. destruct (curved_inv a b Ha Hab) as (K & HK & C).
  destruct (curved_mult 0 K (fun _ => 3631e-23 * 2.99792e18) (fun t => / t) a b Hab (curved_const _ a b) C) as (K' & HK' & C').
  exists K'. split; auto. eapply curved_ext; [|exact C']. intros t Ht. unfold ab_flux, Rdiv. replace (t ^ 2) with (t * t) by ring.
  rewrite Rinv_mult. rewrite !Rmult_assoc. rewrite Rinv_l by lra. ring.
Qed.

Lemma ends_lt w : StronglySorted Rlt w -> (4 <= length w)%nat -> nth 0 w 0 < last w 0.
Proof.
  intros Hw Hw4. rewrite last_nth_eq. destruct w as [|x [|x' w']]; cbn in Hw4; try lia.
  inversion Hw as [|? ? _ F]; subst. rewrite Forall_forall in F. change (nth 0 (x :: x' :: w') 0) with x. apply F.
  change (In (nth (length w') (x' :: w') 0) (x' :: w')). apply nth_In. cbn. lia.
Qed.

Section Band.
  Variables (cub : list R -> list R -> R -> R) (w yy sw f : list R) (g : list R).
  Hypotheses (Hc : splines cub) (Hw : StronglySorted Rlt w) (Hw4 : (4 <= length w)%nat) (Hyy : length yy = length w)
    (Hwp : Forall (fun t => 0 < t) w) (Hsw : StronglySorted Rlt sw) (Hsw4 : (4 <= length sw)%nat) (Hf : length f = length sw)
    (Hb : brackets w sw) (Hg : is_grid w sw g).
  Let lo := nth 0 w 0.
  Let hi := last w 0.

  Lemma lo_in : In lo w. Proof using Hw4. clear - Hw4. apply nth_In. lia. Qed.
  Lemma hi_in : In hi w. Proof using Hw4. clear - Hw4. unfold hi. rewrite last_nth_eq. apply nth_In. lia. Qed.
  Lemma lo_hi : lo < hi.
  Proof. apply ends_lt; auto. Qed.
  Lemma w_in_g t : In t w -> In t g. Proof. intro H. apply Hg. left. auto. Qed.
  Lemma lo_pos : 0 < lo. Proof. rewrite Forall_forall in Hwp. apply Hwp, lo_in. Qed.

  Lemma in_cell a b : adjacent g a b -> lo <= a -> b <= hi ->
    (forall t, In t w -> t <= a \/ b <= t) /\ (forall t, In t sw -> t <= a \/ b <= t) /\ a < b /\ nth 0 sw 0 <= a /\ b <= last sw 0.
  Proof.
    intros (Ha & Hbb & Hab & Hn) La Lb. split; [intros; apply Hn, w_in_g; auto|]. split.
    - intros t Ht. destruct (Rlt_dec t lo); [left; lra|]. destruct (Rlt_dec hi t); [right; lra|].
      apply Hn, Hg. right. left. split; auto. fold lo hi. lra.
    - destruct Hb as [(u & Hu & Lu) (v & Hv & Lv)]. pose proof (SplineThms.in_range sw u Hsw Hu). pose proof (SplineThms.in_range sw v Hsw Hv).
      fold lo in Lu. fold hi in Lv. lra.
  Qed.

  Lemma cell_curved : exists M, 0 <= M /\ forall a b, adjacent g a b -> lo <= a -> b <= hi ->
    curved M (fun t => spline cub sw f t * spline cub w yy t * t) a b /\ curved M (fun t => ab_flux t * spline cub w yy t * t) a b.
  Proof.
    destruct (uniform (fun a b => adjacent g a b /\ lo <= a /\ b <= hi)
      (fun M a b => curved M (fun t => spline cub sw f t * spline cub w yy t * t) a b /\ curved M (fun t => ab_flux t * spline cub w yy t * t) a b) g) as (M & HM & B).
    - intros M M' a b Hle [C1 C2]. split; eapply curved_mono; eauto.
    - intros a b Ha Hbb (Had & La & Lb). destruct (in_cell a b Had La Lb) as (N1 & N2 & Hab & S1 & S2).
      destruct (spline_curved cub sw f a b) as (K1 & P1 & C1); auto. destruct (spline_curved cub w yy a b) as (K2 & P2 & C2); auto.
      destruct (curved_mult _ _ _ _ a b (Rlt_le _ _ Hab) C1 C2) as (K3 & P3 & C3).
      destruct (curved_mult _ _ _ _ a b (Rlt_le _ _ Hab) C3 (curved_pow1 a b)) as (K4 & P4 & C4).
      destruct (ab_curved a b) as (K5 & P5 & C5); [pose proof lo_pos; lra|lra|].
      destruct (curved_mult _ _ _ _ a b (Rlt_le _ _ Hab) C5 C2) as (K6 & P6 & C6).
      exists (Rmax K4 K6). split; [apply Rle_trans with K4; auto; apply Rmax_l|]. split.
      + eapply curved_mono; [apply Rmax_l|]. exact C4.
      + eapply curved_mono; [apply Rmax_r|]. eapply curved_ext; [|exact C6]. intros t _. cbn beta. ring.
    - exists M. split; auto. intros a b Had La Lb. destruct Had as (Ha & Hbb & R) eqn:E. clear E. apply B; auto.
  Qed.

  Lemma zero_outside (h : R -> R) : nth 0 yy 0 = 0 -> last yy 0 = 0 -> forall t, t <= lo \/ hi <= t -> h t * spline cub w yy t * t = 0.
  Proof. intros E0 E1 t Ht. rewrite edge_zero by auto. ring. Qed.
End Band.

(** The bound on the ratio of two sums from those of the sums. *)
Lemma ratio_error Tn Td N D en ed : Rabs (Tn - N) <= en -> Rabs (Td - D) <= ed -> ed < D ->
  Rabs (Tn / Td - N / D) <= (en + Rabs (Tn / Td) * ed) / D.
Proof.
  intros E1 E2 HD. pose proof (Rabs_pos (Td - D)). assert (P : 0 < Td). { apply Rabs_le_between in E2. lra. }
  assert (D0 : 0 < D) by lra.
  replace (Tn / Td - N / D) with (((Tn - N) - Tn / Td * (Td - D)) / D) by (field; lra).
  unfold Rdiv at 1 3. rewrite Rabs_mult, (Rabs_right (/ D)) by (apply Rle_ge; left; apply Rinv_0_lt_compat; auto).
  apply Rmult_le_compat_r; [left; apply Rinv_0_lt_compat; auto|]. unfold Rminus at 1. eapply Rle_trans; [apply Rabs_triang|].
  rewrite Rabs_Ropp, Rabs_mult. apply Rplus_le_compat; auto. apply Rmult_le_compat_l; auto. apply Rabs_pos.
Qed.

(** C103.  Accuracy of a projection: with M bounding the second derivatives of the integrands over the steps of the integration
    grid inside the band, and d the largest such step, maggies differ from the ratio of the integrals by at most an amount
    proportional to d^2, for a response that ends with zeros and lies inside the spectrum. *)
Lemma L_C103_error :
  forall cub bq sun vega wave y r w yy sw f s g M M' d,
    splines cub -> band cub bq sun vega wave y r w yy -> spectrum sw f s -> overlaps w sw -> brackets w sw -> is_grid w sw g ->
    nth 0 yy 0 = 0 -> last yy 0 = 0 ->
    let lo := nth 0 w 0 in let hi := last w 0 in
    let light t := spline cub sw f t * spline cub w yy t * t in
    let ab t := ab_flux t * spline cub w yy t * t in
    let e := d ^ 2 / 12 * (hi - lo) in
    (forall a b, adjacent g a b -> lo <= a -> b <= hi -> curved M light a b /\ curved M' ab a b /\ b - a <= d) ->
    ex_RInt light lo hi /\ ex_RInt ab lo hi /\
    (M' * e < RInt ab lo hi ->
      exists m, project_sed cub r s = Ok (scal m) /\
        Rabs (m - RInt light lo hi / RInt ab lo hi) <= (M + Rabs m * M') * e / RInt ab lo hi).
Proof.
  intros cub bq sun vega wave y r w yy sw f s g M M' d Hc HB HS Ho Hb Hg E0 E1 lo hi light ab e Hcell.
  destruct (band_samples _ _ _ _ _ _ _ _ _ HB) as (B1 & B2 & B3 & B4 & _). destruct HS as (S1 & S2 & S3) eqn:HSe. clear HSe.
  destruct (spectrum_facts _ _ _ (conj S1 (conj S2 S3))) as (_ & S4 & S5). rename S5 into Sf.
  pose proof (lo_hi w B1 B2) as Hlh. fold lo hi in Hlh.
  assert (Gl : In lo g) by (apply Hg; left; apply (lo_in w B2)). assert (Gh : In hi g) by (apply Hg; left; apply (hi_in w B2)).
  destruct (trapezoid_inside M d light g lo hi (proj1 Hg) Gl Gh Hlh) as (N & IN & EN).
  { intros t Ht. apply zero_outside; auto. }
  { intros a b Had La Lb. destruct (Hcell a b Had La Lb) as (? & _ & ?). auto. }
  destruct (trapezoid_inside M' d ab g lo hi (proj1 Hg) Gl Gh Hlh) as (D & ID & ED).
  { intros t Ht. apply zero_outside; auto. }
  { intros a b Had La Lb. destruct (Hcell a b Had La Lb) as (_ & ? & ?). auto. }
  split; [exists N; auto|]. split; [exists D; auto|]. rewrite (is_RInt_unique _ _ _ _ IN), (is_RInt_unique _ _ _ _ ID). intro HD.
  eexists. split; [apply (L_C18_proper_when_bracketed _ _ _ _ _ _ _ _ _ _ _ _ HB (conj S1 (conj S2 S3)) Ho Hb g Hg)|].
  fold light ab. replace (M / 12 * d ^ 2 * (hi - lo)) with (M * e) in EN by (unfold e; field).
  replace (M' / 12 * d ^ 2 * (hi - lo)) with (M' * e) in ED by (unfold e; field).
  eapply Rle_trans; [apply (ratio_error _ _ N D (M * e) (M' * e)); auto|]. right. field.
  apply Rabs_le_between in ED. pose proof (Rabs_pos (trapezoid ab g - D)). lra.
Qed.
Lemma E_C103_error : exists bq r s, splines notaknot /\ band notaknot bq sun0 sun0 [1;2;3;4] [0;1;1;0] r [1;2;3;4] [0;1;1;0] /\
  spectrum [1/2;1;2;3;4;5] [1;1;2;2;1;1] s /\ overlaps [1;2;3;4] [1/2;1;2;3;4;5] /\ brackets [1;2;3;4] [1/2;1;2;3;4;5] /\
  is_grid [1;2;3;4] [1/2;1;2;3;4;5] [1/2;1;2;3;4;5].
Proof.
  destruct (band_example notaknot (bisect (1/1000)) (1/1000) [0;1;1;0]) as [r HB]; auto using L_C78_exists.
  - apply bisect_root_finder. lra.
  - apply Exists_cons_tl, Exists_cons_hd. lra.
  - destruct (spectrum_intro [1/2;1;2;3;4;5] [1;1;2;2;1;1]) as [s HS]; try (cbn; lia); try (repeat constructor; lra).
    exists (bisect (1/1000)), r, s. split; [exact L_C78_exists|]. do 2 (split; auto). split; [exists 1; cbn; split; auto; lra|]. split.
    + split; [exists (1/2)|exists 5]; cbn; split; auto 10; lra.
    + split; [repeat constructor; lra|]. intro t. unfold in_grid. cbn. split.
      * intros [<-|[<-|[<-|[<-|[<-|[<-|[]]]]]]]; auto 10.
        -- right. right. left. split; auto. split; [lra|]. intros u Hu Hl. intuition lra.
        -- right. right. right. split; auto 10. split; [lra|]. intros u Hu Hl. intuition lra.
      * intuition.
Qed.

(** Bounds on the second derivatives exist for every response and every spectrum around it, because the curves are splines. *)
Lemma L_C103_curvature :
  forall cub bq sun vega wave y r w yy sw f s g,
    splines cub -> band cub bq sun vega wave y r w yy -> spectrum sw f s -> brackets w sw -> is_grid w sw g ->
    exists M, 0 <= M /\ forall a b, adjacent g a b -> nth 0 w 0 <= a -> b <= last w 0 ->
      curved M (fun t => spline cub sw f t * spline cub w yy t * t) a b /\ curved M (fun t => ab_flux t * spline cub w yy t * t) a b.
Proof.
  intros cub bq sun vega wave y r w yy sw f s g Hc HB HS Hb Hg.
  destruct (band_samples _ _ _ _ _ _ _ _ _ HB) as (B1 & B2 & B3 & B4 & _).
  destruct (spectrum_facts _ _ _ HS) as (_ & S4 & S5). destruct HS as (S1 & _ & _).
  apply (cell_curved cub w yy sw f g); auto.
Qed.
Lemma E_C103_curvature : exists bq r s M, splines notaknot /\ band notaknot bq sun0 sun0 [1;2;3;4] [0;1;1;0] r [1;2;3;4] [0;1;1;0] /\
  spectrum [1/2;1;2;3;4;5] [1;1;2;2;1;1] s /\ brackets [1;2;3;4] [1/2;1;2;3;4;5] /\
  is_grid [1;2;3;4] [1/2;1;2;3;4;5] [1/2;1;2;3;4;5] /\ adjacent [1/2;1;2;3;4;5] 2 3 /\
  curved M (fun t => spline notaknot [1/2;1;2;3;4;5] [1;1;2;2;1;1] t * spline notaknot [1;2;3;4] [0;1;1;0] t * t) 2 3.
Proof.
  destruct E_C103_error as (bq & r & s & Hc & HB & HS & _ & Hb & Hg).
  destruct (L_C103_curvature _ _ _ _ _ _ _ _ _ _ _ _ _ Hc HB HS Hb Hg) as (M & _ & C). exists bq, r, s, M. do 5 (split; auto).
  assert (A : adjacent [1/2;1;2;3;4;5] 2 3).
  { split; [cbn; auto 10|]. split; [cbn; auto 10|]. split; [lra|]. intros t Ht. cbn in Ht. intuition lra. }
  split; auto. apply C; auto; cbn; lra.
Qed.

(** Projections converge: there is a C, depending on the response and on the spectrum between its ends only, such that sampling the
    spectrum with steps of at most d gives maggies within C d^2 of the ratio of the integrals.  (S is the spectrum; the curve through
    the samples is assumed to be S inside the band, as it is for a cubic by C78_cubics.) *)
Lemma L_C103_converges :
  forall cub bq sun vega wave y r w yy (S : R -> R) K,
    splines cub -> band cub bq sun vega wave y r w yy -> nth 0 yy 0 = 0 -> last yy 0 = 0 ->
    let lo := nth 0 w 0 in let hi := last w 0 in
    let light t := S t * spline cub w yy t * t in
    let ab t := ab_flux t * spline cub w yy t * t in
    curved K S lo hi -> 0 < RInt ab lo hi ->
    exists C d0, 0 < d0 /\ forall sw f s d,
      spectrum sw f s -> overlaps w sw -> brackets w sw -> (forall t, lo <= t <= hi -> spline cub sw f t = S t) ->
      (forall a b, adjacent sw a b -> b - a <= d) -> d <= d0 ->
      exists m, project_sed cub r s = Ok (scal m) /\ Rabs (m - RInt light lo hi / RInt ab lo hi) <= C * d ^ 2.
Proof.
  intros cub bq sun vega wave y r w yy S K Hc HB E0 E1 lo hi light ab HS HD.
  destruct (band_samples _ _ _ _ _ _ _ _ _ HB) as (B1 & B2 & B3 & B4 & _).
  pose proof (lo_hi w B1 B2) as Hlh. fold lo hi in Hlh. pose proof (lo_pos w B2 B4) as Hlp. fold lo in Hlp.
  destruct (uniform (fun a b => adjacent w a b) (fun M a b => curved M light a b /\ curved M ab a b) w) as (M & HM & B).
  - intros M M' a b Hle [C1 C2]. split; eapply curved_mono; eauto.
  - intros a b Ha Hb Had. destruct Had as (_ & _ & Hab & Hn).
    pose proof (SplineThms.in_range w a B1 Ha) as Ra. pose proof (SplineThms.in_range w b B1 Hb) as Rb. fold lo hi in Ra, Rb.
    destruct (spline_curved cub w yy a b) as (K2 & P2 & C2); auto; [apply Ra|apply Rb|].
    assert (C1 : curved K S a b) by (eapply curved_sub; [| |exact HS]; lra).
    destruct (curved_mult _ _ _ _ a b (Rlt_le _ _ Hab) C1 C2) as (K3 & P3 & C3).
    destruct (curved_mult _ _ _ _ a b (Rlt_le _ _ Hab) C3 (curved_pow1 a b)) as (K4 & P4 & C4).
    destruct (ab_curved a b) as (K5 & P5 & C5); [lra|lra|].
    destruct (curved_mult _ _ _ _ a b (Rlt_le _ _ Hab) C5 C2) as (K6 & P6 & C6).
    exists (Rmax K4 K6). split; [apply Rle_trans with K4; auto; apply Rmax_l|]. split.
    + eapply curved_mono; [apply Rmax_l|]. exact C4.
    + eapply curved_mono; [apply Rmax_r|]. eapply curved_ext; [|exact C6]. intros t _. unfold ab. cbn beta. ring.
  - set (N := RInt light lo hi) in *. set (D := RInt ab lo hi) in *. set (q := (hi - lo) / 12).
    assert (Hq : 0 < q) by (unfold q; lra).
    (* the error of either sum is at most M q d^2; for M q d^2 <= D/2 the maggies are at most (2|N| + D)/D *)
    set (d0 := Rmin 1 (D / (2 * (M * q + 1)))).
    assert (Hd0 : 0 < d0).
    { unfold d0. apply Rmin_pos; [lra|]. apply Rdiv_lt_0_compat; auto. assert (0 <= M * q) by (apply Rmult_le_pos; lra). lra. }
    exists ((M + (2 * Rabs N + D) / D * M) * q / D), d0. split; auto.
    intros sw f s d Hsp Ho Hb Heq Hst Hd.
    destruct (spectrum_facts _ _ _ Hsp) as (_ & S4 & S5). destruct Hsp as (S1 & S2 & S3) eqn:Hspe. clear Hspe.
    destruct (L_C21_grid w sw S1 Ho) as [Hg _]. set (g := grid_of w sw) in *.
    assert (Hcell : forall a b, adjacent g a b -> lo <= a -> b <= hi ->
      curved M (fun t => spline cub sw f t * spline cub w yy t * t) a b /\ curved M ab a b /\ b - a <= d).
    { intros a b Had La Lb. destruct (in_cell w sw g S1 Hb Hg a b Had La Lb) as (N1 & N2 & Hab & Q1 & Q2).
      destruct (locate w a b B1 Hab La Lb N1) as (i & Li & Ai & Bi & Adj). destruct (locate sw a b S1 Hab Q1 Q2 N2) as (k & Lk & Ak & Bk & Adk).
      destruct (B (nth i w 0) (nth (Datatypes.S i) w 0)) as [C1 C2]; [apply nth_In; lia|apply nth_In; lia|exact Adj|].
      split; [|split].
      - apply (curved_ext M light); [|eapply curved_sub; [exact Ai|exact Bi|exact C1]]. intros t Ht. unfold light. rewrite Heq by lra. auto.
      - eapply curved_sub; [exact Ai|exact Bi|exact C2].
      - specialize (Hst _ _ Adk). lra. }
    assert (dpos : 0 <= d).
    { destruct (locate sw (nth 0 sw 0) (nth 1 sw 0)) as (k & Lk & _ & _ & Adk); auto.
      - destruct sw as [|x [|x' l]]; cbn in S4; try lia. inversion S1 as [|? ? _ F]; subst. inversion F; subst. auto.
      - lra.
      - apply (SplineThms.in_range sw (nth 1 sw 0) S1). apply nth_In. lia.
      - intros t Ht. destruct sw as [|x [|x' l]]; cbn in S4; try lia. inversion S1 as [|? ? S1' F]; subst. inversion S1' as [|? ? S1'' F']; subst.
        rewrite Forall_forall in F'. cbn. destruct Ht as [<-|[<-|Ht]]; [left; lra|right; lra|right; left; apply F'; auto].
      - pose proof (Hst _ _ Adk). destruct Adk as (_ & _ & ? & _). lra. }
    destruct (L_C103_error cub bq sun vega wave y r w yy sw f s g M M d Hc HB (conj S1 (conj S2 S3)) Ho Hb Hg E0 E1 Hcell) as (_ & _ & Herr).
    assert (Elight : RInt (fun t => spline cub sw f t * spline cub w yy t * t) lo hi = N).
    { apply RInt_ext. intros t Ht. rewrite Rmin_left, Rmax_right in Ht by lra. unfold light. rewrite Heq by lra. auto. }
    fold lo hi in Herr. rewrite Elight in Herr. fold ab D in Herr.
    replace (d ^ 2 / 12 * (hi - lo)) with (q * d ^ 2) in Herr by (unfold q; field).
    assert (Hsmall : M * (q * d ^ 2) <= D / 2).
    { assert (d ^ 2 <= d0).
      { replace (d ^ 2) with (d * d) by ring. apply Rle_trans with (d0 * 1); [|lra]. apply Rmult_le_compat; auto.
        apply Rle_trans with (1 := Hd). apply Rmin_l. }
      assert (d0 <= D / (2 * (M * q + 1))) by apply Rmin_r.
      assert (0 <= M * q) by (apply Rmult_le_pos; lra).
      apply Rle_trans with (M * q * (D / (2 * (M * q + 1)))).
      - rewrite <- Rmult_assoc. apply Rmult_le_compat_l; lra.
      - apply Rle_trans with ((M * q + 1) * (D / (2 * (M * q + 1)))); [|right; field; lra].
        apply Rmult_le_compat_r; [|lra]. left. apply Rdiv_lt_0_compat; lra. }
    destruct Herr as (m & Em & Bm); [lra|]. exists m. split; auto. eapply Rle_trans; [exact Bm|].
    assert (Hm : Rabs m <= (2 * Rabs N + D) / D).
    { assert (X : Rabs m <= Rabs N / D + (M + Rabs m * M) * (q * d ^ 2) / D).
      { replace m with (N / D + (m - N / D)) at 1 by ring. eapply Rle_trans; [apply Rabs_triang|]. apply Rplus_le_compat; auto.
        unfold Rdiv. rewrite Rabs_mult, (Rabs_right (/ D)) by (apply Rle_ge; left; apply Rinv_0_lt_compat; auto). lra. }
      assert (Y : (M + Rabs m * M) * (q * d ^ 2) / D <= (1 + Rabs m) / 2).
      { replace ((M + Rabs m * M) * (q * d ^ 2) / D) with ((1 + Rabs m) * (M * (q * d ^ 2) / D)) by (field; lra).
        replace ((1 + Rabs m) / 2) with ((1 + Rabs m) * (D / 2 / D)) by (field; lra).
        apply Rmult_le_compat_l; [pose proof (Rabs_pos m); lra|]. apply Rmult_le_compat_r; auto. left. apply Rinv_0_lt_compat; auto. }
      replace ((2 * Rabs N + D) / D) with (2 * (Rabs N / D) + 1) by (field; lra). lra. }
    set (B0 := (2 * Rabs N + D) / D) in *.
    replace ((M + B0 * M) * q / D * d ^ 2) with ((M + B0 * M) * (q * d ^ 2) / D) by (field; lra).
    apply Rmult_le_compat_r; [left; apply Rinv_0_lt_compat; auto|].
    apply Rmult_le_compat_r; [apply Rmult_le_pos; [lra|apply pow2_ge_0]|]. apply Rplus_le_compat_l. apply Rmult_le_compat_r; auto.
Qed.
Lemma ab_positive : 0 < RInt (fun t => ab_flux t * spline notaknot [1;2;3;4] [0;1;1;0] t * t) 1 4.
Proof.
  set (q := {| q0 := -2; q1 := 5/2; q2 := -1/2; q3 := 0 |}).
  assert (Eq : forall t, 1 <= t <= 4 -> spline notaknot [1;2;3;4] [0;1;1;0] t = peval q t).
  { intros t Ht. replace [0;1;1;0] with (map (peval q) [1;2;3;4]) by (cbn [map]; do 4 (apply f_equal2; [unfold peval; cbn; lra|]); reflexivity).
    apply L_C78_cubics; [exact L_C78_exists|repeat constructor; lra|cbn; lia|cbn; lra]. }
  rewrite (RInt_ext _ (fun t => 3631e-23 * 2.99792e18 * (peval q t * / t))).
  2:{ intros t Ht. rewrite Rmin_left, Rmax_right in Ht by lra. rewrite Eq by lra. unfold ab_flux. match goal with |- ?a = ?b => change (@eq R a b) end. field. lra. }
  apply RInt_gt_0; [lra| |].
  - intros t Ht. apply Rmult_lt_0_compat; [lra|]. apply Rmult_lt_0_compat; [unfold peval; cbn; nra|apply Rinv_0_lt_compat; lra].
  - intros t Ht. apply (ex_derive_continuous (fun t => 3631e-23 * 2.99792e18 * (peval q t * / t))). unfold peval. auto_derive. lra.
Qed.
Lemma equal_steps d0 : 0 < d0 -> exists sw, StronglySorted Rlt sw /\ (4 <= length sw)%nat /\ Forall (fun x => 0 < x) sw /\
  In (1 / 2) sw /\ In 1 sw /\ In 5 sw /\ nth 0 sw 0 = 1 / 2 /\ last sw 0 = 5 /\ forall a b, adjacent sw a b -> b - a <= d0.
Proof.
  intro Hd. destruct (archimed_cor1 (d0 / 5)) as (n & Hn & Pn); [lra|].
  assert (P : 0 < INR n) by (apply lt_0_INR; auto). set (h := / (2 * INR n)).
  assert (Hh : 0 < h) by (apply Rinv_0_lt_compat; lra). assert (Hn1 : h * INR n = 1 / 2) by (unfold h; field; lra).
  assert (h <= d0). { unfold h. rewrite Rinv_mult. lra. }
  set (x := fun i => 1 / 2 + INR i * h). exists (map x (seq 0 (9 * n + 1))).
  assert (Inx : forall i, (i <= 9 * n)%nat -> In (x i) (map x (seq 0 (9 * n + 1)))) by (intros i Hi; apply in_map, in_seq; lia).
  assert (Xn : x (9 * n)%nat = 5). { unfold x. rewrite mult_INR. replace (INR 9) with 9 by (cbn; lra). replace (9 * INR n * h) with (9 * (h * INR n)) by ring. lra. }
  assert (Lt : forall i j, (i < j)%nat -> x i + h <= x j).
  { intros i j Hij. unfold x. apply lt_INR in Hij as Hij'. assert (INR (S i) <= INR j) by (apply le_INR; lia). rewrite S_INR in *. nra. }
  split; [|split; [|split; [|split; [|split; [|split; [|split; [|split]]]]]]].
  - clear Inx. generalize (9 * n + 1)%nat as m. intro m. generalize 0%nat as k. induction m as [|m IH]; intro k; cbn [seq map]; constructor; auto.
    apply Forall_map, Forall_forall. intros j Hj. apply in_seq in Hj. specialize (Lt k j ltac:(lia)). lra.
  - rewrite map_length, seq_length. lia.
  - apply Forall_map, Forall_forall. intros j _. unfold x. pose proof (pos_INR j). nra.
  - replace (1 / 2) with (x 0%nat) by (unfold x; cbn; ring). apply Inx. lia.
  - replace 1 with (x n) at 1 by (unfold x; rewrite Rmult_comm, Hn1; lra). apply Inx. lia.
  - rewrite <- Xn at 1. apply Inx. lia.
  - replace (9 * n + 1)%nat with (S (9 * n)) by lia. cbn. unfold x. cbn. ring.
  - replace (9 * n + 1)%nat with (S (9 * n)) by lia. rewrite seq_S, map_app. cbn [map Nat.add]. rewrite last_last. exact Xn.
  - intros a b (Ha & Hb & Hab & Hnone). apply in_map_iff in Ha as (i & <- & Hi). apply in_map_iff in Hb as (j & <- & Hj).
    apply in_seq in Hi, Hj. destruct (le_lt_dec j i) as [L|L].
    + exfalso. destruct (Nat.eq_dec i j) as [->|N]; [lra|]. specialize (Lt j i ltac:(lia)). lra.
    + assert (E : x (S i) = x i + h) by (unfold x; rewrite S_INR; ring).
      destruct (Hnone (x (S i)) (Inx (S i) ltac:(lia))); lra.
Qed.
(** Samplings as fine as needed of a spectrum that is reproduced between the samples. *)
Lemma E_C103_converges : exists bq r, splines notaknot /\ band notaknot bq sun0 sun0 [1;2;3;4] [0;1;1;0] r [1;2;3;4] [0;1;1;0] /\
  curved 0 (fun t => 1 + 2 * t) 1 4 /\ 0 < RInt (fun t => ab_flux t * spline notaknot [1;2;3;4] [0;1;1;0] t * t) 1 4 /\
  forall d0, 0 < d0 -> exists sw s, spectrum sw (map (fun t => 1 + 2 * t) sw) s /\ overlaps [1;2;3;4] sw /\ brackets [1;2;3;4] sw /\
    (forall t, 1 <= t <= 4 -> spline notaknot sw (map (fun t => 1 + 2 * t) sw) t = 1 + 2 * t) /\
    forall a b, adjacent sw a b -> b - a <= d0.
Proof.
  destruct E_C103_error as (bq & r & _ & Hc & HB & _). exists bq, r. do 2 (split; auto). split; [|split; [exact ab_positive|]].
  - exists (fun t => 1 + 2 * t), (fun _ => 2), (fun _ => 0). split; [|split; [|split]]; auto; intros t _; [auto_derive; auto; ring|auto_derive; auto|rewrite Rabs_R0; lra].
  - intros d0 Hd. destruct (equal_steps d0 Hd) as (sw & Hs & H4 & Hp & I0 & I1 & I5 & N0 & N1 & Hst).
    destruct (spectrum_intro sw (map (fun t => 1 + 2 * t) sw)) as [s HS]; auto; [apply map_length|].
    exists sw, s. split; auto. split; [exists 1; split; [auto|cbn; lra]|].
    split; [split; [exists (1/2)|exists 5]; split; auto; cbn; lra|]. split; auto.
    intros t Ht. set (q := {| q0 := 1; q1 := 2; q2 := 0; q3 := 0 |}).
    replace (map (fun t => 1 + 2 * t) sw) with (map (peval q) sw).
    + rewrite L_C78_cubics; auto; [unfold peval; cbn; ring|rewrite N0, N1; lra].
    + apply map_ext. intro u. unfold peval; cbn; ring.
Qed.

Lemma curve_integral :
  forall cub xs ys k, splines cub -> StronglySorted Rlt xs -> (4 <= length xs)%nat -> length ys = length xs -> 0 < k ->
    let rest := spline cub xs ys in
    let seen := spline cub (map (fun x => x * k) xs) (map (fun v => v / k) ys) in
    ex_RInt rest (nth 0 xs 0) (last xs 0) /\
    is_RInt seen (nth 0 xs 0 * k) (last xs 0 * k) (RInt rest (nth 0 xs 0) (last xs 0)).
Proof.
  intros cub xs ys k Hc Hs H4 Hl Hk rest seen.
  assert (EX : ex_RInt rest (nth 0 xs 0) (last xs 0)).
  { assert (A : forall a b, adjacent xs a b -> exists M, curved M rest a b).
    { intros a b (Ha & Hb & Hab & Hn). destruct (spline_curved cub xs ys a b) as (M & _ & C); eauto.
      - apply (SplineThms.in_range xs a Hs Ha).
      - apply (SplineThms.in_range xs b Hs Hb). }
    destruct (uniform (fun a b => adjacent xs a b) (fun M a b => curved M rest a b) xs) as (M & HM & B).
    - intros; eapply curved_mono; eauto.
    - intros a b Ha Hb Had. destruct (A a b Had) as (M & C). exists M. split; auto.
      destruct C as (? & ? & H2 & _ & _ & _ & D). destruct Had as (_ & _ & ? & _). specialize (D a ltac:(lra)). pose proof (Rabs_pos (H2 a)). lra.
    - destruct (trapezoid_error (fun t => M / 12 * (last xs 0 - nth 0 xs 0) ^ 2 * t) rest xs Hs) as (I & HI & _).
      + intros ->. cbn in H4. lia.
      + intros a b Had. destruct Had as (Ha & Hb & Hab & Hn) eqn:E. clear E.
        destruct (cell_error M rest a b Hab (B a b Ha Hb Had)) as (I & HI & E). exists I. split; auto. eapply Rle_trans; [exact E|].
        pose proof (SplineThms.in_range xs a Hs Ha) as Ra. pose proof (SplineThms.in_range xs b Hs Hb) as Rb.
        replace (M / 12 * (last xs 0 - nth 0 xs 0) ^ 2 * b - M / 12 * (last xs 0 - nth 0 xs 0) ^ 2 * a) with (M / 12 * ((last xs 0 - nth 0 xs 0) ^ 2 * (b - a))) by ring.
        apply Rmult_le_compat_l; [lra|]. replace ((b - a) ^ 3) with ((b - a) ^ 2 * (b - a)) by ring. apply Rmult_le_compat_r; [lra|]. apply pow_incr. lra.
      + exists I. replace (nth 0 xs 0) with (hd 0 xs) by (destruct xs; reflexivity). exact HI. }
  split; auto. pose proof (RInt_correct (V := R_CompleteNormedModule) rest _ _ EX) as EX'.
  assert (Es : forall t, seen t = / k * rest (/ k * t + 0)).
  { intro t. unfold seen, rest. rewrite <- (L_C78_scaling cub xs ys k (/ k)) by auto. rewrite Rplus_0_r. f_equal; [|field; lra].
    apply map_ext. intro v. unfold Rdiv. ring. }
  apply is_RInt_ext with (f := fun t => / k * rest (/ k * t + 0)); [intros; symmetry; apply Es|].
  apply (is_RInt_comp_lin rest (/ k) 0). rewrite !Rplus_0_r.
  replace (/ k * (nth 0 xs 0 * k)) with (nth 0 xs 0) by (field; lra). replace (/ k * (last xs 0 * k)) with (last xs 0) by (field; lra). exact EX'.
Qed.

(** C13 for the curve between the samples: after any calls and set_redshift z, z > -1, the integral of the interpolated spectrum over
    the wavelengths sampled is that of the rest-frame one. *)
Lemma L_C13_integral :
  forall cub sw f (s0 : sed R), splines cub -> spectrum sw f s0 ->
    forall ops z, -1 < z ->
      let s := fst (sed_step (sed_run s0 ops) (SetRedshift z)) in
      let rest := spline cub sw f in
      let seen := spline cub (s_wave s) (hd [] (lrows (s_flux s))) in
      ex_RInt rest (nth 0 sw 0) (last sw 0) /\
      is_RInt seen (nth 0 (s_wave s) 0) (last (s_wave s) 0) (RInt rest (nth 0 sw 0) (last sw 0)).
Proof.
  intros cub sw f s0 Hc HS ops z Hz s. destruct (spectrum_facts _ _ _ HS) as (_ & S4 & S5). destruct HS as (S1 & S2 & S3).
  assert (W : s_wave s = map (fun x => x * (1 + z)) sw /\ hd [] (lrows (s_flux s)) = map (fun v => v / (1 + z)) f).
  { destruct (L_C12_last_redshift_decides R _ sw (vec f) true s0 S2 (ops ++ [SetRedshift z])) as (_ & _ & _ & _ & L).
    destruct (L ops z [] eq_refl ltac:(intros ? [])) as (_ & L1 & L2).
    assert (Es : sed_run s0 (ops ++ [SetRedshift z]) = s).
    { unfold s. clear. revert s0. induction ops as [|o ops IH]; intro s0; [reflexivity|]. cbn [app sed_run]. apply IH. }
    rewrite Es in L1, L2. split; [exact L1|]. rewrite L2.
    assert (F : s_rflux s0 = mk [1%nat; length sw] f).
    { unfold SED, sed_setup in S2. cbn [ndim vec shp length Nat.eqb] in S2. unfold reshape in S2.
      destruct (Nat.eqb (size [1%nat; length sw]) (size (shp (vec f)))); [|discriminate]. cbn [bind dat vec] in S2.
      unfold set_interp in S2. cbn [s_wave s_flux] in S2. destruct (mk_cubic sw _); cbn in S2; [injection S2 as <-; reflexivity|discriminate]. }
    transitivity (hd [] (lrows (map1 (fun v => v / (1 + z)) (s_rflux s0)))); [reflexivity|].
    rewrite lrows_map1, F.
    replace (lrows (mk [1%nat; length sw] f)) with [f]; [reflexivity|].
    rewrite <- (lrows_vec f). unfold lrows, vec. cbn [shp dat lead lastd last removelast size fold_right]. rewrite S5. reflexivity. }
  destruct W as [W1 W2]. cbn zeta. rewrite W1, W2.
  destruct (curve_integral cub sw f (1 + z) Hc S1 S4 S5 ltac:(lra)) as [C1 C2]. split; [exact C1|].
  replace (nth 0 (map (fun x => x * (1 + z)) sw) 0) with (nth 0 sw 0 * (1 + z)) by (destruct sw; [cbn in S4; lia|reflexivity]).
  replace (last (map (fun x => x * (1 + z)) sw) 0) with (last sw 0 * (1 + z)); [exact C2|].
  rewrite !last_nth_eq, map_length. symmetry. apply (nth_map_lt (fun x => x * (1 + z))). lia.
Qed.
Lemma E_C13_integral : exists s, splines notaknot /\ spectrum [1/2;1;2;3;4;5] [1;1;2;2;1;1] s /\ -1 < 1/2.
Proof.
  destruct E_C103_error as (_ & _ & s & Hc & _ & HS & _). exists s. repeat split; auto; try apply HS. lra.
Qed.
