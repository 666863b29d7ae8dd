(** Lemmas about response.py over the reals. *)
From Coq Require Import List Arith Lia Bool Reals Lra Sorting.Sorted Sorting.Permutation QArith Qreals.
From Verif Require Import Base BaseLemmas Num Interp InterpReal Spec Utils Sed Response.
Import ListNotations.
Local Open Scope R_scope.

(** * np.where *)
Lemma where_in mask i : In i (where_ mask) <-> nth i mask false = true.
Proof.
  unfold where_. rewrite filter_In, in_seq. split; [tauto|]. intro H. split; auto.
  split; [lia|]. destruct (Nat.ltb_spec i (length mask)); [lia|].
  rewrite nth_overflow in H by lia. discriminate.
Qed.
Lemma seq_sorted n : forall a, StronglySorted lt (seq a n).
Proof.
  induction n; intro a; cbn [seq]; constructor; auto.
  rewrite Forall_forall. intros x Hx. apply in_seq in Hx. lia.
Qed.
Lemma filter_sorted {A} (P : A -> A -> Prop) f l : StronglySorted P l -> StronglySorted P (filter f l).
Proof.
  induction 1 as [|x l Hl IH Hf]; cbn [filter]; [constructor|]. destruct (f x); auto.
  constructor; auto. rewrite Forall_forall in *. intros y Hy. apply filter_In in Hy. apply Hf; tauto.
Qed.
Lemma where_sorted mask : StronglySorted lt (where_ mask).
Proof. apply filter_sorted, seq_sorted. Qed.
Lemma hd_least (l : list nat) : StronglySorted lt l -> l <> [] ->
  In (hd 0%nat l) l /\ forall i, In i l -> (hd 0 l <= i)%nat.
Proof.
  intros H Hn. destruct H as [|x l Hl Hf]; [contradiction|]. cbn [hd]. split; [left; auto|].
  intros i [->|Hi]; auto. rewrite Forall_forall in Hf. specialize (Hf i Hi). lia.
Qed.
Lemma last_greatest (l : list nat) : StronglySorted lt l -> l <> [] ->
  In (last l 0%nat) l /\ forall i, In i l -> (i <= last l 0)%nat.
Proof.
  induction 1 as [|x l Hl IH Hf]; intro Hn; [contradiction|].
  destruct l as [|y l]. { cbn. split; auto. intros i [->|[]]; auto. }
  change (last (x :: y :: l) 0%nat) with (last (y :: l) 0%nat).
  destruct (IH ltac:(discriminate)) as [H1 H2]. split; [right; auto|].
  intros i [->|Hi]; auto. rewrite Forall_forall in Hf. specialize (Hf _ H1). lia.
Qed.

Lemma gather_in {A} (mask : list bool) (l : list A) t :
  In t (gather mask l) <-> exists i, nth i mask false = true /\ nth_error l i = Some t.
Proof.
  revert l. induction mask as [|b mask IH]; intros [|x l]; cbn [gather].
  - split; [intros []|]. intros (i & H & _). destruct i; discriminate.
  - split; [intros []|]. intros (i & H & _). destruct i; discriminate.
  - split; [intros []|]. intros (i & _ & H). destruct i; discriminate.
  - destruct b; cbn [In]; rewrite IH; split.
    + intros [->|(i & H1 & H2)]; [exists 0%nat|exists (S i)]; auto.
    + intros ([|i] & H1 & H2); [left; cbn in H2; congruence|right; exists i; auto].
    + intros (i & H1 & H2). exists (S i); auto.
    + intros ([|i] & H1 & H2); [discriminate|]. exists i; auto.
Qed.

Lemma nth_upd_true k i (m : list bool) : (k < length m)%nat ->
  nth i (upd k true m) false = true <-> nth i m false = true \/ i = k.
Proof.
  revert k i. induction m as [|b m IH]; intros k i Hk; [cbn in Hk; lia|].
  destruct k as [|k], i as [|i]; cbn [upd nth].
  - split; auto.
  - split; auto. intros [H|H]; auto. discriminate.
  - split; auto. intros [H|H]; auto. discriminate.
  - cbn in Hk. rewrite IH by lia. split; intros [H|H]; auto.
Qed.

Lemma widen_spec (m : list bool) i : where_ m <> [] ->
  let a := hd 0%nat (where_ m) in let b := last (where_ m) 0%nat in
  nth i (widen m) false = true <->
  nth i m false = true \/ (S i = a) \/ (i = S b /\ (S b < length m)%nat).
Proof.
  intros Hn a b.
  destruct (hd_least _ (where_sorted m) Hn) as [Ha _].
  destruct (last_greatest _ (where_sorted m) Hn) as [Hb _].
  assert (La : (a < length m)%nat).
  { apply where_in in Ha. destruct (Nat.ltb_spec a (length m)); auto. unfold a in *. rewrite nth_overflow in Ha by lia. discriminate. }
  assert (Lb : (b < length m)%nat).
  { apply where_in in Hb. destruct (Nat.ltb_spec b (length m)); auto. unfold b in *. rewrite nth_overflow in Hb by lia. discriminate. }
  unfold widen. fold a b.
  set (m1 := if Nat.ltb 0 a then upd (a - 1) true m else m).
  assert (H1 : nth i m1 false = true <-> nth i m false = true \/ S i = a).
  { unfold m1. destruct (Nat.ltb_spec 0 a).
    - rewrite nth_upd_true by lia. split; intros [?|?]; auto; right; lia.
    - split; auto. intros [?|?]; auto. lia. }
  assert (L1 : length m1 = length m) by (unfold m1; destruct (Nat.ltb 0 a); rewrite ?length_upd; auto).
  destruct (Nat.ltb_spec b (length m - 1)).
  - rewrite nth_upd_true by lia. rewrite H1. split.
    + intros [[?|?]|?]; auto. right. right. split; lia.
    + intros [?|[?|[? ?]]]; auto. right. lia.
  - rewrite H1. split; [tauto|]. intros [?|[?|[? ?]]]; auto. lia.
Qed.

(** * The integration grid *)
Lemma in_band_nth rw sw i :
  nth i (in_band rw sw) false = true <->
  exists t, nth_error sw i = Some t /\ nth 0 rw 0 <= t <= last rw 0.
Proof.
  unfold in_band. split.
  - intro H. destruct (nth_error sw i) as [t|] eqn:E.
    + assert (Hi : (i < length sw)%nat) by (apply nth_error_Some; congruence).
      rewrite (nth_indep _ false ((fun w => geb w (nth 0 rw n0) && nleb w (last rw n0)) 0)) in H by (rewrite map_length; auto).
      rewrite (map_nth (fun w => geb w (nth 0 rw n0) && nleb w (last rw n0))) in H.
      rewrite (nth_error_nth _ _ 0 E) in H. apply andb_true_iff in H as [H1 H2].
      unfold geb in H1. rcbn. apply Rleb_iff in H1, H2. exists t. split; auto.
    + apply nth_error_None in E. rewrite nth_overflow in H by (rewrite map_length; auto). discriminate.
  - intros (t & E & H1 & H2). apply nth_error_nth. rewrite nth_error_map, E. cbn [option_map]. f_equal.
    apply andb_true_iff. unfold geb. rcbn. split; apply Rleb_iff; auto.
Qed.

Lemma sorted_nth (l : list R) i j a b : StronglySorted Rlt l ->
  nth_error l i = Some a -> nth_error l j = Some b -> (a < b <-> (i < j)%nat).
Proof.
  assert (Hlt : forall l, StronglySorted Rlt l -> forall i j a b, nth_error l i = Some a -> nth_error l j = Some b -> (i < j)%nat -> a < b).
  { clear. induction 1 as [|x l Hl IH Hf]; intros i j a b Hi Hj Hij; [destruct i; discriminate|].
    destruct i as [|i], j as [|j]; try lia; cbn in *.
    - injection Hi as <-. rewrite Forall_forall in Hf. apply Hf. eapply nth_error_In; eauto.
    - apply (IH i j); auto. lia. }
  intros Hs Hi Hj. split.
  - intro Hab. destruct (Nat.lt_trichotomy i j) as [?|[->|Hc]]; auto.
    + rewrite Hi in Hj. injection Hj as ->. lra.
    + specialize (Hlt l Hs _ _ _ _ Hj Hi Hc). lra.
  - intro. apply (Hlt l Hs i j); auto.
Qed.

Lemma grid_spec rw sw :
  StronglySorted Rlt sw -> (exists t, In t sw /\ nth 0 rw 0 <= t <= last rw 0) ->
  is_grid rw sw (grid_of rw sw).
Proof.
  intros Hs (t0 & Ht0 & Hb0). split; [apply unique_sorted|]. intro t.
  unfold grid_of. rewrite unique_in, in_app_iff, gather_in.
  set (m := in_band rw sw).
  assert (Hlen : length m = length sw) by (unfold m, in_band; apply map_length).
  assert (Hn : where_ m <> []).
  { apply In_nth_error in Ht0 as [i Hi]. intro E. assert (In i (where_ m)); [|rewrite E in *; auto].
    apply where_in, in_band_nth. exists t0. auto. }
  destruct (hd_least _ (where_sorted m) Hn) as [Ha Ha'].
  destruct (last_greatest _ (where_sorted m) Hn) as [Hb Hb'].
  pose proof (fun i => widen_spec m i Hn) as Hw. cbv zeta in Hw.
  set (a := hd 0%nat (where_ m)) in *. set (b := last (where_ m) 0%nat) in *.
  apply where_in in Ha. apply where_in in Hb. unfold m in Ha, Hb. apply in_band_nth in Ha as (ta & Ea & Ba).
  apply in_band_nth in Hb as (tb & Eb & Bb).
  assert (Hfirst : forall i u, nth_error sw i = Some u -> nth 0 rw 0 <= u <= last rw 0 -> (a <= i <= b)%nat).
  { intros i u Hi Hu. assert (Hin : In i (where_ m)) by (apply where_in, in_band_nth; eauto). split; auto. }
  unfold in_grid. cbv zeta. split.
  - intros [(i & Hi & Ei)|H]; [|left; exact H]. right. apply Hw in Hi as [Hi|[Hi|[Hi Hl]]].
    + left. unfold m in Hi. apply in_band_nth in Hi as (u & Eu & Bu). rewrite Ei in Eu. injection Eu as <-.
      split; auto. eapply nth_error_In; eauto.
    + right. left. split; [eapply nth_error_In; eauto|].
      assert (Hlt : t < ta) by (apply (proj2 (sorted_nth sw i a t ta Hs Ei Ea)); lia).
      assert (Hlo : t < nth 0 rw 0).
      { destruct (Rlt_le_dec t (nth 0 rw 0)); auto. assert (a <= i <= b)%nat by (apply (Hfirst i t); auto; lra). lia. }
      split; auto. intros u Hu Hu'. apply In_nth_error in Hu as [k Ek].
      destruct (Rle_lt_dec u t); auto. exfalso.
      apply (proj1 (sorted_nth sw i k t u Hs Ei Ek)) in r.
      assert (Hua : u < ta) by lra. apply (proj1 (sorted_nth sw k a u ta Hs Ek Ea)) in Hua. lia.
    + right. right. split; [eapply nth_error_In; eauto|]. subst i.
      assert (Hlt : tb < t) by (apply (proj2 (sorted_nth sw b (S b) tb t Hs Eb Ei)); lia).
      assert (Hhi : last rw 0 < t).
      { destruct (Rlt_le_dec (last rw 0) t); auto. assert (a <= S b <= b)%nat by (apply (Hfirst (S b) t); auto; lra). lia. }
      split; auto. intros u Hu Hu'. apply In_nth_error in Hu as [k Ek].
      destruct (Rle_lt_dec t u); auto. exfalso.
      apply (proj1 (sorted_nth sw k (S b) u t Hs Ek Ei)) in r.
      assert (Hub : tb < u) by lra. apply (proj1 (sorted_nth sw b k tb u Hs Eb Ek)) in Hub. lia.
  - intros [H|[(Hin & Hb1)|[(Hin & Hlo & Hmax)|(Hin & Hhi & Hmin)]]]; auto; left;
      apply In_nth_error in Hin as [i Ei]; exists i; split; auto; apply Hw.
    + left. apply in_band_nth. eauto.
    + right. left. assert (Hia : (i < a)%nat) by (apply (proj1 (sorted_nth sw i a t ta Hs Ei Ea)); lra).
      destruct (Nat.eq_dec (S i) a); auto. exfalso.
      assert (Hsi : exists u, nth_error sw (S i) = Some u).
      { destruct (nth_error sw (S i)) eqn:E; eauto. apply nth_error_None in E.
        assert ((a < length sw)%nat) by (apply nth_error_Some; congruence). lia. }
      destruct Hsi as [u Eu].
      assert (Htu : t < u) by (apply (proj2 (sorted_nth sw i (S i) t u Hs Ei Eu)); lia).
      destruct (Rlt_le_dec u (nth 0 rw 0)) as [Hu|Hu].
      * specialize (Hmax u (nth_error_In _ _ Eu) Hu). lra.
      * assert (Hua : u < ta) by (apply (proj2 (sorted_nth sw (S i) a u ta Hs Eu Ea)); lia).
        assert (a <= S i <= b)%nat by (apply (Hfirst (S i) u); auto; lra). lia.
    + right. right. assert (Hib : (b < i)%nat) by (apply (proj1 (sorted_nth sw b i tb t Hs Eb Ei)); lra).
      assert (Hli : (i < length sw)%nat) by (apply nth_error_Some; congruence).
      destruct (Nat.eq_dec i (S b)); [split; [auto|rewrite Hlen; lia]|]. exfalso.
      assert (Hsi : exists u, nth_error sw (S b) = Some u).
      { destruct (nth_error sw (S b)) eqn:E; eauto. apply nth_error_None in E. lia. }
      destruct Hsi as [u Eu].
      assert (Htu : u < t) by (apply (proj2 (sorted_nth sw (S b) i u t Hs Eu Ei)); lia).
      destruct (Rlt_le_dec (last rw 0) u) as [Hu|Hu].
      * specialize (Hmin u (nth_error_In _ _ Eu) Hu). lra.
      * assert (Hub : tb < u) by (apply (proj2 (sorted_nth sw b (S b) tb u Hs Eb Eu)); lia).
        assert (a <= S b <= b)%nat by (apply (Hfirst (S b) u); auto; lra). lia.
Qed.

Lemma is_grid_unique rw sw g1 g2 : is_grid rw sw g1 -> is_grid rw sw g2 -> g1 = g2.
Proof.
  intros [S1 M1] [S2 M2]. apply sorted_ext; auto. intro t. rewrite M1, M2. reflexivity.
Qed.

(** * Integrals *)
Lemma integrand_map (f r : R -> R) g :
  integrand (map f g) (map r g) g = map (fun t => f t * r t * t) g.
Proof.
  unfold integrand. rewrite zip_map_l, zip_map_r, zip_same, zip_map_l. rcbn.
  rewrite zip_same. reflexivity.
Qed.

Lemma sed_ab_real (w : R) : w <> 0 -> sed_ab1 w = ab_flux w.
Proof.
  intro H. unfold sed_ab1, ab_flux, nsq. rcbn. rewrite !Q2R_lit. field. auto.
Qed.

Lemma last_map {A B} (f : A -> B) l d : l <> [] -> last (map f l) (f d) = f (last l d).
Proof.
  induction l as [|x l IH]; intro H; [contradiction|]. destruct l as [|y l]; auto.
  change (last (map f (x :: y :: l)) (f d)) with (last (map f (y :: l)) (f d)).
  rewrite IH by discriminate. reflexivity.
Qed.
Lemma last_indep {A} (l : list A) d d' : l <> [] -> last l d = last l d'.
Proof. induction l as [|x [|y l] IH]; intro H; [contradiction|auto|]. apply IH. discriminate. Qed.
Lemma last_In {A} (l : list A) d : l <> [] -> In (last l d) l.
Proof. induction l as [|x [|y l] IH]; intro H; [contradiction|left; auto|]. right. apply IH. discriminate. Qed.

(** The swapped trapezoid call on a function of the grid. *)
Lemma swapped_map (f : R -> R) g : g <> [] ->
  swapped g (map f g) = last g 0 * f (last g 0) - hd 0 g * f (hd 0 g) - trapz (map f g) g.
Proof.
  intro Hn. unfold swapped.
  pose proof (trapz_swap g (map f g) (eq_sym (map_length _ _)) Hn) as E.
  assert (Hl : last (map f g) 0 = f (last g 0)).
  { rewrite (last_indep _ 0 (f 0)) by (destruct g; [contradiction|discriminate]). apply last_map; auto. }
  assert (Hh : hd 0 (map f g) = f (hd 0 g)) by (destruct g; [contradiction|reflexivity]).
  rewrite Hl, Hh in E. lra.
Qed.

(** * What project computes *)
Definition proj_num (S Rr : R -> R) (g : list R) : list R := map (fun t => S t * Rr t * t) g.

Lemma sorted_hd_least (l : list R) x : StronglySorted Rlt l -> In x l -> hd 0 l <= x.
Proof.
  intros H Hx. destruct H as [|y l Hl Hf]; [contradiction|]. cbn. destruct Hx as [->|Hx]; [lra|].
  rewrite Forall_forall in Hf. specialize (Hf x Hx). lra.
Qed.
Lemma sorted_last_greatest (l : list R) : StronglySorted Rlt l -> forall x, In x l -> x <= last l 0.
Proof.
  induction 1 as [|y l Hl IH Hf]; intros x Hx; [contradiction|]. destruct l as [|z l].
  - destruct Hx as [->|[]]. cbn. lra.
  - change (last (y :: z :: l) 0) with (last (z :: l) 0). destruct Hx as [->|Hx]; auto.
    rewrite Forall_forall in Hf. specialize (Hf z (or_introl eq_refl)).
    assert (z <= last (z :: l) 0) by (apply IH; left; auto). lra.
Qed.

Lemma list_max_ex (l : list R) : l <> [] -> exists m, In m l /\ forall u, In u l -> u <= m.
Proof.
  induction l as [|x l IH]; intro H; [contradiction|]. destruct l as [|y l].
  - exists x. split; [left; auto|]. intros u [->|[]]. lra.
  - destruct IH as (m & Hm & Hu); [discriminate|]. destruct (Rle_lt_dec x m).
    + exists m. split; [right; auto|]. intros u [<-|Hi]; auto.
    + exists x. split; [left; auto|]. intros u [<-|Hi]; [lra|]. specialize (Hu u Hi). lra.
Qed.
Lemma list_min_ex (l : list R) : l <> [] -> exists m, In m l /\ forall u, In u l -> m <= u.
Proof.
  induction l as [|x l IH]; intro H; [contradiction|]. destruct l as [|y l].
  - exists x. split; [left; auto|]. intros u [->|[]]. lra.
  - destruct IH as (m & Hm & Hu); [discriminate|]. destruct (Rle_lt_dec x m).
    + exists x. split; [left; auto|]. intros u [<-|Hi]; [lra|]. specialize (Hu u Hi). lra.
    + exists m. split; [right; auto|]. intros u [<-|Hi]; auto. lra.
Qed.
Lemma below_ex (l : list R) (c : R) : (exists t, In t l /\ t < c) ->
  exists m, In m l /\ m < c /\ forall u, In u l -> u < c -> u <= m.
Proof.
  intros (t & Ht & Hc). destruct (list_max_ex (filter (fun u => Rltb u c) l)) as (m & Hm & Hu).
  { intro E. assert (Hi : In t (filter (fun u => Rltb u c) l)) by (apply filter_In; split; auto; apply Rltb_iff; auto).
    rewrite E in Hi. auto. }
  apply filter_In in Hm as [H1 H2]. apply Rltb_iff in H2. exists m. repeat split; auto.
  intros u Hi Hlt. apply Hu, filter_In. split; auto. apply Rltb_iff; auto.
Qed.
Lemma above_ex (l : list R) (c : R) : (exists t, In t l /\ c < t) ->
  exists m, In m l /\ c < m /\ forall u, In u l -> c < u -> m <= u.
Proof.
  intros (t & Ht & Hc). destruct (list_min_ex (filter (fun u => Rltb c u) l)) as (m & Hm & Hu).
  { intro E. assert (Hi : In t (filter (fun u => Rltb c u) l)) by (apply filter_In; split; auto; apply Rltb_iff; auto).
    rewrite E in Hi. auto. }
  apply filter_In in Hm as [H1 H2]. apply Rltb_iff in H2. exists m. repeat split; auto.
  intros u Hi Hlt. apply Hu, filter_In. split; auto. apply Rltb_iff; auto.
Qed.

Section Core.
  Variable cub : list R -> list R -> R -> R.

  Lemma project_core_real rw rit sw sit nsed :
    (exists t, In t sw /\ nth 0 rw 0 <= t <= last rw 0) -> StronglySorted Rlt sw ->
    forall g, is_grid rw sw g -> (forall t, In t g -> t <> 0) ->
    let Rr := reval cub rit in
    let num := fun ys => swapped g (map (fun t => ieval1 cub (ix sit) ys t * Rr t * t) g) in
    let den := swapped g (map (fun t => ab_flux t * Rr t * t) g) in
    project_core cub rw (Some rit) sw (Some sit) nsed =
    Ok (if Nat.eqb nsed 1 then scal (match iys sit with [] => 0 | _ => num (hd [] (iys sit)) end / den)
        else mk [nsed] (map (fun ys => num ys / den) (iys sit))).
  Proof.
    intros Hex Hs g Hg Hnz Rr num den.
    assert (Eg : grid_of rw sw = g) by (eapply is_grid_unique; [apply grid_spec; auto|auto]).
    assert (Hgn : g <> []).
    { destruct Hex as (t & Ht & Hb). intro E. assert (Hi : In t g) by (apply (proj2 Hg); right; left; auto).
      rewrite E in Hi. auto. }
    unfold project_core. destruct (where_ (in_band rw sw)) as [|i l] eqn:Ew.
    { exfalso. destruct Hex as (t & Ht & Hb). apply In_nth_error in Ht as [i Hi].
      assert (Hin : In i (where_ (in_band rw sw))) by (apply where_in, in_band_nth; eauto). rewrite Ew in Hin. auto. }
    rewrite Eg. unfold ieval.
    assert (Hab : sed_ab g = map ab_flux g).
    { unfold sed_ab. apply map_ext_in. intros t Ht. apply sed_ab_real; auto. }
    rewrite Hab.
    assert (Hi : forall ys, integrand (map (ieval1 cub (ix sit) ys) g) (map Rr g) g =
                       map (fun t => ieval1 cub (ix sit) ys t * Rr t * t) g) by (intro; apply integrand_map).
    assert (Hd : integrand (map ab_flux g) (map Rr g) g = map (fun t => ab_flux t * Rr t * t) g) by apply integrand_map.
    fold Rr. rewrite Hd. fold den. destruct (Nat.eqb nsed 1).
    - f_equal. f_equal. destruct (iys sit) as [|ys l'].
      + cbn [map hd]. assert (E0 : swapped g (integrand [] (map Rr g) g) = 0).
        { unfold swapped, integrand. cbn [zip]. destruct g as [|? [|? ?]]; reflexivity. }
        rewrite E0. reflexivity.
      + cbn [map hd]. rewrite Hi. reflexivity.
    - f_equal. f_equal. rewrite map_map. apply map_ext. intro ys. rewrite Hi. reflexivity.
  Qed.

  (** When the grid reaches beyond the band on both sides the response, hence the integrand, vanishes
      at both ends. *)
  Lemma grid_ends rw sw g (y : list R) :
    is_grid rw sw g -> (exists t, In t sw /\ t < nth 0 rw 0) -> (exists t, In t sw /\ last rw 0 < t) ->
    hd 0 g < nth 0 rw 0 /\ last rw 0 < last g 0 /\
    ieval1 cub rw y (hd 0 g) = 0 /\ ieval1 cub rw y (last g 0) = 0.
  Proof.
    intros [Sg Mg] Hl Hh.
    destruct (below_ex _ _ Hl) as (m & Hm & Hlt & Hmax). destruct (above_ex _ _ Hh) as (M & HM & Hgt & Hmin).
    assert (Im : In m g) by (apply Mg; right; right; left; auto).
    assert (IM : In M g) by (apply Mg; right; right; right; auto).
    assert (H1 : hd 0 g < nth 0 rw 0) by (pose proof (sorted_hd_least g m Sg Im); lra).
    assert (H2 : last rw 0 < last g 0) by (pose proof (sorted_last_greatest g Sg M IM); lra).
    split; auto. split; auto. unfold ieval1, out_of. rcbn. split.
    - rewrite Rltb_true by auto. reflexivity.
    - rewrite (Rltb_true (last rw 0)) by auto. rewrite orb_true_r. reflexivity.
  Qed.
End Core.
