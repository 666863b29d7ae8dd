(** What a successfully constructed Response or SED object looks like (over the reals). *)
From Coq Require Import List Arith Lia Bool Reals Lra Sorting.Sorted Sorting.Permutation QArith Qreals.
From Verif Require Import Base BaseLemmas Num Interp InterpReal Spec Utils Sed Response ResponseProofs.
Import ListNotations.
Local Open Scope R_scope.

Lemma insert_head {A} (key : A -> R) x l :
  (forall y, In y l -> key x <= key y) -> insert key x l = x :: l.
Proof.
  intro H. destruct l as [|y l]; auto. cbn [insert]. rcbn. rewrite Rltb_false; auto. apply H; left; auto.
Qed.
Lemma isort_id {A} (key : A -> R) l : StronglySorted (fun a b => key a <= key b) l -> isort key l = l.
Proof.
  induction 1 as [|x l Hl IH Hf]; auto. cbn [isort]. rewrite IH. apply insert_head.
  rewrite Forall_forall in Hf. auto.
Qed.
Lemma combine_sorted (l : list R) : StronglySorted Rle l -> forall (B : Type) (m : list B),
  StronglySorted (fun a b => fst a <= fst b) (combine l m).
Proof.
  induction 1 as [|x l Hl IH Hf]; intros B [|y m]; cbn [combine]; try constructor; auto.
  rewrite Forall_forall in *. intros [a b] Hab. cbn [fst]. apply Hf. eapply in_combine_l; eauto.
Qed.
Lemma argsort_id (l : list R) : StronglySorted Rle l -> argsort l = seq 0 (length l).
Proof.
  intro H. unfold argsort. rewrite isort_id by (apply combine_sorted; auto).
  apply map_snd_combine. rewrite seq_length; auto.
Qed.
Lemma Rlt_Rle_sorted (l : list R) : StronglySorted Rlt l -> StronglySorted Rle l.
Proof.
  induction 1 as [|x l Hl IH Hf]; constructor; auto. rewrite Forall_forall in *. intros y Hy.
  specialize (Hf y Hy). lra.
Qed.
Lemma map_nth_seq {A} (l : list A) d : map (fun k => nth k l d) (seq 0 (length l)) = l.
Proof.
  apply nth_error_ext. intro i. rewrite nth_error_map, nth_error_seq.
  destruct (Nat.ltb_spec i (length l)); cbn [option_map Nat.add].
  - symmetry. apply nth_error_nth'. auto.
  - symmetry. apply nth_error_None. auto.
Qed.

Lemma has_dup_sorted (l : list R) : StronglySorted Rlt l -> has_dup l = false.
Proof.
  induction 1 as [|x l Hl IH Hf]; auto. destruct l as [|y l]; auto.
  change (has_dup (x :: y :: l)) with (same x y || has_dup (y :: l)). rewrite IH.
  apply Forall_inv in Hf. destruct (same x y) eqn:E; auto. apply same_iff in E. lra.
Qed.
Lemma has_dup_false (l : list R) : StronglySorted Rle l -> has_dup l = false -> StronglySorted Rlt l.
Proof.
  induction 1 as [|x l Hl IH Hf]; intro H; [constructor|]. destruct l as [|y l]; [repeat constructor|].
  change (has_dup (x :: y :: l)) with (same x y || has_dup (y :: l)) in H. apply orb_false_iff in H as [H1 H2].
  specialize (IH H2). constructor; auto.
  assert (Hxy : x < y).
  { apply Forall_inv in Hf. destruct (Req_dec x y); [|lra]. apply same_iff in H. congruence. }
  inversion IH as [|? ? ? Hf']; subst. constructor; auto. rewrite Forall_forall in *. intros z Hz.
  specialize (Hf' z Hz). lra.
Qed.

(** argsort gives a sorted list. *)
Lemma argsort_sorted (l : list R) : StronglySorted Rle (map (fun k => nth k l n0) (argsort l)).
Proof.
  assert (E : map (fun k => nth k l n0) (argsort l) = map fst (isort fst (combine l l))).
  { rewrite <- (argsort_pairs l l n0 eq_refl), map_map. reflexivity. }
  rewrite E.
  assert (Hs := isort_sorted fst (combine l l)). revert Hs. generalize (isort fst (combine l l)).
  induction 1 as [|p q Hq IH Hf]; cbn [map]; constructor; auto.
  rewrite Forall_forall in *. intros x Hx. apply in_map_iff in Hx as (u & <- & Hu). auto.
Qed.

(** mk_cubic on an increasing grid keeps it. *)
Lemma mk_cubic_sorted (x : list R) (y : nd R) it :
  StronglySorted Rlt x -> wf y -> mk_cubic x y = Ok it ->
  ix it = x /\ iys it = lrows y /\ (4 <= length x)%nat /\ lastd (shp y) = length x.
Proof.
  intros Hs Hw. unfold mk_cubic.
  destruct (negb (Nat.eqb (ndim y) 0)) eqn:E0; [|discriminate].
  destruct (Nat.eqb_spec (lastd (shp y)) (length x)) as [E1|]; [|discriminate].
  destruct (Nat.leb_spec 4 (length x)) as [E2|]; [|discriminate].
  rewrite argsort_id by (apply Rlt_Rle_sorted; auto). rewrite map_nth_seq.
  rewrite has_dup_sorted by auto. cbn [negb]. intro H; injection H as <-. cbn [ix iys].
  split; auto. split; auto. rewrite <- (map_id (lrows y)) at 2. apply map_ext_in. intros r Hr.
  assert (Hlen : length r = length x).
  { rewrite <- E1. eapply lrows_row_length; eauto. intro E. unfold ndim in E0. rewrite E in E0. discriminate. }
  rewrite <- Hlen. apply map_nth_seq.
Qed.

Lemma lrows_vec {A} (l : list A) : lrows (vec l) = [l].
Proof. unfold lrows, vec, lead, lastd. cbn. rewrite firstn_all. reflexivity. Qed.

Section Obj.
  Variable cub : list R -> list R -> R -> R.
  Variable bq : (R -> R) -> R -> R -> res R.
  Variable sun vega : res (list R * list (basel_unit R)).

  Lemma spline_eval xs ys t : ieval1 cub xs ys t = spline cub xs ys t.
  Proof.
    unfold ieval1, out_of, spline. rcbn. unfold Rltb.
    destruct (Rlt_dec t (nth 0 xs 0)); auto. destruct (Rlt_dec (last xs 0) t); auto.
  Qed.

  Lemma sort_pair_ok (wave y : list R) : length y = length wave ->
    exists w r, sort_pair wave y = Ok (w, r) /\ length w = length wave /\ length r = length wave /\
                StronglySorted Rle w /\ combine w r = isort fst (combine wave y).
  Proof.
    intro H. unfold sort_pair.
    assert (Hf : forallb (fun k => Nat.ltb k (length y)) (argsort wave) = true).
    { apply forallb_forall. intros k Hk. apply argsort_lt in Hk. apply Nat.ltb_lt. lia. }
    rewrite Hf. do 2 eexists. split; [reflexivity|]. rewrite !map_length, argsort_length.
    do 2 (split; [reflexivity|]). split; [apply argsort_sorted|].
    rewrite <- (argsort_pairs wave y n0 H).
    assert (Hc : forall (f g : nat -> R) l, combine (map f l) (map g l) = map (fun k => (f k, g k)) l).
    { induction l; cbn; congruence. }
    apply Hc.
  Qed.

  (** The attributes of a successfully constructed Response. *)
  Lemma Response_ok (wave y : list R) r : length y = length wave -> Response cub bq sun vega wave y = Ok r ->
    exists w yy fw,
      p_wave r = Some w /\ p_resp r = Some yy /\ p_interp r = Some {| ix := w; iys := [yy] |} /\
      StronglySorted Rlt w /\ (4 <= length w)%nat /\ length yy = length w /\
      length w = length wave /\
      combine w yy = isort fst (combine wave y) /\
      p_leff r = Some (lambda_eff w yy) /\
      fwhm_limits cub bq w {| ix := w; iys := [yy] |} = Ok fw /\ p_fwhm r = Some fw.
  Proof.
    intros Hl. unfold Response. destruct (sort_pair_ok wave y Hl) as (w & yy & -> & L1 & L2 & Hs & Hc).
    cbn [bind fst snd]. unfold resp_setup, with_curve, blank. cbn [p_wave p_resp p_interp p_leff p_solar p_vega2ab p_fwhm].
    destruct (mk_cubic w (vec yy)) as [it|e] eqn:Ec; [|discriminate].
    destruct (ref_magnitude cub sun_scale sun _) as [sm|e] eqn:Es; [|discriminate].
    destruct (ref_magnitude cub vega_scale vega _) as [vm|e] eqn:Ev; [|discriminate].
    destruct (fwhm_limits cub bq w it) as [fw|e] eqn:Ef; [|discriminate].
    intro H; injection H as <-. cbn [p_wave p_resp p_interp p_leff p_solar p_vega2ab p_fwhm].
    assert (Hst : StronglySorted Rlt w).
    { unfold mk_cubic in Ec. destruct (negb _) in Ec; [|discriminate]. destruct (Nat.eqb _ _) in Ec; [|discriminate].
      destruct (Nat.leb _ _) in Ec; [|discriminate]. rewrite argsort_id, map_nth_seq in Ec by auto.
      destruct (has_dup w) eqn:Ed; [discriminate|]. apply has_dup_false; auto. }
    destruct (mk_cubic_sorted w (vec yy) it Hst (wf_vec yy) Ec) as (H1 & H2 & H3 & H4).
    rewrite lrows_vec in H2.
    assert (Eit : it = {| ix := w; iys := [yy] |}) by (destruct it as [xs0 ys0]; cbn [ix iys] in *; congruence).
    subst it. exists w, yy, fw. repeat split; auto; lia.
  Qed.

  (** A successfully constructed SED on an increasing grid, interpolating. *)
  Lemma SED_ok (sw : list R) (flux : nd R) s : StronglySorted Rlt sw -> wf flux ->
    SED sw flux true = Ok s ->
    s_wave s = sw /\ s_flux s = s_rflux s /\ s_interp s = Some {| ix := sw; iys := lrows (s_rflux s) |} /\
    (4 <= length sw)%nat /\
    s_rflux s = (if Nat.eqb (ndim flux) 1 then mk [1%nat; length sw] (dat flux) else flux).
  Proof.
    intros Hs Hw. unfold SED, sed_setup.
    assert (Hcase : forall f, wf f -> forall s',
      (if negb (Nat.eqb (ndim f) 0) then
         match set_interp {| s_rwave := sw; s_rflux := f; s_wave := sw; s_flux := f; s_z := n0; s_flag := true; s_interp := None; s_bin := false |} with
         | (s', None) => Ok s' | (_, Some e) => Raise e end else Raise IndexError) = Ok s' ->
      s_wave s' = sw /\ s_flux s' = s_rflux s' /\ s_interp s' = Some {| ix := sw; iys := lrows (s_rflux s') |} /\
      (4 <= length sw)%nat /\ s_rflux s' = f).
    { intros f Wf s' H. destruct (negb _); [|discriminate]. unfold set_interp in H. cbn [s_wave s_flux] in H.
      destruct (mk_cubic sw f) as [it|e] eqn:Ec; [|discriminate]. injection H as <-. cbn.
      destruct (mk_cubic_sorted sw f it Hs Wf Ec) as (H1 & H2 & H3 & H4).
      repeat split; auto. f_equal. destruct it as [xs0 ys0]; cbn [ix iys] in *; congruence. }
    destruct (Nat.eqb (ndim flux) 1) eqn:E1.
    - unfold reshape. destruct (Nat.eqb_spec (size [1%nat; length sw]) (size (shp flux))) as [Es|]; [|discriminate].
      cbn [bind]. intro H. apply Hcase in H; auto. unfold wf. cbn [dat shp]. rewrite Hw. auto.
    - cbn [bind]. intro H. apply Hcase in H; auto.
  Qed.
End Obj.

(** Vocabulary of the Response theorems: [r] is the object built from samples (wave, y) with positive
    wavelengths, and (w, yy) are its sorted samples. *)
Definition band cub bq sun vega (wave y : list R) (r : resp R) (w yy : list R) : Prop :=
  length y = length wave /\ Response cub bq sun vega wave y = Ok r /\
  p_wave r = Some w /\ p_resp r = Some yy /\ Forall (fun t => 0 < t) wave.
(** [s] is the SED object with flux [f] sampled on the increasing positive grid [sw]. *)
Definition spectrum (sw f : list R) (s : sed R) : Prop :=
  StronglySorted Rlt sw /\ SED sw (vec f) true = Ok s /\ Forall (fun t => 0 < t) sw.
(** Some sample of the grid lies in the range of the band. *)
Definition overlaps (w sw : list R) : Prop := exists t, In t sw /\ nth 0 w 0 <= t <= last w 0.
(** The grid has samples strictly beyond both ends of the band. *)
Definition brackets (w sw : list R) : Prop :=
  (exists t, In t sw /\ t < nth 0 w 0) /\ (exists t, In t sw /\ last w 0 < t).

(** Existence of objects. *)
Lemma mk_cubic_intro (x : list R) (y : nd R) : StronglySorted Rlt x -> (4 <= length x)%nat ->
  shp y <> [] -> lastd (shp y) = length x -> exists it, mk_cubic x y = Ok it.
Proof.
  intros Hs H4 Hn Hl. unfold mk_cubic, ndim. rewrite Hl, Nat.eqb_refl.
  destruct (shp y) as [|a l] eqn:E; [contradiction|]. cbn [length Nat.eqb negb].
  assert (H4' : Nat.leb 4 (length x) = true) by (apply Nat.leb_le; auto). rewrite H4'.
  rewrite (argsort_id x (Rlt_Rle_sorted _ Hs)), (map_nth_seq x n0), (has_dup_sorted _ Hs). eexists. reflexivity.
Qed.
Lemma SED_intro (x : list R) (y : nd R) : StronglySorted Rlt x -> (4 <= length x)%nat ->
  ndim y = 2%nat -> lastd (shp y) = length x -> exists s, SED x y true = Ok s.
Proof.
  intros Hs H4 Hn Hl. unfold SED, sed_setup. rewrite Hn. cbn [Nat.eqb bind]. rewrite Hn. cbn [Nat.eqb negb].
  unfold set_interp. cbn [s_wave s_flux].
  assert (Hne : shp y <> []) by (intro E; unfold ndim in Hn; rewrite E in Hn; discriminate).
  destruct (mk_cubic_intro x y Hs H4 Hne Hl) as [it ->]. eexists. reflexivity.
Qed.
Lemma spectrum_intro (x f : list R) : StronglySorted Rlt x -> (4 <= length x)%nat -> length f = length x ->
  Forall (fun t => 0 < t) x -> exists s, spectrum x f s.
Proof.
  intros Hs H4 Hl Hp. unfold spectrum.
  assert (E : SED x (vec f) true = SED x (mk [1%nat; length x] f) true).
  { unfold SED, sed_setup. cbn [ndim vec shp length Nat.eqb]. unfold reshape. cbn [shp dat].
    assert (Q : Nat.eqb (size [1%nat; length x]) (size (shp (vec f))) = true)
      by (apply Nat.eqb_eq; unfold size; cbn [vec shp fold_right]; lia).
    rewrite Q. reflexivity. }
  destruct (SED_intro x (mk [1%nat; length x] f) Hs H4 eq_refl eq_refl) as [s Hs']. exists s.
  repeat split; auto. rewrite E. auto.
Qed.
