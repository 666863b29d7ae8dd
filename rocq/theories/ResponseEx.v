(** Concrete Response and SED objects over the reals, for the examples of the Response theorems. *)
From Coq Require Import List Arith Lia Bool ZArith QArith Qreals Reals Lra Sorting.Sorted Sorting.Permutation.
From Verif Require Import Base BaseLemmas Num Interp InterpReal Spec Utils Sed Response ResponseProofs
  ResponseObj LinInterp ResponseFwhm.
Import ListNotations.
Local Open Scope R_scope.

(** A solar file whose wavelengths (1000 to 4000 Angstrom) lie outside the toy bands. *)
Definition sun0 : res (list R * list (basel_unit R)) :=
  Ok ([100; 200; 300; 400],
      [{| b_modelno := 1; b_teff := 1; b_logg := 1; b_mh := 1; b_vturb := 1; b_xh := 1; b_flux := [1;1;1;1] |}]).

(** A root finder for the toy bands. *)
Definition bq0 (f : R -> R) (a b : R) : res R := Ok (if Rltb a 2 then 3 / 2 else 7 / 2).

Lemma sun0_sed scale : exists s, basel_sed scale ([100; 200; 300; 400],
      [{| b_modelno := 1; b_teff := 1; b_logg := 1; b_mh := 1; b_vturb := 1; b_xh := 1; b_flux := [1;1;1;1] |}]) = Ok s
  /\ s_wave s = [1000; 2000; 3000; 4000].
Proof.
  unfold basel_sed. cbn [fst snd length seq foldM map concat b_flux app].
  assert (Ew : basel_wave [100;200;300;400] = [1000; 2000; 3000; 4000]).
  { unfold basel_wave. rcbn. rewrite Q2R_lit. cbn [map]. repeat f_equal; field. }
  rewrite Ew. unfold basel_step, bin, map1. cbn [shp dat vec map length tl].
  change (bshape [1%nat; 4%nat] [4%nat]) with (Some [1%nat; 4%nat]). cbn [bind].
  unfold bto. cbn [shp length Nat.sub strip1 dat].
  change (bshape [4%nat] [4%nat]) with (Some [4%nat]). cbn [bind shape_eqb Nat.eqb andb].
  match goal with |- context [SED _ ?f true] => destruct (SED_intro [1000;2000;3000;4000] f) as [s Hs] end.
  - repeat constructor; lra.
  - cbn. lia.
  - reflexivity.
  - reflexivity.
  - exists s. split; [exact Hs|]. unfold SED, sed_setup in Hs. cbn [ndim shp length Nat.eqb bind negb] in Hs.
    unfold set_interp in Hs. cbn [s_wave s_flux] in Hs. destruct (mk_cubic _ _) in Hs; [|discriminate].
    injection Hs as <-. reflexivity.
Qed.

Lemma Response_intro cub bq (w y : list R) fw :
  StronglySorted Rlt w -> (4 <= length w)%nat -> length y = length w -> Forall (fun t => 0 < t) w -> last w 0 < 1000 ->
  fwhm_limits cub bq w {| ix := w; iys := [y] |} = Ok fw ->
  exists r, band cub bq sun0 sun0 w y r w y.
Proof.
  intros Hs H4 Hl Hp Hlast Hf.
  assert (Hsp : sort_pair w y = Ok (w, y)).
  { unfold sort_pair. rewrite (argsort_id w (Rlt_Rle_sorted _ Hs)).
    assert (Hfa : forallb (fun k => Nat.ltb k (length y)) (seq 0 (length w)) = true).
    { apply forallb_forall. intros k Hk. apply in_seq in Hk. apply Nat.ltb_lt. lia. }
    rewrite Hfa, (map_nth_seq w n0). rewrite <- Hl, (map_nth_seq y n0). reflexivity. }
  assert (Hmk : mk_cubic w (vec y) = Ok {| ix := w; iys := [y] |}).
  { destruct (mk_cubic_intro w (vec y) Hs H4) as [it Hit]; [discriminate|cbn; auto|].
    assert (Wf : wf (vec y)) by (unfold wf, vec, size; cbn; lia).
    destruct (mk_cubic_sorted _ _ _ Hs Wf Hit) as (E1 & E2 & _). rewrite lrows_vec in E2.
    destruct it as [a b]; cbn [ix iys] in *. congruence. }
  assert (Hmag : forall scale r, p_wave r = Some w -> ref_magnitude cub scale sun0 r = Ok None).
  { intros scale r Hr. unfold ref_magnitude, sun0. cbn [bind].
    destruct (sun0_sed scale) as (s & -> & Ew). cbn [bind]. unfold project_sed. rewrite Hr, Ew.
    unfold project_core.
    assert (Hno : where_ (in_band w [1000; 2000; 3000; 4000]) = []).
    { unfold in_band, geb. cbn [map]. rcbn.
      rewrite !(Rleb_false _ (last w 0)) by lra. rewrite !andb_false_r. reflexivity. }
    rewrite Hno. cbn [bind]. unfold mag_or_none, scal. cbn [dat]. rcbn. rewrite Rltb_false by lra. reflexivity. }
  unfold band, Response. rewrite Hsp. cbn [bind fst snd]. unfold resp_setup, with_curve, blank.
  cbn [p_wave p_resp p_interp p_leff p_solar p_vega2ab p_fwhm]. rewrite Hmk.
  rewrite !Hmag by reflexivity. rewrite Hf. eexists. repeat split; auto.
Qed.

Lemma sorted1234 : StronglySorted Rlt [1;2;3;4].
Proof. repeat constructor; lra. Qed.
Lemma sorted_wide : StronglySorted Rlt [1/2;1;2;3;4;5].
Proof. repeat constructor; lra. Qed.

Lemma spline_lin1234 a b c d t : 1 <= t <= 4 -> spline lin [1;2;3;4] [a;b;c;d] t = lin [1;2;3;4] [a;b;c;d] t.
Proof.
  intro H. unfold spline. cbn [nth last]. destruct (Rlt_dec t 1); [lra|]. destruct (Rlt_dec 4 t); [lra|]. reflexivity.
Qed.

(** A trapezium-shaped band and a flat one. *)
Lemma in1234 t : In t [1;2;3;4] -> t = 1 \/ t = 2 \/ t = 3 \/ t = 4.
Proof. cbn. intuition. Qed.

Lemma trapezium_contract : forall f a b,
  (forall x, f x = spline lin [1;2;3;4] [0;1;1;0] x / 1 - 1 / 2) -> In a [1;2;3;4] -> In b [1;2;3;4] -> a < b ->
  f a * f b <= 0 -> exists x, bq0 f a b = Ok x /\ a <= x <= b /\ f x = 0.
Proof.
  intros f a b Hf Ha Hb Hab Hs. apply in1234 in Ha. apply in1234 in Hb.
  assert (F : f 1 = - (1/2) /\ f 2 = 1/2 /\ f 3 = 1/2 /\ f 4 = - (1/2) /\ f (3/2) = 0 /\ f (7/2) = 0).
  { rewrite !Hf, !spline_lin1234 by lra. cbn [lin]. rdec. repeat split; field. }
  destruct F as (F1 & F2 & F3 & F4 & F5 & F6). unfold bq0.
  destruct Ha as [->|[->|[->| ->]]]; destruct Hb as [->|[->|[->| ->]]]; try lra;
    rdec; eexists; (split; [reflexivity|]); split; auto; try lra;
    rewrite ?F1, ?F2, ?F3, ?F4 in Hs; lra.
Qed.
Lemma trapezium_fwhm_hyps : let c := spline lin [1;2;3;4] [0;1;1;0] in
  (exists t, In t [1;2;3;4] /\ c t = 1) /\ (forall t, In t [1;2;3;4] -> c t <= 1).
Proof.
  cbn zeta. split.
  - exists 2. split; [cbn; auto|]. rewrite spline_lin1234 by lra. cbn [lin]. rdec. field.
  - intros t Ht. apply in1234 in Ht. destruct Ht as [->|[->|[->| ->]]]; rewrite spline_lin1234 by lra; cbn [lin]; rdec; lra.
Qed.
Lemma trapezium_band : exists r, band lin bq0 sun0 sun0 [1;2;3;4] [0;1;1;0] r [1;2;3;4] [0;1;1;0].
Proof.
  destruct trapezium_fwhm_hyps as [H1 H2].
  destruct (fwhm_spec lin bq0 [1;2;3;4] [0;1;1;0] 1 sorted1234 ltac:(discriminate) H1 H2 ltac:(lra) trapezium_contract)
    as (lo & hi & E & _).
  eapply Response_intro; eauto; try (cbn; lia); try (cbn; lra); try apply sorted1234; try (repeat constructor; lra).
Qed.

Lemma flat_one t : 1 <= t <= 4 -> spline lin [1;2;3;4] [1;1;1;1] t = 1.
Proof.
  intro H. rewrite spline_lin1234 by auto. cbn [lin].
  destruct (Rltb t 2), (Rltb t 3), (Rltb t 4); lra.
Qed.
Lemma flat_band : exists r, band lin bq0 sun0 sun0 [1;2;3;4] [1;1;1;1] r [1;2;3;4] [1;1;1;1].
Proof.
  assert (H1 : forall t, In t [1;2;3;4] -> spline lin [1;2;3;4] [1;1;1;1] t = 1).
  { intros t Ht. apply flat_one. apply in1234 in Ht. lra. }
  destruct (fwhm_spec lin bq0 [1;2;3;4] [1;1;1;1] 1 sorted1234 ltac:(discriminate)) as (lo & hi & E & _).
  - exists 1. split; [left; auto|apply H1; left; auto].
  - intros t Ht. rewrite H1; auto. lra.
  - lra.
  - intros f a b Hf Ha Hb _ Hs. rewrite !Hf, !H1 in Hs by auto. lra.
  - eapply Response_intro; eauto; try (cbn; lia); try (cbn; lra); try apply sorted1234; try (repeat constructor; lra).
Qed.

(** Spectra: one on the band's own grid, one extending beyond it. *)
Lemma flat_spectrum : exists s, spectrum [1;2;3;4] [1;1;1;1] s.
Proof. apply spectrum_intro; try (cbn; lia); try apply sorted1234; repeat constructor; lra. Qed.
Lemma wide_spectrum f : length f = 6%nat -> exists s, spectrum [1/2;1;2;3;4;5] f s.
Proof. intro H. apply spectrum_intro; try (cbn; lia); try apply sorted_wide; repeat constructor; lra. Qed.
Lemma wide_overlaps : overlaps [1;2;3;4] [1/2;1;2;3;4;5] /\ brackets [1;2;3;4] [1/2;1;2;3;4;5].
Proof.
  split; [exists 2; cbn; split; [auto|lra]|]. split; [exists (1/2)|exists 5]; cbn; split; auto; try lra; tauto.
Qed.
Lemma wide_ab_spectrum t : In t [1/2;1;2;3;4;5] \/ In t [1;2;3;4] ->
  spline lin [1/2;1;2;3;4;5] (map ab_flux [1/2;1;2;3;4;5]) t = ab_flux t.
Proof.
  intro H. assert (Hin : In t [1/2;1;2;3;4;5]) by (destruct H as [H|H]; auto; cbn in *; tauto).
  rewrite <- (lin_nodes ab_flux _ sorted_wide t Hin). unfold spline. cbn [nth last].
  assert (1/2 <= t <= 5) by (cbn in Hin; intuition lra).
  destruct (Rlt_dec t (1/2)); [lra|]. destruct (Rlt_dec 5 t); [lra|]. reflexivity.
Qed.
Lemma trapezium_nonneg t : 0 <= spline lin [1;2;3;4] [0;1;1;0] t.
Proof.
  unfold spline. cbn [nth last]. destruct (Rlt_dec t 1); [lra|]. destruct (Rlt_dec 4 t); [lra|]. cbn [lin].
  destruct (Rltb t 2) eqn:E1; [apply Rltb_iff in E1; lra|].
  destruct (Rltb t 3) eqn:E2; [lra|]. destruct (Rltb t 4) eqn:E3; lra.
Qed.
