(** Properties of response.py (C11, C15-C21): the proofs.  Prop_Response.v restates them. *)
From Coq Require Import List Arith Lia Bool ZArith QArith Qreals Reals Lra Classical_Prop Sorting.Sorted Sorting.Permutation.
From Verif Require Import Base BaseLemmas Num Toy Interp InterpReal Spec Utils Sed Response ResponseProofs
  ResponseObj ResponseFwhm LinInterp ResponseEx.
Import ListNotations.
Local Open Scope R_scope.
(* STATEMENTS *)

(** ** C11: solar and Vega spectra *)
Lemma bshape_app s t : (forall x, In x s -> True) -> bshape (s ++ t) t = Some (s ++ t).
Proof.
  intros _. unfold bshape. rewrite rev_app_distr.
  assert (H : forall (u v : list nat), bshape_rev (u ++ v) u = Some (u ++ v)).
  { induction u as [|x u IH]; intro v; cbn [app]; [destruct v; reflexivity|].
    cbn [bshape_rev]. rewrite IH, Nat.eqb_refl. reflexivity. }
  rewrite H. cbn [option_map]. rewrite <- rev_app_distr, rev_involutive. reflexivity.
Qed.

Lemma basel_step_many {T} {N : Num T} scale (wave : list T) n (flux : list T) k :
  (2 <= n)%nat -> basel_step scale wave (mk [n; length wave] flux) k = Raise ValueError.
Proof.
  intro Hn. unfold basel_step. unfold map1. cbn [shp dat tl].
  unfold bin. cbn [shp]. unfold vec. cbn [shp]. rewrite map_length.
  change [n; length wave] with ([n] ++ [length wave]). rewrite bshape_app by auto. cbn [bind].
  unfold bto. cbn [shp length Nat.sub strip1 app].
  destruct n as [|[|n]]; try lia. cbn [strip1].
  change [S (S n); length wave] with ([S (S n)] ++ [length wave]). rewrite bshape_app by auto.
  cbn [app shape_eqb]. destruct (Nat.eqb (S (S n)) (length wave)); reflexivity.
Qed.

(** C11. A Basel file with two or more models cannot be turned into a reference spectrum. *)
Lemma L_C11_many_models_fail :
  forall (T : Type) (N : Num T) (scale : T) (wave : list T) (models : list (basel_unit T)),
    (2 <= length models)%nat -> basel_sed scale (wave, models) = Raise ValueError.
Proof.
  intros T N scale wave models Hn. unfold basel_sed. cbn [fst snd].
  destruct (length models) as [|n] eqn:E; [lia|]. cbn [seq foldM].
  assert (Hl : length (basel_wave wave) = length wave) by apply map_length.
  rewrite <- Hl, basel_step_many by lia. reflexivity.
Qed.

Lemma E_C11_many_models_fail :
  let u := {| b_modelno := 1; b_teff := 1; b_logg := 1; b_mh := 1; b_vturb := 1; b_xh := 1; b_flux := [1;1;1;1] |}%Z in
  (2 <= length [u; u])%nat.
Proof. cbn. lia. Qed.

(** ... so no Response object can be built with such a solar file, whatever the curve. *)
Lemma L_C11_many_models_no_response :
  forall cub bq (wave : list R) (models : list (basel_unit R)) vega (w y : list R) r,
    (2 <= length models)%nat -> Response cub bq (Ok (wave, models)) vega w y <> Ok r.
Proof.
  intros cub bq wave models vega w y r Hn. unfold Response, resp_setup.
  destruct (sort_pair w y) as [p|e]; cbn [bind]; [|discriminate].
  cbn [with_curve p_wave p_resp]. destruct (mk_cubic _ _); [|discriminate].
  unfold ref_magnitude. cbn [bind]. rewrite L_C11_many_models_fail by auto. discriminate.
Qed.
Lemma E_C11_many_models_no_response :
  let u := {| b_modelno := 1; b_teff := 1; b_logg := 1; b_mh := 1; b_vturb := 1; b_xh := 1; b_flux := [1;1;1;1] |} in
  (2 <= length [u; u])%nat /\
  (exists r, Response lin bq0 (Ok ([100;200;300;400], [u])) (Ok ([100;200;300;400], [u])) [1;2;3;4] [0;1;1;0] = Ok r) /\
  forall r, Response lin bq0 (Ok ([100;200;300;400], [u; u])) (Ok ([100;200;300;400], [u])) [1;2;3;4] [0;1;1;0] <> Ok r.
Proof.
  cbv zeta. split; [cbn; lia|]. split; [destruct trapezium_band as [r Hr]; exists r; apply Hr|].
  intro r. apply L_C11_many_models_no_response. cbn. lia.
Qed.

(** With exactly one model the flux is scaled by 4 pi c / lambda^2 (R/d)^2, wavelengths in Angstrom being
    10 times those in the file. *)
Lemma L_C11_one_model :
  forall (scale : R) (wave : list R) (u : basel_unit R),
    length (b_flux _ u) = length wave -> Forall (fun w => 0 < w) wave ->
    basel_sed scale (wave, [u]) =
    SED (map (fun w => w * 10) wave)
        (mk [1%nat; length wave]
            (map (fun k => 4 * PI * nth k (b_flux _ u) 0 * (299792 * 10 ^ 13) / (10 * nth k wave 0) ^ 2 * scale)
                 (seq 0 (length wave)))) true.
Proof.
  intros scale wave u Hl Hw. unfold basel_sed. cbn [fst snd length seq foldM map concat]. rewrite app_nil_r.
  assert (Ew : basel_wave wave = map (fun w => w * 10) wave).
  { unfold basel_wave. rcbn. apply map_ext. intro. rewrite Q2R_lit. field. }
  rewrite Ew. set (nw := length wave) in *.
  assert (Hs : size [1%nat; nw] = nw) by (unfold size; cbn [fold_right]; lia).
  unfold basel_step. unfold map1 at 1. cbn [shp dat tl].
  unfold bin. cbn [shp]. unfold vec. cbn [shp]. rewrite !map_length. fold nw.
  assert (Hb : bshape [1%nat; nw] [nw] = Some [1%nat; nw]) by (apply (bshape_app [1%nat] [nw]); auto).
  rewrite Hb. cbn [bind].
  unfold bto. cbn [shp length Nat.sub strip1 dat]. rewrite bshape_refl, shape_eqb_refl. cbn [bind].
  rewrite Hs. assert (Hs1 : size [nw] = nw) by (unfold size; cbn [fold_right]; lia). rewrite Hs1.
  cbn [app lrows chunks lead lastd removelast last size fold_right Nat.mul Nat.add].
  unfold lrows. cbn [shp dat lead lastd removelast last size fold_right]. change (1 * 1)%nat with 1%nat. cbn [chunks upd].
  cbn [concat]. rewrite app_nil_r. unfold map1. cbn [shp dat].
  f_equal. f_equal. rewrite !map_map. apply map_ext_in. intros k Hk. apply in_seq in Hk.
  unfold bget. cbn [shp dat rev app bpos_rev]. cbn [Nat.eqb].
  assert (Ep : ((if Nat.eqb nw 1 then 0 else k mod nw) + nw * 0 = k)%nat).
  { destruct (Nat.eqb_spec nw 1); [lia|]. rewrite Nat.mod_small by lia. lia. }
  rewrite Ep.
  assert (Ep2 : forall d, nth k (map (fun j => ndiv (nth ((if Nat.eqb nw 1 then 0 else j mod nw) + nw * (0 + 1 * 0))
        (map (fun f => nmul (nmul (nmul npi (nlit 4)) f) (nlit (299792 * 10000000000000))) (b_flux R u)) n0)
        (nth ((if Nat.eqb nw 1 then 0 else j mod nw) + nw * 0) (map nsq (map (fun w => w * 10) wave)) n0)) (seq 0 nw)) d =
     PI * 4 * nth k (b_flux R u) 0 * (299792 * 10 ^ 13) / ((nth k wave 0 * 10) * (nth k wave 0 * 10))).
  { intro d. apply nth_error_nth. rewrite nth_error_map, nth_error_seq.
    assert (Hk' : Nat.ltb k nw = true) by (apply Nat.ltb_lt; lia). rewrite Hk'. cbn [option_map Nat.add Nat.mul].
    rewrite Ep. f_equal. rcbn. f_equal.
    - rewrite (nth_indep _ 0 ((fun f => PI * Q2R 4 * f * Q2R (299792 * 10000000000000)) 0)) by (rewrite map_length; lia).
      rewrite (map_nth (fun f => PI * Q2R 4 * f * Q2R (299792 * 10000000000000))). unfold Q2R; simpl Qnum; simpl Qden. field.
    - rewrite map_map. rewrite (nth_indep _ 0 ((fun w => nsq (w * 10)) 0)) by (rewrite map_length; lia).
      rewrite (map_nth (fun w => nsq (w * 10))). reflexivity. }
  assert (Hpos : 0 < nth k wave 0) by (rewrite Forall_forall in Hw; apply Hw, nth_In; lia).
  rcbn. match goal with |- ?a * scale = _ => replace a with (PI * 4 * nth k (b_flux R u) 0 * (299792 * 10 ^ 13) / ((nth k wave 0 * 10) * (nth k wave 0 * 10))) end.
  - field. lra.
  - rewrite <- (Ep2 0), map_map. reflexivity.
Qed.

Lemma E_C11_one_model :
  let u := {| b_modelno := 1; b_teff := 1; b_logg := 1; b_mh := 1; b_vturb := 1; b_xh := 1; b_flux := [1;1;1;1] |} in
  length (b_flux _ u) = length [100; 200; 300; 400] /\ Forall (fun w => 0 < w) [100; 200; 300; 400].
Proof. split; [reflexivity|]. repeat constructor; lra. Qed.

(** ** C15 *)
(** C15. *)
Lemma L_C15_sorted_samples :
  forall cub bq sun vega (wave y : list R) r, length y = length wave ->
    Response cub bq sun vega wave y = Ok r ->
    exists w yy, p_wave r = Some w /\ p_resp r = Some yy /\ sorted_samples wave y w yy.
Proof.
  intros cub bq sun vega wave y r Hl H. destruct (Response_ok _ _ _ _ _ _ _ Hl H) as (w & yy & fw & H1 & H2 & H3 & H4 & H5 & H6 & H7 & H8 & _).
  exists w, yy. repeat split; auto. rewrite H8. symmetry. apply isort_perm.
Qed.
Lemma E_C15_sorted_samples : exists r, length [0;1;1;0] = length [1;2;3;4] /\
  Response lin bq0 sun0 sun0 [1;2;3;4] [0;1;1;0] = Ok r /\ sorted_samples [4;3;2;1] [5;6;7;8] [1;2;3;4] [8;7;6;5].
Proof.
  destruct trapezium_band as [r Hr]. exists r. split; [reflexivity|]. split; [apply Hr|]. split; [exact sorted1234|].
  split; [reflexivity|]. apply (Permutation_rev [(4, 5); (3, 6); (2, 7); (1, 8)]).
Qed.

(** Two orders of the same samples give the same object, or the same exception. *)
Lemma L_C15_order_irrelevant :
  forall cub bq sun vega (wave y wave' y' : list R), length y = length wave -> length y' = length wave' ->
    NoDup wave -> Permutation (combine wave y) (combine wave' y') ->
    Response cub bq sun vega wave y = Response cub bq sun vega wave' y'.
Proof.
  intros cub bq sun vega wave y wave' y' Hl Hl' Hn Hp.
  destruct (sort_pair_ok _ _ Hl) as (w & r & E & L1 & L2 & S1 & C1).
  destruct (sort_pair_ok _ _ Hl') as (w' & r' & E' & L1' & L2' & S1' & C1').
  assert (Hc : combine w r = combine w' r').
  { assert (P1 : Permutation (combine w r) (combine w' r')).
    { rewrite C1, C1'. rewrite !isort_perm. exact Hp. }
    assert (Nw : NoDup (map fst (combine w r))).
    { rewrite C1. eapply Permutation_NoDup; [apply Permutation_map; symmetry; apply isort_perm|].
      rewrite map_fst_combine by auto. exact Hn. }
    assert (Hs : forall p, In p (combine w r) -> In (fst p) (map fst (combine w r))) by (intros; apply in_map; auto).
    clear -P1 Nw S1 S1' L1 L2 L1' L2'.
    assert (Q1 := combine_sorted w S1 R r). assert (Q2 := combine_sorted w' S1' R r').
    revert P1 Nw Q1 Q2. generalize (combine w r) (combine w' r'). clear.
    induction l as [|p l IH]; intros m P N S1 S2.
    - apply Permutation_nil in P. auto.
    - destruct m as [|q m]; [apply Permutation_sym, Permutation_nil in P; discriminate|].
      assert (Epq : p = q).
      { destruct (Permutation_in q (Permutation_sym P) (or_introl eq_refl)) as [|Hq]; auto.
        destruct (Permutation_in p P (or_introl eq_refl)) as [|Hq']; auto.
        inversion S1 as [|? ? _ F1]; inversion S2 as [|? ? _ F2]; subst. rewrite Forall_forall in F1, F2.
        specialize (F1 q Hq). specialize (F2 p Hq').
        exfalso. inversion N as [|? ? Nin _]; subst. apply Nin. replace (fst p) with (fst q) by lra. apply in_map; auto. }
      subst q. f_equal. apply IH.
      + apply Permutation_cons_inv in P; auto.
      + inversion N; auto.
      + inversion S1; auto.
      + inversion S2; auto. }
  assert (Ew : w = w') by (rewrite <- (map_fst_combine w r), <- (map_fst_combine w' r') by congruence; congruence).
  assert (Er : r = r') by (rewrite <- (map_snd_combine w r), <- (map_snd_combine w' r') by congruence; congruence).
  unfold Response. rewrite E, E'. subst. reflexivity.
Qed.

Lemma E_C15_order_irrelevant :
  length [5;6;7;8] = length [4;3;2;1] /\ NoDup [4;3;2;1] /\
  Permutation (combine [4;3;2;1] [5;6;7;8]) (combine [1;2;3;4] [8;7;6;5]).
Proof.
  split; [reflexivity|]. split.
  - repeat constructor; cbn; intuition lra.
  - cbn. apply (Permutation_rev [(4, 5); (3, 6); (2, 7); (1, 8)]).
Qed.

(** ** C16-C18, C21: project *)
Lemma trapezoid_eq h g : trapz (map h g) g = trapezoid h g.
Proof.
  induction g as [|a g IH]; [apply trapz_nil|]. destruct g as [|b g]; [apply trapz_1|].
  cbn [map]. rewrite trapz_cons2. cbn [trapezoid]. cbn [map] in IH. rewrite IH, (Rplus_comm (h b)). reflexivity.
Qed.
Lemma boundary_eq h g : g <> [] -> swapped g (map h g) = boundary_minus h g.
Proof. intro H. rewrite swapped_map, trapezoid_eq by auto. reflexivity. Qed.

Lemma grid_pos w sw g : Forall (fun t => 0 < t) w -> Forall (fun t => 0 < t) sw -> is_grid w sw g ->
  forall t, In t g -> 0 < t.
Proof.
  intros Hw Hsw (_ & H) t Ht. rewrite Forall_forall in *. apply H in Ht.
  destruct Ht as [Ht|[(Ht & _)|[(Ht & _)|(Ht & _)]]]; auto.
Qed.
Lemma grid_nonempty w sw g : w <> [] -> is_grid w sw g -> g <> [].
Proof.
  intros Hw (_ & H) ->. destruct w as [|a w]; [contradiction|]. apply (proj2 (H a)). left; left; auto.
Qed.
Lemma samples_pos wave y w yy : length y = length wave -> sorted_samples wave y w yy ->
  Forall (fun t => 0 < t) wave -> Forall (fun t => 0 < t) w.
Proof.
  intros Hl (_ & Hl' & Hp) Hw. rewrite Forall_forall in *. intros t Ht. apply Hw.
  rewrite <- (map_fst_combine w yy) in Ht by auto. rewrite <- (map_fst_combine wave y) by auto.
  eapply Permutation_in; [apply Permutation_sym, Permutation_map, Hp|exact Ht].
Qed.

(** The projection of one SED, as a formula. *)
Lemma project_one :
  forall cub bq sun vega (wave y : list R) r w yy (sw f : list R) s,
    length y = length wave -> Response cub bq sun vega wave y = Ok r ->
    p_wave r = Some w -> p_resp r = Some yy ->
    StronglySorted Rlt sw -> SED sw (vec f) true = Ok s ->
    Forall (fun t => 0 < t) wave -> Forall (fun t => 0 < t) sw ->
    (exists t, In t sw /\ nth 0 w 0 <= t <= last w 0) ->
    forall g, is_grid w sw g ->
    project_sed cub r s = Ok (scal (boundary_minus (fun t => spline cub sw f t * spline cub w yy t * t) g /
                                    boundary_minus (fun t => ab_flux t * spline cub w yy t * t) g)).
Proof.
  intros cub bq sun vega wave y r w yy sw f s Hl HR Hw Hy Hsw HS Pw Psw Hin g Hg.
  destruct (Response_ok _ _ _ _ _ _ _ Hl HR) as (w' & yy' & fw & H1 & H2 & H3 & H4 & H5 & H6 & H7 & H8 & _).
  assert (w' = w) by congruence. assert (yy' = yy) by congruence. subst w' yy'.
  assert (Wf : wf (vec f)) by (unfold wf, vec, size; cbn; lia).
  destruct (SED_ok _ _ _ Hsw Wf HS) as (S1 & S2 & S3 & S4 & S5). cbn [ndim shp vec length Nat.eqb] in S5.
  unfold project_sed. rewrite Hw, S1, H3, S3.
  assert (Pw' : Forall (fun t => 0 < t) w).
  { apply (samples_pos wave y w yy Hl); auto. repeat split; auto. rewrite H8. symmetry. apply isort_perm. }
  assert (Pg := grid_pos w sw g Pw' Psw Hg).
  rewrite (project_core_real cub w {| ix := w; iys := [yy] |} sw _ (s_nsed s) Hin Hsw g Hg)
    by (intros t Ht; specialize (Pg t Ht); lra).
  unfold s_nsed. rewrite S5. cbn [shp hd Nat.eqb ix iys].
  assert (Hlen : length f = length sw).
  { unfold SED, sed_setup in HS. cbn [ndim shp vec length Nat.eqb] in HS. unfold reshape in HS.
    destruct (Nat.eqb_spec (size [1%nat; length sw]) (size (shp (vec f)))) as [Es|]; [|discriminate].
    unfold size, vec in Es. cbn in Es. lia. }
  assert (Er : lrows (mk [1%nat; length sw] (dat (vec f))) = [f]).
  { unfold lrows, vec, lead, lastd. cbn. rewrite <- Hlen, firstn_all. reflexivity. }
  rewrite Er. cbn [hd].
  assert (Hne : g <> []) by (eapply grid_nonempty; [|exact Hg]; destruct w; [cbn in H5; lia|discriminate]).
  f_equal. f_equal. rewrite <- !boundary_eq by auto. f_equal; f_equal; apply map_ext; intro t.
  - unfold reval. cbn [ix iys hd]. rewrite !spline_eval. reflexivity.
  - unfold reval. cbn [ix iys hd]. rewrite !spline_eval. reflexivity.
Qed.

(** C18. What project computes for one SED. *)
Lemma L_C18_projection_formula :
  forall cub bq sun vega wave y r w yy sw f s,
    band cub bq sun vega wave y r w yy -> spectrum sw f s -> overlaps w sw ->
    forall g, is_grid w sw g ->
    project_sed cub r s = Ok (scal (boundary_minus (fun t => spline cub sw f t * spline cub w yy t * t) g /
                                    boundary_minus (fun t => ab_flux t * spline cub w yy t * t) g)).
Proof.
  intros cub bq sun vega wave y r w yy sw f s (H1 & H2 & H3 & H4 & H5) (S1 & S2 & S3) Ho g Hg.
  eapply project_one; eauto.
Qed.

Lemma band_samples cub bq sun vega wave y r w yy : band cub bq sun vega wave y r w yy ->
  StronglySorted Rlt w /\ (4 <= length w)%nat /\ length yy = length w /\ Forall (fun t => 0 < t) w /\
  p_interp r = Some {| ix := w; iys := [yy] |} /\ p_leff r = Some (lambda_eff w yy) /\
  exists fw, fwhm_limits cub bq w {| ix := w; iys := [yy] |} = Ok fw /\ p_fwhm r = Some fw.
Proof.
  intros (Hl & HR & Hw & Hy & Hp).
  destruct (Response_ok _ _ _ _ _ _ _ Hl HR) as (w' & yy' & fw & H1 & H2 & H3 & H4 & H5 & H6 & H7 & H8 & H9 & H10 & H11).
  assert (w' = w) by congruence. assert (yy' = yy) by congruence. subst w' yy'.
  repeat split; auto; [|exists fw; auto].
  apply (samples_pos wave y w yy Hl); auto. repeat split; auto. rewrite H8. symmetry. apply isort_perm.
Qed.

Lemma spline_outside cub xs ys t : t < nth 0 xs 0 \/ last xs 0 < t -> spline cub xs ys t = 0.
Proof.
  unfold spline. intros [H|H]; destruct (Rlt_dec t (nth 0 xs 0)); try lra; destruct (Rlt_dec (last xs 0) t); lra.
Qed.

Lemma boundary_bracket cub w yy sw g (h : R -> R) : w <> [] -> is_grid w sw g -> brackets w sw ->
  boundary_minus (fun t => h t * spline cub w yy t * t) g = - trapezoid (fun t => h t * spline cub w yy t * t) g.
Proof.
  intros Hn Hg (B1 & B2). destruct (grid_ends cub w sw g yy Hg B1 B2) as (_ & _ & E1 & E2).
  rewrite !spline_eval in E1, E2. unfold boundary_minus. rewrite E1, E2. lra.
Qed.

(** When the SED has samples beyond both ends of the band the boundary terms vanish and the maggies are the
    proper ratio of trapezoid integrals. *)
Lemma L_C18_proper_when_bracketed :
  forall cub bq sun vega wave y r w yy sw f s,
    band cub bq sun vega wave y r w yy -> spectrum sw f s -> overlaps w sw -> brackets w sw ->
    forall g, is_grid w sw g ->
    project_sed cub r s = Ok (scal (trapezoid (fun t => spline cub sw f t * spline cub w yy t * t) g /
                                    trapezoid (fun t => ab_flux t * spline cub w yy t * t) g)).
Proof.
  intros cub bq sun vega wave y r w yy sw f s HB HS Ho Hb g Hg.
  rewrite (L_C18_projection_formula _ _ _ _ _ _ _ _ _ _ _ _ HB HS Ho g Hg).
  destruct (band_samples _ _ _ _ _ _ _ _ _ HB) as (_ & H4 & _).
  assert (Hwn : w <> []) by (destruct w; [cbn in H4; lia|discriminate]).
  rewrite !boundary_bracket with (sw := sw) by auto.
  unfold Rdiv. rewrite Rinv_opp. f_equal. f_equal. ring.
Qed.

(** The integration grid always exists and is unique. *)
Lemma L_C21_grid :
  forall w sw, StronglySorted Rlt sw -> overlaps w sw ->
    is_grid w sw (grid_of w sw) /\ forall g, is_grid w sw g -> g = grid_of w sw.
Proof.
  intros w sw Hs Ho. split; [apply grid_spec; auto|]. intros g Hg. eapply is_grid_unique; eauto. apply grid_spec; auto.
Qed.
Lemma E_C21_grid : StronglySorted Rlt [1;2;3;4] /\ overlaps [2;3;4;5] [1;2;3;4].
Proof. split; [repeat constructor; lra|]. exists 3. cbn. split; auto. lra. Qed.
Lemma E_C18_projection_formula :
  exists bq sun vega r s g, band lin bq sun vega [1;2;3;4] [0;1;1;0] r [1;2;3;4] [0;1;1;0] /\
    spectrum [3/2;2;5/2;3] [1;1;2;2] s /\ overlaps [1;2;3;4] [3/2;2;5/2;3] /\
    is_grid [1;2;3;4] [3/2;2;5/2;3] g.
Proof.
  destruct trapezium_band as [r Hr].
  assert (S : StronglySorted Rlt [3/2;2;5/2;3]) by (repeat constructor; lra).
  destruct (spectrum_intro [3/2;2;5/2;3] [1;1;2;2]) as [s Hs]; auto; try (cbn; lia); [repeat constructor; lra|].
  assert (O : overlaps [1;2;3;4] [3/2;2;5/2;3]) by (exists 2; cbn; split; auto; lra).
  exists bq0, sun0, sun0, r, s, (grid_of [1;2;3;4] [3/2;2;5/2;3]). do 3 (split; auto). apply (L_C21_grid _ _ S O).
Qed.

(** C21. No sample in the band: the projection is 0, whatever the spectrum. *)
Lemma L_C21_zero_without_sample :
  forall cub bq sun vega wave y r w yy (s : sed R),
    band cub bq sun vega wave y r w yy -> ~ overlaps w (s_wave s) -> project_sed cub r s = Ok (scal 0).
Proof.
  intros cub bq sun vega wave y r w yy s (_ & _ & Hw & _) Hno. unfold project_sed. rewrite Hw.
  unfold project_core. destruct (where_ (in_band w (s_wave s))) as [|i l] eqn:E; [reflexivity|].
  exfalso. apply Hno. assert (Hi : In i (where_ (in_band w (s_wave s)))) by (rewrite E; left; auto).
  apply where_in, in_band_nth in Hi as (t & Ht & Hb). exists t. split; auto. eapply nth_error_In; eauto.
Qed.
Lemma E_C21_zero_without_sample :
  exists bq sun vega r s, band lin bq sun vega [1;2;3;4] [0;1;1;0] r [1;2;3;4] [0;1;1;0] /\
    spectrum [1/4;1/2;5;6] [1;1;1;1] s /\ ~ overlaps [1;2;3;4] (s_wave s).
Proof.
  destruct trapezium_band as [r Hr].
  assert (S : StronglySorted Rlt [1/4;1/2;5;6]) by (repeat constructor; lra).
  destruct (spectrum_intro [1/4;1/2;5;6] [1;1;1;1]) as [s Hs]; auto; try (cbn; lia); [repeat constructor; lra|].
  exists bq0, sun0, sun0, r, s. do 2 (split; auto).
  assert (E : s_wave s = [1/4;1/2;5;6]).
  { destruct Hs as (_ & Hs & _). apply (SED_ok _ _ _ S) in Hs; [apply Hs|reflexivity]. }
  rewrite E.
  intros (t & Hin & H1 & H2). cbn in Hin, H1, H2. intuition lra.
Qed.

(** C16. *)
Lemma boundary_ext h k g : g <> [] -> (forall t, In t g -> h t = k t) -> boundary_minus h g = boundary_minus k g.
Proof.
  intros Hn H. rewrite <- !boundary_eq by auto. f_equal. apply map_ext_in. auto.
Qed.
Lemma L_C16_ab_source :
  forall cub bq sun vega wave y r w yy sw f s,
    band cub bq sun vega wave y r w yy -> spectrum sw f s -> overlaps w sw ->
    (forall t, In t sw \/ In t w -> spline cub sw f t = ab_flux t) ->
    forall g, is_grid w sw g -> boundary_minus (fun t => ab_flux t * spline cub w yy t * t) g <> 0 ->
    project_sed cub r s = Ok (scal 1).
Proof.
  intros cub bq sun vega wave y r w yy sw f s HB HS Ho Hab g Hg Hnz.
  rewrite (L_C18_projection_formula _ _ _ _ _ _ _ _ _ _ _ _ HB HS Ho g Hg).
  destruct (band_samples _ _ _ _ _ _ _ _ _ HB) as (_ & H4 & _).
  assert (Hne : g <> []) by (eapply grid_nonempty; [|exact Hg]; destruct w; [cbn in H4; lia|discriminate]).
  rewrite (boundary_ext (fun t => spline cub sw f t * spline cub w yy t * t) (fun t => ab_flux t * spline cub w yy t * t) g Hne).
  - f_equal. f_equal. field. auto.
  - intros t Ht. rewrite Hab; auto. apply (proj2 Hg) in Ht. unfold in_grid in Ht. tauto.
Qed.
Lemma E_C16_ab_source :
  exists bq sun vega r s, band lin bq sun vega [1;2;3;4] [0;1;1;0] r [1;2;3;4] [0;1;1;0] /\
    spectrum [1;2;3;4] (map ab_flux [1;2;3;4]) s /\ overlaps [1;2;3;4] [1;2;3;4] /\
    (forall t, In t [1;2;3;4] \/ In t [1;2;3;4] -> spline lin [1;2;3;4] (map ab_flux [1;2;3;4]) t = ab_flux t) /\
    is_grid [1;2;3;4] [1;2;3;4] [1;2;3;4] /\
    boundary_minus (fun t => ab_flux t * spline lin [1;2;3;4] [0;1;1;0] t * t) [1;2;3;4] <> 0.
Proof.
  destruct trapezium_band as [r Hr].
  destruct (spectrum_intro [1;2;3;4] (map ab_flux [1;2;3;4]) sorted1234) as [s Hs]; try (cbn; lia); [repeat constructor; lra|].
  exists bq0, sun0, sun0, r, s. split; auto. split; auto. split; [exists 2; cbn; split; auto; lra|]. split; [|split].
  - intros t Ht. assert (In t [1;2;3;4]) as Hin by tauto. cbn [map].
    destruct (in1234 t Hin) as [-> |[-> |[-> | ->]]]; rewrite spline_lin1234 by lra; cbn [lin]; rdec; field.
  - split; [exact sorted1234|]. intro t. unfold in_grid. cbn. intuition.
  - unfold boundary_minus. cbn [last hd trapezoid]. rewrite !spline_lin1234 by lra. cbn [lin]. rdec. unfold ab_flux. lra.
Qed.

(** ... in particular through every nonnegative response bracketed by the SED. *)
Lemma L_C16_ab_source_bracketed :
  forall cub bq sun vega wave y r w yy sw f s,
    band cub bq sun vega wave y r w yy -> spectrum sw f s -> overlaps w sw -> brackets w sw ->
    (forall t, In t sw \/ In t w -> spline cub sw f t = ab_flux t) ->
    (forall t, In t sw \/ In t w -> 0 <= spline cub w yy t) ->
    (exists t, In t w /\ 0 < spline cub w yy t) ->
    project_sed cub r s = Ok (scal 1).
Proof.
  intros cub bq sun vega wave y r w yy sw f s HB HS Ho Hb Hab Hpos (t0 & Ht0 & Hp0).
  destruct (band_samples _ _ _ _ _ _ _ _ _ HB) as (Hw & H4 & _ & Pw & _).
  destruct (L_C21_grid w sw (proj1 HS) Ho) as [Hg _].
  apply (L_C16_ab_source _ _ _ _ _ _ _ _ _ _ _ _ HB HS Ho Hab _ Hg).
  assert (Hwn : w <> []) by (destruct w; [cbn in H4; lia|discriminate]).
  rewrite boundary_bracket with (sw := sw) by auto.
  assert (Habp : forall t, 0 < t -> 0 < ab_flux t).
  { intros t Ht. unfold ab_flux. apply Rdiv_lt_0_compat; [lra|]. apply pow_lt. auto. }
  assert (Pg := grid_pos w sw _ Pw (proj2 (proj2 HS)) Hg).
  enough (0 < trapezoid (fun t => ab_flux t * spline cub w yy t * t) (grid_of w sw)) by lra.
  rewrite <- trapezoid_eq. apply trapz_pos.
  - apply Hg.
  - assert (Hi : incl w (grid_of w sw)) by (intros t Ht; apply Hg; left; auto).
    assert (Hnd : NoDup w).
    { clear -Hw. induction Hw as [|a l Hl IH Hf]; constructor; auto. intro Hin. rewrite Forall_forall in Hf.
      specialize (Hf a Hin). lra. }
    pose proof (NoDup_incl_length Hnd Hi). lia.
  - intros t Ht. specialize (Pg t Ht). specialize (Habp t Pg).
    assert (0 <= spline cub w yy t) by (apply Hpos; apply Hg in Ht; unfold in_grid in Ht; tauto).
    apply Rmult_le_pos; [|lra]. apply Rmult_le_pos; lra.
  - exists t0. assert (Hi : In t0 (grid_of w sw)) by (apply Hg; left; auto). split; auto.
    specialize (Pg t0 Hi). specialize (Habp t0 Pg). apply Rmult_lt_0_compat; [|lra]. apply Rmult_lt_0_compat; lra.
Qed.

(** C17. *)
Lemma boundary_lin a b h k g : g <> [] ->
  boundary_minus (fun t => a * h t + b * k t) g = a * boundary_minus h g + b * boundary_minus k g.
Proof.
  intro Hn. rewrite <- !boundary_eq by auto. unfold swapped.
  rewrite <- trapz_lin2 by (rewrite !map_length; auto). f_equal.
  rewrite zip_map_l, zip_map_r, zip_same. reflexivity.
Qed.
Lemma L_C17_linear :
  forall cub bq sun vega wave y r w yy sw f1 f2 a b s1 s2 s12,
    (forall xs ys zs t, length ys = length zs ->
       cub xs (zip (fun u v => a * u + b * v) ys zs) t = a * cub xs ys t + b * cub xs zs t) ->
    band cub bq sun vega wave y r w yy ->
    spectrum sw f1 s1 -> spectrum sw f2 s2 -> spectrum sw (zip (fun u v => a * u + b * v) f1 f2) s12 ->
    length f1 = length f2 ->
    exists m1 m2, project_sed cub r s1 = Ok (scal m1) /\ project_sed cub r s2 = Ok (scal m2) /\
                  project_sed cub r s12 = Ok (scal (a * m1 + b * m2)).
Proof.
  intros cub bq sun vega wave y r w yy sw f1 f2 a b s1 s2 s12 Hlin HB H1 H2 H12 Hl.
  assert (Hsw : forall f s, spectrum sw f s -> s_wave s = sw).
  { intros f s (S1 & S2 & S3). assert (Wf : wf (vec f)) by (unfold wf, vec, size; cbn; lia).
    destruct (SED_ok _ _ _ S1 Wf S2) as (E & _). auto. }
  destruct (classic (overlaps w sw)) as [Ho|Hno].
  - destruct (L_C21_grid w sw (proj1 H1) Ho) as [Hg _].
    destruct (band_samples _ _ _ _ _ _ _ _ _ HB) as (_ & H4 & _).
    assert (Hne : grid_of w sw <> []) by (eapply grid_nonempty; [|exact Hg]; destruct w; [cbn in H4; lia|discriminate]).
    rewrite (L_C18_projection_formula _ _ _ _ _ _ _ _ _ _ _ _ HB H1 Ho _ Hg).
    rewrite (L_C18_projection_formula _ _ _ _ _ _ _ _ _ _ _ _ HB H2 Ho _ Hg).
    rewrite (L_C18_projection_formula _ _ _ _ _ _ _ _ _ _ _ _ HB H12 Ho _ Hg).
    do 2 eexists. split; [reflexivity|]. split; [reflexivity|]. f_equal. f_equal.
    rewrite (boundary_ext _ (fun t => a * (spline cub sw f1 t * spline cub w yy t * t) + b * (spline cub sw f2 t * spline cub w yy t * t)) _ Hne).
    + rewrite boundary_lin by auto. unfold Rdiv. ring.
    + intros t _. unfold spline at 1 3 5. destruct (Rlt_dec t (nth 0 sw 0)); [ring|].
      destruct (Rlt_dec (last sw 0) t); [ring|]. rewrite Hlin by auto. ring.
  - exists 0, 0. rewrite !(L_C21_zero_without_sample _ _ _ _ _ _ _ _ _ _ HB) by (erewrite Hsw by eauto; auto).
    repeat split. f_equal. f_equal. lra.
Qed.

(** A set of SEDs projects to what each of its members projects to alone. *)
Lemma SED_inv (sw : list R) (flux : nd R) s : SED sw flux true = Ok s ->
  exists fl it, (if Nat.eqb (ndim flux) 1 then reshape [1%nat; length sw] flux else Ok flux) = Ok fl /\
    mk_cubic sw fl = Ok it /\ s_wave s = sw /\ s_interp s = Some it /\ s_rflux s = fl.
Proof.
  unfold SED, sed_setup. destruct (if Nat.eqb (ndim flux) 1 then _ else _) as [fl|]; [|discriminate]. cbn [bind].
  destruct (negb _); [|discriminate]. unfold set_interp. cbn [s_wave s_flux].
  destruct (mk_cubic sw fl) as [it|] eqn:E; [|discriminate]. intro H. injection H as <-.
  exists fl, it. repeat split; auto.
Qed.
Lemma mk_cubic_inv (x : list R) (y : nd R) it : mk_cubic x y = Ok it ->
  it = {| ix := map (fun k => nth k x 0) (argsort x);
          iys := map (fun r => map (fun k => nth k r 0) (argsort x)) (lrows y) |}.
Proof.
  unfold mk_cubic. destruct (negb _); [|discriminate]. destruct (Nat.eqb _ _); [|discriminate].
  destruct (Nat.leb _ _); [|discriminate]. destruct (negb _); [|discriminate]. intro H. injection H as <-. reflexivity.
Qed.
Lemma L_C17_each_sed :
  forall cub bq sun vega wave y r w yy sw flux n s k sk,
    band cub bq sun vega wave y r w yy -> overlaps w sw ->
    wf flux -> shp flux = [n; length sw] -> n <> 1%nat -> SED sw flux true = Ok s ->
    (k < n)%nat -> SED sw (vec (nth k (lrows flux) [])) true = Ok sk ->
    exists ms m, project_sed cub r s = Ok (mk [n] ms) /\ length ms = n /\
                 nth_error ms k = Some m /\ project_sed cub r sk = Ok (scal m).
Proof.
  intros cub bq sun vega wave y r w yy sw flux n s k sk HB Ho Wf Hsh Hn1 HS Hk HSk.
  destruct (band_samples _ _ _ _ _ _ _ _ _ HB) as (_ & H4 & _ & _ & Hint & _).
  destruct HB as (_ & _ & Hw & _).
  destruct (SED_inv _ _ _ HS) as (fl & it & E1 & E2 & E3 & E4 & E5).
  unfold ndim in E1. rewrite Hsh in E1. cbn [length Nat.eqb] in E1. injection E1 as <-.
  destruct (SED_inv _ _ _ HSk) as (fl' & it' & E1' & E2' & E3' & E4' & E5').
  cbn [ndim vec shp length Nat.eqb] in E1'.
  unfold reshape in E1'. match type of E1' with context [Nat.eqb ?a ?b] => destruct (Nat.eqb_spec a b) as [Es|]; [|discriminate] end.
  injection E1' as <-.
  assert (Hrow : length (nth k (lrows flux) []) = length sw).
  { unfold size, vec in Es. cbn in Es. lia. }
  assert (Hlr : length (lrows flux) = n).
  { rewrite lrows_length, Hsh. cbn. lia. }
  apply mk_cubic_inv in E2. apply mk_cubic_inv in E2'. subst it it'.
  unfold project_sed. rewrite Hw, E3, E3', E4, E4', Hint. unfold project_core.
  destruct (where_ (in_band w sw)) as [|i l] eqn:Ew.
  { exfalso. destruct Ho as (t & Ht & Hb). apply In_nth_error in Ht as (i & Hi).
    assert (Hin : In i (where_ (in_band w sw))) by (apply where_in, in_band_nth; exists t; auto).
    rewrite Ew in Hin. destruct Hin. }
  unfold s_nsed. rewrite E5, E5', Hsh. cbn [shp hd Nat.eqb].
  assert (Hn1' : Nat.eqb n 1 = false) by (apply Nat.eqb_neq; auto). rewrite Hn1'.
  assert (Er : lrows (mk [1%nat; length sw] (nth k (lrows flux) [])) = [nth k (lrows flux) []]).
  { set (f := nth k (lrows flux) []) in *. unfold lrows, vec, lead, lastd. cbn. rewrite <- Hrow, firstn_all. reflexivity. }
  rewrite Er. cbn [map].
  eexists. eexists. split; [reflexivity|]. split; [unfold ieval; cbn [iys ix]; rewrite !map_length; auto|]. split.
  - unfold ieval. cbn [iys ix]. rewrite !nth_error_map.
    rewrite (nth_error_nth' (lrows flux) []) by lia. cbn [option_map]. reflexivity.
  - unfold ieval. cbn [iys ix map hd]. rcbn. reflexivity.
Qed.

(** Projecting arrays is the same as projecting an SED object holding them. *)
Lemma L_C17_array_call :
  forall cub (r : resp R) sw (flux : nd R) s,
    wf flux -> (ndim flux = 1 \/ ndim flux = 2)%nat -> SED sw flux true = Ok s ->
    lastd (shp flux) = length sw ->
    project_arr cub r (vec sw) flux = project_sed cub r s.
Proof.
  intros cub r sw flux s Wf Hn HS Hl. destruct (SED_inv _ _ _ HS) as (fl & it & E1 & E2 & E3 & E4 & E5).
  assert (Hc : map1 cst flux = flux).
  { destruct flux as [sh d]. unfold map1. cbn [shp dat]. f_equal. rcbn. apply map_id. }
  assert (Hc' : map1 cst (vec sw) = vec sw).
  { unfold map1, vec. cbn [shp dat]. f_equal. rcbn. apply map_id. }
  unfold project_arr. rewrite Hc, Hc'. cbn [ndim vec shp length Nat.eqb hd dat]. rewrite Hl, Nat.eqb_refl.
  unfold project_sed. rewrite E3, E4. unfold s_nsed. rewrite E5.
  destruct Hn as [Hn|Hn]; rewrite Hn in *; cbn [Nat.eqb negb Nat.leb] in *.
  - unfold reshape in E1. match type of E1 with context [Nat.eqb ?a ?b] => destruct (Nat.eqb_spec a b) as [Es|]; [|discriminate] end.
    injection E1 as <-. cbn [shp hd].
    assert (Hmk : mk_cubic sw flux = mk_cubic sw (mk [1%nat; length sw] (dat flux))).
    { unfold mk_cubic. unfold ndim in *. rewrite Hn, Hl. cbn [length shp Nat.eqb negb lastd last].
      destruct flux as [[|a [|]] d]; try discriminate. cbn in Hl. subst a.
      assert (El : lrows {| shp := [length sw]; dat := d |} = lrows {| shp := [1%nat; length sw]; dat := dat {| shp := [length sw]; dat := d |} |}).
      { unfold lrows, lead, lastd. cbn. reflexivity. }
      rewrite El. reflexivity. }
    rewrite Hmk, E2. cbn [bind]. reflexivity.
  - injection E1 as <-. rewrite E2. cbn [bind]. reflexivity.
Qed.
Lemma E_C17_array_call :
  exists s, wf (mk [2%nat; 4%nat] [1;1;1;1; 2;3;4;5]) /\ ndim (mk [2%nat; 4%nat] [1;1;1;1; 2;3;4;5]) = 2%nat /\
    SED [1;2;3;4] (mk [2%nat; 4%nat] [1;1;1;1; 2;3;4;5]) true = Ok s /\
    lastd (shp (mk [2%nat; 4%nat] [1;1;1;1; 2;3;4;5])) = length [1;2;3;4].
Proof.
  destruct (SED_intro [1;2;3;4] (mk [2%nat; 4%nat] [1;1;1;1; 2;3;4;5]) sorted1234) as [s Hs]; [cbn; lia|reflexivity|reflexivity|].
  exists s. repeat split; auto.
Qed.

Lemma neg_quot a b : 0 < a -> b < 0 -> a / b < 0.
Proof. intros Ha Hb. apply Rinv_lt_0_compat in Hb. unfold Rdiv. nra. Qed.

Lemma E_C18_proper_when_bracketed :
  exists bq sun vega r s g, band lin bq sun vega [1;2;3;4] [0;1;1;0] r [1;2;3;4] [0;1;1;0] /\
    spectrum [1/2;1;2;3;4;5] [1;1;2;2;1;1] s /\ overlaps [1;2;3;4] [1/2;1;2;3;4;5] /\
    brackets [1;2;3;4] [1/2;1;2;3;4;5] /\ is_grid [1;2;3;4] [1/2;1;2;3;4;5] g.
Proof.
  destruct trapezium_band as [r Hr]. destruct (wide_spectrum [1;1;2;2;1;1] eq_refl) as [s Hs].
  destruct wide_overlaps as [Ho Hb]. exists bq0, sun0, sun0, r, s, (grid_of [1;2;3;4] [1/2;1;2;3;4;5]).
  repeat split; auto; try apply Hr; try apply Hs; try apply Hb; apply (L_C21_grid _ _ sorted_wide Ho).
Qed.

(** C18 fails without the bracketing: a flat band and a flat spectrum sampled on the same grid give
    negative maggies, although the spectrum and the response are positive everywhere. *)
Lemma L_C18_proper_always_refuted :
  exists cub bq sun vega wave y r w yy sw f s g m,
    band cub bq sun vega wave y r w yy /\ spectrum sw f s /\ overlaps w sw /\ is_grid w sw g /\
    (forall t, In t g -> 0 < spline cub sw f t /\ 0 < spline cub w yy t) /\
    project_sed cub r s = Ok (scal m) /\ m < 0 /\
    0 < trapezoid (fun t => spline cub sw f t * spline cub w yy t * t) g /
        trapezoid (fun t => ab_flux t * spline cub w yy t * t) g.
Proof.
  destruct flat_band as [r Hr]. destruct flat_spectrum as [s Hs].
  assert (Ho : overlaps [1;2;3;4] [1;2;3;4]) by (exists 2; cbn; split; [auto|lra]).
  assert (Hg : is_grid [1;2;3;4] [1;2;3;4] [1;2;3;4]).
  { split; [apply sorted1234|]. intro t. unfold in_grid. split; [auto|]. tauto. }
  assert (Hone : forall t, In t [1;2;3;4] -> spline lin [1;2;3;4] [1;1;1;1] t = 1).
  { intros t Ht. apply flat_one. apply in1234 in Ht. lra. }
  exists lin, bq0, sun0, sun0, [1;2;3;4], [1;1;1;1], r, [1;2;3;4], [1;1;1;1], [1;2;3;4], [1;1;1;1], s, [1;2;3;4].
  eexists. do 4 (split; [eassumption|]). split; [intros t Ht; rewrite Hone by auto; lra|].
  split; [apply (L_C18_projection_formula _ _ _ _ _ _ _ _ _ _ _ _ Hr Hs Ho _ Hg)|].
  unfold boundary_minus. cbn [last hd trapezoid].
  rewrite !Hone by (cbn; auto). unfold ab_flux. split.
  - match goal with |- ?a / ?b < 0 => assert (Ha : 0 < a) by lra; assert (Hb : b < 0) by lra end.
    apply neg_quot; auto.
  - apply Rdiv_lt_0_compat; lra.
Qed.

Lemma E_C16_ab_source_bracketed :
  exists bq sun vega r s, band lin bq sun vega [1;2;3;4] [0;1;1;0] r [1;2;3;4] [0;1;1;0] /\
    spectrum [1/2;1;2;3;4;5] (map ab_flux [1/2;1;2;3;4;5]) s /\
    overlaps [1;2;3;4] [1/2;1;2;3;4;5] /\ brackets [1;2;3;4] [1/2;1;2;3;4;5] /\
    (forall t, In t [1/2;1;2;3;4;5] \/ In t [1;2;3;4] ->
       spline lin [1/2;1;2;3;4;5] (map ab_flux [1/2;1;2;3;4;5]) t = ab_flux t) /\
    (forall t, In t [1/2;1;2;3;4;5] \/ In t [1;2;3;4] -> 0 <= spline lin [1;2;3;4] [0;1;1;0] t) /\
    (exists t, In t [1;2;3;4] /\ 0 < spline lin [1;2;3;4] [0;1;1;0] t).
Proof.
  destruct trapezium_band as [r Hr]. destruct (wide_spectrum (map ab_flux [1/2;1;2;3;4;5]) eq_refl) as [s Hs].
  destruct wide_overlaps as [Ho Hb]. exists bq0, sun0, sun0, r, s.
  do 4 (split; [auto|]). split; [apply wide_ab_spectrum|]. split; [intros; apply trapezium_nonneg|].
  exists 2. split; [cbn; auto|]. rewrite spline_lin1234 by lra. cbn [lin]. rdec. lra.
Qed.

Lemma E_C17_linear :
  exists bq sun vega r s1 s2 s12,
    (forall xs ys zs t, length ys = length zs ->
       lin xs (zip (fun u v => 2 * u + 3 * v) ys zs) t = 2 * lin xs ys t + 3 * lin xs zs t) /\
    band lin bq sun vega [1;2;3;4] [0;1;1;0] r [1;2;3;4] [0;1;1;0] /\
    spectrum [1/2;1;2;3;4;5] [1;1;2;2;1;1] s1 /\ spectrum [1/2;1;2;3;4;5] [1;2;3;4;5;6] s2 /\
    spectrum [1/2;1;2;3;4;5] (zip (fun u v => 2 * u + 3 * v) [1;1;2;2;1;1] [1;2;3;4;5;6]) s12.
Proof.
  destruct trapezium_band as [r Hr]. destruct (wide_spectrum [1;1;2;2;1;1] eq_refl) as [s1 H1].
  destruct (wide_spectrum [1;2;3;4;5;6] eq_refl) as [s2 H2].
  destruct (wide_spectrum (zip (fun u v => 2 * u + 3 * v) [1;1;2;2;1;1] [1;2;3;4;5;6]) eq_refl) as [s12 H12].
  exists bq0, sun0, sun0, r, s1, s2, s12. split; [intros; apply lin_linear; auto|]. auto.
Qed.

Lemma E_C17_each_sed :
  exists bq sun vega r s s1, band lin bq sun vega [1;2;3;4] [0;1;1;0] r [1;2;3;4] [0;1;1;0] /\
    SED [1;2;3;4] (mk [2%nat; 4%nat] [1;1;1;1; 2;3;4;5]) true = Ok s /\
    SED [1;2;3;4] (vec (nth 1 (lrows (mk [2%nat; 4%nat] [1;1;1;1; 2;3;4;5])) [])) true = Ok s1.
Proof.
  destruct trapezium_band as [r Hr].
  destruct (SED_intro [1;2;3;4] (mk [2%nat; 4%nat] [1;1;1;1; 2;3;4;5]) sorted1234) as [s Hs]; [cbn; lia|reflexivity|reflexivity|].
  destruct (spectrum_intro [1;2;3;4] [2;3;4;5] sorted1234) as [s1 H1]; try (cbn; lia); [repeat constructor; lra|].
  exists bq0, sun0, sun0, r, s, s1. split; auto. split; auto. apply H1.
Qed.

(** The spectrum can cover the whole band and still project to 0. *)
Lemma L_C21_straddling :
  exists cub bq sun vega wave y r w yy sw f s,
    band cub bq sun vega wave y r w yy /\ spectrum sw f s /\ brackets w sw /\
    (forall t, 0 < t -> nth 0 sw 0 <= t <= last sw 0 -> spline cub sw f t = 1) /\
    (exists t, In t w /\ 0 < spline cub w yy t) /\ project_sed cub r s = Ok (scal 0).
Proof.
  destruct trapezium_band as [r Hr].
  destruct (spectrum_intro [1/4;1/2;5;6] [1;1;1;1]) as [s Hs]; try (cbn; lia); [repeat constructor; lra|repeat constructor; lra|].
  exists lin, bq0, sun0, sun0, [1;2;3;4], [0;1;1;0], r, [1;2;3;4], [0;1;1;0], [1/4;1/2;5;6], [1;1;1;1], s.
  split; auto. split; auto. split; [split; [exists (1/2)|exists 5]; cbn; split; auto; lra|].
  split. { intros t Ht Hr'. cbn [nth last] in Hr'. unfold spline. cbn [nth last].
           destruct (Rlt_dec t (1/4)); [lra|]. destruct (Rlt_dec 6 t); [lra|]. cbn [lin].
           destruct (Rltb t (1/2)), (Rltb t 5), (Rltb t 6); lra. }
  split. { exists 2. split; [cbn; auto|]. rewrite spline_lin1234 by lra. cbn [lin]. rdec. lra. }
  apply (L_C21_zero_without_sample _ _ _ _ _ _ _ _ _ _ Hr).
  assert (Wf : wf (vec [1;1;1;1])) by reflexivity.
  destruct (SED_ok _ _ _ (proj1 Hs) Wf (proj1 (proj2 Hs))) as (-> & _).
  intros (t & Ht & Hb). cbn [nth last] in Hb. cbn in Ht. intuition lra.
Qed.

(** ** C20 *)
Lemma L_C20_fwhm_bracketed :
  forall cub bq (w yy : list R) M, StronglySorted Rlt w -> w <> [] ->
    let c := spline cub w yy in
    (exists t, In t w /\ c t = M) -> (forall t, In t w -> c t <= M) -> 0 < M ->
    (forall f a b, (forall x, f x = c x / M - 1 / 2) -> In a w -> In b w -> a < b -> f a * f b <= 0 ->
       exists x, bq f a b = Ok x /\ a <= x <= b /\ f x = 0) ->
    exists lo hi, fwhm_limits cub bq w {| ix := w; iys := [yy] |} = Ok (lo, hi, hi - lo) /\
      nth 0 w 0 <= lo <= hi /\ hi <= last w 0 /\
      (lo <> nth 0 w 0 -> c lo = M / 2) /\ (hi <> last w 0 -> c hi = M / 2) /\
      (forall t, In t w -> t < lo -> c t <= M / 2) /\ (forall t, In t w -> hi < t -> c t < M / 2).
Proof.
  exact fwhm_spec.
Qed.
Lemma E_C20_fwhm_bracketed :
  let c := spline lin [1;2;3;4] [0;1;1;0] in
  (exists t, In t [1;2;3;4] /\ c t = 1) /\ (forall t, In t [1;2;3;4] -> c t <= 1) /\ 0 < 1 /\
  (forall f a b, (forall x, f x = c x / 1 - 1 / 2) -> In a [1;2;3;4] -> In b [1;2;3;4] -> a < b -> f a * f b <= 0 ->
     exists x, bq0 f a b = Ok x /\ a <= x <= b /\ f x = 0) /\ c (3 / 2) = 1 / 2 /\ c (7 / 2) = 1 / 2.
Proof.
  cbn zeta. destruct trapezium_fwhm_hyps. split; auto. split; auto. split; [lra|]. split; [exact trapezium_contract|].
  split; rewrite spline_lin1234 by lra; cbn [lin]; rdec; lra.
Qed.

(** The attributes fwhm_low, fwhm_high, fwhm of a Response object. *)
Lemma L_C20_fwhm_attributes :
  forall cub bq sun vega wave y r w yy M, band cub bq sun vega wave y r w yy ->
    let c := spline cub w yy in
    (exists t, In t w /\ c t = M) -> (forall t, In t w -> c t <= M) -> 0 < M ->
    (forall f a b, (forall x, f x = c x / M - 1 / 2) -> In a w -> In b w -> a < b -> f a * f b <= 0 ->
       exists x, bq f a b = Ok x /\ a <= x <= b /\ f x = 0) ->
    exists lo hi, p_fwhm r = Some (lo, hi, hi - lo) /\ 0 <= hi - lo /\
      nth 0 w 0 <= lo <= hi /\ hi <= last w 0 /\
      (lo <> nth 0 w 0 -> c lo = M / 2) /\ (hi <> last w 0 -> c hi = M / 2).
Proof.
  intros cub bq sun vega wave y r w yy M HB c H1 H2 H3 H4.
  destruct (band_samples _ _ _ _ _ _ _ _ _ HB) as (Hs & Hl & _ & _ & _ & _ & fw & Hf & Hp).
  assert (Hwn : w <> []) by (destruct w; [cbn in Hl; lia|discriminate]).
  destruct (fwhm_spec cub bq w yy M Hs Hwn H1 H2 H3 H4) as (lo & hi & E & A & B & C & D & _).
  exists lo, hi. rewrite Hp. rewrite Hf in E. assert (fw = (lo, hi, hi - lo)) by congruence. subst fw.
  repeat split; auto; lra.
Qed.

Lemma E_C20_fwhm_attributes :
  exists r, band lin bq0 sun0 sun0 [1;2;3;4] [0;1;1;0] r [1;2;3;4] [0;1;1;0] /\
    let c := spline lin [1;2;3;4] [0;1;1;0] in
    (exists t, In t [1;2;3;4] /\ c t = 1) /\ (forall t, In t [1;2;3;4] -> c t <= 1) /\
    (forall f a b, (forall x, f x = c x / 1 - 1 / 2) -> In a [1;2;3;4] -> In b [1;2;3;4] -> a < b -> f a * f b <= 0 ->
       exists x, bq0 f a b = Ok x /\ a <= x <= b /\ f x = 0).
Proof.
  destruct trapezium_band as [r Hr]. exists r. split; auto. cbn zeta. destruct trapezium_fwhm_hyps. split; auto. split; auto.
  exact trapezium_contract.
Qed.

(** ** C19 *)
Lemma fun_of_list (w yy : list R) : StronglySorted Rlt w -> length yy = length w -> exists f, map f w = yy.
Proof.
  intro Hs. revert yy. induction Hs as [|x w Hw IH Hf]; intros [|y yy] Hl; try discriminate.
  - exists (fun _ => 0). reflexivity.
  - destruct (IH yy) as [f Hfm]; [cbn in Hl; lia|].
    exists (fun t => if Req_EM_T t x then y else f t). cbn [map]. f_equal.
    + destruct (Req_EM_T x x); [reflexivity|contradiction].
    + rewrite <- Hfm. apply map_ext_in. intros t Ht. rewrite Forall_forall in Hf. specialize (Hf t Ht).
      destruct (Req_EM_T t x); [lra|reflexivity].
Qed.
Lemma lambda_eff_formula (rho : R -> R) w : w <> [] ->
  lambda_eff w (map rho w) = exp (boundary_minus (fun t => ln t * rho t / t) w / boundary_minus (fun t => rho t / t) w).
Proof.
  intro Hn. unfold lambda_eff. rcbn. f_equal. rewrite <- !boundary_eq by auto.
  assert (E1 : zip Rdiv (zip Rmult (map ln w) (map rho w)) w = map (fun t => ln t * rho t / t) w).
  { rewrite zip_map_l, zip_map_r, zip_same, zip_map_l, zip_same. reflexivity. }
  assert (E2 : zip Rdiv (map rho w) w = map (fun t => rho t / t) w) by (rewrite zip_map_l, zip_same; reflexivity).
  rewrite E1, E2. reflexivity.
Qed.

(** C19. The effective wavelength of any Response, as computed. *)
Lemma L_C19_formula :
  forall cub bq sun vega wave y r w yy (rho : R -> R), band cub bq sun vega wave y r w yy -> map rho w = yy ->
    p_leff r = Some (exp (boundary_minus (fun t => ln t * rho t / t) w / boundary_minus (fun t => rho t / t) w)).
Proof.
  intros cub bq sun vega wave y r w yy rho HB <-.
  destruct (band_samples _ _ _ _ _ _ _ _ _ HB) as (Hs & Hl & _ & _ & _ & -> & _).
  rewrite lambda_eff_formula; auto. destruct w; [cbn in Hl; lia|discriminate].
Qed.

(** For a nonnegative, not identically zero response vanishing at both ends it is the response-weighted
    geometric mean and lies within the band. *)
Lemma L_C19_inside_band :
  forall cub bq sun vega wave y r w yy (rho : R -> R), band cub bq sun vega wave y r w yy -> map rho w = yy ->
    (forall t, In t w -> 0 <= rho t) -> (exists t, In t w /\ 0 < rho t) ->
    rho (nth 0 w 0) = 0 -> rho (last w 0) = 0 ->
    exists le, p_leff r = Some le /\ nth 0 w 0 <= le <= last w 0 /\
      le = exp (trapezoid (fun t => ln t * rho t / t) w / trapezoid (fun t => rho t / t) w).
Proof.
  intros cub bq sun vega wave y r w yy rho HB Hrho Hpos (t0 & Ht0 & Hp0) Hfirst Hlast.
  rewrite (L_C19_formula _ _ _ _ _ _ _ _ _ _ HB Hrho).
  destruct (band_samples _ _ _ _ _ _ _ _ _ HB) as (Hs & Hl & _ & Pw & _). rewrite Forall_forall in Pw.
  assert (Hwn : w <> []) by (destruct w; [cbn in Hl; lia|discriminate]).
  assert (Hh : hd 0 w = nth 0 w 0) by (destruct w; reflexivity).
  set (A := trapezoid (fun t => ln t * rho t / t) w). set (B := trapezoid (fun t => rho t / t) w).
  assert (EB : boundary_minus (fun t => rho t / t) w = - B).
  { unfold boundary_minus, B. rewrite Hh, Hfirst, Hlast. unfold Rdiv. rewrite !Rmult_0_l. lra. }
  assert (EA : boundary_minus (fun t => ln t * rho t / t) w = - A).
  { unfold boundary_minus, A. rewrite Hh, Hfirst, Hlast. unfold Rdiv. rewrite !Rmult_0_r, !Rmult_0_l. lra. }
  assert (Hd : forall t, In t w -> 0 <= rho t / t).
  { intros t Ht. specialize (Pw t Ht). apply Rmult_le_pos; auto. apply Rlt_le, Rinv_0_lt_compat; auto. }
  assert (HB0 : 0 < B).
  { unfold B. rewrite <- trapezoid_eq. apply trapz_pos; auto; [lia|]. exists t0. split; auto. apply Rdiv_lt_0_compat; auto. }
  rewrite EA, EB. replace (- A / - B) with (A / B) by (field; lra).
  eexists. split; [reflexivity|]. split; [|reflexivity].
  assert (Hin0 : In (nth 0 w 0) w) by (apply nth_In; lia). assert (Hinn : In (last w 0) w) by (apply last_In; auto).
  assert (Hlo : ln (nth 0 w 0) * B <= A).
  { unfold A, B. rewrite <- !trapezoid_eq, <- trapz_scale. apply trapz_le; auto. intros t Ht.
    replace (ln t * rho t / t) with (ln t * (rho t / t)) by (unfold Rdiv; ring).
    apply Rmult_le_compat_r; auto.
    assert (hd 0 w <= t) by (apply sorted_hd_least; auto). rewrite Hh in H.
    destruct (Rle_lt_or_eq_dec _ _ H) as [Hlt|<-]; [|lra]. apply Rlt_le, ln_increasing; auto. }
  assert (Hhi : A <= ln (last w 0) * B).
  { unfold A, B. rewrite <- !trapezoid_eq, <- trapz_scale. apply trapz_le; auto. intros t Ht.
    replace (ln t * rho t / t) with (ln t * (rho t / t)) by (unfold Rdiv; ring).
    apply Rmult_le_compat_r; auto.
    assert (t <= last w 0) by (apply sorted_last_greatest; auto).
    destruct (Rle_lt_or_eq_dec _ _ H) as [Hlt|<-]; [|lra]. apply Rlt_le, ln_increasing; auto. }
  assert (Hexp : forall a b, a <= b -> exp a <= exp b).
  { intros a b H. destruct (Rle_lt_or_eq_dec _ _ H) as [Hlt|<-]; [|lra]. apply Rlt_le, exp_increasing; auto. }
  split.
  - rewrite <- (exp_ln (nth 0 w 0)) by auto. apply Hexp.
    apply Rmult_le_reg_r with B; auto. replace (A / B * B) with A by (field; lra). auto.
  - rewrite <- (exp_ln (last w 0)) by auto. apply Hexp.
    apply Rmult_le_reg_r with B; auto. replace (A / B * B) with A by (field; lra). auto.
Qed.

Lemma E_C19_inside_band :
  let rho := fun t : R => if Req_EM_T t 2 then 1 else if Req_EM_T t 3 then 1 else 0 in
  (exists r, band lin bq0 sun0 sun0 [1;2;3;4] [0;1;1;0] r [1;2;3;4] [0;1;1;0]) /\ map rho [1;2;3;4] = [0;1;1;0] /\
  (forall t, In t [1;2;3;4] -> 0 <= rho t) /\ (exists t, In t [1;2;3;4] /\ 0 < rho t).
Proof.
  cbn zeta. split; [exact trapezium_band|]. split; [|split].
  - cbn [map]. repeat f_equal; repeat (destruct (Req_EM_T _ _)); lra.
  - intros t _. repeat (destruct (Req_EM_T _ _)); lra.
  - exists 2. split; [cbn; auto|]. destruct (Req_EM_T 2 2); lra.
Qed.
Lemma E_C19_formula :
  let rho := fun t : R => if Req_EM_T t 2 then 1 else if Req_EM_T t 3 then 1 else 0 in
  (exists r, band lin bq0 sun0 sun0 [1;2;3;4] [0;1;1;0] r [1;2;3;4] [0;1;1;0]) /\ map rho [1;2;3;4] = [0;1;1;0].
Proof. destruct E_C19_inside_band as (H & E & _). exact (conj H E). Qed.

(** It fails for responses that do not vanish at their ends: a flat response on [1, 4] has an effective
    wavelength below 1. *)
Lemma L_C19_inside_band_refuted :
  exists cub bq sun vega wave y r w yy le,
    band cub bq sun vega wave y r w yy /\ (forall v, In v yy -> 0 < v) /\
    p_leff r = Some le /\ le < nth 0 w 0.
Proof.
  destruct flat_band as [r Hr].
  exists lin, bq0, sun0, sun0, [1;2;3;4], [1;1;1;1], r, [1;2;3;4], [1;1;1;1]. eexists.
  split; [exact Hr|]. split; [cbn; intuition lra|].
  split; [apply (L_C19_formula _ _ _ _ _ _ _ _ _ (fun _ => 1) Hr eq_refl)|].
  cbn [nth]. apply Rlt_le_trans with (exp 0); [|rewrite exp_0; lra]. apply exp_increasing.
  unfold boundary_minus. cbn [last hd trapezoid]. rewrite ln_1.
  assert (E4 : ln 4 = 2 * ln 2) by (replace 4 with (2 * 2) by lra; rewrite ln_mult by lra; lra).
  assert (E3 : ln 3 < ln 4) by (apply ln_increasing; lra).
  assert (E2 : 0 < ln 2) by (pose proof (ln_increasing 1 2); rewrite ln_1 in *; lra).
  rewrite E4 in *.
  match goal with |- ?a / ?b < 0 => assert (Ha : 0 < a) by lra; assert (Hb : b < 0) by lra end.
  apply neg_quot; auto.
Qed.

(** ** C57 *)
(** The reference spectrum built from a one-model Basel file: fluxes times 4 pi c / lambda^2 (R/d)^2. *)
Lemma L_C57_solar_and_vega :
  forall cub bq (wave1 wave2 : list R) (u1 u2 : basel_unit R) wave y r,
    length y = length wave ->
    length (b_flux _ u1) = length wave1 -> Forall (fun w => 0 < w) wave1 ->
    length (b_flux _ u2) = length wave2 -> Forall (fun w => 0 < w) wave2 ->
    Response cub bq (Ok (wave1, [u1])) (Ok (wave2, [u2])) wave y = Ok r ->
    exists sun vega m1 m2,
      SED (map (fun w => w * 10) wave1) (mk [1%nat; length wave1]
        (map (fun k => 4 * PI * nth k (b_flux _ u1) 0 * (299792 * 10 ^ 13) / (10 * nth k wave1 0) ^ 2 *
                       (6.960e10 / (10 * 3.086e18)) ^ 2) (seq 0 (length wave1)))) true = Ok sun /\
      SED (map (fun w => w * 10) wave2) (mk [1%nat; length wave2]
        (map (fun k => 4 * PI * nth k (b_flux _ u2) 0 * (299792 * 10 ^ 13) / (10 * nth k wave2 0) ^ 2 *
                       (1.91144e11 / (7.68 * 3.086e18)) ^ 2) (seq 0 (length wave2)))) true = Ok vega /\
      project_sed cub r sun = Ok (scal m1) /\ project_sed cub r vega = Ok (scal m2) /\
      (0 < m1 -> p_solar r = Some (magnitude m1)) /\ (m1 <= 0 -> p_solar r = None) /\
      (0 < m2 -> p_vega2ab r = Some (magnitude m2)) /\ (m2 <= 0 -> p_vega2ab r = None).
Proof.
  intros cub bq wave1 wave2 u1 u2 wave y r Hl L1 P1 L2 P2. unfold Response.
  destruct (sort_pair_ok _ _ Hl) as (w & yy & -> & _). cbn [bind fst snd].
  unfold resp_setup, with_curve, blank. cbn [p_wave p_resp p_interp p_leff p_solar p_vega2ab p_fwhm].
  destruct (mk_cubic w (vec yy)) as [it|]; [|discriminate].
  unfold ref_magnitude. cbn [bind].
  rewrite (L_C11_one_model _ _ _ L1 P1), (L_C11_one_model _ _ _ L2 P2).
  assert (E1 : sun_scale = (6.960e10 / (10 * 3.086e18)) ^ 2).
  { unfold sun_scale, pctocm, nsq. rcbn. change (3086 * 1000000000000000)%Q with 3086000000000000000%Q.
    unfold Q2R. cbn [Qnum Qden]. replace 6.960e10 with 69600000000 by lra. replace 3.086e18 with 3086000000000000000 by lra. field. }
  assert (E2 : vega_scale = (1.91144e11 / (7.68 * 3.086e18)) ^ 2).
  { unfold vega_scale, pctocm, nsq. rcbn. change (3086 * 1000000000000000)%Q with 3086000000000000000%Q.
    unfold Q2R. cbn [Qnum Qden]. replace 1.91144e11 with 191144000000 by lra. replace 3.086e18 with 3086000000000000000 by lra.
    replace 7.68 with (768 / 100) by lra. field. }
  rewrite E1, E2. clear E1 E2.
  assert (Hone : forall wv d (z : sed R), SED (map (fun w => w * 10) wv) (mk [1%nat; length wv] d) true = Ok z -> s_nsed z = 1%nat).
  { intros wv d z Hz. destruct (SED_inv _ _ _ Hz) as (fl & it' & F1 & _ & _ & _ & F5).
    cbn [ndim shp length Nat.eqb] in F1. injection F1 as <-. unfold s_nsed. rewrite F5. reflexivity. }
  assert (Hsc : forall rw rint sw si m, project_core cub rw rint sw si 1 = Ok m -> exists x, m = scal x).
  { intros rw rint sw si m. unfold project_core. destruct (where_ _); [intro H; injection H as <-; eauto|].
    destruct si; [|discriminate]. destruct rint; [|discriminate]. cbn [Nat.eqb]. intro H; injection H as <-. eauto. }
  match goal with |- context [SED ?a ?b true] => destruct (SED a b true) as [s1|] eqn:ES1; [|discriminate] end. cbn [bind].
  unfold project_sed at 1. cbn [p_wave p_interp]. rewrite (Hone _ _ _ ES1).
  match goal with |- context [project_core ?a ?b ?c ?d ?e ?f] => destruct (project_core a b c d e f) as [m1|] eqn:EP1; [|discriminate] end.
  destruct (Hsc _ _ _ _ _ EP1) as [x1 ->]. cbn [bind mag_or_none scal dat].
  match goal with |- context [SED ?a ?b true] => destruct (SED a b true) as [s2|] eqn:ES2; [|discriminate] end. cbn [bind].
  unfold project_sed at 1. cbn [p_wave p_interp]. rewrite (Hone _ _ _ ES2).
  match goal with |- context [project_core ?a ?b ?c ?d ?e ?f] => destruct (project_core a b c d e f) as [m2|] eqn:EP2; [|discriminate] end.
  destruct (Hsc _ _ _ _ _ EP2) as [x2 ->]. cbn [bind mag_or_none scal dat].
  destruct (fwhm_limits cub bq w it) as [fw|]; [|discriminate]. intro H. injection H as <-.
  exists s1, s2, x1, x2. do 2 (split; [auto|]).
  unfold project_sed. cbn [p_wave p_interp]. rewrite (Hone _ _ _ ES1), (Hone _ _ _ ES2).
  do 2 (split; [auto|]). cbn [p_solar p_vega2ab]. rcbn.
  assert (Hm : forall x, - Q2R (5 # 2) * log10 x = magnitude x).
  { intro x. unfold magnitude. rewrite Q2R_lit. f_equal. lra. }
  repeat split; intro Hx; first [rewrite Rltb_true by auto; rewrite Hm; reflexivity | rewrite Rltb_false by auto; reflexivity].
Qed.

Lemma E_C57_solar_and_vega :
  let u := {| b_modelno := 1; b_teff := 1; b_logg := 1; b_mh := 1; b_vturb := 1; b_xh := 1; b_flux := [1;1;1;1] |} in
  Forall (fun w => 0 < w) [100;200;300;400] /\
  exists r, Response lin bq0 (Ok ([100;200;300;400], [u])) (Ok ([100;200;300;400], [u])) [1;2;3;4] [0;1;1;0] = Ok r.
Proof.
  split; [repeat constructor; lra|]. destruct trapezium_band as [r Hr]. exists r. apply Hr.
Qed.
