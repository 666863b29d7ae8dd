(** What holds and what fails for the spline that interp1d(kind='cubic') computes: the proofs.  Prop_Curve.v restates them. *)
From Coq Require Import List Arith Lia Bool ZArith QArith Qreals Reals Lra Classical_Prop FunctionalExtensionality Sorting.Sorted Sorting.Permutation.
From Verif Require Import Base BaseLemmas Num Interp InterpReal Spec Utils Sed Response ResponseObj ResponseEx SplineSpec.
Import ListNotations.
Local Open Scope R_scope.
(* STATEMENTS *)
From Verif Require Import ResponseProofs ResponseThms Spline SplineProofs SplineThms ShiftThms.

(** * Whatever computes the spline *)
Definition good (it : interp1 R) : Prop :=
  StronglySorted Rlt (ix it) /\ (4 <= length (ix it))%nat /\ Forall (fun r => length r = length (ix it)) (iys it).
Lemma mk_cubic_good x (y : nd R) it : mk_cubic x y = Ok it -> good it.
Proof.
  unfold mk_cubic. destruct (negb _); [|discriminate]. destruct (Nat.eqb_spec (lastd (shp y)) (length x)) as [E|]; [|discriminate].
  destruct (Nat.leb_spec 4 (length x)); [|discriminate]. destruct (negb (has_dup _)) eqn:D; [|discriminate]. intro Q. injection Q as <-.
  unfold good. cbn [ix iys]. rewrite map_length, argsort_length. split; [|split; auto].
  - apply has_dup_false; [apply argsort_sorted|]. apply negb_true_iff in D. exact D.
  - apply Forall_forall. intros r Hr. apply in_map_iff in Hr as (q & <- & _). rewrite map_length, argsort_length. auto.
Qed.
Section Any.
  Variable cub cub' : list R -> list R -> R -> R.
  Hypothesis Hc : splines cub.
  Hypothesis Hc' : splines cub'.
  Lemma ieval1_any it r t : good it -> In r (iys it) -> ieval1 cub (ix it) r t = ieval1 cub' (ix it) r t.
  Proof.
    intros (H1 & H2 & H3) Hr. rewrite Forall_forall in H3. rewrite !spline_eval. apply L_C78_unique; auto.
  Qed.
  Lemma reval_any it : good it -> iys it <> [] -> reval cub it = reval cub' it.
  Proof.
    intros G Hn. apply functional_extensionality. intro t. apply ieval1_any; auto. destruct (iys it); [easy|left; auto].
  Qed.
  Lemma ieval_any it g : good it -> ieval cub it g = ieval cub' it g.
  Proof. intro G. unfold ieval. apply map_ext_in. intros r Hr. apply map_ext. intro t. apply ieval1_any; auto. Qed.
  Lemma fwhm_any bq w it : good it -> iys it <> [] -> fwhm_limits cub bq w it = fwhm_limits cub' bq w it.
  Proof. intros G H. unfold fwhm_limits. rewrite reval_any by auto. reflexivity. Qed.
  Lemma core_any rw rint sw sint n : (forall it, rint = Some it -> good it /\ iys it <> []) -> (forall it, sint = Some it -> good it) ->
    project_core cub rw rint sw sint n = project_core cub' rw rint sw sint n.
  Proof.
    intros Hr Hs. unfold project_core. destruct (where_ _); auto. destruct sint as [it|]; auto. destruct rint as [rt|]; auto.
    destruct (Hr rt eq_refl). rewrite (ieval_any it) by auto. rewrite (reval_any rt) by auto. reflexivity.
  Qed.
  Lemma SED_good sw fl b s it : SED sw fl b = Ok s -> s_interp s = Some it -> good it.
  Proof.
    unfold SED, sed_setup. destruct (if Nat.eqb (ndim fl) 1 then _ else _) as [f|]; [|discriminate]. cbn [bind].
    destruct (negb _); [|discriminate]. destruct b.
    - unfold set_interp. cbn [s_wave s_flux]. destruct (mk_cubic sw f) as [i|] eqn:E; [|discriminate]. intro Q. injection Q as <-. cbn [s_interp].
      intro Q. injection Q as <-. eapply mk_cubic_good; eauto.
    - intro Q. injection Q as <-. discriminate.
  Qed.
  Lemma vec_nonempty w y it : mk_cubic w (vec y) = Ok it -> iys it <> [].
  Proof. intro E. apply mk_cubic_inv in E. subst it. cbn [iys]. rewrite lrows_vec. discriminate. Qed.
  Lemma ref_any scale file r : (forall it, p_interp r = Some it -> good it /\ iys it <> []) ->
    ref_magnitude cub scale file r = ref_magnitude cub' scale file r.
  Proof.
    intro Hr. unfold ref_magnitude. destruct file as [f|]; auto. cbn [bind]. destruct (basel_sed scale f) as [s|] eqn:E; auto. cbn [bind].
    unfold basel_sed in E. destruct (foldM _ _ _) as [fl|]; [|discriminate]. cbn [bind] in E.
    unfold project_sed. destruct (p_wave r); auto. rewrite core_any; auto. intros it Hi. eapply SED_good; eauto.
  Qed.
  Lemma Response_any bq sun vega wave y : Response cub bq sun vega wave y = Response cub' bq sun vega wave y.
  Proof.
    unfold Response. destruct (sort_pair wave y) as [[w yy]|]; auto. cbn [bind fst snd]. unfold resp_setup, with_curve, blank.
    cbn [p_wave p_resp p_interp p_leff p_solar p_vega2ab p_fwhm]. destruct (mk_cubic w (vec yy)) as [it|] eqn:E; auto.
    pose proof (mk_cubic_good _ _ _ E) as G. pose proof (vec_nonempty _ _ _ E) as Hn.
    match goal with |- context [ref_magnitude cub sun_scale sun ?r] =>
      rewrite (ref_any sun_scale sun r) by (cbn [p_interp]; intros ? Q; injection Q as <-; auto) end.
    destruct (ref_magnitude cub' sun_scale sun _) as [sm|]; auto.
    match goal with |- context [ref_magnitude cub vega_scale vega ?r] =>
      rewrite (ref_any vega_scale vega r) by (cbn [p_interp]; intros ? Q; injection Q as <-; auto) end.
    destruct (ref_magnitude cub' vega_scale vega _) as [vm|]; auto. rewrite fwhm_any by auto. reflexivity.
  Qed.
End Any.
Lemma Response_interp cub bq sun vega wave y r : Response cub bq sun vega wave y = Ok r ->
  forall it, p_interp r = Some it -> good it /\ iys it <> [].
Proof.
  unfold Response. destruct (sort_pair wave y) as [[w yy]|]; [|discriminate]. cbn [bind fst snd]. unfold resp_setup, with_curve, blank.
  cbn [p_wave p_resp p_interp p_leff p_solar p_vega2ab p_fwhm]. destruct (mk_cubic w (vec yy)) as [it|] eqn:E; [|discriminate].
  destruct (ref_magnitude cub sun_scale sun _); [|discriminate]. destruct (ref_magnitude cub vega_scale vega _); [|discriminate].
  destruct (fwhm_limits cub bq w it); [|discriminate]. intros Q. injection Q as <-. cbn [p_interp]. intros i Hi. injection Hi as <-.
  split; [eapply mk_cubic_good|eapply vec_nonempty]; eauto.
Qed.

(** C78.  Responses and projections do not depend on how the spline is computed: any two correct algorithms give the same
    Response (or the same exception), with the same effective wavelength, magnitudes and width, and the same projections of SED
    objects and of arrays. *)
Lemma L_C78_any_algorithm :
  forall cub cub' bq sun vega wave y, splines cub -> splines cub' ->
    Response cub bq sun vega wave y = Response cub' bq sun vega wave y /\
    forall r, Response cub bq sun vega wave y = Ok r ->
      (forall sw fl b s, SED sw fl b = Ok s -> project_sed cub r s = project_sed cub' r s) /\
      (forall sw fl, project_arr cub r sw fl = project_arr cub' r sw fl).
Proof.
  intros cub cub' bq sun vega wave y Hc Hc'. split; [apply Response_any; auto|]. intros r Hr. pose proof (Response_interp _ _ _ _ _ _ _ Hr) as G.
  split.
  - intros sw fl b s HS. unfold project_sed. destruct (p_wave r); auto. apply core_any; auto. intros it Hi. eapply SED_good; eauto.
  - intros sw fl. unfold project_arr. repeat match goal with |- (if ?b then _ else _) = _ => destruct b; auto end.
    destruct (mk_cubic _ _) as [it|] eqn:E; auto. cbn [bind]. destruct (p_wave r); auto. apply core_any; auto.
    intros i Q. injection Q as <-. eapply mk_cubic_good; eauto.
Qed.
Lemma E_C78_any_algorithm : exists cub bq r, splines cub /\ Response cub bq sun0 sun0 [1;2;3;4] [0;1;1;0] = Ok r.
Proof. destruct (toy_bands 2) as (r & _ & H & _); [lra|]. exists notaknot, (bisect (1/1000)), r. split; [exact L_C78_exists|auto]. Qed.

(** * What fails *)
Lemma const_curve cub xs c t : splines cub -> StronglySorted Rlt xs -> (4 <= length xs)%nat -> nth 0 xs 0 <= t <= last xs 0 ->
  spline cub xs (map (fun _ => c) xs) t = c.
Proof.
  intros Hc Hs H4 Ht. pose proof (L_C78_cubics cub xs {| q0 := c; q1 := 0; q2 := 0; q3 := 0 |} t Hc Hs H4 Ht) as E.
  unfold peval in E. cbn [q0 q1 q2 q3] in E. rewrite (map_ext _ (fun _ => c)) in E by (intro; ring). rewrite E. ring.
Qed.

(** C18 for the spline: positive spectrum and response on the same samples give negative maggies. *)
Lemma L_C18_proper_spline_refuted :
  forall cub bq tol, splines cub -> root_finder tol bq ->
  exists sun vega wave y r w yy sw f s g m,
    band cub bq sun vega wave y r w yy /\ spectrum sw f s /\ overlaps w sw /\ is_grid w sw g /\
    (forall t, nth 0 w 0 <= t <= last w 0 -> 0 < spline cub sw f t /\ 0 < spline cub w yy t) /\
    project_sed cub r s = Ok (scal m) /\ m < 0 /\
    0 < trapezoid (fun t => spline cub sw f t * spline cub w yy t * t) g /
        trapezoid (fun t => ab_flux t * spline cub w yy t * t) g.
Proof.
  intros cub bq tol Hc Hr.
  assert (S4 : StronglySorted Rlt [1;2;3;4]) by (repeat constructor; lra).
  destruct (band_of cub bq tol [1;2;3;4] [1;1;1;1]) as [r HB]; auto; try (repeat constructor; lra).
  destruct (spectrum_intro [1;2;3;4] [1;1;1;1]) as [s HS]; auto; try (cbn; lia); try (repeat constructor; lra).
  assert (Ho : overlaps [1;2;3;4] [1;2;3;4]) by (exists 2; cbn; split; [auto|lra]).
  assert (Hg : is_grid [1;2;3;4] [1;2;3;4] [1;2;3;4]).
  { split; auto. intro t. unfold in_grid. tauto. }
  assert (Hone : forall t, 1 <= t <= 4 -> spline cub [1;2;3;4] [1;1;1;1] t = 1).
  { intros t Ht. apply (const_curve cub [1;2;3;4] 1 t); auto. }
  exists sun0, sun0, [1;2;3;4], [1;1;1;1], r, [1;2;3;4], [1;1;1;1], [1;2;3;4], [1;1;1;1], s, [1;2;3;4].
  eexists. do 4 (split; [eassumption|]). split; [cbn [nth last]; intros t Ht; rewrite Hone by auto; lra|].
  split; [apply (L_C18_projection_formula _ _ _ _ _ _ _ _ _ _ _ _ HB HS Ho _ Hg)|].
  unfold boundary_minus. cbn [last hd trapezoid].
  rewrite !Hone by lra. unfold ab_flux. split.
  - match goal with |- ?a / ?b < 0 => assert (Ha : 0 < a) by lra; assert (Hb : b < 0) by lra end.
    apply neg_quot; auto.
  - apply Rdiv_lt_0_compat; lra.
Qed.

(** Even when the spectrum extends beyond the band and all samples are positive the maggies can be negative: the spline of positive
    samples dips below zero. *)
Lemma L_C18_positive_spline_refuted :
  forall cub bq tol, splines cub -> root_finder tol bq ->
  exists sun vega wave y r w yy sw f s m,
    band cub bq sun vega wave y r w yy /\ spectrum sw f s /\ overlaps w sw /\ brackets w sw /\
    Forall (fun v => 0 < v) f /\ Forall (fun v => 0 < v) yy /\ project_sed cub r s = Ok (scal m) /\ m < 0.
Proof.
  intros cub bq tol Hc Hr.
  set (w := [2; 9/4; 5/2; 11/4]). set (sw := [1;2;3;4]). set (f := [1/100;1/100;1/100;101/100]).
  assert (S4 : StronglySorted Rlt sw) by (repeat constructor; lra).
  assert (Sw : StronglySorted Rlt w) by (repeat constructor; lra).
  destruct (band_of cub bq tol w [1;1;1;1]) as [r HB]; auto; try (repeat constructor; lra).
  destruct (spectrum_intro sw f) as [s HS]; auto; try (cbn; lia); try (repeat constructor; lra).
  assert (Ho : overlaps w sw) by (exists 2; cbn; split; [auto|lra]).
  assert (Hb : brackets w sw) by (split; [exists 1|exists 3]; cbn; split; auto; lra).
  assert (Hg : is_grid w sw [1; 2; 9/4; 5/2; 11/4; 3]).
  { split; [repeat constructor; lra|]. intro t. unfold in_grid, w, sw. cbn [nth last In]. split.
    - intros [<-|[<-|[<-|[<-|[<-|[<-|[]]]]]]]; auto 10.
      + right. right. left. split; auto. split; [lra|]. intros u [<-|[<-|[<-|[<-|[]]]]]; lra.
      + right. right. right. split; auto. split; [lra|]. intros u [<-|[<-|[<-|[<-|[]]]]]; lra.
    - intros [H|[(H & B)|[(H & B & C)|(H & B & C)]]].
      + intuition.
      + destruct H as [<-|[<-|[<-|[<-|[]]]]]; auto; lra.
      + destruct H as [<-|[<-|[<-|[<-|[]]]]]; auto; lra.
      + destruct H as [<-|[<-|[<-|[<-|[]]]]]; auto 10; try lra. specialize (C 3 ltac:(auto)). lra. }
  set (q := {| q0 := -99/100; q1 := 11/6; q2 := -1; q3 := 1/6 |}).
  assert (Ef : f = map (peval q) sw).
  { unfold f, sw, q, peval. cbn [map q0 q1 q2 q3]. repeat (apply f_equal2; [field|]). reflexivity. }
  assert (Es : forall t, 1 <= t <= 4 -> spline cub sw f t = (t - 1) * (t - 2) * (t - 3) / 6 + 1 / 100).
  { intros t Ht. rewrite Ef, (L_C78_cubics cub sw q t) by (auto; cbn; lra || lia). unfold q, peval. cbn [q0 q1 q2 q3]. field. }
  assert (Er : forall t, 2 <= t <= 11/4 -> spline cub w [1;1;1;1] t = 1).
  { intros t Ht. apply (const_curve cub w 1 t); auto. }
  assert (Eo : forall t, t < 2 \/ 11/4 < t -> spline cub w [1;1;1;1] t = 0).
  { intros t Ht. apply spline_outside. cbn. lra. }
  exists sun0, sun0, w, [1;1;1;1], r, w, [1;1;1;1], sw, f, s. eexists.
  do 4 (split; [eassumption|]). split; [repeat constructor; lra|]. split; [repeat constructor; lra|].
  split; [apply (L_C18_projection_formula _ _ _ _ _ _ _ _ _ _ _ _ HB HS Ho _ Hg)|].
  unfold boundary_minus. cbn [last hd trapezoid].
  rewrite !(Eo 1), !(Eo 3) by lra. rewrite !Er by lra. rewrite !Es by lra. unfold ab_flux.
  match goal with |- ?a / ?b < 0 => assert (Ha : 0 < a) by lra; assert (Hd : b < 0) by lra end. apply neg_quot; auto.
Qed.

(** C19 for the spline. *)
Lemma L_C19_inside_band_spline_refuted :
  forall cub bq tol, splines cub -> root_finder tol bq ->
  exists sun vega wave y r w yy le,
    band cub bq sun vega wave y r w yy /\ (forall v, In v yy -> 0 < v) /\ p_leff r = Some le /\ le < nth 0 w 0.
Proof.
  intros cub bq tol Hc Hr. destruct (band_of cub bq tol [1;2;3;4] [1;1;1;1]) as [r HB]; auto; try (repeat constructor; lra).
  exists sun0, sun0, [1;2;3;4], [1;1;1;1], r, [1;2;3;4], [1;1;1;1]. eexists.
  split; [exact HB|]. split; [cbn; intuition lra|].
  split; [apply (L_C19_formula _ _ _ _ _ _ _ _ _ (fun _ => 1) HB eq_refl)|].
  cbn [nth]. apply Rlt_le_trans with (exp 0); [|rewrite exp_0; lra]. apply exp_increasing.
  unfold boundary_minus. cbn [last hd trapezoid]. rewrite ln_1.
  assert (E4 : ln 4 = 2 * ln 2) by (replace 4 with (2 * 2) by lra; rewrite ln_mult by lra; lra).
  assert (E3 : ln 3 < ln 4) by (apply ln_increasing; lra).
  assert (E2 : 0 < ln 2) by (pose proof (ln_increasing 1 2); rewrite ln_1 in *; lra).
  rewrite E4 in *.
  match goal with |- ?a / ?b < 0 => assert (Ha : 0 < a) by lra; assert (Hb : b < 0) by lra end.
  apply neg_quot; auto.
Qed.

(** C21 for the spline: a spectrum that is 1 throughout the band and beyond projects to 0 when none of its samples falls in the band. *)
Lemma L_C21_straddling_spline :
  forall cub bq tol, splines cub -> root_finder tol bq ->
  exists sun vega wave y r w yy sw f s,
    band cub bq sun vega wave y r w yy /\ spectrum sw f s /\ brackets w sw /\
    (forall t, nth 0 w 0 <= t <= last w 0 -> spline cub sw f t = 1) /\
    (exists t, In t w /\ 0 < spline cub w yy t) /\ project_sed cub r s = Ok (scal 0).
Proof.
  intros cub bq tol Hc Hr.
  assert (S4 : StronglySorted Rlt [1;2;3;4]) by (repeat constructor; lra).
  assert (Ss : StronglySorted Rlt [1/4;1/2;5;6]) by (repeat constructor; lra).
  assert (X : Exists (fun v => 0 < v) [0;1;1;0]) by (apply Exists_cons_tl, Exists_cons_hd; lra).
  destruct (band_of cub bq tol [1;2;3;4] [0;1;1;0]) as [r HB]; auto; try (repeat constructor; lra).
  destruct (spectrum_intro [1/4;1/2;5;6] [1;1;1;1]) as [s HS]; auto; try (cbn; lia); [repeat constructor; lra|].
  exists sun0, sun0, [1;2;3;4], [0;1;1;0], r, [1;2;3;4], [0;1;1;0], [1/4;1/2;5;6], [1;1;1;1], s.
  split; auto. split; auto. split; [split; [exists (1/2)|exists 5]; cbn; split; auto; lra|].
  split. { cbn [nth last]. intros t Ht. apply (const_curve cub [1/4;1/2;5;6] 1 t); auto. cbn. lra. }
  split. { exists 2. split; [cbn; auto|]. pose proof (L_C78_at_samples cub [1;2;3;4] [0;1;1;0] 1 Hc S4 ltac:(cbn; lia) eq_refl ltac:(cbn; lia)) as E.
           cbn [nth] in E. rewrite E. lra. }
  apply (L_C21_zero_without_sample _ _ _ _ _ _ _ _ _ _ HB). destruct (spectrum_facts _ _ _ HS) as (-> & _).
  intros (t & Ht & Hb). cbn [nth last] in Hb. cbn in Ht. intuition lra.
Qed.
