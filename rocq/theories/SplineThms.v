(** Theorems about the interpolation of spectra and response curves, for the spline that interp1d(kind='cubic') computes. *)
From Coq Require Import List Arith Lia Bool ZArith QArith Qreals Reals Lra Classical_Prop FunctionalExtensionality Sorting.Sorted Sorting.Permutation.
From Verif Require Import Base BaseLemmas Num Toy Interp InterpReal Spec Utils Sed Response ResponseProofs
  ResponseObj ResponseFwhm LinInterp ResponseEx Spline SplineSpec.
Import ListNotations.
Local Open Scope R_scope.
(* STATEMENTS *)
From Verif Require Import ResponseThms SplineProofs.

Lemma spline_in cub xs ys t : nth 0 xs 0 <= t <= last xs 0 -> spline cub xs ys t = cub xs ys t.
Proof. intro H. unfold spline. destruct (Rlt_dec t _); [lra|]. destruct (Rlt_dec _ t); [lra|reflexivity]. Qed.
Lemma in_range xs t : StronglySorted Rlt xs -> In t xs -> nth 0 xs 0 <= t <= last xs 0.
Proof.
  intros Hs Ht. split; [|apply sorted_last_greatest; auto].
  replace (nth 0 xs 0) with (hd 0 xs) by (destruct xs; reflexivity). apply sorted_hd_least; auto.
Qed.

Lemma sorted_nodup l : StronglySorted Rlt l -> NoDup l.
Proof.
  induction 1 as [|a l Hl IH Hf]; constructor; auto. intro Hin. rewrite Forall_forall in Hf. specialize (Hf a Hin). lra.
Qed.
Lemma sorted_map_inc (f : R -> R) l : (forall a b, a < b -> f a < f b) -> StronglySorted Rlt l -> StronglySorted Rlt (map f l).
Proof.
  intro Hf. induction 1 as [|a l Hl IH Ha]; cbn [map]; constructor; auto. apply Forall_forall. intros b Hb.
  apply in_map_iff in Hb as (x & <- & Hx). rewrite Forall_forall in Ha. auto.
Qed.

Lemma sorted_samples_unique wave y w yy w' yy' : sorted_samples wave y w yy -> sorted_samples wave y w' yy' -> w' = w /\ yy' = yy.
Proof.
  intros (S1 & L1 & P1) (S2 & L2 & P2).
  assert (P : Permutation (combine w yy) (combine w' yy')) by (rewrite <- P1; exact P2). clear P1 P2.
  assert (Pw : Permutation w w').
  { rewrite <- (map_fst_combine w yy), <- (map_fst_combine w' yy') by auto. apply Permutation_map, P. }
  assert (E : w' = w).
  { apply sorted_ext; auto. intro t. split; apply Permutation_in; [symmetry|]; auto. }
  subst w'. split; auto. apply nth_ext with (d := 0) (d' := 0); [congruence|]. intros k Hk.
  assert (Hi : In (nth k w 0, nth k yy' 0) (combine w yy)).
  { eapply Permutation_in; [symmetry; exact P|]. rewrite <- combine_nth by auto. apply nth_In. rewrite combine_length. lia. }
  apply In_nth with (d := (0, 0)) in Hi as (j & Hj & E). rewrite combine_length in Hj. rewrite combine_nth in E by auto.
  injection E as E1 E2. rewrite <- E2.
  assert (j = k); [|congruence]. eapply NoDup_nth with (d := 0); [apply sorted_nodup; exact S1| | |exact E1]; lia.
Qed.
Lemma sorted_samples_map wave y w yy (f : R -> R) : (forall a b, a < b -> f a < f b) -> length y = length wave ->
  sorted_samples wave y w yy -> sorted_samples (map f wave) y (map f w) yy.
Proof.
  intros Hf Hl (S & L & P). split; [apply sorted_map_inc; auto|]. split; [rewrite map_length; auto|].
  assert (E : forall a b : list R, combine (map f a) b = map (fun p => (f (fst p), snd p)) (combine a b)).
  { induction a as [|x a IH]; intros [|z b]; cbn; auto. f_equal. apply IH. }
  rewrite !E. apply Permutation_map, P.
Qed.

(** C78.  The not-a-knot spline exists for every increasing sample list of four or more samples: the model's [notaknot]
    computes it. *)
Lemma L_C78_exists : splines notaknot.
Proof. intros xs ys H1 H2 _. apply notaknot_is_spline; auto. Qed.

(** ... and is unique within the sampled range (outside interp1d returns 0 anyway). *)
Lemma L_C78_unique :
  forall cub cub' xs ys t, splines cub -> splines cub' -> StronglySorted Rlt xs -> (4 <= length xs)%nat -> length ys = length xs ->
    spline cub xs ys t = spline cub' xs ys t.
Proof.
  intros cub cub' xs ys t H1 H2 Hs H4 Hl. unfold spline. destruct (Rlt_dec t (nth 0 xs 0)); auto. destruct (Rlt_dec (last xs 0) t); auto.
  apply (spline_unique xs ys); auto. lra.
Qed.
Lemma E_C78_unique : splines notaknot /\ StronglySorted Rlt [1;2;3;4] /\ length [0;1;1;0] = length [1;2;3;4].
Proof. split; [exact L_C78_exists|]. split; [repeat constructor; lra|reflexivity]. Qed.

(** The interpolated curve passes through its samples. *)
Lemma L_C78_at_samples :
  forall cub xs ys k, splines cub -> StronglySorted Rlt xs -> (4 <= length xs)%nat -> length ys = length xs -> (k < length xs)%nat ->
    spline cub xs ys (nth k xs 0) = nth k ys 0.
Proof.
  intros cub xs ys k H Hs H4 Hl Hk. rewrite spline_in by (apply in_range; auto; apply nth_In; auto).
  apply (is_spline_at xs ys); auto. lia.
Qed.
Lemma E_C78_at_samples : splines notaknot /\ StronglySorted Rlt [1;2;4;5;9] /\ (4 <= length [1;2;4;5;9])%nat /\
  length [0;3;-1;2;7] = length [1;2;4;5;9] /\ (2 < length [1;2;4;5;9])%nat.
Proof. split; [exact L_C78_exists|]. split; [repeat constructor; lra|]. cbn. repeat split; lia. Qed.

(** The curve of a cubic polynomial is that polynomial. *)
Lemma L_C78_cubics :
  forall cub xs q t, splines cub -> StronglySorted Rlt xs -> (4 <= length xs)%nat -> nth 0 xs 0 <= t <= last xs 0 ->
    spline cub xs (map (peval q) xs) t = peval q t.
Proof.
  intros cub xs q t H Hs H4 Ht. rewrite spline_in by auto.
  apply (spline_unique xs (map (peval q) xs)); auto; [apply H; auto; apply map_length|apply is_spline_cubic].
Qed.
Lemma E_C78_cubics : splines notaknot /\ StronglySorted Rlt [1;2;4;5;9] /\ (4 <= length [1;2;4;5;9])%nat /\
  nth 0 [1;2;4;5;9] 0 <= 7 / 2 <= last [1;2;4;5;9] 0.
Proof. split; [exact L_C78_exists|]. split; [repeat constructor; lra|]. split; [cbn; lia|cbn; lra]. Qed.

(** Changing the unit of wavelength and of flux: what set_redshift does with s = 1+z and c = 1/(1+z). *)
Lemma L_C78_scaling :
  forall cub xs ys s c t, splines cub -> StronglySorted Rlt xs -> (4 <= length xs)%nat -> length ys = length xs -> 0 < s ->
    spline cub (map (fun x => x * s) xs) (map (fun v => c * v) ys) (t * s) = c * spline cub xs ys t.
Proof.
  intros cub xs ys s c t H Hs H4 Hl Hp.
  assert (S' : StronglySorted Rlt (map (fun x => x * s) xs)).
  { clear -Hs Hp. induction Hs as [|a l Hl IH Hf]; cbn [map]; constructor; auto. apply Forall_forall. intros b Hb.
    apply in_map_iff in Hb as (x & <- & Hx). rewrite Forall_forall in Hf. specialize (Hf x Hx). nra. }
  assert (N0 : nth 0 (map (fun x => x * s) xs) 0 = nth 0 xs 0 * s) by (destruct xs; [cbn in H4; lia|reflexivity]).
  assert (NL : last (map (fun x => x * s) xs) 0 = last xs 0 * s).
  { rewrite !last_nth_eq, map_length. apply (nth_map_lt (fun x => x * s)). lia. }
  unfold spline. rewrite N0, NL.
  destruct (Rlt_dec (t * s) (nth 0 xs 0 * s)), (Rlt_dec t (nth 0 xs 0)); try nra; try (exfalso; nra).
  destruct (Rlt_dec (last xs 0 * s) (t * s)), (Rlt_dec (last xs 0) t); try nra; try (exfalso; nra).
  replace (cub xs ys t) with (cub xs ys (t * s / s)) by (f_equal; field; lra).
  apply (spline_unique (map (fun x => x * s) xs) (map (fun v => c * v) ys) _ (fun u => c * cub xs ys (u / s))); auto.
  - rewrite map_length. auto.
  - apply H; auto; rewrite !map_length; auto.
  - apply is_spline_scale; auto.
  - rewrite N0, NL. nra.
Qed.
Lemma E_C78_scaling : splines notaknot /\ StronglySorted Rlt [1;2;3;4] /\ 0 < 1 + 1 / 2.
Proof. split; [exact L_C78_exists|]. split; [repeat constructor; lra|lra]. Qed.

Lemma linear_curve cub xs ys zs a b t : splines cub -> StronglySorted Rlt xs -> (4 <= length xs)%nat -> length ys = length xs ->
  length zs = length xs ->
  spline cub xs (zip (fun u v => a * u + b * v) ys zs) t = a * spline cub xs ys t + b * spline cub xs zs t.
Proof.
  intros H Hs H4 L1 L2. unfold spline. destruct (Rlt_dec t (nth 0 xs 0)); [ring|]. destruct (Rlt_dec (last xs 0) t); [ring|].
  apply (spline_unique xs (zip (fun u v => a * u + b * v) ys zs) _ (fun t => a * cub xs ys t + b * cub xs zs t)); auto; [| |lra].
  - apply H; auto. rewrite length_zip. lia.
  - apply is_spline_lin; auto.
Qed.

Lemma spectrum_facts sw f s : spectrum sw f s -> s_wave s = sw /\ (4 <= length sw)%nat /\ length f = length sw.
Proof.
  intros (S1 & S2 & S3). assert (Wf : wf (vec f)) by (unfold wf, vec, size; cbn; lia).
  destruct (SED_ok _ _ _ S1 Wf S2) as (E & _ & _ & H4 & _). repeat split; auto.
  unfold SED, sed_setup in S2. cbn [ndim vec shp length Nat.eqb] in S2. unfold reshape in S2.
  destruct (Nat.eqb_spec (size [1%nat; length sw]) (size (shp (vec f)))) as [Q|]; [|discriminate].
  unfold size in Q. cbn [vec shp fold_right] in Q. lia.
Qed.

Lemma fwhm_tol cub bq tol w yy M : splines cub -> root_finder tol bq -> StronglySorted Rlt w -> (4 <= length w)%nat ->
  length yy = length w -> In M yy -> (forall v, In v yy -> v <= M) -> 0 < M ->
  let c := spline cub w yy in
  let near x := exists t, Rabs (x - t) <= tol /\ nth 0 w 0 <= t <= last w 0 /\ c t = M / 2 in
  exists lo hi, fwhm_limits cub bq w {| ix := w; iys := [yy] |} = Ok (lo, hi, hi - lo) /\ nth 0 w 0 <= lo <= hi /\ hi <= last w 0 /\
    (lo <> nth 0 w 0 -> near lo) /\ (hi <> last w 0 -> near hi) /\
    (forall k, (k < length w)%nat -> nth k w 0 < lo -> nth k yy 0 <= M / 2) /\
    (forall k, (k < length w)%nat -> hi < nth k w 0 -> nth k yy 0 < M / 2).
Proof.
  intros Hc Hr Hw Hw4 Ly HM Hmax Hpos c near.
  assert (Cw : forall k, (k < length w)%nat -> c (nth k w 0) = nth k yy 0) by (intros; apply L_C78_at_samples; auto).
  destruct (fwhm_spec_gen cub bq w yy M near Hw) as (lo & hi & E & H1 & H2 & H3 & H4 & H5 & H6).
  - destruct w; [cbn in Hw4; lia|discriminate].
  - apply In_nth with (d := 0) in HM as (k & Hk & <-). exists (nth k w 0). split; [apply nth_In; lia|]. apply Cw. lia.
  - intros t Ht. apply In_nth with (d := 0) in Ht as (k & Hk & <-). fold c. rewrite Cw by auto. apply Hmax, nth_In. lia.
  - exact Hpos.
  - intros f a b Hf Ha Hb Hab Hbetween Hs. fold c in Hf.
    assert (Hcont : exists g, continuity g /\ forall t, a <= t <= b -> f t = g t).
    { destruct (Hc w yy Hw Hw4 Ly) as (p & _ & Ep). apply In_nth with (d := 0) in Ha as (k & Hk & <-).
      assert (Hk' : (S k < length w)%nat).
      { destruct (Nat.eq_dec (S k) (length w)) as [E|]; [|lia]. pose proof (in_range w b Hw Hb) as [_ Q].
        rewrite last_nth_eq in Q. replace (length w - 1)%nat with k in Q by lia. lra. }
      assert (Hb' : b = nth (S k) w 0).
      { apply In_nth with (d := 0) in Hb as (j & Hj & <-). apply (nth_sorted_lt w k j Hw) in Hab; try lia.
        assert (j <= S k)%nat; [|f_equal; lia]. destruct (Nat.le_gt_cases j (S k)) as [|C]; auto. exfalso.
        destruct (Hbetween (nth (S k) w 0)) as [Q|Q]; [apply nth_In; lia| |].
        - assert (nth k w 0 < nth (S k) w 0) by (apply nth_sorted_lt; auto; lia). lra.
        - assert (nth (S k) w 0 < nth j w 0) by (apply nth_sorted_lt; auto; lia). lra. }
      exists (fun t => peval (p k) t / M - 1 / 2). split.
      - intro t. apply continuity_pt_minus; [apply continuity_pt_mult|apply continuity_pt_const; intros ? ?; reflexivity];
          [apply peval_continuous|apply continuity_pt_const; intros ? ?; reflexivity].
      - intros t Ht. rewrite Hf. unfold c. rewrite spline_in.
        + rewrite (Ep k t Hk') by (rewrite <- Hb'; exact Ht). reflexivity.
        + pose proof (in_range w (nth k w 0) Hw (nth_In w 0 Hk)). pose proof (in_range w b Hw Hb). lra. }
    destruct (Hr f a b Hab Hcont Hs) as (x & x0 & E & Hx & Hx0 & F0 & HT). exists x. repeat split; try lra; auto. exists x0.
    pose proof (in_range w a Hw Ha). pose proof (in_range w b Hw Hb). repeat split; try lra; auto. rewrite Hf in F0.
    replace (c x0) with (c x0 / M * M) by (field; lra). replace (c x0 / M) with (1 / 2) by lra. lra.
  - exists lo, hi. repeat split; auto; try lra.
    + intros k Hk Hlt. rewrite <- Cw by auto. apply H5; auto. apply nth_In; auto.
    + intros k Hk Hlt. rewrite <- Cw by auto. apply H6; auto. apply nth_In; auto.
Qed.

(** C20.  FWHM limits for the spline and a root finder with tolerance [tol] (brentq: xtol + rtol times the root): they lie in
    the band, in order, and within [tol] of points where the interpolated curve is half the largest sample, unless they are the
    ends of the band; all samples further out are at or below half maximum. *)
Lemma L_C20_tolerance :
  forall cub bq tol sun vega wave y r w yy M, splines cub -> root_finder tol bq ->
    band cub bq sun vega wave y r w yy -> In M yy -> (forall v, In v yy -> v <= M) -> 0 < M ->
    let c := spline cub w yy in
    let half_max_near x := exists t, Rabs (x - t) <= tol /\ nth 0 w 0 <= t <= last w 0 /\ c t = M / 2 in
    exists lo hi, p_fwhm r = Some (lo, hi, hi - lo) /\ nth 0 w 0 <= lo <= hi /\ hi <= last w 0 /\
      (lo <> nth 0 w 0 -> half_max_near lo) /\ (hi <> last w 0 -> half_max_near hi) /\
      (forall k, (k < length w)%nat -> nth k w 0 < lo -> nth k yy 0 <= M / 2) /\
      (forall k, (k < length w)%nat -> hi < nth k w 0 -> nth k yy 0 < M / 2).
Proof.
  intros cub bq tol sun vega wave y r w yy M Hc Hr HB HM Hmax Hpos c near.
  destruct (band_samples _ _ _ _ _ _ _ _ _ HB) as (Hw & Hw4 & Ly & Pw & _ & _ & fw & Ef & Er).
  destruct (fwhm_tol cub bq tol w yy M) as (lo & hi & E & H); auto. rewrite E in Ef. injection Ef as <-. exists lo, hi. auto.
Qed.

(** C15.  The constructor of Response succeeds on any four or more samples at different wavelengths, not all zero or negative, given
    usable solar and Vega files. *)
Lemma L_C15_constructs :
  forall cub bq tol sun vega (wave y : list R), splines cub -> root_finder tol bq -> reference_file sun -> reference_file vega ->
    length y = length wave -> NoDup wave -> (4 <= length wave)%nat -> Exists (fun v => 0 < v) y ->
    exists r w yy, Response cub bq sun vega wave y = Ok r /\ p_wave r = Some w /\ p_resp r = Some yy /\ sorted_samples wave y w yy.
Proof.
  intros cub bq tol sun vega wave y Hc Hr Hsun Hvega Hl Hn H4 Hex.
  assert (G : exists r, Response cub bq sun vega wave y = Ok r).
  { unfold Response. destruct (sort_pair_ok wave y Hl) as (w & yy & -> & L1 & L2 & Hs & Hcb). cbn [bind fst snd].
    assert (P : Permutation (combine w yy) (combine wave y)) by (rewrite Hcb; apply isort_perm).
    assert (Pw : Permutation w wave).
    { rewrite <- (map_fst_combine w yy), <- (map_fst_combine wave y) by congruence. apply Permutation_map, P. }
    assert (Py : Permutation yy y).
    { rewrite <- (map_snd_combine w yy), <- (map_snd_combine wave y) by congruence. apply Permutation_map, P. }
    assert (Hst : StronglySorted Rlt w).
    { assert (Nw : NoDup w) by (eapply Permutation_NoDup; [symmetry; exact Pw|exact Hn]). clear -Hs Nw.
      induction Hs as [|a l Hl IH Hf]; constructor; inversion Nw; subst; auto. apply Forall_forall. intros b Hb.
      rewrite Forall_forall in Hf. destruct (Rle_lt_or_eq_dec _ _ (Hf b Hb)) as [|E]; [assumption|]. subst. contradiction. }
    assert (Hw4 : (4 <= length w)%nat) by lia.
    assert (Hmk : mk_cubic w (vec yy) = Ok {| ix := w; iys := [yy] |}).
    { destruct (mk_cubic_intro w (vec yy) Hst Hw4) as [it Hit]; [discriminate|cbn; lia|].
      assert (Wf : wf (vec yy)) by (unfold wf, vec, size; cbn; lia).
      destruct (mk_cubic_sorted _ _ _ Hst Wf Hit) as (E1 & E2 & _). rewrite lrows_vec in E2.
      destruct it as [a b]; cbn [ix iys] in *. congruence. }
    assert (Hmag : forall scale file r it, reference_file file -> p_wave r = Some w -> p_interp r = Some it ->
      exists m, ref_magnitude cub scale file r = Ok m).
    { intros scale file r it (wv & u & -> & Lu & Lw & Sw & Pos) E1 E2. unfold ref_magnitude. cbn [bind].
      rewrite L_C11_one_model by auto.
      match goal with |- context [SED ?a ?b true] => destruct (SED_intro a b) as [s Hsed] end.
      - clear -Sw. induction Sw as [|a l Hl IH Hf]; cbn [map]; constructor; auto. apply Forall_forall. intros b Hb.
        apply in_map_iff in Hb as (x & <- & Hx). rewrite Forall_forall in Hf. specialize (Hf x Hx). lra.
      - rewrite map_length. auto.
      - reflexivity.
      - cbn. rewrite map_length. reflexivity.
      - rewrite Hsed. cbn [bind]. unfold project_sed. rewrite E1, E2.
        unfold SED, sed_setup in Hsed. cbn [ndim shp length Nat.eqb bind negb] in Hsed. unfold set_interp in Hsed. cbn [s_wave s_flux] in Hsed.
        destruct (mk_cubic _ _) as [its|] in Hsed; [|discriminate]. injection Hsed as <-. cbn [s_wave s_interp s_nsed s_rflux shp hd].
        unfold project_core. destruct (where_ _); [cbn [bind]; eexists; unfold mag_or_none, scal; cbn [dat]; reflexivity|].
        unfold s_nsed. cbn [s_rflux shp hd Nat.eqb bind]. eexists. unfold mag_or_none, scal. cbn [dat]. reflexivity. }
    unfold resp_setup, with_curve, blank. cbn [p_wave p_resp p_interp p_leff p_solar p_vega2ab p_fwhm]. rewrite Hmk.
    match goal with |- context [ref_magnitude cub sun_scale sun ?r] => destruct (Hmag sun_scale sun r _ Hsun eq_refl eq_refl) as [m1 ->] end.
    match goal with |- context [ref_magnitude cub vega_scale vega ?r] => destruct (Hmag vega_scale vega r _ Hvega eq_refl eq_refl) as [m2 ->] end.
    destruct (list_max_ex yy) as (M & HM & Hmax); [destruct yy; [cbn in L2; lia|discriminate]|].
    destruct (fwhm_tol cub bq tol w yy M) as (lo & hi & -> & _); auto; try lia; [|eauto].
    apply Exists_exists in Hex as (v & Hv & Hp). apply (Permutation_in v (Permutation_sym Py)) in Hv. apply Hmax in Hv. lra. }
  destruct G as [r E]. destruct (L_C15_sorted_samples _ _ _ _ _ _ _ Hl E) as (w & yy & H1 & H2 & H3). exists r, w, yy. auto.
Qed.
Lemma E_C15_constructs : splines notaknot /\ (exists bq, root_finder (1 / 1000) bq) /\ reference_file sun0 /\
  NoDup [4;3;2;1] /\ Exists (fun v => 0 < v) [0;1;1;0].
Proof.
  split; [exact L_C78_exists|]. split; [exists (bisect (1 / 1000)); apply bisect_root_finder; lra|]. split; [|split].
  - do 2 eexists. split; [reflexivity|]. repeat split; try (cbn; lia); repeat constructor; lra.
  - repeat constructor; cbn; lra.
  - apply Exists_cons_tl, Exists_cons_hd. lra.
Qed.

Lemma sun0_file : reference_file sun0.
Proof. do 2 eexists. split; [reflexivity|]. repeat split; try (cbn; lia); repeat constructor; lra. Qed.
Lemma band_of cub bq tol w y : splines cub -> root_finder tol bq -> length y = length w -> StronglySorted Rlt w -> (4 <= length w)%nat ->
  Exists (fun v => 0 < v) y -> Forall (fun t => 0 < t) w -> exists r, band cub bq sun0 sun0 w y r w y.
Proof.
  intros Hc Hr Hl Hs H4 Hex Hp.
  destruct (L_C15_constructs cub bq tol sun0 sun0 w y Hc Hr sun0_file sun0_file Hl (sorted_nodup _ Hs) H4 Hex) as (r & a & b & E & E1 & E2 & S).
  assert (S0 : sorted_samples w y w y) by (repeat split; auto). destruct (sorted_samples_unique _ _ _ _ _ _ S0 S) as [-> ->].
  exists r. repeat split; auto.
Qed.

Lemma band_example cub bq tol y : splines cub -> root_finder tol bq -> length y = 4%nat -> Exists (fun v => 0 < v) y ->
  exists r, band cub bq sun0 sun0 [1;2;3;4] y r [1;2;3;4] y.
Proof. intros. apply (band_of cub bq tol); auto; repeat constructor; lra. Qed.

(** C17.  project is linear in the flux, with no assumption on the spline. *)
Lemma L_C17_linear_spline :
  forall cub bq sun vega wave y r w yy sw f1 f2 a b s1 s2 s12, splines cub ->
    band cub bq sun vega wave y r w yy ->
    spectrum sw f1 s1 -> spectrum sw f2 s2 -> spectrum sw (zip (fun u v => a * u + b * v) f1 f2) s12 ->
    exists m1 m2, project_sed cub r s1 = Ok (scal m1) /\ project_sed cub r s2 = Ok (scal m2) /\
                  project_sed cub r s12 = Ok (scal (a * m1 + b * m2)).
Proof.
  intros cub bq sun vega wave y r w yy sw f1 f2 a b s1 s2 s12 Hc HB H1 H2 H12.
  destruct (spectrum_facts _ _ _ H1) as (W1 & H4 & L1). destruct (spectrum_facts _ _ _ H2) as (W2 & _ & L2).
  destruct (spectrum_facts _ _ _ H12) as (W12 & _ & _).
  destruct (classic (overlaps w sw)) as [Ho|Hno].
  - destruct (L_C21_grid w sw (proj1 H1) Ho) as [Hg _].
    destruct (band_samples _ _ _ _ _ _ _ _ _ HB) as (_ & Hw4 & _).
    assert (Hne : grid_of w sw <> []) by (eapply grid_nonempty; [|exact Hg]; destruct w; [cbn in Hw4; lia|discriminate]).
    rewrite (L_C18_projection_formula _ _ _ _ _ _ _ _ _ _ _ _ HB H1 Ho _ Hg).
    rewrite (L_C18_projection_formula _ _ _ _ _ _ _ _ _ _ _ _ HB H2 Ho _ Hg).
    rewrite (L_C18_projection_formula _ _ _ _ _ _ _ _ _ _ _ _ HB H12 Ho _ Hg).
    do 2 eexists. split; [reflexivity|]. split; [reflexivity|]. f_equal. f_equal.
    rewrite (boundary_ext _ (fun t => a * (spline cub sw f1 t * spline cub w yy t * t) + b * (spline cub sw f2 t * spline cub w yy t * t)) _ Hne).
    + rewrite boundary_lin by auto. unfold Rdiv. ring.
    + intros t _. rewrite (linear_curve cub sw f1 f2 a b t Hc (proj1 H1) H4 L1 L2). ring.
  - exists 0, 0. rewrite !(L_C21_zero_without_sample _ _ _ _ _ _ _ _ _ _ HB) by congruence.
    repeat split. f_equal. f_equal. lra.
Qed.

Lemma E_C17_linear_spline : exists bq r s1 s2 s12, splines notaknot /\ band notaknot bq sun0 sun0 [1;2;3;4] [0;1;1;0] r [1;2;3;4] [0;1;1;0] /\
  spectrum [1;2;3;4] [1;2;2;5] s1 /\ spectrum [1;2;3;4] [3;1;4;1] s2 /\
  spectrum [1;2;3;4] (zip (fun u v => 2 * u + -1 * v) [1;2;2;5] [3;1;4;1]) s12.
Proof.
  destruct (band_example notaknot (bisect (1/1000)) (1/1000) [0;1;1;0]) as [r HB]; auto using L_C78_exists.
  - apply bisect_root_finder. lra.
  - apply Exists_cons_tl, Exists_cons_hd. lra.
  - assert (S : forall f, length f = 4%nat -> exists s, spectrum [1;2;3;4] f s).
    { intros f Hf. apply spectrum_intro; auto; repeat constructor; lra. }
    destruct (S [1;2;2;5] eq_refl) as [s1 H1], (S [3;1;4;1] eq_refl) as [s2 H2],
      (S (zip (fun u v => 2 * u + -1 * v) [1;2;2;5] [3;1;4;1]) eq_refl) as [s3 H3].
    exists (bisect (1/1000)), r, s1, s2, s3. split; [exact L_C78_exists|]. auto.
Qed.

(** C16.  An AB source sampled at the wavelengths of the response within its band, and beyond it on both sides, projects to exactly
    1 through every response with nonnegative samples that are not all zero. *)
Lemma L_C16_same_samples :
  forall cub bq sun vega wave y r w yy sw s, splines cub ->
    band cub bq sun vega wave y r w yy -> spectrum sw (map ab_flux sw) s -> brackets w sw ->
    (forall t, nth 0 w 0 <= t <= last w 0 -> (In t w <-> In t sw)) ->
    Forall (fun v => 0 <= v) yy -> Exists (fun v => 0 < v) yy ->
    project_sed cub r s = Ok (scal 1).
Proof.
  intros cub bq sun vega wave y r w yy sw s Hc HB HS Hb Hsame Hpos Hex.
  destruct (band_samples _ _ _ _ _ _ _ _ _ HB) as (Hw & Hw4 & Ly & Pw & _).
  destruct (spectrum_facts _ _ _ HS) as (_ & H4 & L1).
  assert (Cw : forall t, In t w -> exists k, (k < length w)%nat /\ t = nth k w 0 /\ spline cub w yy t = nth k yy 0).
  { intros t Ht. apply In_nth with (d := 0) in Ht as (k & Hk & <-). exists k. repeat split; auto. apply L_C78_at_samples; auto. }
  assert (Ab : forall t, In t sw -> spline cub sw (map ab_flux sw) t = ab_flux t).
  { intros t Ht. apply In_nth with (d := 0) in Ht as (k & Hk & <-). rewrite L_C78_at_samples by (auto; exact (proj1 HS)).
    apply (nth_map_lt ab_flux). auto. }
  apply (L_C16_ab_source_bracketed _ _ _ _ _ _ _ _ _ _ _ _ HB HS); auto.
  - exists (nth 0 w 0). split; [|split; [lra|]].
    + apply Hsame; [split; [lra|]|apply nth_In; lia]. apply (in_range w); auto. apply nth_In. lia.
    + apply (in_range w); auto. apply nth_In. lia.
  - intros t [Ht|Ht]; apply Ab; auto. apply Hsame; auto. apply in_range; auto.
  - assert (Hw0 : forall t, In t w -> 0 <= spline cub w yy t).
    { intros t Ht. destruct (Cw t Ht) as (k & Hk & _ & ->). rewrite Forall_forall in Hpos. apply Hpos, nth_In. lia. }
    intros t [Ht|Ht]; auto. destruct (Rlt_dec t (nth 0 w 0)) as [C|C]; [rewrite spline_outside; auto; lra|].
    destruct (Rlt_dec (last w 0) t) as [D|D]; [rewrite spline_outside; auto; lra|]. apply Hw0, Hsame; auto; lra.
  - apply Exists_exists in Hex as (v & Hv & Hp). apply In_nth with (d := 0) in Hv as (k & Hk & <-).
    exists (nth k w 0). split; [apply nth_In; lia|]. rewrite L_C78_at_samples by (auto; lia). exact Hp.
Qed.

Lemma E_C16_same_samples : exists bq r s, splines notaknot /\ band notaknot bq sun0 sun0 [1;2;3;4] [0;1;1;0] r [1;2;3;4] [0;1;1;0] /\
  spectrum [1/2;1;2;3;4;5] (map ab_flux [1/2;1;2;3;4;5]) s /\ brackets [1;2;3;4] [1/2;1;2;3;4;5] /\
  (forall t, 1 <= t <= 4 -> (In t [1;2;3;4] <-> In t [1/2;1;2;3;4;5])).
Proof.
  destruct (band_example notaknot (bisect (1/1000)) (1/1000) [0;1;1;0]) as [r HB]; auto using L_C78_exists.
  - apply bisect_root_finder. lra.
  - apply Exists_cons_tl, Exists_cons_hd. lra.
  - destruct (spectrum_intro [1/2;1;2;3;4;5] (map ab_flux [1/2;1;2;3;4;5])) as [s HS]; try (cbn; lia); try (repeat constructor; lra).
    exists (bisect (1/1000)), r, s. split; [exact L_C78_exists|]. do 2 (split; auto). split.
    + split; [exists (1/2)|exists 5]; cbn; split; auto 10; lra.
    + intros t Ht. cbn. intuition lra.
Qed.

Lemma E_C20_tolerance : exists bq r, splines notaknot /\ root_finder (1/1000) bq /\
  band notaknot bq sun0 sun0 [1;2;3;4] [0;1;1;0] r [1;2;3;4] [0;1;1;0] /\ In 1 [0;1;1;0].
Proof.
  assert (B : root_finder (1/1000) (bisect (1/1000))) by (apply bisect_root_finder; lra).
  destruct (band_example notaknot (bisect (1/1000)) (1/1000) [0;1;1;0]) as [r HB]; auto using L_C78_exists.
  - apply Exists_cons_tl, Exists_cons_hd. lra.
  - exists (bisect (1/1000)), r. split; [exact L_C78_exists|]. cbn. auto.
Qed.
