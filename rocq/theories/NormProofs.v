(** Proofs about the normalisation of response curves. *)
From Coq Require Import String List Arith Lia Bool ZArith QArith Qreals Reals Lra FunctionalExtensionality Sorting.Sorted.
From Verif Require Import Base BaseLemmas Num Interp InterpReal Spec Utils UtilsReal Sed Response RespDict ResponseObj ResponseProofs ResponseThms
  Spline SplineSpec SplineProofs SplineThms CurveThms Fitter Kcorrect NormSpec.
Import ListNotations.
Local Open Scope R_scope.

Lemma quot_scale k a b : k <> 0 -> (k * a) / (k * b) = a / b.
Proof.
  intro H. destruct (Req_dec b 0) as [->|Hb]; [rewrite Rmult_0_r; unfold Rdiv; rewrite Rinv_0; ring|]. field. auto.
Qed.
Lemma trapz_scale2 k (y : list R) : forall x, trapz y (map (fun v => k * v) x) = k * trapz y x.
Proof.
  induction y as [|y0 y IH]; intro x; [rewrite !trapz_nil; ring|]. destruct y as [|y1 y]; [rewrite !trapz_1; ring|].
  destruct x as [|x0 [|x1 x]]; try (unfold trapz; cbn [map trapz_terms]; rewrite ?nsum_nil; ring).
  cbn [map]. rewrite !trapz_cons2. specialize (IH (x1 :: x)). cbn [map] in IH. rewrite IH. field.
Qed.
Lemma integrand_scale k (s g : list R) (f : R -> R) :
  integrand s (map (fun t => k * f t) g) g = map (fun v => k * v) (integrand s (map f g) g).
Proof.
  unfold integrand. rewrite !zip_map_r, map_zip. generalize g at 2 4 as h. revert s. induction g as [|t g IH]; intros [|a s] [|b h]; cbn [zip]; auto.
  rcbn. f_equal; [ring|apply IH].
Qed.
Lemma nmax_scale k (l : list R) : 0 < k -> nmax (map (fun v => k * v) l) = k * nmax l.
Proof.
  intro Hk. unfold nmax. destruct l as [|a l]; [cbn; rcbn; ring|]. cbn [map tl hd]. revert a. induction l as [|b l IH]; intro a; auto.
  cbn [map fold_left]. rewrite <- IH. f_equal. rcbn. unfold Rltb in *.
  repeat match goal with |- context [Rlt_dec ?x ?y] => destruct (Rlt_dec x y) end; auto; exfalso; nra.
Qed.

Section Units.
  Variable cub : list R -> list R -> R -> R.
  Hypothesis Hc : splines cub.
  Variable k : R.
  Hypothesis Hk : 0 < k.
  Let sc (l : list R) := map (fun v => k * v) l.

  Lemma mk_scale w y : mk_cubic w (vec (sc y)) = match mk_cubic w (vec y) with
    | Ok it => Ok {| ix := ix it; iys := map sc (iys it) |} | Raise e => Raise e end.
  Proof.
    unfold mk_cubic, sc. cbn [ndim vec shp length Nat.eqb negb lastd last]. rewrite map_length.
    destruct (Nat.eqb_spec (length y) (length w)) as [E|]; auto. destruct (Nat.leb _ _); auto. destruct (negb _); auto.
    f_equal. rewrite !lrows_vec. cbn [map ix iys]. do 2 f_equal. rewrite map_map. apply map_ext_in. intros i Hi.
    apply argsort_lt in Hi. rewrite (nth_indep _ n0 (k * n0)) by (rewrite map_length; lia). apply (map_nth (fun v => k * v)).
  Qed.
  Lemma reval_scale w y it t : mk_cubic w (vec y) = Ok it ->
    reval cub {| ix := ix it; iys := map sc (iys it) |} t = k * reval cub it t.
  Proof.
    intro E. pose proof (mk_cubic_good _ _ _ E) as (H1 & H2 & H3). pose proof (vec_nonempty _ _ _ E) as Hn.
    unfold reval. cbn [ix iys]. destruct (iys it) as [|q l]; [easy|]. cbn [map hd]. rewrite !spline_eval.
    apply Forall_inv in H3. pose proof (L_C78_scaling cub (ix it) q 1 k t Hc H1 H2 H3 Rlt_0_1) as Q.
    rewrite Rmult_1_r in Q. rewrite <- Q. f_equal. rewrite <- (map_id (ix it)) at 1. apply map_ext. intro; ring.
  Qed.
  Lemma core_scale w y it rw sw sint n : mk_cubic w (vec y) = Ok it ->
    project_core cub rw (Some {| ix := ix it; iys := map sc (iys it) |}) sw sint n = project_core cub rw (Some it) sw sint n.
  Proof.
    intro E. unfold project_core. destruct (where_ _); auto. destruct sint as [i|]; auto.
    rewrite (map_ext _ (fun t => k * reval cub it t)) by (intro; eapply reval_scale; eauto).
    unfold swapped. rcbn. assert (k <> 0) by lra. destruct (Nat.eqb n 1).
    - rewrite !integrand_scale, !trapz_scale2, quot_scale by auto. reflexivity.
    - do 2 f_equal. apply map_ext. intro s. rewrite !integrand_scale, !trapz_scale2, quot_scale by auto. reflexivity.
  Qed.
  Lemma fwhm_scale bq w y it : mk_cubic w (vec y) = Ok it ->
    fwhm_limits cub bq w {| ix := ix it; iys := map sc (iys it) |} = fwhm_limits cub bq w it.
  Proof.
    intro E. unfold fwhm_limits.
    rewrite (map_ext (reval cub {| ix := ix it; iys := map sc (iys it) |}) (fun t => k * reval cub it t)) by (intro; eapply reval_scale; eauto).
    rewrite <- (map_map (reval cub it) (fun v => k * v)), nmax_scale by auto. set (mx := nmax _).
    assert (Ei : map (fun v => v / (k * mx)) (map (fun v => k * v) (map (reval cub it) w)) = map (fun v => v / mx) (map (reval cub it) w)).
    { rewrite (map_map (fun v => k * v)). apply map_ext. intro v. apply quot_scale. lra. }
    assert (Ef : (fun x => reval cub {| ix := ix it; iys := map sc (iys it) |} x / (k * mx) - half) = (fun x => reval cub it x / mx - half)).
    { apply functional_extensionality. intro x. rewrite (reval_scale _ _ _ _ E), quot_scale by lra. reflexivity. }
    rcbn. rewrite Ei, Ef. reflexivity.
  Qed.
  Lemma leff_scale (w y : list R) : lambda_eff w (sc y) = lambda_eff w y.
  Proof.
    unfold lambda_eff, swapped, sc. rcbn. f_equal.
    assert (E1 : zip Rdiv (zip Rmult (map ln w) (map (fun v => k * v) y)) w = map (fun v => k * v) (zip Rdiv (zip Rmult (map ln w) y) w)).
    { rewrite map_zip. generalize w at 2 4 as h. revert y. induction w as [|t w IH]; intros [|a y] [|b h]; cbn [map zip]; auto. f_equal; [unfold Rdiv; ring|apply IH]. }
    assert (E2 : zip Rdiv (map (fun v => k * v) y) w = map (fun v => k * v) (zip Rdiv y w)).
    { rewrite map_zip, zip_map_l. apply zip_ext. intros; unfold Rdiv; ring. }
    rewrite E1, E2, !trapz_scale2. apply quot_scale. lra.
  Qed.

  (** Objects that are in the course of being set up: the same, with a scaled interpolator. *)
  Definition scaled (r r' : resp R) : Prop :=
    p_wave r = p_wave r' /\ p_leff r = p_leff r' /\ p_solar r = p_solar r' /\ p_vega2ab r = p_vega2ab r' /\ p_fwhm r = p_fwhm r' /\
    p_resp r' = option_map sc (p_resp r) /\
    (p_interp r = None /\ p_interp r' = None \/
     exists w y it, mk_cubic w (vec y) = Ok it /\ p_interp r = Some it /\ p_interp r' = Some {| ix := ix it; iys := map sc (iys it) |}).
  Lemma scaled_core r r' rw sw sint n : scaled r r' ->
    project_core cub rw (p_interp r) sw sint n = project_core cub rw (p_interp r') sw sint n.
  Proof.
    intros (_ & _ & _ & _ & _ & _ & [[-> ->]|(w & y & it & E & -> & ->)]); auto. symmetry. eapply core_scale; eauto.
  Qed.
  Lemma scaled_band r r' : scaled r r' -> same_band cub r r'.
  Proof.
    intro H. pose proof H as (H1 & H2 & H3 & H4 & H5 & _). constructor; auto.
    - intro s. unfold project_sed. rewrite <- H1. destruct (p_wave r); auto. apply scaled_core; auto.
    - intros w f. unfold project_arr. rewrite <- H1.
      repeat match goal with |- (if ?b then _ else _) = _ => destruct b; auto end. destruct (mk_cubic _ _); auto. cbn [bind].
      destruct (p_wave r); auto. apply scaled_core; auto.
  Qed.
  Lemma ref_scaled scale file r r' : scaled r r' -> ref_magnitude cub scale file r = ref_magnitude cub scale file r'.
  Proof.
    intro H. unfold ref_magnitude. destruct file as [f|]; auto. cbn [bind]. destruct (basel_sed scale f); auto. cbn [bind].
    rewrite (sb_sed _ _ _ (scaled_band _ _ H)). reflexivity.
  Qed.
  Lemma setup_scaled bq sun vega w y r r' e e' :
    resp_setup cub bq sun vega (with_curve blank w y) = (r, e) -> resp_setup cub bq sun vega (with_curve blank w (sc y)) = (r', e') ->
    scaled r r' /\ e = e'.
  Proof.
    unfold resp_setup, with_curve, blank. cbn [p_wave p_resp p_interp p_leff p_solar p_vega2ab p_fwhm]. rewrite mk_scale, leff_scale.
    destruct (mk_cubic w (vec y)) as [it|] eqn:E.
    2:{ intros Q Q'. injection Q as <- <-. injection Q' as <- <-. split; auto. unfold scaled. cbn. intuition. }
    assert (SC : forall le so ve fw, scaled
      {| p_wave := Some w; p_resp := Some y; p_interp := Some it; p_leff := le; p_solar := so; p_vega2ab := ve; p_fwhm := fw |}
      {| p_wave := Some w; p_resp := Some (sc y); p_interp := Some {| ix := ix it; iys := map sc (iys it) |}; p_leff := le; p_solar := so; p_vega2ab := ve; p_fwhm := fw |}).
    { intros. unfold scaled. cbn. do 6 (split; [reflexivity|]). right. exists w, y, it. auto. }
    rewrite <- (ref_scaled sun_scale sun _ _ (SC _ _ _ _)). destruct (ref_magnitude cub sun_scale sun _) as [sm|].
    2:{ intros Q Q'. injection Q as <- <-. injection Q' as <- <-. split; auto. }
    rewrite <- (ref_scaled vega_scale vega _ _ (SC _ _ _ _)). destruct (ref_magnitude cub vega_scale vega _) as [vm|].
    2:{ intros Q Q'. injection Q as <- <-. injection Q' as <- <-. split; auto. }
    rewrite (fwhm_scale bq w y it E). destruct (fwhm_limits cub bq w it) as [fw|];
      intros Q Q'; injection Q as <- <-; injection Q' as <- <-; split; auto.
  Qed.
  Lemma sort_scale (w y : list R) : sort_pair w (sc y) = rmap (fun p => (fst p, sc (snd p))) (sort_pair w y).
  Proof.
    unfold sort_pair, sc. rewrite map_length. destruct (forallb _ _) eqn:F; auto. cbn [rmap fst snd]. do 2 f_equal.
    rewrite map_map. apply map_ext_in. intros i Hi. rewrite forallb_forall in F. specialize (F i Hi). apply Nat.ltb_lt in F.
    rewrite (nth_indep _ n0 (k * n0)) by (rewrite map_length; lia). apply (map_nth (fun v => k * v)).
  Qed.
  Lemma fromdat_scaled bq sun vega t r r' e e' : fromdat cub bq sun vega blank t = (r, e) -> fromdat cub bq sun vega blank (in_units k t) = (r', e') ->
    same_band cub r r' /\ e = e'.
  Proof.
    assert (R : forall x : resp R, same_band cub x x) by (intro; constructor; auto).
    destruct t as [[[w y]|]|]; cbn [in_units fromdat fst snd].
    - fold (sc y). rewrite sort_scale by auto. destruct (sort_pair w y) as [[w' y']|]; cbn [rmap fst snd].
      + intros Q Q'. destruct (setup_scaled _ _ _ _ _ _ _ _ _ Q Q'). split; auto. apply scaled_band; auto.
      + intros Q Q'. injection Q as <- <-. injection Q' as <- <-. auto.
    - intros Q Q'. injection Q as <- <-. injection Q' as <- <-. auto.
    - intros Q Q'. injection Q as <- <-. injection Q' as <- <-. auto.
  Qed.
End Units.

(** * Whole programs *)
Section Programs.
  Variables (cub : list R -> list R -> R -> R) (bq : (R -> R) -> R -> R -> res R) (sun vega : res (list R * list (basel_unit R))).
  Variables fs fs' : string -> option (res (list R * list R)).
  Hypothesis Hc : splines cub.
  Hypothesis Hf : forall n, exists k, 0 < k /\ fs' n = in_units k (fs n).

  Lemma bands_get d d' n : same_bands cub d d' ->
    match dget d n, dget d' n with Some r, Some r' => same_band cub r r' | None, None => True | _, _ => False end.
  Proof.
    induction 1 as [|[a r] [b r'] l l' [E S] _ IH]; cbn; auto. cbn in E, S. subst b. destruct (String.eqb a n); auto.
  Qed.
  Lemma bands_mem d d' n : same_bands cub d d' -> dmem d n = dmem d' n.
  Proof. intro H. pose proof (bands_get _ _ n H) as G. unfold dmem. destruct (dget d n), (dget d' n); auto; easy. Qed.
  Lemma bands_set d d' n r r' : same_bands cub d d' -> same_band cub r r' -> same_bands cub (dset d n r) (dset d' n r').
  Proof.
    intros H S. unfold same_bands. induction H as [|[a x] [b x'] l l' [E X] H IH]; cbn [dset]; [constructor; auto|].
    cbn in E, X. subst b. destruct (String.eqb a n); constructor; auto.
  Qed.
  Lemma load_same d d' n rl d1 d1' e e' : same_bands cub d d' ->
    load_response cub bq sun vega fs d n rl = (d1, e) -> load_response cub bq sun vega fs' d' n rl = (d1', e') ->
    same_bands cub d1 d1' /\ e = e'.
  Proof.
    intros H. unfold load_response. rewrite <- (bands_mem _ _ n H). destruct (dmem d n && negb rl).
    - intros Q Q'. injection Q as <- <-. injection Q' as <- <-. auto.
    - destruct (Hf (n ++ ".dat")%string) as (k & Hk & ->).
      destruct (fromdat cub bq sun vega blank (fs _)) as [r x] eqn:E. destruct (fromdat cub bq sun vega blank (in_units k _)) as [r' x'] eqn:E'.
      destruct (fromdat_scaled cub Hc k Hk _ _ _ _ _ _ _ _ E E') as [S ->].
      intros Q Q'. injection Q as <- <-. injection Q' as <- <-. split; auto. apply bands_set; auto.
  Qed.
  Lemma missing_same names : forall d d' d1 d1' e e', same_bands cub d d' ->
    load_missing cub bq sun vega fs names d = (d1, e) -> load_missing cub bq sun vega fs' names d' = (d1', e') -> same_bands cub d1 d1' /\ e = e'.
  Proof.
    induction names as [|n names IH]; intros d d' d1 d1' e e' H; cbn [load_missing].
    - intros Q Q'. injection Q as <- <-. injection Q' as <- <-. auto.
    - rewrite <- (bands_mem _ _ n H). destruct (dmem d n); [apply IH; auto|].
      destruct (load_response cub bq sun vega fs d n false) as [d2 x] eqn:E. destruct (load_response cub bq sun vega fs' d' n false) as [d2' x'] eqn:E'.
      destruct (load_same _ _ _ _ _ _ _ _ H E E') as [H2 ->]. destruct x'; [|apply IH; auto].
      intros Q Q'. injection Q as <- <-. injection Q' as <- <-. auto.
  Qed.
  Lemma all_same names : forall d d' d1 d1' e e', same_bands cub d d' ->
    load_all cub bq sun vega fs names d = (d1, e) -> load_all cub bq sun vega fs' names d' = (d1', e') -> same_bands cub d1 d1' /\ e = e'.
  Proof.
    induction names as [|n names IH]; intros d d' d1 d1' e e' H; cbn [load_all].
    - intros Q Q'. injection Q as <- <-. injection Q' as <- <-. auto.
    - destruct (load_response cub bq sun vega fs d n false) as [d2 x] eqn:E. destruct (load_response cub bq sun vega fs' d' n false) as [d2' x'] eqn:E'.
      destruct (load_same _ _ _ _ _ _ _ _ H E E') as [H2 ->]. destruct x'; [|apply IH; auto].
      intros Q Q'. injection Q as <- <-. injection Q' as <- <-. auto.
  Qed.
  Lemma row_same r r' s : same_band cub r r' -> project_row cub r s = project_row cub r' s.
  Proof.
    intro S. unfold project_row. rewrite (sb_sed _ _ _ S). destruct (s_flag s); auto. unfold project_chunks.
    generalize (repeat (@n0 R _) (s_nsed s)). generalize (chunk_starts 1000 (s_nsed s)).
    induction l as [|i l IH]; intro row; cbn [foldM]; auto. rewrite (sb_arr _ _ _ S).
    destruct (project_arr cub r' _ _); cbn [bind]; auto. destruct (bto _ _ _); cbn [bind]; auto.
  Qed.
  Lemma zloop_same d d' names : same_bands cub d d' -> forall zs s, z_loop cub d names zs s = z_loop cub d' names zs s.
  Proof.
    intro H. assert (P : forall s, project_bands cub d names s = project_bands cub d' names s).
    { intro s. unfold project_bands. induction names as [|n l IH]; cbn [mapM]; auto. pose proof (bands_get _ _ n H) as G.
      destruct (dget d n), (dget d' n); try easy. rewrite (row_same _ _ _ G), IH. reflexivity. }
    induction zs as [|z zs IH]; intro s; cbn [z_loop]; auto. destruct (set_redshift s z) as [s1 [x|]]; auto. rewrite P.
    destruct (project_bands cub d' names s1); auto. rewrite IH. reflexivity.
  Qed.
  Lemma calc_same names zs d d' s : same_bands cub d d' ->
    let '(d1, s1, A) := calc_A cub bq sun vega fs names zs d s in let '(d1', s1', A') := calc_A cub bq sun vega fs' names zs d' s in
    same_bands cub d1 d1' /\ s1 = s1' /\ A = A'.
  Proof.
    intro H. unfold calc_A. destruct (load_all cub bq sun vega fs names d) as [d1 e] eqn:E. destruct (load_all cub bq sun vega fs' names d') as [d1' e'] eqn:E'.
    destruct (all_same _ _ _ _ _ _ _ H E E') as [H1 ->]. destruct e'; [auto|]. rewrite <- (zloop_same _ _ names H1).
    destruct (z_loop cub d1 names zs s) as [s1 [tab|]]; auto. destruct (mk_linear _ _); auto. destruct (set_redshift s1 n0) as [s2 [x|]]; auto.
  Qed.
  Lemma kcorrect_same d d' k abc responses (s : sed R) t out map_ r0 r1 nz : same_bands cub d d' ->
    let '(d1, s1, K) := Kcorrect cub bq sun vega fs d k abc responses s t out map_ r0 r1 nz in
    let '(d1', s1', K') := Kcorrect cub bq sun vega fs' d' k abc responses s t out map_ r0 r1 nz in
    same_bands cub d1 d1' /\ s1 = s1' /\ K = K'.
  Proof.
    intro H. unfold Kcorrect, set_Amatrix. cbn [f_resp f_zs f_sed Fitter f_A f_kind f_abc].
    pose proof (calc_same responses (redshift_grid r0 r1 nz) d d' s H) as C.
    destruct (calc_A cub bq sun vega fs responses (redshift_grid r0 r1 nz) d s) as [[d1 s1] A].
    destruct (calc_A cub bq sun vega fs' responses (redshift_grid r0 r1 nz) d' s) as [[d1' s1'] A']. destruct C as (H1 & -> & ->).
    destruct A' as [A'|e]; [|auto]. cbn [f_resp f_zs f_sed Fitter f_A f_kind f_abc]. destruct (negb _); auto. destruct (names_eqb _ _).
    - auto.
    - pose proof (calc_same (match out with Some l => l | None => responses end) (redshift_grid r0 r1 nz) d1 d1' s1' H1) as C.
      destruct (calc_A cub bq sun vega fs _ _ d1 s1') as [[d2 s2] B].
      destruct (calc_A cub bq sun vega fs' _ _ d1' s1') as [[d2' s2'] B']. destruct C as (H2 & -> & ->). auto.
  Qed.
  Lemma m2f_same d d' names m iv : same_bands cub d d' ->
    let '(d1, x) := maggies2flambda cub bq sun vega fs d names m iv in let '(d1', x') := maggies2flambda cub bq sun vega fs' d' names m iv in
    same_bands cub d1 d1' /\ x = x'.
  Proof.
    intro H. unfold maggies2flambda. destruct (load_missing cub bq sun vega fs names d) as [d1 e] eqn:E.
    destruct (load_missing cub bq sun vega fs' names d') as [d1' e'] eqn:E'. destruct (missing_same _ _ _ _ _ _ _ H E E') as [H1 ->].
    destruct e'; auto. split; auto.
    assert (M : forall l, mapM (fun n => match dget d1 n with Some r => Ok (f32_or_nan (p_leff r)) | None => Raise KeyError end) l =
      mapM (fun n => match dget d1' n with Some r => Ok (f32_or_nan (p_leff r)) | None => Raise KeyError end) l).
    { induction l as [|n l IH]; cbn [mapM]; auto. pose proof (bands_get _ _ n H1) as G. destruct (dget d1 n), (dget d1' n); try easy.
      rewrite (sb_leff _ _ _ G), IH. reflexivity. }
    rewrite M. reflexivity.
  Qed.
  Lemma loop_same chk files : forall d d', same_bands cub d d' ->
    let '(d1, l) := all_loop cub bq sun vega fs chk files d in let '(d1', l') := all_loop cub bq sun vega fs' chk files d' in
    same_bands cub d1 d1' /\ l = l'.
  Proof.
    induction files as [|[f i] files IH]; intros d d' H; cbn [all_loop]; auto. destruct (if i then dat_name f else None); [|apply IH; auto].
    destruct chk.
    - destruct (load_response cub bq sun vega fs d s false) as [d2 x] eqn:E. destruct (load_response cub bq sun vega fs' d' s false) as [d2' x'] eqn:E'.
      destruct (load_same _ _ _ _ _ _ _ _ H E E') as [H2 ->]. specialize (IH d2 d2' H2).
      destruct (all_loop cub bq sun vega fs true files d2), (all_loop cub bq sun vega fs' true files d2'). destruct IH as [? ->]. auto.
    - specialize (IH d d' H). destruct (all_loop cub bq sun vega fs false files d), (all_loop cub bq sun vega fs' false files d'). destruct IH as [? ->]. auto.
  Qed.
End Programs.
