(** The bounds of the flux of a spectrum (C18), and the concrete object of the examples of C87-C89: two measurements of
    one template in one band. *)
From Coq Require Import String List Arith Lia Bool ZArith QArith Qreals Reals Lra Sorting.Sorted Sorting.Permutation.
From Verif Require Import Base BaseLemmas Num Toy Interp InterpReal Spec Utils Sed Response RespDict ResponseObj LinInterp ResponseThms ResponseEx
  Fitter FitSpec FitterProofs FitterMC FitReal FitTable FitEx FitRealEx FitRealThms Kcorrect KSpec KTable KEx KcorrectProofs XrAlg KcorrectThms AbsmagProofs AbsmagThms
  AbThms UtilsThms RespDictThms PersistThms BuildSpec BuildProofs BuildTable BuildEx BuildThms ShiftSpec ShiftThms NnlsSpec NnlsExact NnlsThms PipeSpec PipeProofs.
Import ListNotations.
Local Open Scope R_scope.

Lemma bounded_flux cub bq sun vega wave y r w yy sw f s a b :
  band cub bq sun vega wave y r w yy -> spectrum sw f s -> overlaps w sw -> brackets w sw ->
  (forall t, In t sw \/ In t w -> 0 <= spline cub w yy t) -> (exists t, In t w /\ 0 < spline cub w yy t) ->
  (forall t, In t sw \/ In t w -> a * ab_flux t <= spline cub sw f t <= b * ab_flux t) ->
  exists m, project_sed cub r s = Ok (scal m) /\ a <= m <= b.
Proof.
  intros HB HS Ho Hb Hpos (t0 & Ht0 & Hp0) Hab.
  destruct (band_samples _ _ _ _ _ _ _ _ _ HB) as (Hw & H4 & _ & Pw & _).
  destruct (L_C21_grid w sw (proj1 HS) Ho) as [Hg _].
  rewrite (L_C18_proper_when_bracketed _ _ _ _ _ _ _ _ _ _ _ _ HB HS Ho Hb _ Hg).
  eexists. split; [reflexivity|]. set (g := grid_of w sw) in *.
  assert (Pg := grid_pos w sw _ Pw (proj2 (proj2 HS)) Hg).
  assert (Habp : forall t, 0 < t -> 0 < ab_flux t).
  { intros t Ht. unfold ab_flux. apply Rdiv_lt_0_compat; [lra|]. apply pow_lt. auto. }
  assert (Hin : forall t, In t g -> In t sw \/ In t w) by (intros t Ht; apply Hg in Ht; unfold in_grid in Ht; tauto).
  assert (D : 0 < trapezoid (fun t => ab_flux t * spline cub w yy t * t) g).
  { rewrite <- trapezoid_eq. apply trapz_pos.
    - apply Hg.
    - assert (Hi : incl w g) by (intros t Ht; apply Hg; left; auto).
      assert (Hnd : NoDup w).
      { clear -Hw. induction Hw as [|a l Hl IH Hf]; constructor; auto. intro Hin. rewrite Forall_forall in Hf. specialize (Hf a Hin). lra. }
      pose proof (NoDup_incl_length Hnd Hi). lia.
    - intros t Ht. specialize (Pg t Ht). specialize (Habp t Pg).
      assert (0 <= spline cub w yy t) by (apply Hpos; auto). apply Rmult_le_pos; [|lra]. apply Rmult_le_pos; lra.
    - exists t0. assert (Hi : In t0 g) by (apply Hg; left; auto). split; auto.
      specialize (Pg t0 Hi). specialize (Habp t0 Pg). apply Rmult_lt_0_compat; [|lra]. apply Rmult_lt_0_compat; lra. }
  assert (Lin : forall k h1 h2, trapezoid (fun t => k * h1 t + h2 t) g = k * trapezoid h1 g + trapezoid h2 g).
  { intros k h1 h2. clear. induction g as [|u [|v g] IH]; cbn [trapezoid] in *; try lra. }
  assert (P : forall h, (forall t, In t g -> 0 <= h t) -> 0 <= trapezoid h g).
  { intros h Hh. rewrite <- trapezoid_eq. apply trapz_nonneg; auto. apply Hg. }
  set (D0 := fun t => ab_flux t * spline cub w yy t * t) in *. set (N0 := fun t => spline cub sw f t * spline cub w yy t * t) in *.
  assert (Q1 : 0 <= trapezoid (fun t => - a * D0 t + N0 t) g).
  { apply P. intros t Ht. unfold D0, N0. specialize (Pg t Ht). pose proof (Hpos t (Hin t Ht)). pose proof (Hab t (Hin t Ht)).
    replace (- a * (ab_flux t * spline cub w yy t * t) + spline cub sw f t * spline cub w yy t * t)
      with ((spline cub sw f t - a * ab_flux t) * (spline cub w yy t * t)) by ring.
    apply Rmult_le_pos; [lra|]. apply Rmult_le_pos; lra. }
  assert (Q2 : 0 <= trapezoid (fun t => - 1 * N0 t + b * D0 t) g).
  { apply P. intros t Ht. unfold D0, N0. specialize (Pg t Ht). pose proof (Hpos t (Hin t Ht)). pose proof (Hab t (Hin t Ht)).
    replace (- 1 * (spline cub sw f t * spline cub w yy t * t) + b * (ab_flux t * spline cub w yy t * t))
      with ((b * ab_flux t - spline cub sw f t) * (spline cub w yy t * t)) by ring.
    apply Rmult_le_pos; [lra|]. apply Rmult_le_pos; lra. }
  rewrite Lin in Q1. rewrite Lin in Q2. set (z := trapezoid (fun t => b * D0 t) g) in *.
  assert (Ez : z = b * trapezoid D0 g). { unfold z. pose proof (Lin b D0 (fun _ => 0)) as E. cbv beta in E.
    assert (Z0 : trapezoid (fun _ => 0) g = 0). { clear. induction g as [|u [|v g] IH]; cbn [trapezoid] in *; try lra. }
    rewrite Z0 in E. rewrite Rplus_0_r in E. rewrite <- E. clear. induction g as [|u [|v g] IH]; cbn [trapezoid] in *; try lra. }
  split.
  - apply Rmult_le_reg_r with (trapezoid D0 g); auto. unfold Rdiv. rewrite Rmult_assoc, Rinv_l by lra. lra.
  - apply Rmult_le_reg_r with (trapezoid D0 g); auto. unfold Rdiv. rewrite Rmult_assoc, Rinv_l by lra. lra.
Qed.

Lemma lin_at xs ys t i : StronglySorted Rlt xs -> length ys = length xs -> (i < length xs)%nat -> t = nth i xs 0 -> lin xs ys t = nth i ys 0.
Proof.
  intros Hs L Hi ->.
  assert (Nd : NoDup xs).
  { clear -Hs. induction Hs as [|a l Hl IH Hf]; constructor; auto. intro Hin. rewrite Forall_forall in Hf. specialize (Hf a Hin). lra. }
  assert (E : exists h : R -> R, ys = map h xs).
  { clear - L Nd. revert ys L. induction Nd as [|a l Ha Nd IH]; intros [|b ys] L; try discriminate; [exists (fun x => x); reflexivity|].
    injection L as L. destruct (IH ys L) as [h ->]. exists (fun t => if Req_EM_T t a then b else h t). cbn [map].
    destruct (Req_EM_T a a); [|lra]. f_equal. apply map_ext_in. intros t Ht. destruct (Req_EM_T t a); [subst; contradiction|reflexivity]. }
  destruct E as [h ->]. rewrite lin_nodes by (auto; apply nth_In; auto).
  rewrite (nth_indep (map h xs) 0 (h 0)) by (rewrite map_length; auto). rewrite map_nth. reflexivity.
Qed.

Definition r_cache (r : resp R) : dict (resp R) := [("u"%string, r)].
Lemma r_pair r s d : band lin bq0 sun0 sun0 [1;2;3;4] [0;1;1;0] r [1;2;3;4] [0;1;1;0] -> extends (r_cache r) d -> same_rest r_sed1 s ->
  exists d' s' K, Kcorrect lin bq0 sun0 sun0 r_files d Plain false ["u"; "u"]%string s r_tmpl None None 0 1 2 = (d', s', Ok K).
Proof.
  intros Hb He (W & F & _). eapply real_build with (rows := [[1;1;2;2;1;1]]); auto; try lra; try discriminate.
  - intros n Hn. assert (n = "u"%string) as -> by (cbn in Hn; intuition). left. exists r. split; [apply He; reflexivity|].
    eapply Response_curve. apply Hb.
  - rewrite W. apply sorted_wide.
  - rewrite W. cbn. lia.
  - rewrite W, F. reflexivity.
  - rewrite W. repeat constructor.
Qed.

Lemma r_positive r d s s' K : band lin bq0 sun0 sun0 [1;2;3;4] [0;1;1;0] r [1;2;3;4] [0;1;1;0] -> dget d "u"%string = Some r ->
  same_rest r_sed1 s -> (exists d0, Kcorrect lin bq0 sun0 sun0 r_files d0 Plain false ["u"; "u"]%string s r_tmpl None None 0 1 2 = (d, s', Ok K)) ->
  exists x, 0 < x /\ model_flux lin d (s_rwave r_sed1) 6 [[1;1;2;2;1;1]] (redshift_grid 0 1 2) "u" [1] 0 x.
Proof.
  intros Hb Hd (W & F & _) [d0 HK]. set (rows := [[1;1;2;2;1;1]]).
  destruct (built_flux _ _ _ _ _ _ _ _ _ _ _ _ _ _ _ _ _ _ _ 6%nat rows HK) with (n := "u"%string) (c := [1]) (z := 0) as [x Hx];
    try lra; try discriminate; [rewrite F; reflexivity|repeat constructor|lia|cbn; auto|reflexivity|].
  rewrite W in Hx. exists x. split; auto. pose proof Hx as Hx'. destruct Hx as (i & z0 & z1 & l0 & l1 & u & G0 & G1 & Hu & Hz & P0 & P1 & _).
  assert (Hi : i = 0%nat /\ z0 = 0).
  {
    revert G0 G1. unfold redshift_grid, nnat. cbn [seq map]. destruct i as [|[|i]]; cbn [nth_error]; try discriminate.
    intros E0 _. split; auto. injection E0 as <-. rcbn. unfold Q2R. cbn. field. }
  destruct Hi as [-> ->].
  rewrite (L_C72_at_grid_redshifts lin d _ 6 rows 0 1 2 "u" [1] 0%nat 0 x l0 ltac:(lra) (le_n 2) Hx' G0 P0).
  destruct (photometry_each lin d (s_rwave r_sed1) rows "u" 0 l0 r P0) as [L T]; auto; try lra; [repeat constructor|apply sorted_wide|cbn; lia|].
  destruct (T 0%nat _ eq_refl) as (sp & Hsp & Ep). destruct wide_overlaps as [Ho Hbr].
  assert (Ew : seen_wave 0 (s_rwave r_sed1) = [1/2;1;2;3;4;5]) by (unfold seen_wave; rewrite <- (map_id [1/2;1;2;3;4;5]); apply map_ext; intro; lra).
  assert (Ef : map (fun f => f / (1 + 0)) [1;1;2;2;1;1] = [1;1;2;2;1;1]) by (rewrite <- (map_id [1;1;2;2;1;1]) at 2; apply map_ext; intro; field).
  rewrite Ew, Ef in Hsp.
  destruct (bounded_flux lin bq0 sun0 sun0 _ _ r _ _ [1/2;1;2;3;4;5] [1;1;2;2;1;1] sp (/ (4 * ab_flux 1)) (50 / ab_flux 1) Hb) as (m & Em & Hm & _); auto.
  - split; [apply sorted_wide|]. split; auto. repeat constructor; lra.
  - intros t _. apply trapezium_nonneg.
  - exists 2. split; [cbn; auto|]. rewrite spline_lin1234 by lra. rewrite (lin_at _ _ 2 1) by (cbn; auto using sorted1234; lia). cbn. lra.
  - assert (S : forall i, (i < 6)%nat -> spline lin [1/2;1;2;3;4;5] [1;1;2;2;1;1] (nth i [1/2;1;2;3;4;5] 0) = nth i [1;1;2;2;1;1] 0).
    { intros i Hi. unfold spline. cbn [last]. 
      destruct (Rlt_dec _ _) as [C|_]; [exfalso; do 6 (destruct i as [|i]; [cbn in C; lra|]); lia|].
      destruct (Rlt_dec _ _) as [C|_]; [exfalso; do 6 (destruct i as [|i]; [cbn in C; lra|]); lia|].
      apply lin_at; auto. apply sorted_wide. }
    assert (Q : forall t v, 0 < t -> 1 <= v * (4 * t ^ 2) -> v * t ^ 2 <= 50 -> / (4 * ab_flux 1) * ab_flux t <= v <= 50 / ab_flux 1 * ab_flux t).
    { intros t v Pt Q1 Q2. unfold ab_flux. set (k := 3631e-23 * 2.99792e18). assert (0 < k) by (unfold k; lra).
      assert (0 < t ^ 2) by (apply pow_lt; auto).
      replace (/ (4 * (k / 1 ^ 2)) * (k / t ^ 2)) with (/ (4 * t ^ 2)) by (field; lra).
      replace (50 / (k / 1 ^ 2) * (k / t ^ 2)) with (50 / t ^ 2) by (field; lra). split.
      - apply Rmult_le_reg_r with (4 * t ^ 2); [lra|]. rewrite Rinv_l by lra. lra.
      - apply Rmult_le_reg_r with (t ^ 2); [lra|]. unfold Rdiv. rewrite Rmult_assoc, Rinv_l by lra. lra. }
    intros t Ht. assert (Hi : exists i, (i < 6)%nat /\ t = nth i [1/2;1;2;3;4;5] 0).
    { cbn [In] in Ht.
      assert (Ht' : 1/2 = t \/ 1 = t \/ 2 = t \/ 3 = t \/ 4 = t \/ 5 = t) by tauto.
      destruct Ht' as [<-|[<-|[<-|[<-|[<-|<-]]]]];
        [exists 0%nat|exists 1%nat|exists 2%nat|exists 3%nat|exists 4%nat|exists 5%nat]; split; auto; lia. }
    destruct Hi as (i & Hi & ->). rewrite (S i Hi). apply Q; do 6 (destruct i as [|i]; [cbn; lra|]); lia.
  - rewrite Ep in Em. injection Em as Em. destruct l0 as [|v [|]]; try discriminate. cbn in Em |- *. subst v.
    assert (0 < ab_flux 1) by (unfold ab_flux; lra). assert (0 < / (4 * ab_flux 1)) by (apply Rinv_0_lt_compat; lra). unfold dot. cbn. lra.
Qed.

(** The concrete object: the band in the cache, the object constructed, the flux of the template, the bands telling the
    templates apart, and fits of any photometry. *)
Lemma r_told d x l : 0 < x -> model_flux lin d (s_rwave r_sed1) 6 [[1;1;2;2;1;1]] (redshift_grid 0 1 2) "u" [1] 0 x ->
  (exists b, In b l /\ o_name b = "u"%string /\ 0 < o_ivar b) ->
  told_apart (model_flux lin d (s_rwave r_sed1) 6 [[1;1;2;2;1;1]] (redshift_grid 0 1 2)) (length [[1;1;2;2;1;1]]) 0 l.
Proof.
  intros Hx Fx (b & Hb & Hn & Hp) y Ly Hy. destruct y as [|y0 [|]]; try discriminate. specialize (Hy b Hb Hp). rewrite Hn in Hy.
  apply (flux_scale _ _ _ _ _ _ _ _ _ y0) in Fx. cbn [map] in Fx. rewrite Rmult_1_r in Fx.
  pose proof (L_C72_flux_determined _ _ _ _ _ _ _ _ _ _ _ _ _ Rlt_0_1 (le_n 2) Fx Hy) as E. cbn. f_equal.
  symmetry in E. apply Rmult_integral in E. lra.
Qed.
Lemma r_fits r d s d' s' K l : band lin bq0 sun0 sun0 [1;2;3;4] [0;1;1;0] r [1;2;3;4] [0;1;1;0] -> same_rest r_sed1 s ->
  Kcorrect lin bq0 sun0 sun0 r_files d Plain false ["u"; "u"]%string s r_tmpl None None 0 1 2 = (d', s', Ok K) ->
  length l = 2%nat -> exists c, length c = 1%nat /\ fit_object nnls_exact (fun _ => 0) (k_fit K) 0 (observed 0 l) 0 = Ok (Bare (vec c), 0%nat).
Proof.
  intros Hb (W & F & _) H Hl.
  destruct (built_tables _ _ _ _ _ _ _ _ _ _ _ _ _ _ _ _ _ _ _ 6%nat [[1;1;2;2;1;1]] H) as (A & Ao & HK & X1 & _);
    try lra; try discriminate; [rewrite F; reflexivity|repeat constructor|lia|].
  destruct HK as (HR & _). destruct (L_C36_grid 0 1 2 (le_n 2) ltac:(lra)) as (_ & HG & G0 & G1 & _).
  pose proof (L_C40_mapping R Num_R _ _ _ _ _ _ _ _ _ _ _ _ _ _ _ _ _ _ _ H) as (_ & _ & _ & _ & _ & _ & Ha & _).
  assert (Hr : in_range (a_x A) 0) by (unfold in_range; rewrite X1, G0, G1; lra).
  destruct (fit_eq nnls_exact (fun _ => 0) (k_fit K) A 2 1 (observed 0 l) 0%nat) as (HW & LW & Lb & EF); auto.
  - left; auto.
  - split; cbn [observed o_m o_iv]; rewrite map_length; auto.
  - rewrite EF. destruct (nnls_exact None 1 _ _) as [x|] eqn:E; [|discriminate]. exists x. split; auto. eapply nnls_exact_shape; eauto.
Qed.
Lemma r_object : exists r d s K x,
  band lin bq0 sun0 sun0 [1;2;3;4] [0;1;1;0] r [1;2;3;4] [0;1;1;0] /\
  Kcorrect lin bq0 sun0 sun0 r_files (r_cache r) Plain false ["u"; "u"]%string r_sed1 r_tmpl None None 0 1 2 = (d, s, Ok K) /\
  extends (r_cache r) d /\ same_rest r_sed1 s /\ 0 < x /\
  model_flux lin d (s_rwave r_sed1) 6 [[1;1;2;2;1;1]] (redshift_grid 0 1 2) "u" [1] 0 x.
Proof.
  destruct trapezium_band as [r Hr].
  destruct (r_pair r r_sed1 (r_cache r) Hr) as (d & s & K & H); [intros n v Hn; exact Hn|apply same_rest_refl|].
  destruct (built_after _ _ _ _ _ _ _ _ _ _ _ _ _ _ _ _ _ _ _ H) as [He Hs].
  destruct (r_positive r d r_sed1 s K Hr (He "u"%string r eq_refl) (same_rest_refl _) (ex_intro _ _ H)) as (x & Hx & Fx).
  exists r, d, s, K, x. repeat split; auto; try apply Hr; try apply Hs.
Qed.
