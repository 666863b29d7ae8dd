(** Properties of the k_plot_test_v4 programs (C98, C99): the proofs.  Prop_ScriptsV4.v restates them. *)
From Coq Require Import String List Arith Lia Bool ZArith QArith Qreals Reals Lra Sorting.Sorted Sorting.Permutation.
From Verif Require Import Base BaseLemmas Num Toy Interp InterpReal Spec Utils UtilsReal Sed Response RespDict ResponseObj ResponseProofs LinInterp ResponseThms ResponseEx
  Fitter FitSpec FitterProofs FitReal FitTable FitEx FitRealEx FitRealThms Kcorrect KSpec KTable AbsmagProofs AbsmagThms
  AbThms UtilsThms RespDictThms PersistThms BuildSpec BuildProofs BuildTable BuildEx BuildThms NnlsSpec NnlsExact NnlsThms
  Spline SplineSpec SplineProofs SplineThms ShiftSpec ShiftThms PipeSpec PipeProofs PipeEx BlendSpec BlendProofs BlendEx PlotThms Scripts ScriptsV4 ScriptsV4Proofs ScriptsV4Ex.
Import ListNotations.
Local Open Scope R_scope.

Lemma mapM_total {A B} (f : A -> res B) l : (forall x, In x l -> exists y, f x = Ok y) -> exists ys, mapM f l = Ok ys.
Proof.
  induction l as [|x l IH]; intro H; [eexists; reflexivity|]. destruct (H x (or_introl eq_refl)) as [y Ey].
  destruct IH as [ys E]; [intros; apply H; cbn; auto|]. cbn [mapM]. rewrite Ey, E. cbn [bind]. eauto.
Qed.
Lemma ok_inj {A} (a b : A) : Ok a = Ok b -> a = b.
Proof. congruence. Qed.
(** Scaling coefficients scales fluxes. *)
Lemma scaled_flux t cub d wave w rows grid n c z x : model_flux cub d wave w rows grid n c z x ->
  model_flux cub d wave w rows grid n (map (Rmult t) c) z (t * x).
Proof.
  intros (i & z0 & z1 & l0 & l1 & u & G0 & G1 & Hu & Hz & P0 & P1 & ->). exists i, z0, z1, l0, l1, u.
  assert (D : forall l : list R, dot l (map (Rmult t) c) = t * dot l c).
  { intro l. revert c. induction l as [|a l IH]; intros [|b c]; unfold dot in *; cbn [map zip fold_right]; try lra. rewrite IH. ring. }
  rewrite !D. repeat (split; [auto|]). ring.
Qed.

(* STATEMENTS *)

(** Its redshifts are the midpoints of nz equal steps between 0 and 0.55, in increasing order. *)
Lemma L_C98_redshifts :
  forall nz i, (i < nz)%nat ->
    (color_z nz i : R) = 0.55 * (INR i + 1 / 2) / INR nz /\ 0 < color_z nz i < 0.55 /\
    ((S i < nz)%nat -> color_z nz (S i) - color_z nz i = 0.55 / INR nz) /\
    length (color_zs (T := R) nz) = nz.
Proof.
  intros nz i Hi. assert (Hn : 0 < INR nz) by (apply lt_0_INR; lia). rewrite !color_z_real by lia.
  assert (H1 : INR i + 1 <= INR nz) by (rewrite <- S_INR; apply le_INR; lia). pose proof (pos_INR i).
  split; [lra|]. split; [split|].
  - apply Rmult_lt_0_compat; [lra|]. apply Rinv_0_lt_compat. auto.
  - apply Rmult_lt_reg_r with (INR nz); auto. unfold Rdiv at 1. rewrite Rmult_assoc, Rinv_l by lra. lra.
  - split; [|unfold color_zs; rewrite map_length, seq_length; auto]. intros Hs. rewrite S_INR. replace (0.55 : R) with (55 / 100) by lra. field. lra.
Qed.
Lemma E_C98_redshifts : (0 < 2)%nat /\ (color_z 2 0 : R) = 0.1375 /\ (color_z 2 1 : R) = 0.4125.
Proof. split; [lia|]. rewrite !color_z_real by lia. cbn [INR]. lra. Qed.

(** It completes for any SED object with one spectrum, interpolated, on at least four distinct wavelengths, if the responses can be had. *)
Lemma L_C98_runs :
  forall cub bq sun vega fs d (s : sed R) nz f,
    (forall n, In n sdss_responses -> obtainable cub bq sun vega fs d n) ->
    StronglySorted Rlt (s_rwave s) -> (4 <= length (s_rwave s))%nat -> s_flag s = true ->
    s_rflux s = table (length (s_rwave s)) [f] -> length f = length (s_rwave s) ->
    exists d' s' cols, lrg1_colors cub bq sun vega fs d s nz = (d', s', Ok cols).
Proof.
  intros cub bq sun vega fs d s nz f Hd Hs H4 Hf Hfl Lf. unfold lrg1_colors.
  destruct (load_all_obtainable cub bq sun vega fs sdss_responses d Hd) as (d' & EL & Hc & _). rewrite EL.
  assert (Hr : rect (length (s_rwave s)) [f]) by (repeat constructor; auto).
  assert (Hz : forall z, In z (color_zs (T := R) nz) -> sampled_at (s_rwave s) (s_rflux s) z).
  { intros z Hz. unfold color_zs in Hz. apply in_map_iff in Hz as (i & <- & Hi). apply in_seq in Hi. rewrite Hfl. apply real_sampled; auto.
    pose proof (L_C98_redshifts nz i ltac:(lia)) as (_ & Hz & _). lra. }
  destruct (color_loop_ok cub d' sdss_responses (length (s_rwave s)) f Hc Hr (color_zs nz) s Hf Hfl Hz) as (s' & tab & E).
  rewrite E. cbn [bind].
  assert (Hn : s_nsed s = 1%nat) by (unfold s_nsed; rewrite Hfl; reflexivity).
  destruct (color_loop_spec _ _ _ _ _ _ _ Hn Hf E) as (L & HS & Hk).
  assert (LZ : length (color_zs (T := R) nz) = nz) by (unfold color_zs; rewrite map_length, seq_length; auto).
  assert (HRect : rect 5 tab).
  { apply Forall_forall. intros row Hin. apply In_nth_error in Hin as [i Hi].
    assert (Hlt : (i < length tab)%nat) by (apply nth_error_Some; congruence).
    destruct (nth_error (color_zs (T := R) nz) i) as [z|] eqn:Ez; [|apply nth_error_None in Ez; lia].
    destruct (Hk i z Ez) as (sk & row' & Hz' & HR & Ht). rewrite Hi in Ht. injection Ht as <-.
    assert (Hns : s_nsed sk = 1%nat /\ s_flag sk = true) by (destruct Hz' as (_ & E2 & E3 & _); unfold s_nsed in *; split; congruence).
    destruct (color_row_spec cub d' sdss_responses sk row (proj1 Hns) (proj2 Hns) HR) as [Lr _]. exact Lr. }
  pose proof (colours_eq tab HRect) as EQ. unfold table in EQ. rewrite L, LZ in EQ.
  do 3 eexists. f_equal. exact EQ.
Qed.
Lemma E_C98_runs : exists r, (forall n, In n sdss_responses -> obtainable notaknot (bisect (1/1000)) sun0 sun0 (fun _ => None) (v_cache r) n) /\
  StronglySorted Rlt (s_rwave (v_sed [repeat 1 6])) /\ (4 <= length (s_rwave (v_sed [repeat 1%R 6])))%nat /\ s_flag (v_sed [repeat 1 6]) = true.
Proof.
  destruct v_band as [r HB]. exists r. split; [intros n Hn; apply v_obtainable; auto using v_five|]. split; [apply sorted_wide|]. split; [cbn; lia|reflexivity].
Qed.
Lemma v_colours r nz k : band notaknot (bisect (1/1000)) sun0 sun0 [1;2;3;4] [0;1;1;0] r [1;2;3;4] [0;1;1;0] ->
  exists d' s' cols, lrg1_colors notaknot (bisect (1/1000)) sun0 sun0 (fun _ => None) (v_cache r) (v_sed [repeat k 6]) nz = (d', s', Ok cols) /\ extends (v_cache r) d'.
Proof.
  intro HB. destruct (L_C98_runs notaknot (bisect (1/1000)) sun0 sun0 (fun _ => None) (v_cache r) (v_sed [repeat k 6]) nz (repeat k 6)) as (d' & s' & cols & E).
  - intros n Hn. apply v_obtainable; auto using v_five.
  - apply sorted_wide.
  - cbn. lia.
  - reflexivity.
  - reflexivity.
  - reflexivity.
  - exists d', s', cols. split; auto.
    apply (colors_explicit _ _ _ _ _ _ _ _ _ _ _ 6 (repeat k 6) E); [reflexivity|reflexivity|repeat constructor].
Qed.

(** What k_plot_test_v4_lrg1_colors plots: at redshift i of its grid, the colour of adjacent SDSS bands is -2.5 log10 of the ratio of the
    photometry of the spectrum seen at that redshift.  The SED object keeps its rest-frame spectrum and cached responses stay. *)
Lemma L_C98_colours :
  forall cub bq sun vega fs d (s : sed R) nz d' s' cols w f,
    lrg1_colors cub bq sun vega fs d s nz = (d', s', Ok cols) -> s_flag s = true -> s_rflux s = table w [f] -> rect w [f] ->
    extends d d' /\ same_rest s s' /\ length cols = 4%nat /\
    forall j n1 n2 i z, (j < 4)%nat -> nth_error sdss_responses j = Some n1 -> nth_error sdss_responses (S j) = Some n2 ->
      (i < nz)%nat -> z = color_z nz i ->
      exists m1 m2 c, photometry cub d' (s_rwave s) w [f] n1 z [m1] /\ photometry cub d' (s_rwave s) w [f] n2 z [m2] /\
        nth_error cols j = Some (vec c) /\ length c = nz /\ nth_error c i = Some (-2.5 * log10 (m1 / m2)).
Proof.
  intros cub bq sun vega fs d s nz d' s' cols w f H Hf Hfl Hr.
  destruct (colors_explicit _ _ _ _ _ _ _ _ _ _ _ _ _ H Hf Hfl Hr) as (HE & HS & rows & -> & LR & HP).
  split; auto. split; auto. split; [reflexivity|]. intros j n1 n2 i z Hj H1 H2 Hi ->.
  assert (Ez : nth_error (color_zs (T := R) nz) i = Some (color_z nz i)) by (unfold color_zs; rewrite nth_error_map, nth_error_seq; destruct (Nat.ltb_spec i nz); [reflexivity|lia]).
  destruct (HP i _ j n1 Ez H1) as (row & m1 & R1 & L1 & M1 & P1), (HP i _ (S j) n2 Ez H2) as (row' & m2 & R2 & _ & M2 & P2).
  rewrite R1 in R2. injection R2 as <-. exists m1, m2. eexists. split; auto. split; auto.
  unfold colours_of. rewrite nth_error_map, nth_error_seq. destruct (Nat.ltb_spec j 4); [|lia]. cbn [option_map Nat.add].
  split; [reflexivity|]. split; [rewrite map_length; auto|]. rewrite nth_error_map, R1. cbn [option_map]. f_equal.
  rewrite (nth_error_nth _ _ 0 M1), (nth_error_nth _ _ 0 M2). lra.
Qed.
Lemma E_C98_colours : exists r d' s' cols,
  lrg1_colors notaknot (bisect (1/1000)) sun0 sun0 (fun _ => None) (v_cache r) (v_sed [repeat 1 6]) 3 = (d', s', Ok cols) /\
  s_flag (v_sed [repeat 1 6]) = true /\ s_rflux (v_sed [repeat 1 6]) = table 6 [repeat 1 6] /\ rect 6 [repeat 1 6].
Proof.
  destruct v_band as [r HB]. exists r. destruct (v_colours r 3 1 HB) as (d' & s' & cols & E & _). exists d', s', cols. split; auto.
  split; [reflexivity|]. split; [reflexivity|]. repeat constructor.
Qed.

(** The colours do not depend on the normalisation of the spectrum. *)
Lemma L_C98_normalisation :
  forall cub bq sun vega fs d (s1 s2 : sed R) nz d1 d2 s1' s2' cols1 cols2 f k, splines cub -> k <> 0 ->
    StronglySorted Rlt (s_rwave s1) -> (4 <= length (s_rwave s1))%nat -> s_flag s1 = true -> s_flag s2 = true -> s_rwave s2 = s_rwave s1 ->
    s_rflux s1 = table (length (s_rwave s1)) [f] -> s_rflux s2 = table (length (s_rwave s1)) [map (Rmult k) f] -> length f = length (s_rwave s1) ->
    lrg1_colors cub bq sun vega fs d s1 nz = (d1, s1', Ok cols1) -> lrg1_colors cub bq sun vega fs d s2 nz = (d2, s2', Ok cols2) ->
    (forall n i m, In n sdss_responses -> (i < nz)%nat -> photometry cub d1 (s_rwave s1) (length (s_rwave s1)) [f] n (color_z nz i) [m] -> m <> 0) ->
    cols2 = cols1.
Proof.
  intros cub bq sun vega fs d s1 s2 nz d1 d2 s1' s2' cols1 cols2 f k Hc Hk Hs H4 F1 F2 HW E1 E2 Lf R1 R2 Hnz.
  set (w := length (s_rwave s1)) in *.
  assert (Hd : d2 = d1).
  { unfold lrg1_colors in R1, R2. destruct (load_all cub bq sun vega fs sdss_responses d) as [d0 [e|]]; [discriminate|].
    destruct (color_loop cub d0 sdss_responses (color_zs nz) s1), (color_loop cub d0 sdss_responses (color_zs nz) s2). congruence. }
  subst d2.
  assert (Rf : rect w [f]) by (repeat constructor; auto).
  assert (Rk : rect w [map (Rmult k) f]) by (repeat constructor; rewrite map_length; auto).
  destruct (colors_explicit _ _ _ _ _ _ _ _ _ _ _ _ _ R1 F1 E1 Rf) as (_ & _ & rows1 & -> & L1 & P1).
  destruct (colors_explicit _ _ _ _ _ _ _ _ _ _ _ _ _ R2 F2 E2 Rk) as (_ & _ & rows2 & -> & L2 & P2).
  rewrite HW in P2. unfold colours_of. apply map_ext_in. intros j Hj. apply in_seq in Hj. f_equal.
  apply nth_ext with (d := 0) (d' := 0); rewrite !map_length; [congruence|]. intros i Hi. rewrite L2 in Hi.
  assert (Ez : nth_error (color_zs (T := R) nz) i = Some (color_z nz i)) by (unfold color_zs; rewrite nth_error_map, nth_error_seq; destruct (Nat.ltb_spec i nz); [reflexivity|lia]).
  pose proof (L_C98_redshifts nz i Hi) as (_ & Hz & _).
  assert (Hz1 : -1 < color_z nz i) by lra.
  assert (M : forall jj, (jj < 5)%nat -> exists m, m <> 0 /\ nth jj (nth i rows1 []) 0 = m /\ nth jj (nth i rows2 []) 0 = k * m).
  { intros jj Hjj. destruct (nth_error sdss_responses jj) as [n|] eqn:En; [|apply nth_error_None in En; cbn in En; lia].
    destruct (P1 i _ jj n Ez En) as (row1 & m1 & A1 & _ & B1 & Q1), (P2 i _ jj n Ez En) as (row2 & m2 & A2 & _ & B2 & Q2).
    exists m1. split; [eapply Hnz; eauto; eapply nth_error_In; eauto|].
    rewrite (nth_error_nth _ _ [] A1), (nth_error_nth _ _ [] A2), (nth_error_nth _ _ 0 B1), (nth_error_nth _ _ 0 B2). split; auto.
    destruct (photometry_linear cub d1 (s_rwave s1) n (color_z nz i) [f] [m1] Hc Hs H4 Hz1 Rf Q1) as (phi & Lin & El & HA).
    pose proof (photometry_unique _ _ _ _ _ _ _ _ _ (HA _ Rk) Q2) as U. cbn [map] in U, El. injection U as ->. injection El as ->.
    assert (X : map (Rmult k) f = lincomb k 0 f f) by (unfold lincomb; rewrite zip_same; apply map_ext; intro; lra).
    rewrite X, (Lin k 0 f f Lf Lf). lra. }
  destruct (M j ltac:(lia)) as (x & Hx & X1 & X2), (M (S j) ltac:(lia)) as (y & Hy & Y1 & Y2).
  assert (G : forall rows, (i < length rows)%nat -> nth i (map (fun r => -5/2 * log10 (nth j r 0 / nth (S j) r 0)) rows) 0 =
     -5/2 * log10 (nth j (nth i rows []) 0 / nth (S j) (nth i rows []) 0)).
  { intros rows Hl. rewrite (nth_indep _ 0 ((fun r => -5/2 * log10 (nth j r 0 / nth (S j) r 0)) [])) by (rewrite map_length; auto).
    rewrite (map_nth (fun r => -5/2 * log10 (nth j r 0 / nth (S j) r 0))). reflexivity. }
  rewrite !G, X1, X2, Y1, Y2 by lia. f_equal. f_equal. field. auto.
Qed.
Lemma E_C98_normalisation : exists r d1 d2 s1 s2 cols1 cols2, splines notaknot /\
  lrg1_colors notaknot (bisect (1/1000)) sun0 sun0 (fun _ => None) (v_cache r) (v_sed [repeat 1 6]) 3 = (d1, s1, Ok cols1) /\
  lrg1_colors notaknot (bisect (1/1000)) sun0 sun0 (fun _ => None) (v_cache r) (v_sed [map (Rmult 2) (repeat 1 6)]) 3 = (d2, s2, Ok cols2) /\
  forall n i m, In n sdss_responses -> (i < 3)%nat -> photometry notaknot d1 b_wave 6 [repeat 1 6] n (color_z 3 i) [m] -> m <> 0.
Proof.
  destruct v_band as [r HB]. exists r. destruct (v_colours r 3 1 HB) as (d1 & s1 & cols1 & E1 & X1), (v_colours r 3 (2 * 1) HB) as (d2 & s2 & cols2 & E2 & X2).
  exists d1, d2, s1, s2, cols1, cols2. split; [exact L_C78_exists|]. split; auto. split; [exact E2|].
  intros n i m Hn Hi HP. destruct v_positive as [V1 V2]. pose proof (L_C98_redshifts 3 i Hi) as (_ & Hz & _).
  destruct (v_seen (color_z 3 i)) as [O1 O2]; [lra|]. assert (A1 : 0 < ab_flux 1) by (unfold ab_flux; lra).
  destruct (photometry_between notaknot (bisect (1/1000)) sun0 sun0 d1 b_wave (repeat 1 6) n (color_z 3 i) [1;2;3;4] [0;1;1;0] r [1;2;3;4] [0;1;1;0]
    (1 / (4 * ab_flux 1)) (25 * 1 / ab_flux 1) [m]) as (m' & Em & HM); auto.
  - exact L_C78_exists.
  - apply X1. apply v_cached. apply v_five. auto.
  - apply sorted_wide.
  - cbn. lia.
  - repeat constructor; lra.
  - lra.
  - intros t Ht. cbn in Ht. rewrite v_constant by lra. apply v_ab; lra.
  - injection Em as <-. assert (0 < 1 / (4 * ab_flux 1)) by (apply Rdiv_lt_0_compat; lra). nra.
Qed.

(** Bounds on the colours: if the spectrum lies between a and b times that of an AB source, no colour exceeds 2.5 log10 (b/a); an AB source
    has colours 0 at every redshift. *)
Lemma L_C98_limits :
  forall cub bq sun vega fs d (s : sed R) nz d' s' cols f a b, splines cub ->
    StronglySorted Rlt (s_rwave s) -> (4 <= length (s_rwave s))%nat -> Forall (fun t => 0 < t) (s_rwave s) -> s_flag s = true ->
    s_rflux s = table (length (s_rwave s)) [f] -> length f = length (s_rwave s) ->
    lrg1_colors cub bq sun vega fs d s nz = (d', s', Ok cols) ->
    (forall n, In n sdss_responses -> exists r x y w yy, dget d' n = Some r /\ band cub bq sun vega x y r w yy /\
       (forall t, nth 0 w 0 <= t <= last w 0 -> 0 <= spline cub w yy t) /\ (exists t, In t w /\ 0 < spline cub w yy t) /\
       forall z, 0 < z < 0.55 -> overlaps w (seen_wave z (s_rwave s)) /\ brackets w (seen_wave z (s_rwave s))) ->
    0 < a ->
    (forall t, nth 0 (s_rwave s) 0 <= t <= last (s_rwave s) 0 -> a * ab_flux t <= spline cub (s_rwave s) f t <= b * ab_flux t) ->
    forall j c i x, nth_error cols j = Some (vec c) -> nth_error c i = Some x -> Rabs x <= 2.5 * log10 (b / a).
Proof.
  intros cub bq sun vega fs d s nz d' s' cols f a b Hc Hs H4 Hp Hf Hfl Lf H HB Ha Hab j c i x Hj Hi.
  assert (Hr : rect (length (s_rwave s)) [f]) by (repeat constructor; auto).
  destruct (L_C98_colours _ _ _ _ _ _ _ _ _ _ _ _ _ H Hf Hfl Hr) as (_ & _ & L4 & HC).
  assert (Hj4 : (j < 4)%nat) by (rewrite <- L4; apply nth_error_Some; congruence).
  destruct (nth_error sdss_responses j) as [n1|] eqn:N1; [|apply nth_error_None in N1; cbn in N1; lia].
  destruct (nth_error sdss_responses (S j)) as [n2|] eqn:N2; [|apply nth_error_None in N2; cbn in N2; lia].
  assert (Hinz : (i < nz)%nat).
  { destruct nz as [|nz']; [|].
    - destruct (colors_explicit _ _ _ _ _ _ _ _ _ _ _ _ _ H Hf Hfl Hr) as (_ & _ & rows & -> & LR & _).
      unfold colours_of in Hj. rewrite nth_error_map, nth_error_seq in Hj. destruct (Nat.ltb_spec j 4); [|lia]. cbn [option_map Nat.add] in Hj.
      injection Hj as _ Hj. subst c. destruct rows; [|discriminate]. cbn in Hi. destruct i; discriminate.
    - destruct (HC j n1 n2 0%nat _ Hj4 N1 N2 ltac:(lia) eq_refl) as (? & ? & c0 & _ & _ & Ec & Lc & _). rewrite Hj in Ec. injection Ec as _ ->.
      rewrite <- Lc. apply nth_error_Some. congruence. }
  destruct (HC j n1 n2 i _ Hj4 N1 N2 Hinz eq_refl) as (m1 & m2 & c0 & P1 & P2 & Ec & Lc & Ex). rewrite Hj in Ec. injection Ec as _ ->.
  rewrite Hi in Ex. injection Ex as ->.
  pose proof (L_C98_redshifts nz i Hinz) as (_ & Hz & _). set (z := color_z nz i) in *.
  assert (Q : forall n m, In n sdss_responses -> photometry cub d' (s_rwave s) (length (s_rwave s)) [f] n z [m] -> a * (1 + z) <= m <= b * (1 + z)).
  { intros n m Hn P. destruct (HB n Hn) as (r & xx & y & w & yy & Hd & Hband & Hpos & Hex & Ho). destruct (Ho z Hz) as [O1 O2].
    destruct (photometry_between cub bq sun vega d' (s_rwave s) f n z xx y r w yy a b [m] Hc Hd Hband Hs H4 Hp Lf ltac:(lra) O1 O2 Hpos Hex Hab P)
      as (m' & E & HM). injection E as <-. exact HM. }
  pose proof (Q n1 m1 (nth_error_In _ _ N1) P1) as M1. pose proof (Q n2 m2 (nth_error_In _ _ N2) P2) as M2.
  assert (0 < a * (1 + z)) by nra. assert (0 < b) by nra.
  rewrite Num.log10_div by lra. rewrite (Num.log10_div b a) by lra.
  assert (LE : forall m, a * (1 + z) <= m <= b * (1 + z) -> log10 a + log10 (1 + z) <= log10 m <= log10 b + log10 (1 + z)).
  { intros m Hm. rewrite <- !Num.log10_mult by lra. split; apply log10_le; lra. }
  pose proof (LE m1 M1). pose proof (LE m2 M2). apply Rabs_le. lra.
Qed.
Lemma E_C98_limits : exists r d' s' cols a b, splines notaknot /\
  lrg1_colors notaknot (bisect (1/1000)) sun0 sun0 (fun _ => None) (v_cache r) (v_sed [repeat 1 6]) 3 = (d', s', Ok cols) /\
  (forall n, In n sdss_responses -> exists r x y w yy, dget d' n = Some r /\ band notaknot (bisect (1/1000)) sun0 sun0 x y r w yy /\
     (forall t, nth 0 w 0 <= t <= last w 0 -> 0 <= spline notaknot w yy t) /\ (exists t, In t w /\ 0 < spline notaknot w yy t) /\
     forall z, 0 < z < 0.55 -> overlaps w (seen_wave z b_wave) /\ brackets w (seen_wave z b_wave)) /\ 0 < a /\
  (forall t, nth 0 b_wave 0 <= t <= last b_wave 0 -> a * ab_flux t <= spline notaknot b_wave (repeat 1 6) t <= b * ab_flux t).
Proof.
  destruct v_band as [r HB]. destruct (v_colours r 3 1 HB) as (d' & s' & cols & E & X). destruct v_positive as [V1 V2].
  assert (A1 : 0 < ab_flux 1) by (unfold ab_flux; lra).
  exists r, d', s', cols, (1 / (4 * ab_flux 1)), (25 * 1 / ab_flux 1). split; [exact L_C78_exists|]. split; auto. split; [|split].
  - intros n Hn. exists r, [1;2;3;4], [0;1;1;0], [1;2;3;4], [0;1;1;0]. split; [apply X, v_cached, v_five; auto|]. split; auto. split; auto. split; auto.
    intros z Hz. apply v_seen. lra.
  - apply Rdiv_lt_0_compat; lra.
  - intros t Ht. cbn in Ht. rewrite v_constant by lra. apply v_ab; lra.
Qed.

(** An SED file with several spectra is not handled: if the first band overlaps the spectra, storing the photometry fails. *)
Lemma L_C98_several :
  forall cub bq sun vega fs d (s : sed R) nz d' w rows, (0 < nz)%nat ->
    load_all cub bq sun vega fs sdss_responses d = (d', None) ->
    s_flag s = true -> s_rflux s = table w rows -> (1 < length rows)%nat ->
    sampled_at (s_rwave s) (s_rflux s) (color_z nz 0) ->
    (exists r pw ri, dget d' "sdss_u0"%string = Some r /\ p_wave r = Some pw /\ p_interp r = Some ri /\ overlaps pw (seen_wave (color_z nz 0) (s_rwave s))) ->
    exists s', lrg1_colors cub bq sun vega fs d s nz = (d', s', Raise ValueError).
Proof.
  intros cub bq sun vega fs d s nz d' w rows Hnz HL Hf Hfl H1 Hs (r & pw & ri & Hd & Hw & Hi & Ho).
  unfold lrg1_colors. rewrite HL. destruct nz as [|nz]; [lia|]. unfold color_zs. cbn [seq map color_loop].
  set (z := color_z (S nz) 0) in *. destruct (set_redshift s z) as [s1 [e|]] eqn:ES.
  - exfalso. unfold set_redshift in ES. rewrite Hf in ES. unfold set_interp in ES. cbn [s_wave s_flux] in ES.
    destruct Hs as [it' Hs]. rewrite Hs in ES. discriminate.
  - apply set_redshift_at_z in ES as (Z1 & Z2 & Z3 & _ & _ & Z6 & Z7 & Z8). destruct (Z8 Hf) as (it' & E' & Ei).
    assert (E : color_row cub d' sdss_responses s1 = Raise ValueError).
    { unfold color_row, sdss_responses. cbn [mapM]. rewrite Hd. unfold project_sed. rewrite Hw, Hi.
      assert (Hn : s_nsed s1 = length rows) by (unfold s_nsed; rewrite Z2, Hfl; reflexivity). rewrite Hn, Z6, Ei.
      change (map (fun w0 => nmul w0 (nadd n1 z)) (s_rwave s)) with (seen_wave z (s_rwave s)).
      unfold project_core. destruct (where_ (Response.in_band pw (seen_wave z (s_rwave s)))) as [|a l] eqn:EW; [exfalso|].
      - destruct Ho as (t & Ht & Hb). apply In_nth_error in Ht as (i & Hlt).
        assert (Hin : In i (where_ (Response.in_band pw (seen_wave z (s_rwave s))))) by (apply where_in, in_band_nth; exists t; auto).
        rewrite EW in Hin. auto.
      - destruct (Nat.eqb_spec (length rows) 1); [lia|]. cbn [bind].
        unfold bto. cbn [shp length Nat.sub strip1]. destruct (length rows) as [|[|m]]; [lia|lia|]. reflexivity. }
    rewrite E. eexists. reflexivity.
Qed.
Lemma E_C98_several : exists r d', let s := v_sed [repeat 1 6; repeat 2 6] in
  load_all notaknot (bisect (1/1000)) sun0 sun0 (fun _ => None) sdss_responses (v_cache r) = (d', None) /\ s_flag s = true /\ s_rflux s = table 6 [repeat 1 6; repeat 2 6] /\
  sampled_at (s_rwave s) (s_rflux s) (color_z 3 0) /\
  exists r pw ri, dget d' "sdss_u0"%string = Some r /\ p_wave r = Some pw /\ p_interp r = Some ri /\ overlaps pw (seen_wave (color_z 3 0) (s_rwave s)).
Proof.
  destruct v_band as [r HB]. exists r, (v_cache r). cbv zeta. pose proof (L_C98_redshifts 3 0 ltac:(lia)) as (_ & Hz & _). split; [|split; [|split; [|split]]].
  - apply load_all_cached. intros n Hn. exists r. apply v_cached, v_five. auto.
  - reflexivity.
  - reflexivity.
  - apply (real_sampled b_wave [repeat 1 6; repeat 2 6]); [apply sorted_wide|cbn; lia|lra].
  - pose proof HB as (_ & HR & HW & _). destruct (Response_curve _ _ _ _ _ _ _ HR) as (pw & ri & P1 & P2). exists r, [1;2;3;4], ri. rewrite HW in P1.
    split; [reflexivity|]. split; auto. split; auto. apply v_seen. lra.
Qed.

(** The programs complete if the responses can be had and the solver always returns coefficients. *)
Lemma L_C99_runs :
  forall cub bq sun vega nnls rng fs d (s : sed R) cur rows,
    (forall n, In n v4_names -> obtainable cub bq sun vega fs d n) ->
    StronglySorted Rlt (s_rwave s) -> (4 <= length (s_rwave s))%nat ->
    s_rflux s = table (length (s_rwave s)) rows -> rect (length (s_rwave s)) rows -> rows <> [] ->
    nnls_shape nnls -> (forall mi n A b, exists x, nnls mi n A b = Some x) ->
    exists d' P, v4_fit cub bq sun vega nnls rng fs d s cur = (d', Ok P).
Proof.
  intros cub bq sun vega nnls rng fs d s cur rows Hd Hs H4 Hf Hr Hne Hsh Hn. unfold v4_fit.
  assert (HG : grid_ok (redshift_grid 0 (1/10) 100)) by (apply grid_sorted; [lia|lra]).
  assert (ES : exists d' F, set_Amatrix cub bq sun vega fs d (Fitter Plain false v4_names s (nlit 0) (nlit (1 # 10)) 100) = (d', F, None)).
  { unfold set_Amatrix, Fitter. rewrite v4_grid. cbn [f_resp f_zs f_sed f_kind f_abc].
    destruct (calc_A_obtainable cub bq sun vega cstR fs v4_names (redshift_grid 0 (1/10) 100) d s (length (s_rwave s)) rows) as (d' & s' & A & E & _); auto.
    - apply grid_in_order; auto.
    - intro X. apply (f_equal (@length _)) in X. rewrite FitReal.grid_length in X. discriminate.
    - intros z Hz. rewrite Hf. apply real_sampled; auto. destruct Hz as [<-|Hz]; [rcbn; lra|].
      pose proof (grid_bounds 0 (1/10) 100 z Hz ltac:(lia) ltac:(lra)). lra.
    - rewrite E. eauto. }
  destruct ES as (d' & F & ES). rewrite ES. destruct (v4_built _ _ _ _ _ _ _ _ _ _ _ ES Hf Hr Hne) as (_ & Hab & HW & HF & A & HR & HX & HGA & HP).
  pose proof (v4_in_range A HX) as Hin. exists d'.
  assert (EL : exists leff, mapM (fun n => match dget d' n with Some r => Ok (cst (f32_or_nan (p_leff r))) | None => Raise KeyError end) v4_names = Ok leff).
  { apply mapM_total. intros n Hi. apply In_nth_error in Hi as [j Hj].
    assert (H0 : exists z, nth_error (a_x A) 0 = Some z).
    { rewrite HX. destruct (nth_error (redshift_grid 0 (1/10) 100) 0) eqn:E; eauto. apply nth_error_None in E. rewrite FitReal.grid_length in E. lia. }
    destruct H0 as [z Hz]. destruct (HP 0%nat z Hz j n Hj) as (l & (r & v & Hdr & _) & _). rewrite Hdr. eauto. }
  destruct EL as [leff EL]. rewrite EL. cbn [bind].
  assert (Oo : obj_ok 7 v4_obj) by (split; reflexivity).
  destruct (L_C28_retry nnls rng F A 7 (length rows) v4_obj cur Hab HR ltac:(lia) Oo Hin) as (M & RM & LM & HM & EF).
  change (fit_coeffs nnls rng F (Some (scal v4_z)) (Some (vec (repeat n1 7))) (Some (vec (repeat n1 7))) 0 cur) with (fit_object nnls rng F 0 v4_obj cur).
  cbv zeta in EF. destruct (Hn None (length rows) (zip (fun v r => map (Rmult (sqrt v)) r) (o_iv v4_obj) M) (zip (fun m v => m * sqrt v) (o_m v4_obj) (o_iv v4_obj))) as [x Ex].
  rewrite Ex in EF. rewrite EF. cbn [bind fst].
  pose proof (HM x (Hsh _ _ _ _ _ Ex)) as Em. change (o_z v4_obj) with (v4_z : R) in Em.
  change (n0 : R) with 0. rewrite Em. cbn [bind]. eauto.
Qed.
Lemma E_C99_runs : exists r, (forall n, In n v4_names -> obtainable notaknot (bisect (1/1000)) sun0 sun0 (fun _ => None) (v_cache r) n) /\
  StronglySorted Rlt (s_rwave (v_sed [repeat 1 6; [1;2;3;4;5;6]])) /\ nnls_shape nnls_exact /\ forall mi n A b, exists x, nnls_exact mi n A b = Some x.
Proof.
  destruct v_band as [r HB]. exists r. split; [intros n Hn; apply v_obtainable; auto|]. split; [apply sorted_wide|].
  split; [apply nnls_exact_shape|]. intros. eexists. reflexivity.
Qed.
Lemma v_fits r rows : band notaknot (bisect (1/1000)) sun0 sun0 [1;2;3;4] [0;1;1;0] r [1;2;3;4] [0;1;1;0] -> rect 6 rows -> rows <> [] ->
  exists d' P, v4_fit notaknot (bisect (1/1000)) sun0 sun0 nnls_exact (fun _ => 0) (fun _ => None) (v_cache r) (v_sed rows) 0 = (d', Ok P).
Proof.
  intros HB Hr Hne. apply L_C99_runs with (rows := rows); auto.
  - intros n Hn. apply v_obtainable; auto.
  - apply sorted_wide.
  - cbn. lia.
  - apply nnls_exact_shape.
  - intros. eexists. reflexivity.
Qed.

(** What k_plot_test_v4_default_fit and k_plot_test_v4_lrg1_fit plot, for a solver that solves the nonnegative least squares problem.  The
    coefficients are nonnegative and no other nonnegative coefficients have model fluxes closer to 1 maggy in the seven bands.  The curve is
    the spectrum of the coefficients in the rest frame over that of an AB source; the observed points are at 0, the fitted ones at the
    logarithms of the model fluxes at redshift 0.0532. *)
Lemma L_C99_fit :
  forall cub bq sun vega nnls rng fs d (s : sed R) cur d' P w rows,
    v4_fit cub bq sun vega nnls rng fs d s cur = (d', Ok P) -> nnls_contract nnls ->
    s_rflux s = table w rows -> rect w rows -> rows <> [] -> Forall (fun t => 0 < t) (s_rwave s) ->
    let fluxes c p := length p = 7%nat /\ forall j n x, nth_error v4_names j = Some n -> nth_error p j = Some x ->
      model_flux cub d' (s_rwave s) w rows (redshift_grid 0 0.1 100) n c 0.0532 x in
    let misfit p := chi2 (repeat 1 7) (repeat 1 7) p in
    exists c p, v_coeffs P = vec c /\ length c = length rows /\ nonneg c /\ fluxes c p /\
      (forall y, length y = length rows -> nonneg y -> exists q, fluxes y q /\ misfit p <= misfit q) /\
      v_curve P = zip (fun t v => (log10 t, log10 (v / ab_flux t))) (s_rwave s) (combined w rows c) /\
      forall j n r l x, nth_error v4_names j = Some n -> dget d' n = Some r -> p_leff r = Some l -> nth_error p j = Some x ->
        nth_error (v_observed P) j = Some (log10 l, 0) /\ nth_error (v_fit P) j = Some (log10 l, log10 x).
Proof.
  intros cub bq sun vega nnls rng fs d s cur d' P w rows H Hn Hf Hr Hne Hpos fluxes misfit. unfold v4_fit in H.
  destruct (set_Amatrix cub bq sun vega fs d _) as [[d0 F] [e|]] eqn:ES; [discriminate|]. pose proof (f_equal fst H) as Hd0. cbn [fst] in Hd0. subst d'.
  apply (f_equal snd) in H. cbn [snd] in H.
  destruct (v4_built _ _ _ _ _ _ _ _ _ _ _ ES Hf Hr Hne) as (_ & Hab & HW & HF & A & HR & HX & HG & HP).
  pose proof (v4_in_range A HX) as Hin.
  apply bind_ok in H as (leff & EL & H). apply bind_ok in H as ([oc cur'] & EF0 & H).
  change (fit_object nnls rng F 0 v4_obj cur = Ok (oc, cur')) in EF0.
  assert (Oo : obj_ok 7 v4_obj) by (split; reflexivity).
  assert (Niv : nonneg (o_iv v4_obj)) by (unfold v4_obj; cbn [o_iv]; apply Forall_forall; intros x Hx; apply repeat_spec in Hx; lra).
  destruct (L_C28_retry nnls rng F A 7 (length rows) v4_obj cur Hab HR ltac:(lia) Oo Hin) as (M & RM & LM & HM & EF).
  assert (EO : exists c, fit_object nnls rng F 0 v4_obj cur = Ok (Bare (vec c), cur)).
  { rewrite EF in EF0 |- *. cbv zeta in EF0 |- *. destruct (nnls None _ _ _); [eauto|]. destruct (nnls (Some _) _ _ _); [eauto|]. discriminate. }
  destruct EO as [c EO]. rewrite EO in EF0. injection EF0 as <- <-. cbn [fst] in H.
  destruct (L_C28_optimal nnls rng F A 7 (length rows) v4_obj cur c cur Hn Hab HR ltac:(lia) Oo Niv Hin EO) as (Lc & Nc & p & Ep & HO).
  change (o_z v4_obj) with (v4_z : R) in Ep, HO. apply bind_ok in H as (m & Em & H).
  change (reconstruct F (Some (scal v4_z)) (Some (vec c)) 0 = Ok m) in Em. rewrite Ep in Em. injection Em as <-. apply ok_inj in H. subst P. cbn [v_coeffs v_curve v_observed v_fit].
  pose proof HR as (EA & _ & EN & Ht).
  assert (HF2 : forall y q, length y = length rows -> reconstruct F (Some (scal v4_z)) (Some (vec y)) 0 = Ok (vec q) -> fluxes y q).
  { intros y q Ly Eq. unfold reconstruct in Eq. rewrite EA in Eq.
    destruct (recon_model cub d0 (s_rwave s) w rows v4_names F A v4_z y 0 EN Ht HG) as (q' & Eq' & Lq & Hq); auto.
    { replace ((1 + v4_z) * (1 + 0) - 1) with (v4_z : R) by (rcbn; ring). auto. }
    rewrite Eq in Eq'. injection Eq' as _ ->. split; [exact Lq|]. intros j n x Hj Hx. destruct (Hq j n Hj) as (x' & Fx & Ex).
    rewrite Hx in Ex. injection Ex as ->. replace (x' / (1 + 0)) with x' by field.
    replace ((1 + v4_z) * (1 + 0) - 1) with (0.0532 : R) in Fx by (rewrite v4_zR; lra). rewrite HX in Fx.
    replace (0.1 : R) with (1 / 10) by lra. exact Fx. }
  pose proof (HF2 c p Lc Ep) as HFp. exists c, p. split; auto. split; auto. split; auto. split; auto. split.
  { intros y Ly Ny. destruct (HO y Ly Ny) as (q & Eq & Hq). exists q. split; [apply HF2; auto|exact Hq]. }
  split.
  - rewrite HW, HF. unfold dot_flux. cbn [dat vec]. unfold table at 2. cbn [shp]. change (lastd [length rows; w]) with w. rewrite lrows_table by auto.
    unfold combined.
    assert (X : forall l, map (fun k => dotp c (map (fun f => nth k f n0) rows)) l = map (fun i => dot c (map (fun f => nth i f 0) rows)) l).
    { intro l. apply map_ext. intro k. apply dotp_dot. }
    rewrite X. clear - Hpos. generalize (map (fun i => dot c (map (fun f => nth i f 0) rows)) (seq 0 w)). induction Hpos as [|t l Ht Hl IH]; intros [|v vs]; auto.
    cbn [zip]. rewrite IH. assert (Hne : t <> 0) by lra. pose proof (sed_ab_real t Hne) as E.
    apply (f_equal (fun u => (log10 t, log10 (v / u)) :: zip (fun t0 v0 => (log10 t0, log10 (v0 / ab_flux t0))) l vs) E).
  - intros j n r l x Hj Hd Hl Hx.
    destruct (mapM_ok_nth _ _ EL j Hj) as (y & Hy & Ey). rewrite Hd, Hl in Ey. cbn [f32_or_nan] in Ey. apply ok_inj in Ey. change (l = y) in Ey. subst y.
    assert (Hj7 : (j < 7)%nat) by (apply (nth_error_Some v4_names); congruence).
    split.
    + rewrite nth_error_zip, Hy, nth_error_repeat. rewrite (proj2 (Nat.ltb_lt j 7) Hj7). rewrite <- log10_1. reflexivity.
    + cbn [dat vec]. rewrite nth_error_zip, Hy, Hx. reflexivity.
Qed.
Lemma E_C99_fit : exists r d' P, let rows := [repeat 1 6; [1;2;3;4;5;6]] in
  v4_fit notaknot (bisect (1/1000)) sun0 sun0 nnls_exact (fun _ => 0) (fun _ => None) (v_cache r) (v_sed rows) 0 = (d', Ok P) /\ nnls_contract nnls_exact /\
  s_rflux (v_sed rows) = table 6 rows /\ rect 6 rows /\ rows <> [] /\ Forall (fun t => 0 < t) (s_rwave (v_sed rows)).
Proof.
  destruct v_band as [r HB]. exists r.
  destruct (v_fits r [repeat 1 6; [1;2;3;4;5;6]] HB) as (d' & P & E); [repeat constructor|discriminate|]. exists d', P. cbv zeta.
  split; auto. split; [apply nnls_exact_contract|]. split; [reflexivity|]. split; [repeat constructor|]. split; [discriminate|]. repeat constructor; lra.
Qed.

(** The fit cannot be improved by scaling it: the sum of the fluxes equals the sum of their squares, so the total model flux is at most 7
    maggies, and the misfit is 7 minus that sum. *)
Lemma L_C99_mean :
  forall cub bq sun vega nnls rng fs d (s : sed R) cur d' P w rows,
    v4_fit cub bq sun vega nnls rng fs d s cur = (d', Ok P) -> nnls_contract nnls ->
    s_rflux s = table w rows -> rect w rows -> rows <> [] -> Forall (fun t => 0 < t) (s_rwave s) ->
    exists c p, v_coeffs P = vec c /\ length p = 7%nat /\
      (forall j n x, nth_error v4_names j = Some n -> nth_error p j = Some x ->
         model_flux cub d' (s_rwave s) w rows (redshift_grid 0 0.1 100) n c 0.0532 x) /\
      let total := fold_right Rplus 0 p in
      total = fold_right Rplus 0 (map (fun x => x ^ 2) p) /\ 0 <= total <= 7 /\ chi2 (repeat 1 7) (repeat 1 7) p = 7 - total.
Proof.
  intros cub bq sun vega nnls rng fs d s cur d' P w rows H Hn Hf Hr Hne Hpos.
  destruct (L_C99_fit _ _ _ _ _ _ _ _ _ _ _ _ _ _ H Hn Hf Hr Hne Hpos) as (c & p & Ec & Lc & Nc & [Lp HFp] & HO & _).
  exists c, p. split; auto. split; auto. split; auto. intro total.
  assert (HD : dot p p = total).
  { apply ray_min. rewrite Lp. intros t Ht.
    destruct (HO (map (Rmult t) c)) as (q & [Lq HFq] & Hq); [rewrite map_length; auto| |].
    { unfold nonneg in *. apply Forall_map. eapply Forall_impl; [|exact Nc]. cbn. intros x Hx. nra. }
    enough (E : q = map (Rmult t) p) by (rewrite <- E; exact Hq).
    apply nth_ext with (d := 0) (d' := 0); [rewrite map_length; congruence|]. intros j Hj. rewrite Lq in Hj.
    assert (Ej : exists n, nth_error v4_names j = Some n).
    { destruct (nth_error v4_names j) eqn:E; eauto. apply nth_error_None in E. cbn in E. lia. }
    destruct Ej as [n En].
    assert (Xq : nth_error q j = Some (nth j q 0)) by (apply nth_error_nth'; lia).
    assert (Xp : nth_error p j = Some (nth j p 0)) by (apply nth_error_nth'; lia).
    pose proof (HFq j n _ En Xq) as Fq. pose proof (HFp j n _ En Xp) as Fp.
    rewrite (nth_indep (map (Rmult t) p) 0 (t * 0)) by (rewrite map_length; lia). rewrite (map_nth (Rmult t)).
    apply (scaled_flux t) in Fp. eapply model_flux_unique; [|exact Fp|exact Fq]. apply grid_sorted; [lia|lra]. }
  assert (Q : chi2 (repeat 1 7) (repeat 1 7) p = 7 - 2 * total + dot p p).
  { unfold total. clear - Lp. do 7 (destruct p as [|? p]; [discriminate|]). destruct p; [|discriminate].
    unfold chi2, vsub, dot. cbn [repeat zip fold_right]. ring. }
  assert (SQ : dot p p = fold_right Rplus 0 (map (fun x => x ^ 2) p)).
  { unfold dot. rewrite zip_same. f_equal. apply map_ext. intro; ring. }
  assert (N0 : 0 <= dot p p) by (unfold dot; clear; induction p as [|x p IH]; cbn [zip fold_right]; [lra|nra]).
  assert (NC : 0 <= chi2 (repeat 1 7) (repeat 1 7) p).
  { unfold chi2. generalize (vsub (repeat 1 7) p). generalize 7%nat. clear. induction n as [|n IH]; intros [|x l]; cbn [repeat zip fold_right]; try lra. specialize (IH l). nra. }
  rewrite <- SQ, Q. lra.
Qed.
Lemma E_C99_mean : exists r d' P, let rows := [repeat 1 6; [1;2;3;4;5;6]] in
  v4_fit notaknot (bisect (1/1000)) sun0 sun0 nnls_exact (fun _ => 0) (fun _ => None) (v_cache r) (v_sed rows) 0 = (d', Ok P) /\ nnls_contract nnls_exact /\
  s_rflux (v_sed rows) = table 6 rows /\ rect 6 rows /\ rows <> [] /\ Forall (fun t => 0 < t) (s_rwave (v_sed rows)).
Proof. exact E_C99_fit. Qed.

(** Where the fitted points are relative to the curve: if the plotted curve lies between log10 a and log10 b (the spectrum of the
    coefficients between a and b times that of an AB source), the fitted points lie between log10 a + log10 1.0532 and
    log10 b + log10 1.0532.  The curve is in the rest frame and the points are not, so a flat curve and its points differ by log10 (1 + z). *)
Lemma L_C99_offset :
  forall cub bq sun vega nnls rng fs d (s : sed R) cur d' P rows a b, splines cub ->
    v4_fit cub bq sun vega nnls rng fs d s cur = (d', Ok P) -> nnls_contract nnls ->
    StronglySorted Rlt (s_rwave s) -> (4 <= length (s_rwave s))%nat -> Forall (fun t => 0 < t) (s_rwave s) ->
    s_rflux s = table (length (s_rwave s)) rows -> rect (length (s_rwave s)) rows -> rows <> [] -> 0 < a ->
    (forall c t, v_coeffs P = vec c -> nth 0 (s_rwave s) 0 <= t <= last (s_rwave s) 0 ->
       a * ab_flux t <= spline cub (s_rwave s) (combined (length (s_rwave s)) rows c) t <= b * ab_flux t) ->
    forall j n r l x y w yy, nth_error v4_names j = Some n -> dget d' n = Some r -> band cub bq sun vega x y r w yy -> p_leff r = Some l ->
      (forall t, nth 0 w 0 <= t <= last w 0 -> 0 <= spline cub w yy t) -> (exists t, In t w /\ 0 < spline cub w yy t) ->
      (forall z, 0 <= z <= 0.1 -> overlaps w (seen_wave z (s_rwave s)) /\ brackets w (seen_wave z (s_rwave s))) ->
      exists u, nth_error (v_fit P) j = Some (log10 l, u) /\ log10 a + log10 1.0532 <= u <= log10 b + log10 1.0532.
Proof.
  intros cub bq sun vega nnls rng fs d s cur d' P rows a b Hc H Hn Hs H4 Hp Hf Hr Hne Ha Hab j n r l x y w yy Hj Hd HB Hl Hpos Hex Ho.
  destruct (L_C99_fit _ _ _ _ _ _ _ _ _ _ _ _ _ _ H Hn Hf Hr Hne Hp) as (c & p & Ec & Lc & Nc & [Lp HFp] & _ & _ & HV).
  assert (Hj7 : (j < 7)%nat) by (apply (nth_error_Some v4_names); congruence).
  destruct (nth_error p j) as [v|] eqn:Ev; [|apply nth_error_None in Ev; lia].
  destruct (HV j n r l v Hj Hd Hl Ev) as [_ HV2]. exists (log10 v). split; auto.
  assert (HG : forall z0, In z0 (redshift_grid 0 0.1 100) -> overlaps w (seen_wave z0 (s_rwave s)) /\ brackets w (seen_wave z0 (s_rwave s))).
  { intros z0 Hz0. apply Ho. pose proof (grid_bounds 0 0.1 100 z0 Hz0 ltac:(lia) ltac:(lra)). lra. }
  assert (B : a * (1 + 0.0532) <= v <= b * (1 + 0.0532)).
  { apply (flux_between cub bq sun vega d' (s_rwave s) rows 0 0.1 100 n c 0.0532 v x y r w yy a b); auto; try lra; try lia. apply HFp with (j := j); auto. }
  assert (0 < v) by lra. assert (0 < b) by lra.
  rewrite <- !Num.log10_mult by lra. split; apply log10_le; lra.
Qed.
Lemma E_C99_offset : exists r d' P a b c, splines notaknot /\
  v4_fit notaknot (bisect (1/1000)) sun0 sun0 nnls_exact (fun _ => 0) (fun _ => None) (v_cache r) (v_sed [repeat 1 6]) 0 = (d', Ok P) /\ nnls_contract nnls_exact /\ 0 < a /\
  v_coeffs P = vec c /\
  (forall t, nth 0 b_wave 0 <= t <= last b_wave 0 ->
     a * ab_flux t <= spline notaknot b_wave (combined 6 [repeat 1 6] c) t <= b * ab_flux t) /\
  band notaknot (bisect (1/1000)) sun0 sun0 [1;2;3;4] [0;1;1;0] r [1;2;3;4] [0;1;1;0] /\ (exists l, p_leff r = Some l) /\
  (forall n, In n v4_names -> dget d' n = Some r) /\
  (forall z, 0 <= z <= 0.1 -> overlaps [1;2;3;4] (seen_wave z b_wave) /\ brackets [1;2;3;4] (seen_wave z b_wave)).
Proof.
  destruct v_band as [r HB]. destruct (v_fits r [repeat 1 6] HB) as (d' & P & E); [repeat constructor|discriminate|].
  assert (Hpos : Forall (fun t => 0 < t) (s_rwave (v_sed [repeat 1 6]))) by (repeat constructor; lra).
  assert (X : extends (v_cache r) d').
  { pose proof E as E'. unfold v4_fit in E'. destruct (set_Amatrix _ _ _ _ _ _ _) as [[d0 F] [e|]] eqn:ES; [discriminate|].
    pose proof (f_equal fst E') as Hd0. cbn [fst] in Hd0. subst d'.
    refine (proj1 (v4_built _ _ _ _ _ _ _ _ _ 6%nat [repeat 1 6] ES eq_refl _ _)); [repeat constructor|discriminate]. }
  destruct (L_C99_fit _ _ _ _ _ _ _ _ _ _ _ _ 6%nat [repeat 1 6] E (nnls_exact_contract)) as (c & p & Ec & Lc & Nc & [Lp HFp] & HO & _ & _);
    [reflexivity|repeat constructor|discriminate|exact Hpos|].
  destruct c as [|c0 [|]]; try discriminate.
  assert (C : combined 6 [repeat 1 6] [c0] = repeat c0 6) by (unfold combined, dot; cbn; repeat (f_equal; try lra)).
  assert (A1 : 0 < ab_flux 1) by (unfold ab_flux; lra). destruct v_positive as [V1 V2].
  assert (Hc0 : 0 < c0).
  { assert (N0 : 0 <= c0) by (inversion Nc; auto). destruct (Req_dec c0 0) as [Z|]; [|lra]. exfalso. subst c0.
    (* with coefficient 0 every flux is 0; a small coefficient fits better *)
    assert (F0 : forall j n x, nth_error v4_names j = Some n -> nth_error p j = Some x -> x = 0).
    { intros j n x Hj Hx. pose proof (HFp j n x Hj Hx) as (i & z0 & z1 & l0 & l1 & u & _ & _ & _ & _ & _ & _ & ->).
      assert (D : forall l : list R, dot l [0] = 0) by (intros [|y [|]]; unfold dot; cbn; lra). rewrite !D. lra. }
    assert (P0 : p = repeat 0 7).
    { apply nth_ext with (d := 0) (d' := 0); auto. intros j Hj. rewrite Lp in Hj.
      destruct (nth_error v4_names j) as [n|] eqn:Ej; [|apply nth_error_None in Ej; cbn in Ej; lia].
      rewrite (F0 j n (nth j p 0) Ej) by (apply nth_error_nth'; lia). do 7 (destruct j as [|j]; [reflexivity|]). lia. }
    assert (B : forall y n x, 0 < y -> In n v4_names -> model_flux notaknot d' b_wave 6 [repeat 1 6] (redshift_grid 0 0.1 100) n [y] 0.0532 x ->
        y / (4 * ab_flux 1) * (1 + 0.0532) <= x <= 25 * y / ab_flux 1 * (1 + 0.0532)).
    { intros y n x Hy Hn HM. apply (flux_between notaknot (bisect (1/1000)) sun0 sun0 d' b_wave [repeat 1 6] 0 0.1 100 n [y] 0.0532 x [1;2;3;4] [0;1;1;0] r [1;2;3;4] [0;1;1;0]); auto; try lra; try lia.
      - exact L_C78_exists.
      - apply X, v_cached. auto.
      - apply sorted_wide.
      - cbn; lia.
      - repeat constructor.
      - intros z0 Hz0. apply v_seen. pose proof (grid_bounds 0 0.1 100 z0 Hz0 ltac:(lia) ltac:(lra)). lra.
      - intros t Ht. assert (Cy : combined (length b_wave) [repeat 1 6] [y] = repeat y 6) by (unfold combined, dot; cbn; repeat (f_equal; try lra)).
        rewrite Cy. cbn in Ht. rewrite v_constant by lra. apply v_ab; lra. }
    set (y := ab_flux 1 / 30). assert (Hy : 0 < y) by (unfold y; lra).
    destruct (HO [y] eq_refl) as (q & [Lq HFq] & Hq); [repeat constructor; lra|].
    assert (Q : forall j, (j < 7)%nat -> 0 < nth j q 0 < 1).
    { intros j Hj. destruct (nth_error v4_names j) as [n|] eqn:Ej; [|apply nth_error_None in Ej; cbn in Ej; lia].
      pose proof (B y n (nth j q 0) Hy (nth_error_In _ _ Ej) (HFq j n _ Ej ltac:(apply nth_error_nth'; lia))) as Bx.
      replace (y / (4 * ab_flux 1)) with (1 / 120) in Bx by (unfold y; field; lra).
      replace (25 * y / ab_flux 1) with (25 / 30) in Bx by (unfold y; field; lra). lra. }
    rewrite P0 in Hq. clear - Q Lq Hq.
    do 7 (destruct q as [|? q]; [discriminate|]). destruct q; [|discriminate].
    pose proof (Q 0%nat ltac:(lia)). pose proof (Q 1%nat ltac:(lia)). pose proof (Q 2%nat ltac:(lia)). pose proof (Q 3%nat ltac:(lia)).
    pose proof (Q 4%nat ltac:(lia)). pose proof (Q 5%nat ltac:(lia)). pose proof (Q 6%nat ltac:(lia)). clear Q. cbn [nth] in *.
    unfold chi2, vsub in Hq. cbn [repeat zip fold_right] in Hq.
    assert (S : forall x, 0 < x < 1 -> 1 * ((1 - x) * (1 - x)) < 1 * ((1 - 0) * (1 - 0))) by (intros x Hx; nra).
    repeat match goal with K : 0 < _ < 1 |- _ => apply S in K end. lra. }
  exists r, d', P, (c0 / (4 * ab_flux 1)), (25 * c0 / ab_flux 1), [c0].
  split; [exact L_C78_exists|]. split; auto. split; [apply nnls_exact_contract|]. split; [apply Rdiv_lt_0_compat; lra|]. split; auto.
  split; [|split; [exact HB|split; [|split]]].
  - intros t Ht. cbn in Ht. rewrite C, v_constant by lra. apply v_ab; lra.
  - pose proof HB as (L0 & HR & _). destruct (Response_ok _ _ _ _ _ _ _ L0 HR) as (w & yy & fw & _ & _ & _ & _ & _ & _ & _ & _ & HL & _). eauto.
  - intros n Hn. apply X, v_cached. auto.
  - intros z Hz. apply v_seen. lra.
Qed.

