(** Lemmas about the programs of ScriptsV4.v. *)
From Coq Require Import String List Arith Lia Bool ZArith QArith Qreals Reals Lra Sorting.Sorted Sorting.Permutation.
From Verif Require Import Base BaseLemmas Num Toy Interp InterpReal Spec Utils UtilsReal Sed Response RespDict ResponseObj LinInterp ResponseThms ResponseEx
  Fitter FitSpec FitterProofs FitterMC FitReal FitTable FitEx FitRealEx FitRealThms Kcorrect KSpec KTable KEx KcorrectProofs XrAlg KcorrectThms AbsmagProofs AbsmagThms
  AbThms UtilsThms RespDictThms PersistThms BuildSpec BuildProofs BuildTable BuildEx BuildThms NnlsSpec NnlsExact NnlsThms
  SplineSpec SplineProofs SplineThms ShiftSpec ShiftThms PipeSpec PipeProofs PipeEx BlendSpec BlendProofs Scripts ScriptsV4.
Import ListNotations.
Local Open Scope R_scope.

(** What the table of [_calc_Amatrix] stores for a band is the photometry of the templates (from the proof of C36_table). *)
Lemma row_photometry cub (d : dict (resp R)) (s sk : sed R) z w rows n r row : s_flag s = true -> s_rflux s = table w rows -> rect w rows ->
  at_z s z sk -> dget d n = Some r -> project_row cub r sk = Ok row -> photometry cub d (s_rwave s) w rows n z row.
Proof.
  intros Hfl Hf Hr (Z1 & Z2 & Z3 & Z4 & Z5 & Z6 & Z7 & Z8) Hd Hrow.
  assert (Hn : s_nsed sk = length rows) by (unfold s_nsed in *; rewrite Z2, Hf; auto).
  rewrite Hf, map1_table in Z7. unfold project_row in Hrow. rewrite Z3, Hfl in Hrow. exists r.
  destruct (Z8 Hfl) as (it & Hit & Hsi). unfold project_sed in Hrow. rewrite Hsi, Hn in Hrow.
  rewrite <- Z6, <- Z7. unfold project_arr.
  assert (Hcst : forall x : R, cst x = x) by reflexivity.
  assert (Ew : map1 cst (vec (s_wave sk)) = vec (s_wave sk)).
  { unfold map1, vec; cbn [shp dat]. rewrite (map_ext _ _ Hcst), map_id. auto. }
  assert (Ef : map1 cst (s_flux sk) = s_flux sk).
  { unfold map1. rewrite (map_ext _ _ Hcst), map_id. destruct (s_flux sk); auto. }
  rewrite Ew, Ef. cbn [dat vec shp ndim length Nat.eqb hd]. rewrite Hit.
  pose proof Hit as Hit'. unfold mk_cubic in Hit'.
  rewrite Z7 in Hit' |- *. unfold table in *. cbn [ndim shp length Nat.eqb negb lastd last hd] in *.
  destruct (Nat.eqb w (length (s_wave sk))); [|discriminate]. rewrite !map_length in *. change (Nat.leb 2 2) with true. cbv iota. cbn [bind].
  destruct (p_wave r) as [pw|]; [|discriminate].
  destruct (project_core cub pw (p_interp r) (s_wave sk) (Some it) (length rows)) as [v|]; cbn [bind] in *; [|discriminate].
  exists v. split; auto. split; auto. destruct (bto n0 [length rows] v) as [l|]; cbn [rmap] in *; [|discriminate].
  injection Hrow as <-. f_equal. symmetry. apply map_id.
Qed.

(** Storing a result in maggies[i, j] and in a row with one template. *)
Lemma store_one cub (r : resp R) (s : sed R) x : s_nsed s = 1%nat -> s_flag s = true ->
  (do v <- project_sed cub r s; do x <- bto n0 [] v; Ok (cst (hd n0 x))) = Ok x <-> project_row cub r s = Ok [x].
Proof.
  intros Hn Hf. unfold project_row. rewrite Hf, Hn. unfold project_sed. rewrite Hn.
  destruct (p_wave r) as [pw|]; [|cbn; split; discriminate].
  assert (Hv : forall v, project_core cub pw (p_interp r) (s_wave s) (s_interp s) 1 = Ok v -> exists y, v = scal y).
  { intros v. unfold project_core. destruct (where_ _); [intro H; injection H as <-; eauto|]. destruct (s_interp s); [|discriminate].
    destruct (p_interp r); [|discriminate]. cbn [Nat.eqb]. intro H; injection H as <-. eauto. }
  destruct (project_core cub pw (p_interp r) (s_wave s) (s_interp s) 1) as [v|e] eqn:E; [|cbn; split; discriminate].
  destruct (Hv v eq_refl) as [y ->]. cbn. split; intro H; injection H as <-; reflexivity.
Qed.
Lemma store_one_ok cub (r : resp R) (s : sed R) l : s_nsed s = 1%nat -> s_flag s = true -> project_row cub r s = Ok l -> exists x, l = [x].
Proof.
  intros Hn Hf H. apply project_row_length in H. rewrite Hn in H. destruct l as [|x [|]]; try discriminate. eauto.
Qed.

Lemma color_row_spec cub d names (s : sed R) row : s_nsed s = 1%nat -> s_flag s = true ->
  color_row cub d names s = Ok row ->
  length row = length names /\ forall j n, nth_error names j = Some n ->
    exists r x, dget d n = Some r /\ nth_error row j = Some x /\ project_row cub r s = Ok [x].
Proof.
  intros Hn Hf. revert row. induction names as [|n names IH]; intros row H; unfold color_row in *; cbn [mapM] in H.
  - injection H as <-. split; auto. intros [|j] n H; discriminate.
  - destruct (dget d n) as [r|] eqn:Ed; [|discriminate].
    destruct (do v <- project_sed cub r s; do x <- bto n0 [] v; Ok (cst (hd n0 x))) as [x|e] eqn:Ex; [|discriminate]. cbn [bind] in H.
    destruct (mapM _ names) as [l|] eqn:El; [|discriminate]. cbn [bind] in H. injection H as <-.
    destruct (IH l eq_refl) as [L H]. split; [cbn; lia|]. intros [|j] n' Hj.
    + injection Hj as <-. exists r, x. split; auto. split; auto. apply store_one; auto.
    + apply H; auto.
Qed.

Lemma color_loop_spec cub d names : forall zs (s s' : sed R) tab, s_nsed s = 1%nat -> s_flag s = true ->
  color_loop cub d names zs s = (s', Ok tab) ->
  length tab = length zs /\ same_rest s s' /\
  forall i z, nth_error zs i = Some z -> exists sk row, at_z s z sk /\ color_row cub d names sk = Ok row /\ nth_error tab i = Some row.
Proof.
  induction zs as [|z zs IH]; intros s s' tab Hn Hf H; cbn [color_loop] in H.
  - injection H as <- <-. split; auto. split; [apply same_rest_refl|]. intros [|i] z H; discriminate.
  - pose proof (set_redshift_rest s z) as HR.
    destruct (set_redshift s z) as [s1 [e|]] eqn:E; [discriminate|]. cbn [fst] in HR. apply set_redshift_at_z in E.
    destruct (color_row cub d names s1) as [row|] eqn:ER; [|discriminate].
    destruct (color_loop cub d names zs s1) as [s2 t] eqn:EL. destruct t as [l|]; cbn [bind] in H; [|discriminate]. injection H as <- <-.
    pose proof E as (E1 & E2 & E3 & _).
    destruct (IH s1 s2 l) as (L & HS & Hk); auto; [unfold s_nsed in *; congruence|congruence|]. split; [cbn; lia|].
    split; [eapply same_rest_trans; eauto|]. intros [|i] z' Hi.
    + injection Hi as <-. exists s1, row. auto.
    + destruct (Hk i z' Hi) as (sk & rw & (A1 & A2 & A3 & A4 & A5 & A6 & A7 & A8) & B1 & B2). exists sk, rw. split; [|auto].
      unfold at_z. rewrite E1, E2, E3 in *. destruct E as (_ & _ & _ & E4 & _). rewrite E4 in *. repeat split; auto.
Qed.

Lemma cstR : forall x : R, cst x = x.
Proof. reflexivity. Qed.
(** Success of the loop. *)
Lemma color_row_ok cub d names (s0 s : sed R) z w f : (forall n, In n names -> exists r, dget d n = Some r /\ curve_set r) ->
  s_flag s0 = true -> s_rflux s0 = table w [f] -> rect w [f] -> at_z s0 z s -> sampled_at (s_rwave s0) (s_rflux s0) z ->
  exists row, color_row cub d names s = Ok row.
Proof.
  intros Hd Hf Hfl Hr Hz Hs. pose proof Hz as (_ & E2 & E3 & _).
  assert (Hn : s_nsed s = 1%nat) by (unfold s_nsed; rewrite E2, Hfl; reflexivity).
  induction names as [|n names IH]; [exists []; reflexivity|]. destruct IH as [row IH]; [intros; apply Hd; right; auto|].
  unfold color_row in *. cbn [mapM]. destruct (Hd n (or_introl eq_refl)) as (r & -> & Hc).
  destruct (project_row_ok cub cstR r s s0 z w [f] Hc Hz Hfl Hr ltac:(discriminate) Hs) as [l Hl].
  destruct (store_one_ok _ _ _ _ Hn ltac:(congruence) Hl) as [x ->]. rewrite (proj2 (store_one cub r s x Hn ltac:(congruence)) Hl). cbn [bind].
  rewrite IH. cbn. eauto.
Qed.
Lemma color_loop_ok cub d names w f : (forall n, In n names -> exists r, dget d n = Some r /\ curve_set r) -> rect w [f] ->
  forall zs (s : sed R), s_flag s = true -> s_rflux s = table w [f] -> (forall z, In z zs -> sampled_at (s_rwave s) (s_rflux s) z) ->
  exists s' tab, color_loop cub d names zs s = (s', Ok tab).
Proof.
  intros Hd Hr. induction zs as [|z zs IH]; intros s Hf Hfl Hs; cbn [color_loop]; [eauto|].
  destruct (set_redshift_ok s z (Hs z (or_introl eq_refl))) as [s1 E]. rewrite E. apply set_redshift_at_z in E.
  destruct (color_row_ok cub d names s s1 z w f Hd Hf Hfl Hr E (Hs z (or_introl eq_refl))) as [row ->].
  destruct E as (E1 & E2 & E3 & _). destruct (IH s1) as (s2 & tab & ->); try congruence.
  - intros z' Hz. rewrite E1, E2. apply Hs. right; auto.
  - eexists. eexists. reflexivity.
Qed.

Lemma color_z_real nz i : (0 < nz)%nat -> color_z nz i = 55 / 100 * (INR i + 1 / 2) / INR nz.
Proof.
  intro H. unfold color_z, nnat. rcbn. unfold Q2R. cbn [Qnum Qden]. rewrite <- !INR_IZR_INZ.
  assert (0 < INR nz) by (apply lt_0_INR; auto). field. lra.
Qed.

(** The photometry of one spectrum through a response, in terms of an SED object. *)
Lemma one_spectrum cub (r : resp R) sw f s : spectrum sw f s -> length f = length sw ->
  project_arr cub r (vec sw) (table (length sw) [f]) = project_sed cub r s.
Proof.
  intros (Hs & HS & Hp) L. assert (E : table (length sw) [f] = mk [1%nat; length sw] f) by (unfold table; cbn; rewrite app_nil_r; auto).
  rewrite E. apply L_C17_array_call; auto.
  - unfold wf; cbn. lia.
  - rewrite <- HS. unfold SED, sed_setup, vec, reshape, ndim. cbn [shp length Nat.eqb dat].
    replace (size [length f]) with (size [1%nat; length sw]) by (cbn; lia). rewrite Nat.eqb_refl. reflexivity.
Qed.
Lemma sorted_first (l : list R) x : StronglySorted Rlt l -> In x l -> nth 0 l 0 <= x.
Proof. intros H1 H2. replace (nth 0 l 0) with (hd 0 l) by (destruct l; auto). apply ResponseProofs.sorted_hd_least; auto. Qed.
Lemma sorted_last (l : list R) x : StronglySorted Rlt l -> In x l -> x <= last l 0.
Proof. intros H1 H2. apply ResponseProofs.sorted_last_greatest; auto. Qed.

Lemma ab_seen k t : k <> 0 -> t <> 0 -> ab_flux (t / k) / k = k * ab_flux t.
Proof. intros Hk Ht. unfold ab_flux. field. auto. Qed.

(** The flux of a spectrum whose ratio to the AB source lies between [a] and [b]. *)
Lemma photometry_between cub bq sun vega d wave f n z x y r w yy a b l : splines cub -> dget d n = Some r ->
  band cub bq sun vega x y r w yy -> StronglySorted Rlt wave -> (4 <= length wave)%nat -> Forall (fun t => 0 < t) wave -> length f = length wave -> -1 < z ->
  overlaps w (seen_wave z wave) -> brackets w (seen_wave z wave) ->
  (forall t, nth 0 w 0 <= t <= last w 0 -> 0 <= spline cub w yy t) -> (exists t, In t w /\ 0 < spline cub w yy t) ->
  (forall t, nth 0 wave 0 <= t <= last wave 0 -> a * ab_flux t <= spline cub wave f t <= b * ab_flux t) ->
  photometry cub d wave (length wave) [f] n z l -> exists m, l = [m] /\ a * (1 + z) <= m <= b * (1 + z).
Proof.
  intros Hc Hd HB Hs H4 Hp Lf Hz Ho Hbr Hpos Hex Hab (r' & v & Hd' & Hv & Hb). rewrite Hd in Hd'. injection Hd' as <-.
  set (k := 1 + z) in *. assert (Hk : 0 < k) by (unfold k; lra).
  set (sw := seen_wave z wave) in *. set (f' := map (fun v => / k * v) f).
  assert (Lsw : length sw = length wave) by apply map_length.
  assert (Ssw : StronglySorted Rlt sw) by (apply sorted_map_inc; auto; intros; fold k; nra).
  assert (Psw : Forall (fun t => 0 < t) sw).
  { apply Forall_map. eapply Forall_impl; [|exact Hp]. cbn. intros t Ht. fold k. nra. }
  destruct (spectrum_intro sw f') as [s HS]; auto; [lia|unfold f'; rewrite map_length; lia|].
  change (map (fun x => nmul x (nadd n1 z)) wave) with sw in Hv.
  assert (Ef : map (map (fun u => ndiv u (nadd n1 z))) [f] = [f']).
  { cbn [map]. f_equal. apply map_ext. intro u. rcbn. fold k. field. lra. }
  rewrite Ef in Hv. rewrite <- Lsw, (one_spectrum cub r sw f' s) in Hv; auto; [|unfold f'; rewrite map_length; lia].
  destruct (bounded_flux cub bq sun vega x y r w yy sw f' s (a * k) (b * k)) as (m & Em & Hm); auto.
  - intros t Ht. destruct (band_samples _ _ _ _ _ _ _ _ _ HB) as (Sw & Lw & _).
    destruct (Rle_dec (nth 0 w 0) t) as [Q1|Q1]; [|unfold spline; destruct (Rlt_dec t (nth 0 w 0)); lra].
    destruct (Rle_dec t (last w 0)) as [Q2|Q2]; [auto|]. unfold spline. destruct (Rlt_dec t (nth 0 w 0)); [lra|]. destruct (Rlt_dec (last w 0) t); lra.
  - intros t Ht.
    assert (Hr : nth 0 sw 0 <= t <= last sw 0).
    { assert (HI : forall u, In u sw -> nth 0 sw 0 <= u <= last sw 0).
      { intros u Hu. split; [apply sorted_first; auto|apply sorted_last; auto]. }
      destruct Ht as [Ht|Ht]; auto. destruct (band_samples _ _ _ _ _ _ _ _ _ HB) as (Sw & Lw & _).
      destruct Hbr as [(u1 & U1 & U2) (u2 & U3 & U4)]. apply HI in U1. apply HI in U3.
      pose proof (sorted_first w t Sw Ht). pose proof (sorted_last w t Sw Ht). lra. }
    assert (Wn : wave <> []) by (intros ->; cbn in H4; lia).
    unfold sw, seen_wave in Hr. rewrite nth0_map, last_map in Hr by auto. fold k in Hr.
    assert (Hr' : nth 0 wave 0 <= t / k <= last wave 0).
    { split; [apply Rmult_le_reg_r with k|apply Rmult_le_reg_r with k]; auto; unfold Rdiv; rewrite Rmult_assoc, Rinv_l, Rmult_1_r by lra; lra. }
    specialize (Hab _ Hr').
    assert (T0 : 0 < t).
    { assert (0 < nth 0 wave 0) by (rewrite Forall_forall in Hp; apply Hp, nth_In; lia). nra. }
    pose proof (L_C78_scaling cub wave f k (/ k) (t / k) Hc Hs H4 Lf Hk) as E.
    replace (t / k * k) with t in E by (field; lra). change (map (fun x => x * k) wave) with sw in E. fold f' in E. rewrite E.
    pose proof (ab_seen k t ltac:(lra) ltac:(lra)) as EA.
    assert (EA' : / k * ab_flux (t / k) = k * ab_flux t) by (unfold Rdiv in *; rewrite Rmult_comm; exact EA).
    assert (IK : 0 < / k) by (apply Rinv_0_lt_compat; auto).
    split; [replace (a * k * ab_flux t) with (/ k * (a * ab_flux (t / k))) by (transitivity (a * (/ k * ab_flux (t / k))); [ring|rewrite EA'; ring])
           |replace (b * k * ab_flux t) with (/ k * (b * ab_flux (t / k))) by (transitivity (b * (/ k * ab_flux (t / k))); [ring|rewrite EA'; ring])];
      apply Rmult_le_compat_l; lra.
  - rewrite Em in Hv. injection Hv as <-. cbn in Hb. injection Hb as <-. exists m. split; auto.
Qed.

Lemma table_col k w (t : list (list R)) : rect w t -> (k < w)%nat -> get_last k n0 (table w t) = Ok (vec (map (fun r => nth k r 0) t)).
Proof.
  intros Rt Hk. unfold get_last. unfold table at 1 2. cbn [shp]. change (lastd [length t; w]) with w.
  rewrite (proj2 (Nat.ltb_lt k w) Hk). rewrite lrows_table by auto. f_equal. unfold vec. f_equal.
  unfold table, lead. cbn. rewrite map_length. reflexivity.
Qed.
Lemma ratio_cols (f g : list R -> R) t :
  mag_ratio (vec (map f t)) (vec (map g t)) = Ok (vec (map (fun r => -5/2 * log10 (f r / g r)) t)).
Proof.
  unfold mag_ratio. rewrite bin_vec by (rewrite !map_length; auto). rewrite zip_map_l, zip_map_r, zip_same. reflexivity.
Qed.
Definition colours_of (rows : list (list R)) : list (nd R) :=
  map (fun j => vec (map (fun r => -5/2 * log10 (nth j r 0 / nth (S j) r 0)) rows)) (seq 0 4).
Lemma colours_eq rows : rect 5 rows ->
  mapM (fun j => do a <- get_last j n0 (table 5 rows); do b <- get_last (S j) n0 (table 5 rows); mag_ratio a b) (seq 0 4) = Ok (colours_of rows).
Proof.
  intro H. cbn [seq mapM]. rewrite !(table_col _ 5 rows H) by lia. cbn [bind]. rewrite !ratio_cols. reflexivity.
Qed.

(** What the colour program computes for one spectrum. *)
Lemma colors_explicit cub bq sun vega fs d (s : sed R) nz d' s' cols w f :
  lrg1_colors cub bq sun vega fs d s nz = (d', s', Ok cols) -> s_flag s = true -> s_rflux s = table w [f] -> rect w [f] ->
  extends d d' /\ same_rest s s' /\ exists rows, cols = colours_of rows /\ length rows = nz /\
    forall i z j n, nth_error (color_zs nz) i = Some z -> nth_error sdss_responses j = Some n ->
      exists row m, nth_error rows i = Some row /\ length row = 5%nat /\ nth_error row j = Some m /\ photometry cub d' (s_rwave s) w [f] n z [m].
Proof.
  intros H Hf Hfl Hr. unfold lrg1_colors in H. pose proof (load_all_ext cub bq sun vega fs sdss_responses d) as HE.
  destruct (load_all cub bq sun vega fs sdss_responses d) as [d1 [e|]]; [discriminate|]. cbn [fst] in HE.
  destruct (color_loop cub d1 sdss_responses (color_zs nz) s) as [s1 t] eqn:EL. injection H as <- <- H.
  destruct t as [rows|]; [|discriminate]. cbn [bind] in H.
  assert (Hn : s_nsed s = 1%nat) by (unfold s_nsed; rewrite Hfl; reflexivity).
  destruct (color_loop_spec _ _ _ _ _ _ _ Hn Hf EL) as (L & HS & Hk).
  assert (LZ : length (color_zs (T := R) nz) = nz) by (unfold color_zs; rewrite map_length, seq_length; auto).
  assert (Row : forall i z, nth_error (color_zs nz) i = Some z -> exists row, nth_error rows i = Some row /\ length row = 5%nat /\
     forall j n, nth_error sdss_responses j = Some n -> exists m, nth_error row j = Some m /\ photometry cub d1 (s_rwave s) w [f] n z [m]).
  { intros i z Hi. destruct (Hk i z Hi) as (sk & row & Hz & HR & Ht).
    assert (Hns : s_nsed sk = 1%nat /\ s_flag sk = true) by (destruct Hz as (_ & E2 & E3 & _); unfold s_nsed in *; split; congruence).
    destruct (color_row_spec cub d1 sdss_responses sk row (proj1 Hns) (proj2 Hns) HR) as [Lr HJ]. exists row. split; auto. split; [exact Lr|].
    intros j n Hj. destruct (HJ j n Hj) as (r & m & Hd & Hm & Hp). exists m. split; auto. eapply row_photometry; eauto. }
  assert (HRect : rect 5 rows).
  { apply Forall_forall. intros row Hin. apply In_nth_error in Hin as [i Hi].
    assert (Hlt : (i < length rows)%nat) by (apply nth_error_Some; congruence).
    destruct (nth_error (color_zs (T := R) nz) i) as [z|] eqn:Ez; [|apply nth_error_None in Ez; lia].
    destruct (Row i z Ez) as (row' & Hi' & Hl & _). congruence. }
  assert (LR : length rows = nz) by lia.
  pose proof (colours_eq rows HRect) as E. unfold table in E. rewrite LR in E.
  assert (EC : Ok (colours_of rows) = Ok cols) by (rewrite <- E; exact H). injection EC as <-.
  split; auto. split; auto. exists rows. split; auto. split; auto.
  intros i z j n Hi Hj. destruct (Row i z Hi) as (row & H1 & H2 & H3). destruct (H3 j n Hj) as (m & H4 & H5). eauto 8.
Qed.

(** Flux limits at any redshift of the grid's range. *)
Lemma flux_between cub bq sun vega d wave rows r0 r1 nz n c z x xs ys r w yy a b : splines cub -> dget d n = Some r ->
  band cub bq sun vega xs ys r w yy -> StronglySorted Rlt wave -> (4 <= length wave)%nat -> Forall (fun t => 0 < t) wave ->
  rect (length wave) rows -> length c = length rows -> -1 < r0 < r1 -> (2 <= nz)%nat ->
  (forall z0, In z0 (redshift_grid r0 r1 nz) -> overlaps w (seen_wave z0 wave) /\ brackets w (seen_wave z0 wave)) ->
  (forall t, nth 0 w 0 <= t <= last w 0 -> 0 <= spline cub w yy t) -> (exists t, In t w /\ 0 < spline cub w yy t) ->
  (forall t, nth 0 wave 0 <= t <= last wave 0 ->
     a * ab_flux t <= spline cub wave (combined (length wave) rows c) t <= b * ab_flux t) ->
  model_flux cub d wave (length wave) rows (redshift_grid r0 r1 nz) n c z x -> a * (1 + z) <= x <= b * (1 + z).
Proof.
  intros Hc Hd HB Hs H4 Hp Hr Lc Hr0 Hnz Ho Hpos Hex Hab HM.
  assert (C1 : combined (length wave) [combined (length wave) rows c] [1] = combined (length wave) rows c).
  { apply nth_ext with (d := 0) (d' := 0); rewrite !combined_length; auto. intros i Hi. unfold combined at 1. rewrite nth_map_seq by lia.
    unfold dot. cbn [map zip fold_right]. lra. }
  assert (HM1 : model_flux cub d wave (length wave) [combined (length wave) rows c] (redshift_grid r0 r1 nz) n [1] z x).
  { eapply flux_combined; eauto; try lra. repeat constructor. apply combined_length. }
  destruct HM1 as (i & z0 & z1 & l0 & l1 & u & G0 & G1 & Hu & -> & P0 & P1 & ->).
  assert (PB : forall zi l k, nth_error (redshift_grid r0 r1 nz) k = Some zi -> photometry cub d wave (length wave) [combined (length wave) rows c] n zi l ->
     exists m, l = [m] /\ a * (1 + zi) <= m <= b * (1 + zi)).
  { intros zi l k Gk Pk. assert (In zi (redshift_grid r0 r1 nz)) by (eapply nth_error_In; eauto). destruct (Ho zi H) as [O1 O2].
    assert (Hzi : -1 < zi) by (pose proof (grid_above _ _ _ _ _ (proj2 Hr0) Hnz Gk); lra).
    exact (photometry_between cub bq sun vega d wave _ n zi xs ys r w yy a b l Hc Hd HB Hs H4 Hp (combined_length _ _ _) Hzi O1 O2 Hpos Hex Hab Pk). }
  destruct (PB _ _ _ G0 P0) as (m0 & -> & M0), (PB _ _ _ G1 P1) as (m1 & -> & M1).
  unfold dot. cbn [zip fold_right]. nra.
Qed.

(** A point of least squared distance to (1, ..., 1) along its own ray. *)
Lemma ray_min (p : list R) : (forall t, 0 <= t -> chi2 (repeat 1 (length p)) (repeat 1 (length p)) p <= chi2 (repeat 1 (length p)) (repeat 1 (length p)) (map (Rmult t) p)) ->
  dot p p = fold_right Rplus 0 p.
Proof.
  intro H.
  assert (Q : forall t, chi2 (repeat 1 (length p)) (repeat 1 (length p)) (map (Rmult t) p) = INR (length p) - 2 * t * fold_right Rplus 0 p + t * t * dot p p).
  { intro t. clear H. induction p as [|x p IH]; [unfold chi2, dot; cbn; lra|]. unfold chi2, dot, vsub in *. cbn [length repeat zip map fold_right] in *.
    rewrite IH. rewrite S_INR. ring. }
  assert (Q1 : chi2 (repeat 1 (length p)) (repeat 1 (length p)) p = INR (length p) - 2 * fold_right Rplus 0 p + dot p p).
  { specialize (Q 1). assert (E1 : map (Rmult 1) p = p) by (rewrite <- (map_id p) at 2; apply map_ext; intro; lra). rewrite E1 in Q. rewrite Q. lra. }
  rewrite Q1 in H. set (S := fold_right Rplus 0 p) in *. set (D := dot p p) in *.
  assert (D0 : 0 <= D).
  { unfold D, dot. clear. induction p as [|x p IH]; cbn [zip fold_right]; [lra|]. nra. }
  assert (HH : forall t, 0 <= t -> 0 <= (1 - t) * (2 * S - D - t * D)) by (intros t Ht; specialize (H t Ht); rewrite Q in H; nra).
  destruct (Req_dec D S) as [|NE]; auto. exfalso.
  destruct (Req_dec D 0) as [Z|NZ].
  - assert (S = 0); [|lra]. unfold S. clear - Z. unfold D, dot in Z. revert Z. induction p as [|x p IH]; cbn [zip fold_right]; auto. intro Z.
    assert (0 <= fold_right Rplus 0 (zip Rmult p p)) by (clear; induction p as [|y p IH]; cbn [zip fold_right]; [lra|nra]).
    rewrite IH by nra. nra.
  - destruct (Rlt_dec S D).
    + (* shrink *) destruct (Rlt_dec S 0).
      * specialize (HH 0 ltac:(lra)). nra.
      * specialize (HH ((S / D + 1) / 2)). assert (0 <= S / D < 1) by (split; [apply Rmult_le_pos; [lra|left; apply Rinv_0_lt_compat; lra]|apply Rmult_lt_reg_r with D; [lra|unfold Rdiv; rewrite Rmult_assoc, Rinv_l by lra; lra]]).
        specialize (HH ltac:(lra)). assert (E : S = S / D * D) by (field; lra). set (q := S / D) in *. rewrite E in HH. nra.
    + specialize (HH ((S / D + 1) / 2)). assert (1 < S / D) by (apply Rmult_lt_reg_r with D; [lra|unfold Rdiv; rewrite Rmult_assoc, Rinv_l by lra; lra]).
      specialize (HH ltac:(lra)). assert (E : S = S / D * D) by (field; lra). set (q := S / D) in *. rewrite E in HH. nra.
Qed.

(** What the fit programs compute. *)
Definition v4_obj : obj R := {| o_z := v4_z; o_m := repeat 1 7; o_iv := repeat 1 7 |}.
Lemma v4_zR : (v4_z : R) = 0.0532.
Proof. unfold v4_z. rcbn. unfold Q2R. cbn. lra. Qed.
Lemma v4_grid : redshift_grid (nlit 0) (nlit (1 # 10)) 100 = redshift_grid 0 (1 / 10) 100.
Proof. f_equal; rcbn; unfold Q2R; cbn; lra. Qed.
Lemma v4_in_range (A : atab R) : a_x A = redshift_grid 0 (1 / 10) 100 -> FitSpec.in_range (a_x A) v4_z.
Proof.
  intro HX. destruct (L_C36_grid 0 (1/10) 100 ltac:(lia) ltac:(lra)) as (_ & _ & G0 & G1 & _).
  unfold FitSpec.in_range. rewrite HX, G0, G1, v4_zR. lra.
Qed.

Lemma v4_built cub bq sun vega fs d (s : sed R) d' F w rows :
  set_Amatrix cub bq sun vega fs d (Fitter Plain false v4_names s (nlit 0) (nlit (1 # 10)) 100) = (d', F, None) ->
  s_rflux s = table w rows -> rect w rows -> rows <> [] ->
  extends d d' /\ no_ab F /\ s_wave (f_sed F) = s_rwave s /\ s_flux (f_sed F) = table w rows /\
  exists A, ready F A 7 (length rows) /\ a_x A = redshift_grid 0 (1 / 10) 100 /\ grid_ok (a_x A) /\
    forall i z, nth_error (a_x A) i = Some z -> forall j n, nth_error v4_names j = Some n ->
      exists l, photometry cub d' (s_rwave s) w rows n z l /\ length l = length rows /\
        nth_error (chunks 7 (length rows) (nth i (a_rows A) [])) j = Some l.
Proof.
  intros H Hf Hr Hne. pose proof H as HS.
  assert (HO : in_order (redshift_grid 0 (1/10) 100)) by (apply grid_in_order, grid_sorted; [lia|lra]).
  assert (H2 : (2 <= length (redshift_grid 0%R (1/10)%R 100))%nat) by (rewrite FitReal.grid_length; lia).
  unfold Fitter in H. rewrite v4_grid in H. 
  destruct (L_C36_table R Num_R cub bq sun vega fs d {| f_kind := Plain; f_abc := false; f_resp := v4_names; f_sed := s; f_zs := redshift_grid 0 (1 / 10) 100; f_A := None |}
    d' F w rows cstR Hf Hr Hne HO H2 H) as (_ & K1 & K2 & A & HR & HX & _).
  unfold set_Amatrix in H. cbn [f_resp f_zs f_sed f_kind f_abc] in H.
  destruct (calc_A cub bq sun vega fs v4_names (redshift_grid 0 (1/10) 100) d s) as [[d0 s0] [A0|e]] eqn:EC; [|discriminate].
  injection H as <- <-. pose proof HR as (EA & _). cbn [f_A] in EA. injection EA as ->. cbn [f_sed].
  destruct (calc_A_again cub bq sun vega fs fs v4_names (redshift_grid 0 (1/10) 100) d d0 d0 s s s0 A (same_rest_refl s)) as (_ & _ & HE & HRs); auto; [intros ? ? ?; auto|].
  split; auto. split; [left; auto|].
  assert (HZ : s_wave s0 = s_rwave s /\ s_flux s0 = table w rows).
  { pose proof EC as EC'. unfold calc_A in EC'. destruct (load_all cub bq sun vega fs v4_names d) as [d1 [e|]]; [discriminate|].
    destruct (z_loop cub d1 v4_names (redshift_grid 0 (1/10) 100) s) as [s1 [tab|e]] eqn:EZ; [|discriminate].
    destruct (mk_linear _ _) as [A1|] eqn:EM; [|discriminate].
    destruct (set_redshift s1 n0) as [s2 [e|]] eqn:ES; [discriminate|]. injection EC' as _ <- _.
    apply z_loop_spec in EZ as (_ & R1 & R2 & _). apply set_redshift_at_z in ES as (_ & _ & _ & _ & _ & W & Fl & _).
    rewrite W, Fl, R1, R2, Hf, map1_table. split.
    - rewrite <- (map_id (s_rwave s)) at 2. apply map_ext. intro x. rcbn. lra.
    - f_equal. rewrite <- (map_id rows) at 2. apply map_ext. intro f. rewrite <- (map_id f) at 2. apply map_ext. intro x. rcbn. field. }
  destruct HZ as [HZ1 HZ2]. split; auto. split; auto.
  exists A. split; [exact HR|]. split; [exact HX|]. rewrite HX. cbn [f_zs]. split; [apply grid_sorted; [lia|lra]|].
  intros i z Hi j n Hj. exact (calc_A_entries _ _ _ _ _ _ _ _ _ _ _ _ _ _ Hf Hr Hne HO H2 EC i z j n Hi Hj).
Qed.
