(** What the instrument classes fit (C110): the proofs. *)
From Coq Require Import String List Arith Lia Bool ZArith QArith Qreals Reals Lra Sorting.Sorted.
From Verif Require Import Base BaseLemmas Num Toy Interp InterpReal Spec Utils Sed Response RespDict LinInterp ResponseEx
  Fitter FitSpec FitterProofs FitterMC FitReal FitTable FitEx FitRealEx FitterThms FitRealThms Kcorrect KSpec NnlsSpec NnlsExact NnlsEx
  NnlsThms BuildSpec BuildEx PipeSpec PipeEx CatSpec InstrSpec InstrEx.
Import ListNotations.
Local Open Scope R_scope.
(* STATEMENTS *)
From Verif Require Import UtilsReal AbProofs KcorrectThms AbThms BuildProofs BuildTable PipeProofs PipeEx PipeThms CatThms InstrProofs.

Lemma fit_in_ab nnls rng (F : fitter R) A nb nt o cur : f_abc F = true -> ready F A nb nt -> obj_ok nb o -> ab_bands (f_kind F) nb ->
  fit_object nnls rng F 0 o cur = fit_object nnls rng (without_ab F) 0 (in_ab (f_kind F) o) cur.
Proof.
  intros Ha (HA & Hr & Hn & Ht) (Lm & Li) Hb. unfold fit_object.
  rewrite (L_C61_fit R _ nnls rng F (scal (o_z o)) (vec (o_m o)) (Some (vec (o_iv o))) 0 cur); auto.
  2:{ left. rewrite Hr, Hn. split; [reflexivity|]. split; [|split; [|apply none_shape]]; apply some_shape; unfold vec; cbn [shp]; congruence. }
  rewrite to_ab_R by congruence. reflexivity.
Qed.
Lemma ready_without (F : fitter R) A nb nt : ready F A nb nt -> ready (without_ab F) A nb nt.
Proof. intro H. exact H. Qed.
Lemma in_ab_ok k nb o : obj_ok nb o -> obj_ok nb (in_ab k o).
Proof. intros [H1 H2]. split; cbn [in_ab o_m o_iv]; rewrite map_length, seq_length; auto. Qed.

Lemma rec_without (F : fitter R) z c bs : reconstruct (without_ab F) z c bs = reconstruct F z c bs.
Proof. unfold reconstruct. cbn [f_A without_ab]. apply recon_ab. Qed.
Lemma rec_length (F : fitter R) A nb nt z c p : ready F A nb nt -> in_range (a_x A) z -> length c = nt ->
  reconstruct F (Some (scal z)) (Some (vec c)) 0 = Ok (vec p) -> length p = nb.
Proof.
  intros HF Hz L E. rewrite (model_eq F A nb nt _ _ HF) in E by auto. injection E as E _.
  rewrite <- E. unfold mulmv. rewrite map_length, length_chunks. auto.
Qed.

Lemma s_fit o : obj_ok 5 o -> in_range (a_x s_tab) (o_z o) ->
  exists c, fit_object nnls_exact (fun _ => 0) s_fitter 0 o 0 = Ok (Bare (vec c), 0%nat).
Proof.
  intros Ho Hz. rewrite (fit_in_ab nnls_exact (fun _ => 0) s_fitter s_tab 5 1 o 0); auto; try apply s_ready; try reflexivity.
  destruct (exact_fit (fun _ => 0) (without_ab s_fitter) s_tab 5 1 (in_ab (f_kind s_fitter) o) 0) as (c & _ & Ec); auto using in_ab_ok, s_ready;
    [left; reflexivity|]. exists c. exact Ec.
Qed.
Lemma s_fit1 o : obj_ok 5 o -> in_range (a_x s_tab) (o_z o) ->
  exists c, fit_object nnls1 (fun _ => 0) s_fitter 0 o 0 = Ok (Bare (vec c), 0%nat).
Proof.
  intros Ho Hz. rewrite (fit_in_ab nnls1 (fun _ => 0) s_fitter s_tab 5 1 o 0); auto; try apply s_ready; try reflexivity.
  destruct (fit_eq nnls1 (fun _ => 0) (without_ab s_fitter) s_tab 5 1 (in_ab (f_kind s_fitter) o) 0) as (_ & _ & _ & ->); auto using in_ab_ok, s_ready;
    [left; reflexivity|]. unfold nnls1. cbn [Nat.eqb]. eexists. reflexivity.
Qed.

(** C110.  The coefficients that fit_coeffs of an object with abcorrect=True returns are nonnegative and the best ones in
    the system of the instrument: chi^2 of the photometry as given and the fluxes of the templates converted to that system
    is minimal. *)
Lemma L_C110_optimal :
  forall nnls rng (F : fitter R) A nb nt o cur c cur',
    nnls_contract nnls -> f_abc F = true -> ab_bands (f_kind F) nb -> ready F A nb nt -> nb <> 1%nat -> obj_ok nb o ->
    nonneg (o_iv o) -> in_range (a_x A) (o_z o) ->
    fit_object nnls rng F 0 o cur = Ok (Bare (vec c), cur') ->
    length c = nt /\ nonneg c /\
    exists p, reconstruct F (Some (scal (o_z o))) (Some (vec c)) 0 = Ok (vec p) /\
      forall y, length y = nt -> nonneg y ->
        exists q, reconstruct F (Some (scal (o_z o))) (Some (vec y)) 0 = Ok (vec q) /\
                  chi2 (o_iv o) (o_m o) (in_system (f_kind F) p) <= chi2 (o_iv o) (o_m o) (in_system (f_kind F) q).
Proof.
  intros nnls rng F A nb nt o cur c cur' HN Ha Hb HF H1 Ho Hv Hz E.
  rewrite (fit_in_ab nnls rng F A nb nt o cur Ha HF Ho Hb) in E.
  destruct (L_C28_optimal nnls rng (without_ab F) A nb nt (in_ab (f_kind F) o) cur c cur') as (Lc & Nc & p & Hp & HO); auto using in_ab_ok.
  - left; reflexivity.
  - cbn [in_ab o_iv]. apply nonneg_ab; auto.
  - rewrite rec_without in Hp. change (o_z (in_ab (f_kind F) o)) with (o_z o) in *.
    split; auto. split; auto. exists p. split; [exact Hp|]. intros y Ly Ny. destruct (HO y Ly Ny) as (q & Hq & Hc).
    rewrite rec_without in Hq. exists q. split; [exact Hq|]. destruct Ho as [Lm Li].
    pose proof (rec_length _ _ _ _ _ _ _ HF Hz Lc Hp). pose proof (rec_length _ _ _ _ _ _ _ HF Hz Ly Hq). rewrite !chi2_ab in Hc by congruence. exact Hc.
Qed.
Lemma E_C110_optimal : exists c,
  nnls_contract nnls_exact /\ f_abc s_fitter = true /\ ab_bands (f_kind s_fitter) 5 /\ ready s_fitter s_tab 5 1 /\
  obj_ok 5 {| o_z := 1 / 2; o_m := [2; 6; 1; 3; 0]; o_iv := [1; 4; 0; 2; 1] |} /\ in_range (a_x s_tab) (1 / 2) /\
  fit_object nnls_exact (fun _ => 0) s_fitter 0 {| o_z := 1 / 2; o_m := [2; 6; 1; 3; 0]; o_iv := [1; 4; 0; 2; 1] |} 0 = Ok (Bare (vec c), 0%nat).
Proof.
  destruct (s_fit {| o_z := 1 / 2; o_m := [2; 6; 1; 3; 0]; o_iv := [1; 4; 0; 2; 1] |}) as [c Hc]; [split; reflexivity|unfold in_range; cbn; lra|].
  exists c. split; [apply nnls_exact_contract|]. split; [reflexivity|]. split; [reflexivity|]. split; [apply s_ready|].
  split; [split; reflexivity|]. split; [unfold in_range; cbn; lra|exact Hc].
Qed.

(** The fluxes of the fit in the measured bands do not depend on which exact solver is used. *)
Lemma L_C110_unique :
  forall nnls nnls' rng rng' (F : fitter R) A nb nt o cur cur1 c cur1' c' cur' p p',
    nnls_contract nnls -> nnls_contract nnls' -> f_abc F = true -> ab_bands (f_kind F) nb -> ready F A nb nt -> nb <> 1%nat -> obj_ok nb o ->
    nonneg (o_iv o) -> in_range (a_x A) (o_z o) ->
    fit_object nnls rng F 0 o cur = Ok (Bare (vec c), cur1) ->
    fit_object nnls' rng' F 0 o cur1' = Ok (Bare (vec c'), cur') ->
    reconstruct F (Some (scal (o_z o))) (Some (vec c)) 0 = Ok (vec p) ->
    reconstruct F (Some (scal (o_z o))) (Some (vec c')) 0 = Ok (vec p') ->
    same_measured (o_iv o) p p'.
Proof.
  intros nnls nnls' rng rng' F A nb nt o cur cur1 c cur1' c' cur' p p' HN HN' Ha Hb HF H1 Ho Hv Hz E E' R1 R2.
  rewrite (fit_in_ab nnls rng F A nb nt o cur Ha HF Ho Hb) in E. rewrite (fit_in_ab nnls' rng' F A nb nt o cur1' Ha HF Ho Hb) in E'.
  rewrite <- rec_without in R1, R2.
  destruct (L_C81_unique nnls nnls' rng rng' (without_ab F) A nb nt (in_ab (f_kind F) o) cur cur1 c cur1' c' cur' p p') as [L M]; auto using in_ab_ok.
  - left; reflexivity.
  - cbn [in_ab o_iv]. apply nonneg_ab; auto.
  - split; auto. intros i w a b Hw Pw. apply (M i (w / pow10 (-0.4 * ab_offsets (f_kind F) i) ^ 2)).
    + cbn [in_ab o_iv]. apply iv_ab_nth; auto.
    + apply Rdiv_lt_0_compat; auto. apply pow_lt, pow10_pos.
Qed.
Lemma E_C110_unique : exists c c',
  let o := {| o_z := 1 / 2; o_m := [2; 6; 1; 3; 0]; o_iv := [1; 4; 0; 2; 1] |} in
  nnls_contract nnls_exact /\ nnls_contract nnls1 /\ f_abc s_fitter = true /\ ab_bands (f_kind s_fitter) 5 /\ ready s_fitter s_tab 5 1 /\
  fit_object nnls_exact (fun _ => 0) s_fitter 0 o 0 = Ok (Bare (vec c), 0%nat) /\
  fit_object nnls1 (fun _ => 0) s_fitter 0 o 0 = Ok (Bare (vec c'), 0%nat).
Proof.
  destruct E_C110_optimal as (c & H1 & H2 & H3 & H4 & H5 & H6 & H7). destruct (s_fit1 _ H5 H6) as [c' Hc']. exists c, c'. cbv zeta.
  split; auto. split; [apply nnls1_contract|]. auto 10.
Qed.

(** The fit is stable in the system of the instrument: chi^2 of the fluxes of two fits, with the same redshift and inverse
    variances, is at most that of the photometry. *)
Lemma L_C110_stable :
  forall nnls rng (F : fitter R) A nb nt z iv m1 m2 cur1 c1 cur1' cur2 c2 cur2' p1 p2,
    nnls_contract nnls -> f_abc F = true -> ab_bands (f_kind F) nb -> ready F A nb nt -> nb <> 1%nat ->
    length m1 = nb -> length m2 = nb -> length iv = nb -> nonneg iv -> in_range (a_x A) z ->
    fit_object nnls rng F 0 {| o_z := z; o_m := m1; o_iv := iv |} cur1 = Ok (Bare (vec c1), cur1') ->
    fit_object nnls rng F 0 {| o_z := z; o_m := m2; o_iv := iv |} cur2 = Ok (Bare (vec c2), cur2') ->
    reconstruct F (Some (scal z)) (Some (vec c1)) 0 = Ok (vec p1) ->
    reconstruct F (Some (scal z)) (Some (vec c2)) 0 = Ok (vec p2) ->
    chi2 iv (in_system (f_kind F) p1) (in_system (f_kind F) p2) <= chi2 iv m1 m2.
Proof.
  intros nnls rng F A nb nt z iv m1 m2 cur1 c1 cur1' cur2 c2 cur2' p1 p2 HN Ha Hb HF H1 L1 L2 Li Hv Hz E1 E2 R1 R2.
  assert (O1 : obj_ok nb {| o_z := z; o_m := m1; o_iv := iv |}) by (split; auto).
  assert (O2 : obj_ok nb {| o_z := z; o_m := m2; o_iv := iv |}) by (split; auto).
  destruct (L_C110_optimal nnls rng F A nb nt _ cur1 c1 cur1' HN Ha Hb HF H1 O1 Hv Hz E1) as (Lc1 & _).
  destruct (L_C110_optimal nnls rng F A nb nt _ cur2 c2 cur2' HN Ha Hb HF H1 O2 Hv Hz E2) as (Lc2 & _).
  pose proof (rec_length _ _ _ _ _ _ _ HF Hz Lc1 R1). pose proof (rec_length _ _ _ _ _ _ _ HF Hz Lc2 R2).
  rewrite (fit_in_ab nnls rng F A nb nt _ cur1 Ha HF O1 Hb) in E1. rewrite (fit_in_ab nnls rng F A nb nt _ cur2 Ha HF O2 Hb) in E2.
  rewrite <- rec_without in R1, R2.
  assert (S := L_C81_stable nnls rng (without_ab F) A nb nt z (o_iv (in_ab (f_kind F) {| o_z := z; o_m := m1; o_iv := iv |}))
    (o_m (in_ab (f_kind F) {| o_z := z; o_m := m1; o_iv := iv |})) (o_m (in_ab (f_kind F) {| o_z := z; o_m := m2; o_iv := iv |}))
    cur1 c1 cur1' cur2 c2 cur2' p1 p2 HN (or_introl eq_refl) HF H1).
  cbn [in_ab o_m o_iv o_z] in S. rewrite !map_length, !seq_length in S.
  specialize (S L1 L2 Li (nonneg_ab _ _ Hv) Hz E1 E2 R1 R2).
  rewrite chi2_two in S by congruence.
  pose proof (chi2_ab (f_kind F) {| o_z := z; o_m := m1; o_iv := iv |} (o_m (in_ab (f_kind F) {| o_z := z; o_m := m2; o_iv := iv |}))) as X.
  cbn [in_ab o_m o_iv] in X. rewrite X in S by (rewrite ?map_length, ?seq_length; congruence).
  eapply Rle_trans; [exact S|]. apply Req_le. f_equal.
  apply nth_ext with (d := 0) (d' := 0); rewrite in_system_length, map_length, seq_length; auto. intros j Hj.
  rewrite in_system_nth by (rewrite map_length, seq_length; auto). rewrite nth_map_seq by auto. rewrite fac_inv.
  pose proof (fac_pos (f_kind F) j). field. lra.
Qed.
Lemma E_C110_stable : exists c1 c2,
  fit_object nnls_exact (fun _ => 0) s_fitter 0 {| o_z := 1 / 2; o_m := [2; 6; 1; 3; 0]; o_iv := [1; 4; 0; 2; 1] |} 0 = Ok (Bare (vec c1), 0%nat) /\
  fit_object nnls_exact (fun _ => 0) s_fitter 0 {| o_z := 1 / 2; o_m := [1; 6; 9; 3; 0]; o_iv := [1; 4; 0; 2; 1] |} 0 = Ok (Bare (vec c2), 0%nat) /\
  nonneg [1; 4; 0; 2; 1] /\ chi2 [1; 4; 0; 2; 1] [2; 6; 1; 3; 0] [1; 6; 9; 3; 0] = 1.
Proof.
  destruct (s_fit {| o_z := 1 / 2; o_m := [2; 6; 1; 3; 0]; o_iv := [1; 4; 0; 2; 1] |}) as [c Hc]; [split; reflexivity|unfold in_range; cbn; lra|].
  destruct (s_fit {| o_z := 1 / 2; o_m := [1; 6; 9; 3; 0]; o_iv := [1; 4; 0; 2; 1] |}) as [c' Hc']; [split; reflexivity|unfold in_range; cbn; lra|].
  exists c, c'. split; auto. split; auto. split; [repeat constructor; lra|]. unfold chi2, vsub. cbn [zip fold_right]. lra.
Qed.

(** If the photometry, in the system of the instrument, is exactly that of a nonnegative combination of the templates, the
    fit reproduces it; and if the measured bands tell the templates apart, it is that combination. *)
Lemma L_C110_recovered :
  forall cub bq sun vega fs d k (s : sed R) t out map_ r0 r1 nz d' s' K w rows nnls rng z l c0 cur c cur',
    Kcorrect cub bq sun vega fs d k true (map o_name l) s t out map_ r0 r1 nz = (d', s', Ok K) -> ab_bands k (length l) ->
    s_rflux s = table w rows -> rect w rows -> rows <> [] -> r0 < r1 -> (2 <= nz)%nat -> r0 <= z <= r1 ->
    length l <> 1%nat -> nnls_contract nnls -> Forall (fun b => 0 <= o_ivar b) l ->
    let flux := model_flux cub d' (s_rwave s) w rows (redshift_grid r0 r1 nz) in
    length c0 = length rows -> nonneg c0 ->
    (forall j b, nth_error l j = Some b -> 0 < o_ivar b -> flux (o_name b) c0 z (o_mag b * pow10 (-0.4 * ab_offsets k j))) ->
    fit_object nnls rng (k_fit K) 0 (observed z l) cur = Ok (Bare (vec c), cur') ->
    (forall j b, nth_error l j = Some b -> 0 < o_ivar b -> flux (o_name b) c z (o_mag b * pow10 (-0.4 * ab_offsets k j))) /\
    (told_apart flux (length rows) z l -> c = c0).
Proof.
  intros cub bq sun vega fs d k s t out map_ r0 r1 nz d' s' K w rows nnls rng z l c0 cur c cur' B Hb Hf Hr Hne Hrr Hnz Hz N1 HC V flux Lc0 Nc0 Hflux E.
  destruct (built_tables _ _ _ _ _ _ _ _ _ _ _ _ _ _ _ _ _ _ _ w rows B Hf Hr Hne Hrr Hnz) as (A & Ao & HR & _).
  pose proof (L_C40_mapping R Num_R _ _ _ _ _ _ _ _ _ _ _ _ _ _ _ _ _ _ _ B) as (_ & _ & _ & _ & _ & Ek & Ea & _).
  destruct HR as (HF & _). rewrite map_length in HF.
  rewrite (fit_in_ab nnls rng (k_fit K) A (length l) (length rows) (observed z l) cur Ea HF) in E;
    [|split; cbn [observed o_m o_iv]; rewrite map_length; auto|rewrite Ek; auto].
  rewrite Ek, in_ab_observed in E. apply built_without_ab in B.
  rewrite <- (ab_names k l) in B.
  destruct (L_C88_recovered _ _ _ _ _ _ _ _ _ _ _ _ _ _ _ _ _ w rows nnls rng z (ab_obs k l) c0 cur c cur' B) as [P Q]; auto.
  - rewrite ab_length; auto.
  - apply ab_ivar; auto.
  - intros b Hin Pb. apply In_nth_error in Hin as [j Hj]. rewrite ab_nth in Hj. destruct (nth_error l j) as [b0|] eqn:E0; [|discriminate].
    injection Hj as <-. apply (Hflux j b0 E0). unfold o_ivar in Pb. cbn in Pb. apply ab_ivar_pos in Pb. exact Pb.
  - split.
    + intros j b Hj Pb. apply (P (o_name b, (o_mag b * pow10 (-0.4 * ab_offsets k j), o_ivar b / pow10 (-0.4 * ab_offsets k j) ^ 2))).
      * apply nth_error_In with j. rewrite ab_nth, Hj. reflexivity.
      * unfold o_ivar at 1. cbn [snd]. apply ab_ivar_pos. auto.
    + intro T. apply Q. intros y Ly Hy. apply (T y Ly). intros b Hin Pb. apply In_nth_error in Hin as [j Hj].
      apply (Hy (o_name b, (o_mag b * pow10 (-0.4 * ab_offsets k j), o_ivar b / pow10 (-0.4 * ab_offsets k j) ^ 2))).
      * apply nth_error_In with j. rewrite ab_nth, Hj. reflexivity.
      * unfold o_ivar at 1. cbn [snd]. apply ab_ivar_pos. auto.
Qed.
Lemma E_C110_recovered : exists d0 s0 d s K x c,
  let m := fun j => 2 * x / pow10 (-0.4 * ab_offsets SDSS j) in
  let l := map (fun j => ("u"%string, (m j, 1))) (seq 0 5) in
  let flux := model_flux lin d (s_rwave r_sed1) 6 [[1;1;2;2;1;1]] (redshift_grid 0 1 2) in
  Kcorrect lin bq0 sun0 sun0 r_files d0 SDSS true (map o_name l) s0 r_tmpl None None 0 1 2 = (d, s, Ok K) /\ ab_bands SDSS (length l) /\
  s_rwave s0 = s_rwave r_sed1 /\ s_rflux s0 = table 6 [[1;1;2;2;1;1]] /\
  nnls_contract nnls_exact /\ Forall (fun b => 0 < o_mag b /\ 0 < o_ivar b) l /\ nonneg [2] /\
  (forall j b, nth_error l j = Some b -> flux (o_name b) [2] 0 (o_mag b * pow10 (-0.4 * ab_offsets SDSS j))) /\ told_apart flux 1 0 l /\
  fit_object nnls_exact (fun _ => 0) (k_fit K) 0 (observed 0 l) 0 = Ok (Bare (vec c), 0%nat).
Proof.
  destruct r_object as (r & d1 & s1 & K1 & x & Hr & H1 & He & (W & F & Hrest) & Hx & Fx).
  set (m := fun j => 2 * x / pow10 (-0.4 * ab_offsets SDSS j)). set (l := map (fun j => ("u"%string, (m j, 1))) (seq 0 5)).
  assert (Hm : forall j, 0 < m j) by (intro j; unfold m; apply Rdiv_lt_0_compat; [lra|apply pow10_pos]).
  destruct (real_build lin bq0 sun0 sun0 r_files d1 SDSS true (map o_name l) s1 r_tmpl None None 0 1 2 [[1;1;2;2;1;1]]) as (d & s & K & HK); auto; try lra; try discriminate.
  - intros n Hn. assert (n = "u"%string) as -> by (cbn in Hn; intuition). left. exists r. split; [apply He; reflexivity|].
    eapply Response_curve. apply Hr.
  - rewrite W. apply sorted_wide.
  - rewrite W. cbn. lia.
  - rewrite W, F. reflexivity.
  - rewrite W. repeat constructor.
  - destruct (built_after _ _ _ _ _ _ _ _ _ _ _ _ _ _ _ _ _ _ _ HK) as [He2 _].
    destruct (built_tables _ _ _ _ _ _ _ _ _ _ _ _ _ _ _ _ _ _ _ 6%nat [[1;1;2;2;1;1]] HK) as (A & Ao & HR & X1 & _);
      try lra; try discriminate; [rewrite F; reflexivity|repeat constructor|lia|].
    destruct HR as (HF & _). destruct (L_C36_grid 0 1 2 (le_n 2) ltac:(lra)) as (_ & HG & G0 & G1 & _).
    pose proof (L_C40_mapping R Num_R _ _ _ _ _ _ _ _ _ _ _ _ _ _ _ _ _ _ _ HK) as (_ & _ & _ & _ & _ & Ek & Ea & _).
    assert (Hz : in_range (a_x A) 0) by (unfold in_range; rewrite X1, G0, G1; lra).
    destruct (exact_fit (fun _ => 0) (without_ab (k_fit K)) A 5 1 (in_ab SDSS (observed 0 l)) 0) as (c & _ & Ec); auto.
    { left; reflexivity. }
    { apply in_ab_ok. split; reflexivity. }
    assert (Fl : model_flux lin d (s_rwave r_sed1) 6 [[1;1;2;2;1;1]] (redshift_grid 0 1 2) "u" [1] 0 x) by (eapply flux_ext; eauto).
    exists d1, s1, d, s, K, x, c. cbv zeta. fold m. fold l. split; [exact HK|]. split; [reflexivity|].
    split; [exact W|]. split; [rewrite F; reflexivity|]. split; [apply nnls_exact_contract|].
    split. { unfold l. apply Forall_map, Forall_forall. intros j _. unfold o_mag, o_ivar; cbn [fst snd]. split; [apply Hm|lra]. }
    split; [repeat constructor; lra|]. split.
    { intros j b Hj. unfold l in Hj. rewrite nth_error_map in Hj. destruct (nth_error (seq 0 5) j) as [i|] eqn:Ei; [|discriminate].
      rewrite nth_error_seq in Ei. destruct (Nat.ltb j 5); [|discriminate]. injection Ei as <-. injection Hj as <-.
      unfold o_name, o_mag, m; cbn [fst snd Nat.add]. unfold Rdiv. rewrite Rmult_assoc, Rinv_l by (pose proof (pow10_pos (-0.4 * ab_offsets SDSS j)); lra).
      apply (flux_scale _ _ _ _ _ _ _ _ _ 2) in Fl. cbn [map] in Fl. rewrite !Rmult_1_r in *. exact Fl. }
    split. { apply r_told with (x := x); auto. eexists. split; [left; reflexivity|]. split; [reflexivity|]. unfold o_ivar. cbn. lra. }
    rewrite (fit_in_ab nnls_exact (fun _ => 0) (k_fit K) A 5 1 (observed 0 l) 0 Ea HF); [|split; reflexivity|rewrite Ek; reflexivity].
    rewrite Ek. exact Ec.
Qed.

(** ... and then the absolute magnitudes of KcorrectSDSS and KcorrectGST are the true AB ones: -2.5 log10 of the flux of
    [c0] in the output band at redshift band_shift over 1+band_shift, minus the distance modulus. *)
Lemma L_C110_absmag :
  forall cub bq sun vega fs d k (s : sed R) t out map_ r0 r1 nz d' s' K w rows nnls rng z l c0 cur c cur' distmod lim kc dist bs,
    Kcorrect cub bq sun vega fs d k true (map o_name l) s t out map_ r0 r1 nz = (d', s', Ok K) -> ab_bands k (length l) ->
    s_rflux s = table w rows -> rect w rows -> rows <> [] -> r0 < r1 -> (2 <= nz)%nat -> r0 <= z <= r1 ->
    length l <> 1%nat -> nnls_contract nnls -> Forall (fun b => 0 < o_mag b /\ 0 < o_ivar b) l ->
    let flux := model_flux cub d' (s_rwave s) w rows (redshift_grid r0 r1 nz) in
    length c0 = length rows -> nonneg c0 ->
    (forall j b, nth_error l j = Some b -> flux (o_name b) c0 z (o_mag b * pow10 (-0.4 * ab_offsets k j))) ->
    told_apart flux (length rows) z l -> 0 < fold_right Rplus 0 c0 -> r0 <= bs <= r1 -> -1 < bs ->
    fit_object nnls rng (k_fit K) 0 (observed z l) cur = Ok (Bare (vec c), cur') ->
    exists v a,
      absmag_object distmod K bs false false lim kc
        {| ko_z := z; ko_m := map o_mag l; ko_iv := map o_ivar l; ko_c := c; ko_d := dist |} = Ok a /\
      nth_error (parts a) 0 = Some (vec v) /\ length v = length (k_out K) /\
      forall j n, nth_error (k_out K) j = Some n -> exists y, flux n c0 bs y /\
        (0 < y -> nth_error v j = Some (-5/2 * log10 (y / (1 + bs)) - distmod z)).
Proof.
  intros cub bq sun vega fs d k s t out map_ r0 r1 nz d' s' K w rows nnls rng z l c0 cur c cur' distmod lim kc dist bs
    B Hb Hf Hr Hne Hrr Hnz Hz N1 HC V flux Lc0 Nc0 Hflux T Hpos Hbs Hbs1 E.
  assert (V0 : Forall (fun b => 0 <= o_ivar b) l) by (eapply Forall_impl; [|exact V]; intros b [_ Hb0]; apply Rlt_le; exact Hb0).
  assert (Ec : c = c0) by (apply (proj2 (L_C110_recovered _ _ _ _ _ _ _ _ _ _ _ _ _ _ _ _ _ w rows nnls rng z l c0 cur c cur' B Hb Hf Hr Hne Hrr Hnz Hz N1 HC V0 Lc0 Nc0 (fun j b H _ => Hflux j b H) E)); exact T).
  destruct (built_tables _ _ _ _ _ _ _ _ _ _ _ _ _ _ _ _ _ _ _ w rows B Hf Hr Hne Hrr Hnz) as (A & Ao & HR & _).
  pose proof (L_C40_mapping R Num_R _ _ _ _ _ _ _ _ _ _ _ _ _ _ _ _ _ _ _ B) as (_ & _ & _ & _ & _ & Ek & Ea & _).
  destruct HR as (HF & _). rewrite map_length in HF.
  rewrite (fit_in_ab nnls rng (k_fit K) A (length l) (length rows) (observed z l) cur Ea HF) in E;
    [|split; cbn [observed o_m o_iv]; rewrite map_length; auto|rewrite Ek; auto].
  rewrite Ek, in_ab_observed in E. apply built_without_ab in B. rewrite <- (ab_names k l) in B.
  assert (TA : told_apart flux (length rows) z (ab_obs k l)).
  { intros y Ly Hy. apply (T y Ly). intros b Hin Pb. apply In_nth_error in Hin as [j Hj].
    apply (Hy (o_name b, (o_mag b * pow10 (-0.4 * ab_offsets k j), o_ivar b / pow10 (-0.4 * ab_offsets k j) ^ 2))).
    - apply nth_error_In with j. rewrite ab_nth, Hj. reflexivity.
    - unfold o_ivar at 1. cbn [snd]. apply ab_ivar_pos. auto. }
  destruct (L_C88_absmag _ _ _ _ _ _ _ _ _ _ _ _ _ _ _ _ _ w rows nnls rng z (ab_obs k l) c0 cur c cur' distmod lim kc dist bs B) as (v & a & HA & HP & HL & HV); auto.
  - rewrite ab_length; auto.
  - apply Forall_forall. intros b Hin. apply In_nth_error in Hin as [j Hj]. rewrite ab_nth in Hj. destruct (nth_error l j) as [b0|] eqn:E0; [|discriminate].
    injection Hj as <-. apply nth_error_In in E0. rewrite Forall_forall in V. destruct (V b0 E0) as [V1 V2]. unfold o_mag at 1, o_ivar at 1. cbn [fst snd].
    split; [apply Rmult_lt_0_compat; [exact V1|apply pow10_pos]|apply ab_ivar_pos; auto].
  - intros b Hin. apply In_nth_error in Hin as [j Hj]. rewrite ab_nth in Hj. destruct (nth_error l j) as [b0|] eqn:E0; [|discriminate].
    injection Hj as <-. apply (Hflux j b0 E0).
  - exists v, a. split; [|auto]. rewrite <- HA. unfold absmag_object. cbn [ko_z ko_m ko_iv ko_c ko_d].
    destruct HF as (_ & HF1 & HF2 & _).
    rewrite (L_C61_absmag R _ distmod K (vec (map o_mag l)) (Some (vec (map o_ivar l))) (scal z) (Some (vec c)) bs None false lim kc); auto.
    2:{ left. rewrite HF1, HF2. split; [reflexivity|]. split; [|split]; apply some_shape; unfold vec; cbn [shp]; rewrite ?map_length; congruence. }
    rewrite Ek, to_ab_R by (rewrite ?map_length; auto).
    pose proof (in_ab_observed k z l) as EO. pose proof (f_equal (@o_m R) EO) as E1. pose proof (f_equal (@o_iv R) EO) as E2.
    unfold in_ab, observed in E1, E2. cbn [o_z o_m o_iv] in E1, E2. rewrite E1, E2. reflexivity.
Qed.
Lemma E_C110_absmag : 0 < fold_right Rplus 0 [2] /\ exists d0 s0 d s K x c,
  let m := fun j => 2 * x / pow10 (-0.4 * ab_offsets SDSS j) in
  let l := map (fun j => ("u"%string, (m j, 1))) (seq 0 5) in
  let flux := model_flux lin d (s_rwave r_sed1) 6 [[1;1;2;2;1;1]] (redshift_grid 0 1 2) in
  Kcorrect lin bq0 sun0 sun0 r_files d0 SDSS true (map o_name l) s0 r_tmpl None None 0 1 2 = (d, s, Ok K) /\ ab_bands SDSS (length l) /\
  s_rwave s0 = s_rwave r_sed1 /\ s_rflux s0 = table 6 [[1;1;2;2;1;1]] /\
  nnls_contract nnls_exact /\ Forall (fun b => 0 < o_mag b /\ 0 < o_ivar b) l /\ nonneg [2] /\
  (forall j b, nth_error l j = Some b -> flux (o_name b) [2] 0 (o_mag b * pow10 (-0.4 * ab_offsets SDSS j))) /\ told_apart flux 1 0 l /\
  fit_object nnls_exact (fun _ => 0) (k_fit K) 0 (observed 0 l) 0 = Ok (Bare (vec c), 0%nat).
Proof. split; [cbn; lra|]. exact E_C110_recovered. Qed.
