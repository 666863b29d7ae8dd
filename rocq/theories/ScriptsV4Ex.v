(** The objects of the examples of C98 and C99: one response under the names of all bands, and constant spectra. *)
From Coq Require Import String List Arith Lia Bool ZArith QArith Qreals Reals Lra Sorting.Sorted Sorting.Permutation.
From Verif Require Import Base BaseLemmas Num Toy Interp InterpReal Spec Utils UtilsReal Sed Response RespDict ResponseObj ResponseProofs LinInterp ResponseThms ResponseEx
  Fitter FitSpec FitterProofs FitReal FitTable FitEx FitRealEx FitRealThms Kcorrect KSpec KTable AbsmagProofs AbsmagThms
  AbThms UtilsThms RespDictThms PersistThms BuildSpec BuildProofs BuildTable BuildEx BuildThms NnlsSpec NnlsExact NnlsThms
  Spline SplineSpec SplineProofs SplineThms ShiftSpec ShiftThms PipeSpec PipeProofs PipeEx BlendSpec BlendProofs BlendEx PlotThms Scripts ScriptsV4 ScriptsV4Proofs.
Import ListNotations.
Local Open Scope R_scope.

Definition v_cache (r : resp R) : dict (resp R) := map (fun n => (n, r)) v4_names.
Definition v_sed (rows : list (list R)) : sed R :=
  {| s_rwave := b_wave; s_rflux := table 6 rows; s_wave := b_wave; s_flux := table 6 rows; s_z := 0; s_flag := true; s_interp := None; s_bin := false |}.

Lemma v_band : exists r, band notaknot (bisect (1/1000)) sun0 sun0 [1;2;3;4] [0;1;1;0] r [1;2;3;4] [0;1;1;0].
Proof.
  apply (band_example notaknot (bisect (1/1000)) (1/1000) [0;1;1;0]); auto using L_C78_exists.
  - apply bisect_root_finder. lra.
  - apply Exists_cons_tl, Exists_cons_hd. lra.
Qed.
Lemma v_cached r n : In n v4_names -> dget (v_cache r) n = Some r.
Proof. intro H. cbn in H. repeat (destruct H as [<-|H]; [reflexivity|]). easy. Qed.
Lemma v_five n : In n sdss_responses -> In n v4_names.
Proof. intro H. unfold v4_names. apply in_or_app. auto. Qed.
Lemma v_obtainable r n : band notaknot (bisect (1/1000)) sun0 sun0 [1;2;3;4] [0;1;1;0] r [1;2;3;4] [0;1;1;0] -> In n v4_names ->
  obtainable notaknot (bisect (1/1000)) sun0 sun0 (fun _ => None) (v_cache r) n.
Proof. intros HB Hn. left. exists r. split; [apply v_cached; auto|]. eapply Response_curve. apply HB. Qed.

(** The curve of the response is the parabola (t-1)(4-t)/2. *)
Lemma v_parabola t : 1 <= t <= 4 -> spline notaknot [1;2;3;4] [0;1;1;0] t = (t - 1) * (4 - t) / 2.
Proof.
  intro Ht. pose proof (L_C78_cubics notaknot [1;2;3;4] {| q0 := -2; q1 := 5/2; q2 := -1/2; q3 := 0 |} t L_C78_exists) as E.
  assert (M : map (peval {| q0 := -2; q1 := 5/2; q2 := -1/2; q3 := 0 |}) [1;2;3;4] = [0;1;1;0]) by (unfold peval; cbn; repeat (f_equal; try lra)).
  rewrite M in E. rewrite E; [unfold peval; cbn [q0 q1 q2 q3]; lra|repeat constructor; lra|cbn; lia|cbn; lra].
Qed.
Lemma v_constant k t : 1/2 <= t <= 5 -> spline notaknot b_wave (repeat k 6) t = k.
Proof.
  intro Ht. pose proof (L_C78_cubics notaknot b_wave {| q0 := k; q1 := 0; q2 := 0; q3 := 0 |} t L_C78_exists) as E.
  assert (M : map (peval {| q0 := k; q1 := 0; q2 := 0; q3 := 0 |}) b_wave = repeat k 6) by (unfold peval; cbn; repeat (f_equal; try lra)).
  rewrite M in E. rewrite E; [unfold peval; cbn [q0 q1 q2 q3]; lra|apply sorted_wide|cbn; lia|cbn; lra].
Qed.
Lemma v_ab k t : 0 < k -> 1/2 <= t <= 5 -> k / (4 * ab_flux 1) * ab_flux t <= k <= 25 * k / ab_flux 1 * ab_flux t.
Proof.
  intros Hk Ht. unfold ab_flux. set (c := 3631e-23 * 2.99792e18). assert (0 < c) by (unfold c; lra).
  assert (T : 1/4 <= t ^ 2 <= 25) by (cbn; nra).
  replace (k / (4 * (c / 1 ^ 2)) * (c / t ^ 2)) with (k / (4 * t ^ 2)) by (field; lra).
  replace (25 * k / (c / 1 ^ 2) * (c / t ^ 2)) with (25 * k / t ^ 2) by (field; lra). split.
  - apply Rmult_le_reg_r with (4 * t ^ 2); [lra|]. unfold Rdiv. rewrite Rmult_assoc, Rinv_l by lra. nra.
  - apply Rmult_le_reg_r with (t ^ 2); [lra|]. unfold Rdiv. rewrite Rmult_assoc, Rinv_l by lra. nra.
Qed.
Lemma v_seen z : 0 <= z < 1 -> overlaps [1;2;3;4] (seen_wave z b_wave) /\ brackets [1;2;3;4] (seen_wave z b_wave).
Proof.
  intro Hz. unfold seen_wave, b_wave. cbn [map]. split; [|split].
  - exists (1 * (1 + z)). split; [cbn; auto|cbn; lra].
  - exists (1/2 * (1 + z)). split; [cbn; auto|cbn; lra].
  - exists (5 * (1 + z)). split; [cbn; auto 10|cbn; lra].
Qed.
Lemma v_positive : (forall t, nth 0 [1;2;3;4] 0 <= t <= last [1;2;3;4] 0 -> 0 <= spline notaknot [1;2;3;4] [0;1;1;0] t) /\
  exists t, In t [1;2;3;4] /\ 0 < spline notaknot [1;2;3;4] [0;1;1;0] t.
Proof.
  split.
  - cbn [nth last]. intros t Ht. rewrite v_parabola by lra. apply Rmult_le_pos; [|lra]. apply Rmult_le_pos; lra.
  - exists 2. split; [cbn; auto|]. rewrite v_parabola by lra. lra.
Qed.
