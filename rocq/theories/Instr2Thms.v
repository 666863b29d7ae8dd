(** What the instrument classes fit with inexact solvers, and for brighter objects (C116): the proofs. *)
From Coq Require Import String List Arith Lia Bool ZArith QArith Qreals Reals Lra Sorting.Sorted.
From Verif Require Import Base BaseLemmas Num Toy Interp InterpReal Spec Utils Sed Response RespDict LinInterp ResponseEx
  Fitter FitSpec FitterProofs FitterMC FitReal FitTable FitEx FitRealEx FitterThms FitRealThms Kcorrect KSpec NnlsSpec NnlsExact NnlsEx
  NnlsThms BuildSpec BuildEx PipeSpec PipeEx CatSpec InstrSpec InstrEx ApproxSpec.
Import ListNotations.
Local Open Scope R_scope.
(* STATEMENTS *)
From Verif Require Import UtilsReal AbProofs KcorrectThms AbThms BuildProofs BuildTable PipeProofs PipeEx PipeThms CatThms InstrProofs InstrThms ApproxThms.

Lemma in_system_zero k n : in_system k (repeat 0 n) = repeat 0 n.
Proof.
  apply nth_ext with (d := 0) (d' := 0); [apply in_system_length|]. intros j Hj. rewrite in_system_length in Hj.
  rewrite in_system_nth by auto. rewrite nth_repeat. unfold Rdiv. apply Rmult_0_l.
Qed.
Lemma signal2_ab k o : length (o_iv o) = length (o_m o) -> signal2 (o_iv (in_ab k o)) (o_m (in_ab k o)) = signal2 (o_iv o) (o_m o).
Proof.
  intro L. unfold signal2. rewrite chi2_ab; [|auto|rewrite repeat_length; cbn [in_ab o_m]; rewrite map_length, seq_length; auto].
  cbn [in_ab o_m]. rewrite map_length, seq_length, in_system_zero. reflexivity.
Qed.
Lemma s_fit_shrunk o : obj_ok 5 o -> in_range (a_x s_tab) (o_z o) ->
  exists c, fit_object (shrunk (1 / 10) nnls1) (fun _ => 0) s_fitter 0 o 0 = Ok (Bare (vec c), 0%nat).
Proof.
  intros Ho Hz. rewrite (fit_in_ab (shrunk (1 / 10) nnls1) (fun _ => 0) s_fitter s_tab 5 1 o 0); auto; try apply s_ready; try reflexivity.
  destruct (fit_eq (shrunk (1 / 10) nnls1) (fun _ => 0) (without_ab s_fitter) s_tab 5 1 (in_ab (f_kind s_fitter) o) 0) as (_ & _ & _ & ->); auto using in_ab_ok, s_ready;
    [left; reflexivity|]. unfold shrunk, nnls1. cbn [Nat.eqb option_map]. eexists. reflexivity.
Qed.

(** C116.  With a solver that is only near the optimum, as SciPy's is in floating point, what an object with abcorrect=True
    fits is nonnegative and near the best in the system of the instrument: chi^2 of the photometry as given exceeds that of
    any other nonnegative coefficients by at most eps times the squared signal to noise of that photometry. *)
Lemma L_C116_inexact :
  forall nnls eps rng (F : fitter R) A nb nt o cur c cur',
    nnls_within eps nnls -> f_abc F = true -> ab_bands (f_kind F) nb -> ready F A nb nt -> nb <> 1%nat -> obj_ok nb o ->
    nonneg (o_iv o) -> in_range (a_x A) (o_z o) ->
    fit_object nnls rng F 0 o cur = Ok (Bare (vec c), cur') ->
    length c = nt /\ nonneg c /\
    exists p, reconstruct F (Some (scal (o_z o))) (Some (vec c)) 0 = Ok (vec p) /\
      forall y, length y = nt -> nonneg y ->
        exists q, reconstruct F (Some (scal (o_z o))) (Some (vec y)) 0 = Ok (vec q) /\
                  chi2 (o_iv o) (o_m o) (in_system (f_kind F) p) <=
                  chi2 (o_iv o) (o_m o) (in_system (f_kind F) q) + eps * signal2 (o_iv o) (o_m o).
Proof.
  intros nnls eps rng F A nb nt o cur c cur' HN Ha Hb HF H1 Ho Hv Hz E.
  rewrite (fit_in_ab nnls rng F A nb nt o cur Ha HF Ho Hb) in E.
  destruct (L_C84_optimal nnls eps rng (without_ab F) A nb nt (in_ab (f_kind F) o) cur c cur') as (Lc & Nc & p & Hp & HO); auto using in_ab_ok.
  - left; reflexivity.
  - cbn [in_ab o_iv]. apply nonneg_ab; auto.
  - rewrite rec_without in Hp. change (o_z (in_ab (f_kind F) o)) with (o_z o) in *.
    split; auto. split; auto. exists p. split; [exact Hp|]. intros y Ly Ny. destruct (HO y Ly Ny) as (q & Hq & Hc).
    rewrite rec_without in Hq. exists q. split; [exact Hq|]. destruct Ho as [Lm Li].
    pose proof (rec_length _ _ _ _ _ _ _ HF Hz Lc Hp). pose proof (rec_length _ _ _ _ _ _ _ HF Hz Ly Hq).
    rewrite signal2_ab in Hc by congruence. rewrite !chi2_ab in Hc by congruence. exact Hc.
Qed.
Lemma E_C116_inexact : exists c,
  nnls_within (1 / 10 * (1 / 10)) (shrunk (1 / 10) nnls1) /\ f_abc s_fitter = true /\ ab_bands (f_kind s_fitter) 5 /\ ready s_fitter s_tab 5 1 /\
  obj_ok 5 {| o_z := 1 / 2; o_m := [2; 6; 1; 3; 0]; o_iv := [1; 4; 0; 2; 1] |} /\ in_range (a_x s_tab) (1 / 2) /\
  fit_object (shrunk (1 / 10) nnls1) (fun _ => 0) s_fitter 0 {| o_z := 1 / 2; o_m := [2; 6; 1; 3; 0]; o_iv := [1; 4; 0; 2; 1] |} 0 = Ok (Bare (vec c), 0%nat) /\
  signal2 [1; 4; 0; 2; 1] [2; 6; 1; 3; 0] = 166.
Proof.
  destruct (s_fit_shrunk {| o_z := 1 / 2; o_m := [2; 6; 1; 3; 0]; o_iv := [1; 4; 0; 2; 1] |}) as [c Hc]; [split; reflexivity|unfold in_range; cbn; lra|].
  exists c. split; [apply L_C84_shrunk; [apply nnls1_contract|lra]|]. split; [reflexivity|]. split; [reflexivity|]. split; [apply s_ready|].
  split; [split; reflexivity|]. split; [unfold in_range; cbn; lra|]. split; [exact Hc|].
  unfold signal2, chi2, vsub. cbn [repeat length zip fold_right]. field.
Qed.

(** Two such fits of the same bands, with the same redshift and inverse variances, by any two such solvers: in units of the
    errors, the fitted fluxes in the system of the instrument differ by no more than the photometry does, plus the two
    solvers' errors. *)
Lemma L_C116_stable :
  forall nnls1 nnls2 e1 e2 rng1 rng2 (F : fitter R) A nb nt z iv m1 m2 cur1 c1 cur1' cur2 c2 cur2' p1 p2,
    nnls_within e1 nnls1 -> nnls_within e2 nnls2 -> f_abc F = true -> ab_bands (f_kind F) nb -> ready F A nb nt -> nb <> 1%nat ->
    length m1 = nb -> length m2 = nb -> length iv = nb -> nonneg iv -> in_range (a_x A) z ->
    fit_object nnls1 rng1 F 0 {| o_z := z; o_m := m1; o_iv := iv |} cur1 = Ok (Bare (vec c1), cur1') ->
    fit_object nnls2 rng2 F 0 {| o_z := z; o_m := m2; o_iv := iv |} cur2 = Ok (Bare (vec c2), cur2') ->
    reconstruct F (Some (scal z)) (Some (vec c1)) 0 = Ok (vec p1) ->
    reconstruct F (Some (scal z)) (Some (vec c2)) 0 = Ok (vec p2) ->
    sqrt (chi2 iv (in_system (f_kind F) p1) (in_system (f_kind F) p2)) <=
    sqrt (chi2 iv m1 m2) + sqrt (e1 * signal2 iv m1) + sqrt (e2 * signal2 iv m2).
Proof.
  intros nnls1 nnls2 e1 e2 rng1 rng2 F A nb nt z iv m1 m2 cur1 c1 cur1' cur2 c2 cur2' p1 p2 HN1 HN2 Ha Hb HF H1 L1 L2 Li Hv Hz E1 E2 R1 R2.
  set (o1 := {| o_z := z; o_m := m1; o_iv := iv |}) in *. set (o2 := {| o_z := z; o_m := m2; o_iv := iv |}) in *.
  assert (O1 : obj_ok nb o1) by (split; auto).
  assert (O2 : obj_ok nb o2) by (split; auto).
  destruct (L_C116_inexact nnls1 e1 rng1 F A nb nt _ cur1 c1 cur1' HN1 Ha Hb HF H1 O1 Hv Hz E1) as (Lc1 & _).
  destruct (L_C116_inexact nnls2 e2 rng2 F A nb nt _ cur2 c2 cur2' HN2 Ha Hb HF H1 O2 Hv Hz E2) as (Lc2 & _).
  pose proof (rec_length _ _ _ _ _ _ _ HF Hz Lc1 R1). pose proof (rec_length _ _ _ _ _ _ _ HF Hz Lc2 R2).
  rewrite (fit_in_ab nnls1 rng1 F A nb nt _ cur1 Ha HF O1 Hb) in E1. rewrite (fit_in_ab nnls2 rng2 F A nb nt _ cur2 Ha HF O2 Hb) in E2.
  rewrite <- rec_without in R1, R2.
  pose proof (signal2_ab (f_kind F) o1 ltac:(cbn; congruence)) as S1. pose proof (signal2_ab (f_kind F) o2 ltac:(cbn; congruence)) as S2.
  assert (S := L_C84_stable nnls1 nnls2 e1 e2 rng1 rng2 (without_ab F) A nb nt z (o_iv (in_ab (f_kind F) o1))
    (o_m (in_ab (f_kind F) o1)) (o_m (in_ab (f_kind F) o2))
    cur1 c1 cur1' cur2 c2 cur2' p1 p2 HN1 HN2 (or_introl eq_refl) HF H1).
  pose proof (in_ab_ok (f_kind F) _ _ O1) as (L1' & Li'). pose proof (in_ab_ok (f_kind F) _ _ O2) as (L2' & _).
  specialize (S L1' L2' Li' (nonneg_ab _ _ Hv) Hz E1 E2 R1 R2).
  change (o_iv (in_ab (f_kind F) o2)) with (o_iv (in_ab (f_kind F) o1)) in S2.
  rewrite S1, S2 in S. rewrite chi2_ab in S by (cbn [o1 o_m o_iv] in *; congruence).
  cbn [in_ab o1 o_iv o_m] in S. rewrite chi2_two in S by congruence.
  eapply Rle_trans; [exact S|]. apply Req_le. do 3 f_equal.
  f_equal. cbn [in_ab o2 o_m]. apply nth_ext with (d := 0) (d' := 0); rewrite in_system_length, map_length, seq_length; auto. intros j Hj.
  rewrite in_system_nth by (rewrite map_length, seq_length; auto). rewrite nth_map_seq by auto. rewrite fac_inv.
  pose proof (fac_pos (f_kind F) j). field. lra.
Qed.
Lemma E_C116_stable : exists c1 c2,
  nnls_within (1 / 10 * (1 / 10)) (shrunk (1 / 10) nnls1) /\ nnls_within 0 nnls_exact /\
  fit_object (shrunk (1 / 10) nnls1) (fun _ => 0) s_fitter 0 {| o_z := 1 / 2; o_m := [2; 6; 1; 3; 0]; o_iv := [1; 4; 0; 2; 1] |} 0 = Ok (Bare (vec c1), 0%nat) /\
  fit_object nnls_exact (fun _ => 0) s_fitter 0 {| o_z := 1 / 2; o_m := [1; 6; 9; 3; 0]; o_iv := [1; 4; 0; 2; 1] |} 0 = Ok (Bare (vec c2), 0%nat) /\
  nonneg [1; 4; 0; 2; 1] /\ chi2 [1; 4; 0; 2; 1] [2; 6; 1; 3; 0] [1; 6; 9; 3; 0] = 1.
Proof.
  destruct E_C116_inexact as (c & HN & _ & _ & _ & _ & _ & Hc & _).
  destruct (s_fit {| o_z := 1 / 2; o_m := [1; 6; 9; 3; 0]; o_iv := [1; 4; 0; 2; 1] |}) as [c' Hc']; [split; reflexivity|unfold in_range; cbn; lra|].
  exists c, c'. split; auto. split; [apply L_C84_exact, nnls_exact_contract|]. split; auto. split; auto. split; [repeat constructor; lra|]. unfold chi2, vsub. cbn [zip fold_right]. lra.
Qed.

Lemma ab_brighter k a l : 0 < a -> ab_obs k (brighter a l) = brighter a (ab_obs k l).
Proof.
  intro Ha. apply list_by_nth. intro j. rewrite ab_nth. unfold brighter. rewrite !nth_error_map, ab_nth.
  destruct (nth_error l j) as [b|]; cbn [option_map]; auto. unfold o_name, o_mag, o_ivar; cbn [fst snd].
  pose proof (pow10_pos (-0.4 * ab_offsets k j)). do 2 f_equal. f_equal; [ring|]. field. split; lra.
Qed.

(** Making an object brighter by a factor, with the same relative errors, multiplies what an object with abcorrect=True
    fits by that factor: the fluxes in the measured bands, and the coefficients if the measured bands tell the templates
    apart. *)
Lemma L_C116_brighter :
  forall cub bq sun vega fs d k (s : sed R) t out map_ r0 r1 nz d' s' K w rows nnls1 nnls2 rng1 rng2 z l a cur1 c1 cur1' cur2 c2 cur2',
    Kcorrect cub bq sun vega fs d k true (map o_name l) s t out map_ r0 r1 nz = (d', s', Ok K) -> ab_bands k (length l) ->
    s_rflux s = table w rows -> rect w rows -> rows <> [] -> r0 < r1 -> (2 <= nz)%nat -> r0 <= z <= r1 ->
    length l <> 1%nat -> nnls_contract nnls1 -> nnls_contract nnls2 -> Forall (fun b => 0 <= o_ivar b) l -> 0 < a ->
    let flux := model_flux cub d' (s_rwave s) w rows (redshift_grid r0 r1 nz) in
    fit_object nnls1 rng1 (k_fit K) 0 (observed z l) cur1 = Ok (Bare (vec c1), cur1') ->
    fit_object nnls2 rng2 (k_fit K) 0 (observed z (brighter a l)) cur2 = Ok (Bare (vec c2), cur2') ->
    (forall b, In b l -> 0 < o_ivar b -> exists x, flux (o_name b) c1 z x /\ flux (o_name b) c2 z (a * x)) /\
    (told_apart flux (length rows) z l -> c2 = map (Rmult a) c1).
Proof.
  intros cub bq sun vega fs d k s t out map_ r0 r1 nz d' s' K w rows nnls1 nnls2 rng1 rng2 z l a cur1 c1 cur1' cur2 c2 cur2'
    B Hb Hf Hr Hne Hrr Hnz Hz N1 C1 C2 V Ha flux E1 E2.
  destruct (built_tables _ _ _ _ _ _ _ _ _ _ _ _ _ _ _ _ _ _ _ w rows B Hf Hr Hne Hrr Hnz) as (A & Ao & HR & _).
  pose proof (L_C40_mapping R Num_R _ _ _ _ _ _ _ _ _ _ _ _ _ _ _ _ _ _ _ B) as (_ & _ & _ & _ & _ & Ek & Ea & _).
  destruct HR as (HF & _). rewrite map_length in HF.
  rewrite (fit_in_ab nnls1 rng1 (k_fit K) A (length l) (length rows) (observed z l) cur1 Ea HF) in E1;
    [|split; cbn [observed o_m o_iv]; rewrite map_length; auto|rewrite Ek; auto].
  rewrite (fit_in_ab nnls2 rng2 (k_fit K) A (length l) (length rows) (observed z (brighter a l)) cur2 Ea HF) in E2;
    [|split; cbn [observed o_m o_iv]; unfold brighter; rewrite !map_length; auto|rewrite Ek; auto].
  rewrite Ek, in_ab_observed in E1, E2. rewrite ab_brighter in E2 by auto. apply built_without_ab in B.
  rewrite <- (ab_names k l) in B.
  destruct (L_C89_coefficients _ _ _ _ _ _ _ _ _ _ _ _ _ _ _ _ _ w rows nnls1 nnls2 rng1 rng2 z (ab_obs k l) a cur1 c1 cur1' cur2 c2 cur2' B) as [P Q]; auto.
  - rewrite ab_length; auto.
  - apply ab_ivar; auto.
  - split.
    + intros b Hin Pb. apply In_nth_error in Hin as [j Hj].
      apply (P (o_name b, (o_mag b * pow10 (-0.4 * ab_offsets k j), o_ivar b / pow10 (-0.4 * ab_offsets k j) ^ 2))).
      * apply nth_error_In with j. rewrite ab_nth, Hj. reflexivity.
      * unfold o_ivar at 1. cbn [snd]. apply ab_ivar_pos. auto.
    + intro T. apply Q. intros y Ly Hy. apply (T y Ly). intros b Hin Pb. apply In_nth_error in Hin as [j Hj].
      apply (Hy (o_name b, (o_mag b * pow10 (-0.4 * ab_offsets k j), o_ivar b / pow10 (-0.4 * ab_offsets k j) ^ 2))).
      * apply nth_error_In with j. rewrite ab_nth, Hj. reflexivity.
      * unfold o_ivar at 1. cbn [snd]. apply ab_ivar_pos. auto.
Qed.
Lemma E_C116_brighter : exists d0 s0 d s K x c1 c2,
  let m := fun j => 2 * x / pow10 (-0.4 * ab_offsets SDSS j) in
  let l := map (fun j => ("u"%string, (m j, 1))) (seq 0 5) in
  let flux := model_flux lin d (s_rwave r_sed1) 6 [[1;1;2;2;1;1]] (redshift_grid 0 1 2) in
  Kcorrect lin bq0 sun0 sun0 r_files d0 SDSS true (map o_name l) s0 r_tmpl None None 0 1 2 = (d, s, Ok K) /\ ab_bands SDSS (length l) /\
  nnls_contract nnls_exact /\ Forall (fun b => 0 < o_mag b /\ 0 < o_ivar b) l /\ told_apart flux 1 0 l /\
  fit_object nnls_exact (fun _ => 0) (k_fit K) 0 (observed 0 l) 0 = Ok (Bare (vec c1), 0%nat) /\
  fit_object nnls_exact (fun _ => 0) (k_fit K) 0 (observed 0 (brighter 3 l)) 0 = Ok (Bare (vec c2), 0%nat).
Proof.
  destruct E_C110_recovered as (d0 & s0 & d & s & K & x & c & HK & Hb & W & F & HN & V & _ & _ & HT & E).
  set (m := fun j => 2 * x / pow10 (-0.4 * ab_offsets SDSS j)) in *. set (l := map (fun j => ("u"%string, (m j, 1))) (seq 0 5)) in *.
  destruct (built_tables _ _ _ _ _ _ _ _ _ _ _ _ _ _ _ _ _ _ _ 6%nat [[1;1;2;2;1;1]] HK) as (A & Ao & HR & X1 & _);
    try lra; try discriminate; [exact F|repeat constructor|lia|].
  destruct HR as (HF & _). destruct (L_C36_grid 0 1 2 (le_n 2) ltac:(lra)) as (_ & HG & G0 & G1 & _).
  pose proof (L_C40_mapping R Num_R _ _ _ _ _ _ _ _ _ _ _ _ _ _ _ _ _ _ _ HK) as (_ & _ & _ & _ & _ & Ek & Ea & _).
  assert (Hz : in_range (a_x A) 0) by (unfold in_range; rewrite X1, G0, G1; lra).
  destruct (exact_fit (fun _ => 0) (without_ab (k_fit K)) A 5 1 (in_ab SDSS (observed 0 (brighter 3 l))) 0) as (c' & _ & Ec); auto.
  { left; reflexivity. }
  { apply in_ab_ok. split; reflexivity. }
  exists d0, s0, d, s, K, x, c, c'. cbv zeta. fold m. fold l. split; [exact HK|]. split; [reflexivity|]. split; [exact HN|].
  split; [exact V|]. split; [exact HT|]. split; [exact E|].
  rewrite (fit_in_ab nnls_exact (fun _ => 0) (k_fit K) A 5 1 (observed 0 (brighter 3 l)) 0 Ea HF); [|split; reflexivity|rewrite Ek; reflexivity].
  rewrite Ek. exact Ec.
Qed.

Lemma absmag_in_ab (K : kcor R) k A nt distmod z l c dist bs lim kc :
  ready (k_fit K) A (length l) nt -> f_abc (k_fit K) = true -> f_kind (k_fit K) = k -> ab_bands k (length l) -> length c = nt ->
  absmag_object distmod K bs false false lim kc
    {| ko_z := z; ko_m := map o_mag l; ko_iv := map o_ivar l; ko_c := c; ko_d := dist |} =
  absmag_object distmod (kwithout_ab K) bs false false lim kc
    {| ko_z := z; ko_m := map o_mag (ab_obs k l); ko_iv := map o_ivar (ab_obs k l); ko_c := c; ko_d := dist |}.
Proof.
  intros HF Ea Ek Hb Lc. unfold absmag_object. cbn [ko_z ko_m ko_iv ko_c ko_d]. destruct HF as (_ & HF1 & HF2 & _).
  rewrite (L_C61_absmag R _ distmod K (vec (map o_mag l)) (Some (vec (map o_ivar l))) (scal z) (Some (vec c)) bs None false lim kc); auto.
  2:{ left. rewrite HF1, HF2. split; [reflexivity|]. split; [|split]; apply some_shape; unfold vec; cbn [shp]; rewrite ?map_length; congruence. }
  rewrite Ek, to_ab_R by (rewrite ?map_length; auto).
  pose proof (in_ab_observed k z l) as EO. pose proof (f_equal (@o_m R) EO) as E1. pose proof (f_equal (@o_iv R) EO) as E2.
  unfold in_ab, observed in E1, E2. cbn [o_z o_m o_iv] in E1, E2. rewrite E1, E2. reflexivity.
Qed.

(** ... and then the K-corrections are the same, and the absolute magnitudes of the measured positive fluxes brighter by
    2.5 log10 of the factor, whatever the offsets of the instrument; the other ones are -9999 for both. *)
Lemma L_C116_absmag :
  forall cub bq sun vega fs d k (s : sed R) t out map_ r0 r1 nz d' s' K w rows nnls1 nnls2 rng1 rng2 z l a cur1 c1 cur1' cur2 c2 cur2'
    distmod lim kc dist bs,
    Kcorrect cub bq sun vega fs d k true (map o_name l) s t out map_ r0 r1 nz = (d', s', Ok K) -> ab_bands k (length l) ->
    s_rflux s = table w rows -> rect w rows -> rows <> [] -> r0 < r1 -> (2 <= nz)%nat -> r0 <= z <= r1 ->
    length l <> 1%nat -> nnls_contract nnls1 -> nnls_contract nnls2 -> Forall (fun b => 0 <= o_ivar b) l -> 0 < a ->
    told_apart (model_flux cub d' (s_rwave s) w rows (redshift_grid r0 r1 nz)) (length rows) z l ->
    0 < fold_right Rplus 0 c1 -> r0 <= bs <= r1 ->
    fit_object nnls1 rng1 (k_fit K) 0 (observed z l) cur1 = Ok (Bare (vec c1), cur1') ->
    fit_object nnls2 rng2 (k_fit K) 0 (observed z (brighter a l)) cur2 = Ok (Bare (vec c2), cur2') ->
    kcorrect K (Some (scal z)) (Some (vec c2)) bs = kcorrect K (Some (scal z)) (Some (vec c1)) bs /\
    exists v1 v2 a1 a2,
      absmag_object distmod K bs false false lim kc
        {| ko_z := z; ko_m := map o_mag l; ko_iv := map o_ivar l; ko_c := c1; ko_d := dist |} = Ok a1 /\
      absmag_object distmod K bs false false lim kc
        {| ko_z := z; ko_m := map o_mag (brighter a l); ko_iv := map o_ivar (brighter a l); ko_c := c2; ko_d := dist |} = Ok a2 /\
      nth_error (parts a1) 0 = Some (vec v1) /\ nth_error (parts a2) 0 = Some (vec v2) /\
      length v1 = length (k_out K) /\ length v2 = length (k_out K) /\
      forall j n, nth_error (k_map K) j = Some n -> exists i b m1 m2,
        nth_error l i = Some b /\ o_name b = n /\ nth_error v1 j = Some m1 /\ nth_error v2 j = Some m2 /\
        (0 < o_mag b -> 0 < o_ivar b -> m2 = m1 - 5/2 * log10 a) /\
        (o_mag b <= 0 \/ o_ivar b <= 0 -> m1 = -9999 /\ m2 = -9999).
Proof.
  intros cub bq sun vega fs d k s t out map_ r0 r1 nz d' s' K w rows nnls1 nnls2 rng1 rng2 z l a cur1 c1 cur1' cur2 c2 cur2'
    distmod lim kc dist bs B Hb Hf Hr Hne Hrr Hnz Hz N1 C1 C2 V Ha T HS Hbs E1 E2.
  destruct (built_tables _ _ _ _ _ _ _ _ _ _ _ _ _ _ _ _ _ _ _ w rows B Hf Hr Hne Hrr Hnz) as (A & Ao & HR & _).
  pose proof (L_C40_mapping R Num_R _ _ _ _ _ _ _ _ _ _ _ _ _ _ _ _ _ _ _ B) as (_ & _ & _ & _ & _ & Ek & Ea & _).
  destruct HR as (HF & _). rewrite map_length in HF.
  rewrite (fit_in_ab nnls1 rng1 (k_fit K) A (length l) (length rows) (observed z l) cur1 Ea HF) in E1;
    [|split; cbn [observed o_m o_iv]; rewrite map_length; auto|rewrite Ek; auto].
  rewrite (fit_in_ab nnls2 rng2 (k_fit K) A (length l) (length rows) (observed z (brighter a l)) cur2 Ea HF) in E2;
    [|split; cbn [observed o_m o_iv]; unfold brighter; rewrite !map_length; auto|rewrite Ek; auto].
  rewrite Ek, in_ab_observed in E1, E2. rewrite ab_brighter in E2 by auto. apply built_without_ab in B.
  rewrite <- (ab_names k l) in B.
  assert (TA : told_apart (model_flux cub d' (s_rwave s) w rows (redshift_grid r0 r1 nz)) (length rows) z (ab_obs k l)).
  { intros y Ly Hy. apply (T y Ly). intros b Hin Pb. apply In_nth_error in Hin as [j Hj].
    apply (Hy (o_name b, (o_mag b * pow10 (-0.4 * ab_offsets k j), o_ivar b / pow10 (-0.4 * ab_offsets k j) ^ 2))).
    - apply nth_error_In with j. rewrite ab_nth, Hj. reflexivity.
    - unfold o_ivar at 1. cbn [snd]. apply ab_ivar_pos. auto. }
  assert (NA : length (ab_obs k l) <> 1%nat) by (rewrite ab_length; auto).
  assert (VA : Forall (fun b => 0 <= o_ivar b) (ab_obs k l)) by (apply ab_ivar; auto).
  destruct (built_fit _ _ _ _ _ _ _ _ _ _ _ _ _ _ _ _ _ _ _ w rows B Hf Hr Hne Hrr Hnz nnls1 rng1 z (ab_obs k l) cur1 c1 cur1' eq_refl eq_refl NA C1 VA Hz E1) as (L1 & _ & _).
  destruct (built_fit _ _ _ _ _ _ _ _ _ _ _ _ _ _ _ _ _ _ _ w rows B Hf Hr Hne Hrr Hnz nnls2 rng2 z (brighter a (ab_obs k l)) cur2 c2 cur2') as (L2 & _ & _); auto.
  1,2: unfold brighter; rewrite ?map_map, ?map_length; auto.
  { unfold brighter. apply Forall_map. eapply Forall_impl; [|exact VA]. intros b Hb0. unfold o_ivar at 1. cbn [snd].
    unfold Rdiv. apply Rmult_le_pos; auto. apply Rlt_le, Rinv_0_lt_compat, Rmult_lt_0_compat; auto. }
  destruct (L_C89_absmag _ _ _ _ _ _ _ _ _ _ _ _ _ _ _ _ _ w rows nnls1 nnls2 rng1 rng2 z (ab_obs k l) a cur1 c1 cur1' cur2 c2 cur2'
    distmod lim kc dist bs B Hf Hr Hne Hrr Hnz Hz NA C1 C2 VA Ha TA HS Hbs E1 E2) as (KK & v1 & v2 & a1 & a2 & A1 & A2 & P1 & P2 & LL1 & LL2 & J).
  rewrite !kcorrect_ab in KK. split; [exact KK|]. exists v1, v2, a1, a2.
  split. { rewrite (absmag_in_ab K k A (length rows)); auto. }
  split. { rewrite (absmag_in_ab K k A (length rows)); auto; [rewrite ab_brighter by auto; exact A2| |]; unfold brighter; rewrite map_length; auto. }
  split; [exact P1|]. split; [exact P2|]. split; [exact LL1|]. split; [exact LL2|]. intros j n Hn.
  destruct (J j n Hn) as (i & b & m1 & m2 & Hi & Hn1 & M1 & M2 & X & Y). rewrite ab_nth in Hi.
  destruct (nth_error l i) as [b0|] eqn:E0; [|discriminate]. injection Hi as <-. unfold o_name, o_mag, o_ivar in Hn1, X, Y. cbn [fst snd] in Hn1, X, Y.
  exists i, b0, m1, m2. split; auto. split; auto. split; auto. split; auto. pose proof (pow10_pos (-0.4 * ab_offsets k i)) as PP. split.
  - intros G1 G2. apply X; [apply Rmult_lt_0_compat; auto|apply ab_ivar_pos; auto].
  - intros G. apply Y. destruct G as [G|G]; [left|right].
    + rewrite <- (Rmult_0_l (pow10 (-0.4 * ab_offsets k i))). apply Rmult_le_compat_r; [lra|exact G].
    + unfold Rdiv. rewrite <- (Rmult_0_l (/ pow10 (-0.4 * ab_offsets k i) ^ 2)). apply Rmult_le_compat_r; [|exact G].
      apply Rlt_le, Rinv_0_lt_compat, pow_lt; auto.
Qed.
Lemma E_C116_absmag : exists d0 s0 d s K x c1 c2,
  let m := fun j => 2 * x / pow10 (-0.4 * ab_offsets SDSS j) in
  let l := map (fun j => ("u"%string, (m j, 1))) (seq 0 5) in
  let flux := model_flux lin d (s_rwave r_sed1) 6 [[1;1;2;2;1;1]] (redshift_grid 0 1 2) in
  Kcorrect lin bq0 sun0 sun0 r_files d0 SDSS true (map o_name l) s0 r_tmpl None None 0 1 2 = (d, s, Ok K) /\ ab_bands SDSS (length l) /\
  nnls_contract nnls_exact /\ Forall (fun b => 0 < o_mag b /\ 0 < o_ivar b) l /\ told_apart flux 1 0 l /\ 0 < fold_right Rplus 0 c1 /\
  fit_object nnls_exact (fun _ => 0) (k_fit K) 0 (observed 0 l) 0 = Ok (Bare (vec c1), 0%nat) /\
  fit_object nnls_exact (fun _ => 0) (k_fit K) 0 (observed 0 (brighter 3 l)) 0 = Ok (Bare (vec c2), 0%nat).
Proof.
  destruct E_C110_recovered as (d0 & s0 & d & s & K & x & c & HK & Hb & W & F & HN & V & NN & HX & HT & E).
  set (m := fun j => 2 * x / pow10 (-0.4 * ab_offsets SDSS j)) in *. set (l := map (fun j => ("u"%string, (m j, 1))) (seq 0 5)) in *.
  destruct (built_tables _ _ _ _ _ _ _ _ _ _ _ _ _ _ _ _ _ _ _ 6%nat [[1;1;2;2;1;1]] HK) as (A & Ao & HR & X1 & _);
    try lra; try discriminate; [exact F|repeat constructor|lia|].
  destruct HR as (HF & _). destruct (L_C36_grid 0 1 2 (le_n 2) ltac:(lra)) as (_ & HG & G0 & G1 & _).
  pose proof (L_C40_mapping R Num_R _ _ _ _ _ _ _ _ _ _ _ _ _ _ _ _ _ _ _ HK) as (_ & _ & _ & _ & _ & Ek & Ea & _).
  assert (Hz : in_range (a_x A) 0) by (unfold in_range; rewrite X1, G0, G1; lra).
  destruct (exact_fit (fun _ => 0) (without_ab (k_fit K)) A 5 1 (in_ab SDSS (observed 0 (brighter 3 l))) 0) as (c' & _ & Ec); auto.
  { left; reflexivity. }
  { apply in_ab_ok. split; reflexivity. }
  exists d0, s0, d, s, K, x, c, c'. cbv zeta. fold m. fold l. split; [exact HK|]. split; [reflexivity|]. split; [exact HN|].
  split; [exact V|]. split; [exact HT|]. split.
  { destruct (L_C110_recovered _ _ _ _ _ _ _ _ _ _ _ _ _ _ _ _ _ 6%nat [[1;1;2;2;1;1]] nnls_exact (fun _ => 0) 0 l [2] 0%nat c 0%nat HK Hb F) as [_ Q]; auto;
      try lra; try discriminate; try lia; [repeat constructor| | |].
    - eapply Forall_impl; [|exact V]. intros b [_ Hb0]. apply Rlt_le; exact Hb0.
    - intros j b Hj _. rewrite W. apply (HX j b Hj).
    - rewrite Q by (rewrite W; exact HT). cbn. lra. }
  split; [exact E|].
  rewrite (fit_in_ab nnls_exact (fun _ => 0) (k_fit K) A 5 1 (observed 0 (brighter 3 l)) 0 Ea HF); [|split; reflexivity|rewrite Ek; reflexivity].
  rewrite Ek. exact Ec.
Qed.
