(** Property theorems; proofs are in Instr2Thms.v.  Generated by tools/gen_prop.py. *)
From Coq Require Import String List Arith Lia Bool ZArith QArith Qreals Reals Lra Sorting.Sorted.
From Verif Require Import Base BaseLemmas Num Toy Interp InterpReal Spec Utils Sed Response RespDict LinInterp ResponseEx
  Fitter FitSpec FitterProofs FitterMC FitReal FitTable FitEx FitRealEx FitterThms FitRealThms Kcorrect KSpec NnlsSpec NnlsExact NnlsEx
  NnlsThms BuildSpec BuildEx PipeSpec PipeEx CatSpec InstrSpec InstrEx ApproxSpec.
Import ListNotations.
Local Open Scope R_scope.
From Verif Require Import Instr2Thms.

(** C116.  With a solver that is only near the optimum, as SciPy's is in floating point, what an object with abcorrect=True
    fits is nonnegative and near the best in the system of the instrument: chi^2 of the photometry as given exceeds that of
    any other nonnegative coefficients by at most eps times the squared signal to noise of that photometry. *)
Theorem C116_inexact :
  forall nnls eps rng (F : fitter R) A nb nt o cur c cur',
    nnls_within eps nnls -> f_abc F = true -> ab_bands (f_kind F) nb -> ready F A nb nt -> nb <> 1%nat -> obj_ok nb o ->
    nonneg (o_iv o) -> in_range (a_x A) (o_z o) ->
    fit_object nnls rng F 0 o cur = Ok (Bare (vec c), cur') ->
    length c = nt /\ nonneg c /\
    exists p, reconstruct F (Some (scal (o_z o))) (Some (vec c)) 0 = Ok (vec p) /\
      forall y, length y = nt -> nonneg y ->
        exists q, reconstruct F (Some (scal (o_z o))) (Some (vec y)) 0 = Ok (vec q) /\
                  chi2 (o_iv o) (o_m o) (in_system (f_kind F) p) <=
                  chi2 (o_iv o) (o_m o) (in_system (f_kind F) q) + eps * signal2 (o_iv o) (o_m o).
Proof. exact L_C116_inexact. Qed.
Print Assumptions C116_inexact.

Example ex_C116_inexact : exists c,
  nnls_within (1 / 10 * (1 / 10)) (shrunk (1 / 10) nnls1) /\ f_abc s_fitter = true /\ ab_bands (f_kind s_fitter) 5 /\ ready s_fitter s_tab 5 1 /\
  obj_ok 5 {| o_z := 1 / 2; o_m := [2; 6; 1; 3; 0]; o_iv := [1; 4; 0; 2; 1] |} /\ in_range (a_x s_tab) (1 / 2) /\
  fit_object (shrunk (1 / 10) nnls1) (fun _ => 0) s_fitter 0 {| o_z := 1 / 2; o_m := [2; 6; 1; 3; 0]; o_iv := [1; 4; 0; 2; 1] |} 0 = Ok (Bare (vec c), 0%nat) /\
  signal2 [1; 4; 0; 2; 1] [2; 6; 1; 3; 0] = 166.
Proof. exact E_C116_inexact. Qed.

(** Two such fits of the same bands, with the same redshift and inverse variances, by any two such solvers: in units of the
    errors, the fitted fluxes in the system of the instrument differ by no more than the photometry does, plus the two
    solvers' errors. *)
Theorem C116_stable :
  forall nnls1 nnls2 e1 e2 rng1 rng2 (F : fitter R) A nb nt z iv m1 m2 cur1 c1 cur1' cur2 c2 cur2' p1 p2,
    nnls_within e1 nnls1 -> nnls_within e2 nnls2 -> f_abc F = true -> ab_bands (f_kind F) nb -> ready F A nb nt -> nb <> 1%nat ->
    length m1 = nb -> length m2 = nb -> length iv = nb -> nonneg iv -> in_range (a_x A) z ->
    fit_object nnls1 rng1 F 0 {| o_z := z; o_m := m1; o_iv := iv |} cur1 = Ok (Bare (vec c1), cur1') ->
    fit_object nnls2 rng2 F 0 {| o_z := z; o_m := m2; o_iv := iv |} cur2 = Ok (Bare (vec c2), cur2') ->
    reconstruct F (Some (scal z)) (Some (vec c1)) 0 = Ok (vec p1) ->
    reconstruct F (Some (scal z)) (Some (vec c2)) 0 = Ok (vec p2) ->
    sqrt (chi2 iv (in_system (f_kind F) p1) (in_system (f_kind F) p2)) <=
    sqrt (chi2 iv m1 m2) + sqrt (e1 * signal2 iv m1) + sqrt (e2 * signal2 iv m2).
Proof. exact L_C116_stable. Qed.
Print Assumptions C116_stable.

Example ex_C116_stable : exists c1 c2,
  nnls_within (1 / 10 * (1 / 10)) (shrunk (1 / 10) nnls1) /\ nnls_within 0 nnls_exact /\
  fit_object (shrunk (1 / 10) nnls1) (fun _ => 0) s_fitter 0 {| o_z := 1 / 2; o_m := [2; 6; 1; 3; 0]; o_iv := [1; 4; 0; 2; 1] |} 0 = Ok (Bare (vec c1), 0%nat) /\
  fit_object nnls_exact (fun _ => 0) s_fitter 0 {| o_z := 1 / 2; o_m := [1; 6; 9; 3; 0]; o_iv := [1; 4; 0; 2; 1] |} 0 = Ok (Bare (vec c2), 0%nat) /\
  nonneg [1; 4; 0; 2; 1] /\ chi2 [1; 4; 0; 2; 1] [2; 6; 1; 3; 0] [1; 6; 9; 3; 0] = 1.
Proof. exact E_C116_stable. Qed.

(** Making an object brighter by a factor, with the same relative errors, multiplies what an object with abcorrect=True
    fits by that factor: the fluxes in the measured bands, and the coefficients if the measured bands tell the templates
    apart. *)
Theorem C116_brighter :
  forall cub bq sun vega fs d k (s : sed R) t out map_ r0 r1 nz d' s' K w rows nnls1 nnls2 rng1 rng2 z l a cur1 c1 cur1' cur2 c2 cur2',
    Kcorrect cub bq sun vega fs d k true (map o_name l) s t out map_ r0 r1 nz = (d', s', Ok K) -> ab_bands k (length l) ->
    s_rflux s = table w rows -> rect w rows -> rows <> [] -> r0 < r1 -> (2 <= nz)%nat -> r0 <= z <= r1 ->
    length l <> 1%nat -> nnls_contract nnls1 -> nnls_contract nnls2 -> Forall (fun b => 0 <= o_ivar b) l -> 0 < a ->
    let flux := model_flux cub d' (s_rwave s) w rows (redshift_grid r0 r1 nz) in
    fit_object nnls1 rng1 (k_fit K) 0 (observed z l) cur1 = Ok (Bare (vec c1), cur1') ->
    fit_object nnls2 rng2 (k_fit K) 0 (observed z (brighter a l)) cur2 = Ok (Bare (vec c2), cur2') ->
    (forall b, In b l -> 0 < o_ivar b -> exists x, flux (o_name b) c1 z x /\ flux (o_name b) c2 z (a * x)) /\
    (told_apart flux (length rows) z l -> c2 = map (Rmult a) c1).
Proof. exact L_C116_brighter. Qed.
Print Assumptions C116_brighter.

Example ex_C116_brighter : exists d0 s0 d s K x c1 c2,
  let m := fun j => 2 * x / pow10 (-0.4 * ab_offsets SDSS j) in
  let l := map (fun j => ("u"%string, (m j, 1))) (seq 0 5) in
  let flux := model_flux lin d (s_rwave r_sed1) 6 [[1;1;2;2;1;1]] (redshift_grid 0 1 2) in
  Kcorrect lin bq0 sun0 sun0 r_files d0 SDSS true (map o_name l) s0 r_tmpl None None 0 1 2 = (d, s, Ok K) /\ ab_bands SDSS (length l) /\
  nnls_contract nnls_exact /\ Forall (fun b => 0 < o_mag b /\ 0 < o_ivar b) l /\ told_apart flux 1 0 l /\
  fit_object nnls_exact (fun _ => 0) (k_fit K) 0 (observed 0 l) 0 = Ok (Bare (vec c1), 0%nat) /\
  fit_object nnls_exact (fun _ => 0) (k_fit K) 0 (observed 0 (brighter 3 l)) 0 = Ok (Bare (vec c2), 0%nat).
Proof. exact E_C116_brighter. Qed.

(** ... and then the K-corrections are the same, and the absolute magnitudes of the measured positive fluxes brighter by
    2.5 log10 of the factor, whatever the offsets of the instrument; the other ones are -9999 for both. *)
Theorem C116_absmag :
  forall cub bq sun vega fs d k (s : sed R) t out map_ r0 r1 nz d' s' K w rows nnls1 nnls2 rng1 rng2 z l a cur1 c1 cur1' cur2 c2 cur2'
    distmod lim kc dist bs,
    Kcorrect cub bq sun vega fs d k true (map o_name l) s t out map_ r0 r1 nz = (d', s', Ok K) -> ab_bands k (length l) ->
    s_rflux s = table w rows -> rect w rows -> rows <> [] -> r0 < r1 -> (2 <= nz)%nat -> r0 <= z <= r1 ->
    length l <> 1%nat -> nnls_contract nnls1 -> nnls_contract nnls2 -> Forall (fun b => 0 <= o_ivar b) l -> 0 < a ->
    told_apart (model_flux cub d' (s_rwave s) w rows (redshift_grid r0 r1 nz)) (length rows) z l ->
    0 < fold_right Rplus 0 c1 -> r0 <= bs <= r1 ->
    fit_object nnls1 rng1 (k_fit K) 0 (observed z l) cur1 = Ok (Bare (vec c1), cur1') ->
    fit_object nnls2 rng2 (k_fit K) 0 (observed z (brighter a l)) cur2 = Ok (Bare (vec c2), cur2') ->
    kcorrect K (Some (scal z)) (Some (vec c2)) bs = kcorrect K (Some (scal z)) (Some (vec c1)) bs /\
    exists v1 v2 a1 a2,
      absmag_object distmod K bs false false lim kc
        {| ko_z := z; ko_m := map o_mag l; ko_iv := map o_ivar l; ko_c := c1; ko_d := dist |} = Ok a1 /\
      absmag_object distmod K bs false false lim kc
        {| ko_z := z; ko_m := map o_mag (brighter a l); ko_iv := map o_ivar (brighter a l); ko_c := c2; ko_d := dist |} = Ok a2 /\
      nth_error (parts a1) 0 = Some (vec v1) /\ nth_error (parts a2) 0 = Some (vec v2) /\
      length v1 = length (k_out K) /\ length v2 = length (k_out K) /\
      forall j n, nth_error (k_map K) j = Some n -> exists i b m1 m2,
        nth_error l i = Some b /\ o_name b = n /\ nth_error v1 j = Some m1 /\ nth_error v2 j = Some m2 /\
        (0 < o_mag b -> 0 < o_ivar b -> m2 = m1 - 5/2 * log10 a) /\
        (o_mag b <= 0 \/ o_ivar b <= 0 -> m1 = -9999 /\ m2 = -9999).
Proof. exact L_C116_absmag. Qed.
Print Assumptions C116_absmag.

Example ex_C116_absmag : exists d0 s0 d s K x c1 c2,
  let m := fun j => 2 * x / pow10 (-0.4 * ab_offsets SDSS j) in
  let l := map (fun j => ("u"%string, (m j, 1))) (seq 0 5) in
  let flux := model_flux lin d (s_rwave r_sed1) 6 [[1;1;2;2;1;1]] (redshift_grid 0 1 2) in
  Kcorrect lin bq0 sun0 sun0 r_files d0 SDSS true (map o_name l) s0 r_tmpl None None 0 1 2 = (d, s, Ok K) /\ ab_bands SDSS (length l) /\
  nnls_contract nnls_exact /\ Forall (fun b => 0 < o_mag b /\ 0 < o_ivar b) l /\ told_apart flux 1 0 l /\ 0 < fold_right Rplus 0 c1 /\
  fit_object nnls_exact (fun _ => 0) (k_fit K) 0 (observed 0 l) 0 = Ok (Bare (vec c1), 0%nat) /\
  fit_object nnls_exact (fun _ => 0) (k_fit K) 0 (observed 0 (brighter 3 l)) 0 = Ok (Bare (vec c2), 0%nat).
Proof. exact E_C116_absmag. Qed.
