(** Property theorems; proofs are in FluxAccThms.v.  Generated by tools/gen_prop.py. *)
From Coquelicot Require Import Coquelicot.
From Coq Require Import String List Arith Lia Bool ZArith QArith Qreals Reals Lra Sorting.Sorted Sorting.Permutation.
From Verif Require Import Base BaseLemmas Num Toy Interp InterpReal Spec Utils Sed Response RespDict ResponseObj LinInterp ResponseEx
  Fitter FitSpec FitterProofs FitterMC FitReal FitTable FitEx FitRealEx FitRealThms Kcorrect KSpec KTable KEx KcorrectThms
  BuildSpec BuildProofs BuildTable BuildEx ShiftSpec Spline SplineSpec QuadSpec FluxAccSpec.
Import ListNotations.
Local Open Scope R_scope.
From Verif Require Import FluxAccThms.

(** C106.  The numbers of the design matrix: the photometry of the templates at a redshift z, with coefficients c, is the flux of their
    sum seen at z, up to an amount proportional to the square of the longest step h of the integration grid. *)
Theorem C106_photometry :
  forall cub bq sun vega rw y r w yy d n wave rows c z l h M M' B,
    splines cub -> band cub bq sun vega rw y r w yy -> dget d n = Some r ->
    StronglySorted Rlt wave -> (4 <= length wave)%nat -> Forall (fun t => 0 < t) wave -> rect (length wave) rows -> -1 < z ->
    length c = length rows -> sampled_well cub w yy wave rows [z] h M M' B -> photometry cub d wave (length wave) rows n z l ->
    Rabs (dot l c - sum_flux cub w yy wave rows c z) <= sums_error cub w yy c h M M' B.
Proof. exact L_C106_photometry. Qed.
Print Assumptions C106_photometry.

(** The reconstructed fluxes: reconstruct and reconstruct_out at the combined redshift Z = (1+z)(1+shift)-1 give the flux of the sum
    of the templates seen at Z, divided by 1+shift.  The error is at most that of the interpolation plus that of the sums. *)
Theorem C106_reconstruct :
  forall cub bq sun vega fs d k abc responses s t out map_ (r0 r1 : R) nz d' s' K rows z c bs,
    let wave := s_rwave s in
    splines cub -> Kcorrect cub bq sun vega fs d k abc responses s t out map_ r0 r1 nz = (d', s', Ok K) ->
    s_rflux s = table (length wave) rows -> rect (length wave) rows -> rows <> [] -> -1 < r0 < r1 -> (2 <= nz)%nat ->
    StronglySorted Rlt wave -> (4 <= length wave)%nat -> Forall (fun t => 0 < t) wave ->
    let Z := (1 + z) * (1 + bs) - 1 in
    r0 <= Z <= r1 -> -1 < bs -> length c = length rows ->
    let step := (r1 - r0) / INR (nz - 1) in
    let accurate names p := forall j n r rw y w yy E,
      nth_error names j = Some n -> dget d' n = Some r -> band cub bq sun vega rw y r w yy ->
      error_bound cub w yy wave rows c (redshift_grid r0 r1 nz) r0 r1 step E ->
      exists x, nth_error p j = Some x /\ Rabs (x - sum_flux cub w yy wave rows c Z / (1 + bs)) <= E / (1 + bs) in
    exists p q, reconstruct (k_fit K) (Some (scal z)) (Some (vec c)) bs = Ok (vec p) /\ accurate responses p /\
      reconstruct_out K (Some (scal z)) (Some (vec c)) bs = Ok (vec q) /\ accurate (k_out K) q.
Proof. exact L_C106_reconstruct. Qed.
Print Assumptions C106_reconstruct.

(** The K-correction is -2.5 log10 of the flux seen at z in the mapped input band over the flux at the band shift in the output band,
    divided by 1+shift, up to these errors relative to the fluxes. *)
Theorem C106_kcorrect :
  forall cub bq sun vega fs d k abc responses s t out map_ (r0 r1 : R) nz d' s' K rows z c bs,
    let wave := s_rwave s in
    splines cub -> Kcorrect cub bq sun vega fs d k abc responses s t out map_ r0 r1 nz = (d', s', Ok K) ->
    s_rflux s = table (length wave) rows -> rect (length wave) rows -> rows <> [] -> -1 < r0 < r1 -> (2 <= nz)%nat ->
    StronglySorted Rlt wave -> (4 <= length wave)%nat -> Forall (fun t => 0 < t) wave ->
    r0 <= z <= r1 -> r0 <= bs <= r1 -> length c = length rows -> 0 < fold_right Rplus 0 c ->
    let step := (r1 - r0) / INR (nz - 1) in
    let bound n F E := exists r rw y w yy, dget d' n = Some r /\ band cub bq sun vega rw y r w yy /\ F = sum_flux cub w yy wave rows c /\
      error_bound cub w yy wave rows c (redshift_grid r0 r1 nz) r0 r1 step E in
    exists v, kcorrect K (Some (scal z)) (Some (vec c)) bs = Ok (vec v) /\ length v = length (k_out K) /\
      forall j n_out n_in F G e e', nth_error (k_out K) j = Some n_out -> nth_error (k_map K) j = Some n_in ->
        bound n_in F e -> bound n_out G e' -> e < F z -> e' < G bs ->
        Rabs (nth j v 0 - -5/2 * log10 (F z / (G bs / (1 + bs)))) <= 5 / 2 / ln 10 * (e / (F z - e) + e' / (G bs - e')).
Proof. exact L_C106_kcorrect. Qed.
Print Assumptions C106_kcorrect.

Example ex_C106_photometry : exists bq r d w yy wave rows z l h M M' B,
  splines notaknot /\ band notaknot bq sun0 sun0 w yy r w yy /\ dget d "u"%string = Some r /\
  StronglySorted Rlt wave /\ (4 <= length wave)%nat /\ Forall (fun t => 0 < t) wave /\ rect (length wave) rows /\ -1 < z /\
  length [2] = length rows /\ sampled_well notaknot w yy wave rows [z] h M M' B /\ photometry notaknot d wave (length wave) rows "u" z l /\
  sums_error notaknot w yy [2] h M M' B <= 1 / 75 * sum_flux notaknot w yy wave rows [2] z.
Proof. exact E_C106_photometry. Qed.

Example ex_C106_reconstruct : exists bq r d d' s s' K w yy rows E,
  splines notaknot /\ Kcorrect notaknot bq sun0 sun0 r_files d Plain false ["u"%string] s r_tmpl None None 0 (1/2) 2 = (d', s', Ok K) /\
  s_rflux s = table (length (s_rwave s)) rows /\ rect (length (s_rwave s)) rows /\ rows <> [] /\ StronglySorted Rlt (s_rwave s) /\
  (4 <= length (s_rwave s))%nat /\ Forall (fun t => 0 < t) (s_rwave s) /\ length [2] = length rows /\
  dget d' "u"%string = Some r /\ band notaknot bq sun0 sun0 w yy r w yy /\
  error_bound notaknot w yy (s_rwave s) rows [2] (redshift_grid 0 (1/2) 2) 0 (1/2) ((1/2 - 0) / INR (2 - 1)) E /\
  forall z, 0 <= z <= 1/2 -> E <= 1/8 * sum_flux notaknot w yy (s_rwave s) rows [2] z.
Proof. exact E_C106_reconstruct. Qed.

Example ex_C106_kcorrect : exists bq r d d' s s' K w yy rows E,
  splines notaknot /\ Kcorrect notaknot bq sun0 sun0 r_files d Plain false ["u"%string] s r_tmpl None None 0 (1/2) 2 = (d', s', Ok K) /\
  s_rflux s = table (length (s_rwave s)) rows /\ rect (length (s_rwave s)) rows /\ StronglySorted Rlt (s_rwave s) /\
  nth_error (k_out K) 0 = Some "u"%string /\ nth_error (k_map K) 0 = Some "u"%string /\
  dget d' "u"%string = Some r /\ band notaknot bq sun0 sun0 w yy r w yy /\
  error_bound notaknot w yy (s_rwave s) rows [2] (redshift_grid 0 (1/2) 2) 0 (1/2) ((1/2 - 0) / INR (2 - 1)) E /\
  forall z, 0 <= z <= 1/2 -> 8 * E <= sum_flux notaknot w yy (s_rwave s) rows [2] z /\ 0 < sum_flux notaknot w yy (s_rwave s) rows [2] z.
Proof. exact E_C106_kcorrect. Qed.

(** The absolute magnitudes of measured bands have the same error: with the true K-correction they would be m - DM - K. *)
Theorem C106_absmag :
  forall cub bq sun vega fs d k responses s t out map_ (r0 r1 : R) nz d' s' K rows z c bs distmod lim kc m iv dist,
    let wave := s_rwave s in
    splines cub -> Kcorrect cub bq sun vega fs d k false responses s t out map_ r0 r1 nz = (d', s', Ok K) ->
    s_rflux s = table (length wave) rows -> rect (length wave) rows -> rows <> [] -> -1 < r0 < r1 -> (2 <= nz)%nat ->
    StronglySorted Rlt wave -> (4 <= length wave)%nat -> Forall (fun t => 0 < t) wave ->
    r0 <= z <= r1 -> r0 <= bs <= r1 -> length c = length rows -> 0 < fold_right Rplus 0 c ->
    length m = length responses -> length iv = length responses ->
    let step := (r1 - r0) / INR (nz - 1) in
    let bound n F E := exists r rw y w yy, dget d' n = Some r /\ band cub bq sun vega rw y r w yy /\ F = sum_flux cub w yy wave rows c /\
      error_bound cub w yy wave rows c (redshift_grid r0 r1 nz) r0 r1 step E in
    exists v a, absmag_object distmod K bs false false lim kc {| ko_z := z; ko_m := m; ko_iv := iv; ko_c := c; ko_d := dist |} = Ok a /\
      nth_error (parts a) 0 = Some (vec v) /\ length v = length (k_out K) /\
      forall j n_out n_in F G e e', nth_error (k_out K) j = Some n_out -> nth_error (k_map K) j = Some n_in ->
        bound n_in F e -> bound n_out G e' -> e < F z -> e' < G bs ->
        exists i, nth_error responses i = Some n_in /\
          forall mi vi, nth_error m i = Some mi -> nth_error iv i = Some vi -> 0 < mi -> 0 < vi ->
            Rabs (nth j v 0 - (-5/2 * log10 mi - distmod z - -5/2 * log10 (F z / (G bs / (1 + bs))))) <=
              5 / 2 / ln 10 * (e / (F z - e) + e' / (G bs - e')).
Proof. exact L_C106_absmag. Qed.
Print Assumptions C106_absmag.

Example ex_C106_absmag : exists bq r d d' s s' K w yy rows E,
  splines notaknot /\ Kcorrect notaknot bq sun0 sun0 r_files d Plain false ["u"%string] s r_tmpl None None 0 (1/2) 2 = (d', s', Ok K) /\
  s_rflux s = table (length (s_rwave s)) rows /\ rect (length (s_rwave s)) rows /\ StronglySorted Rlt (s_rwave s) /\
  nth_error (k_out K) 0 = Some "u"%string /\ nth_error (k_map K) 0 = Some "u"%string /\
  dget d' "u"%string = Some r /\ band notaknot bq sun0 sun0 w yy r w yy /\
  error_bound notaknot w yy (s_rwave s) rows [2] (redshift_grid 0 (1/2) 2) 0 (1/2) ((1/2 - 0) / INR (2 - 1)) E /\
  forall z, 0 <= z <= 1/2 -> 8 * E <= sum_flux notaknot w yy (s_rwave s) rows [2] z /\ 0 < sum_flux notaknot w yy (s_rwave s) rows [2] z.
Proof. exact E_C106_absmag. Qed.
