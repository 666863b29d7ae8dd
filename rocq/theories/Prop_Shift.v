(** Property theorems; proofs are in ShiftThms.v.  Generated by tools/gen_prop.py. *)
From Coq Require Import String List Arith Lia Bool ZArith QArith Qreals Reals Lra Classical_Prop Sorting.Sorted Sorting.Permutation.
From Verif Require Import Base BaseLemmas Num Interp InterpReal Spec Utils Sed Response RespDict ResponseObj LinInterp ResponseEx
  Fitter FitSpec Kcorrect KSpec BuildSpec BuildEx Spline SplineSpec ShiftSpec.
Import ListNotations.
Local Open Scope R_scope.
From Verif Require Import ShiftThms.

(** The blueshifted band of any response that is not dark everywhere exists. *)
Theorem C79_exists :
  forall cub bq tol sun vega (wave y : list R) k, splines cub -> root_finder tol bq -> reference_file sun -> reference_file vega ->
    length y = length wave -> NoDup wave -> (4 <= length wave)%nat -> Exists (fun v => 0 < v) y -> Forall (fun t => 0 < t) wave -> 0 < k ->
    exists r r', Response cub bq sun vega wave y = Ok r /\ blueshifted cub bq sun vega k r r'.
Proof. exact L_C79_exists. Qed.
Print Assumptions C79_exists.

Example ex_C79_exists : splines notaknot /\ (exists bq, root_finder (1/1000) bq) /\ reference_file sun0 /\ NoDup [1;2;3;4].
Proof. exact E_C79_exists. Qed.

(** C79.  A redshifted spectrum through a band is, up to the factor 1+z, the rest-frame spectrum through the band blueshifted by
    1+z.  (wavelengths times k, fluxes divided by k: what set_redshift does, with k = 1+z.) *)
Theorem C79_project :
  forall cub bq sun vega k r r' sw f s sk, splines cub -> 0 < k -> blueshifted cub bq sun vega k r r' ->
    spectrum sw f s -> spectrum (map (fun t => t * k) sw) (map (fun v => v / k) f) sk ->
    exists m, project_sed cub r' s = Ok (scal m) /\ project_sed cub r sk = Ok (scal (k * m)).
Proof. exact L_C79_project. Qed.
Print Assumptions C79_project.

Example ex_C79_project : exists bq r r' s sk, splines notaknot /\ blueshifted notaknot bq sun0 sun0 (3/2) r r' /\
  spectrum [1;2;3;4] [1;2;2;5] s /\ spectrum (map (fun t => t * (3/2)) [1;2;3;4]) (map (fun v => v / (3/2)) [1;2;2;5]) sk.
Proof. exact E_C79_project. Qed.

(** reconstruct and reconstruct_out with a band shift give the flux of the templates at the redshift through the bands blueshifted
    by 1+band_shift, when the combined shift is a grid redshift (between grid redshifts the table is interpolated, C72). *)
Theorem C79_reconstruct :
  forall cub bq sun vega fs d k abc responses s t out map_ (r0 r1 : R) nz d' s' K rows z c bs i,
    Kcorrect cub bq sun vega fs d k abc responses s t out map_ r0 r1 nz = (d', s', Ok K) -> splines cub ->
    let wave := s_rwave s in
    s_rflux s = table (length wave) rows -> rect (length wave) rows -> rows <> [] -> length c = length rows ->
    StronglySorted Rlt wave -> (4 <= length wave)%nat -> Forall (fun t => 0 < t) wave -> r0 < r1 -> (2 <= nz)%nat ->
    -1 < z -> -1 < bs -> nth_error (redshift_grid r0 r1 nz) i = Some ((1 + z) * (1 + bs) - 1) ->
    exists p q, reconstruct (k_fit K) (Some (scal z)) (Some (vec c)) bs = Ok (vec p) /\
      reconstruct_out K (Some (scal z)) (Some (vec c)) bs = Ok (vec q) /\
      length p = length responses /\ length q = length (k_out K) /\
      forall j n v r r' l, (nth_error responses j = Some n /\ nth_error p j = Some v) \/ (nth_error (k_out K) j = Some n /\ nth_error q j = Some v) ->
        dget d' n = Some r -> blueshifted cub bq sun vega (1 + bs) r r' ->
        through cub r' (seen_wave z wave) (seen_rows z rows) l -> v = dot l c.
Proof. exact L_C79_reconstruct. Qed.
Print Assumptions C79_reconstruct.

Example ex_C79_reconstruct : splines notaknot /\ nth_error (redshift_grid 0 1 2) 1 = Some ((1 + 1/3) * (1 + 1/2) - 1) /\
  exists bq d d' s' K r r' l,
  Kcorrect notaknot bq sun0 sun0 (fun _ => None) d Plain false ["u"%string] r_sed r_tmpl None None 0 1 2 = (d', s', Ok K) /\
  dget d' "u"%string = Some r /\ blueshifted notaknot bq sun0 sun0 (1 + 1/2) r r' /\
  through notaknot r' (seen_wave (1/3) (s_rwave r_sed)) (seen_rows (1/3) [[1;1;2;2;1;1]; [1;2;3;4;5;6]]) l.
Proof. exact E_C79_reconstruct. Qed.

(** The K-correction is the textbook one (Hogg et al. 2002, eq. 13, per unit frequency of the AB system): with the rest-frame
    templates through the input band blueshifted by 1+z and through the output band blueshifted by 1+band_shift,
    K = -2.5 log10 [(1+z) F_in / F_out], when both shifts are grid redshifts. *)
Theorem C79_kcorrect :
  forall cub bq sun vega fs d k abc responses s t out map_ (r0 r1 : R) nz d' s' K rows z c bs i i',
    Kcorrect cub bq sun vega fs d k abc responses s t out map_ r0 r1 nz = (d', s', Ok K) -> splines cub ->
    let wave := s_rwave s in
    s_rflux s = table (length wave) rows -> rect (length wave) rows -> rows <> [] -> length c = length rows ->
    StronglySorted Rlt wave -> (4 <= length wave)%nat -> Forall (fun t => 0 < t) wave -> r0 < r1 -> (2 <= nz)%nat ->
    -1 < z -> -1 < bs -> nth_error (redshift_grid r0 r1 nz) i = Some z -> nth_error (redshift_grid r0 r1 nz) i' = Some bs ->
    0 < fold_right Rplus 0 c ->
    exists v, kcorrect K (Some (scal z)) (Some (vec c)) bs = Ok (vec v) /\ length v = length (k_out K) /\
      forall j n_out n_in r_in r_out r_in' r_out' l_in l_out,
        nth_error (k_out K) j = Some n_out -> nth_error (k_map K) j = Some n_in ->
        dget d' n_in = Some r_in -> dget d' n_out = Some r_out ->
        blueshifted cub bq sun vega (1 + z) r_in r_in' -> blueshifted cub bq sun vega (1 + bs) r_out r_out' ->
        through cub r_in' wave rows l_in -> through cub r_out' wave rows l_out ->
        nth_error v j = Some (-5/2 * log10 ((1 + z) * dot l_in c / dot l_out c)).
Proof. exact L_C79_kcorrect. Qed.
Print Assumptions C79_kcorrect.

Example ex_C79_kcorrect : splines notaknot /\ nth_error (redshift_grid 0 1 2) 1 = Some 1 /\ 0 < fold_right Rplus 0 [1; 1/2] /\
  exists bq d d' s' K r r' l,
  Kcorrect notaknot bq sun0 sun0 (fun _ => None) d Plain false ["u"%string] r_sed r_tmpl None None 0 1 2 = (d', s', Ok K) /\
  dget d' "u"%string = Some r /\ blueshifted notaknot bq sun0 sun0 (1 + 1) r r' /\
  through notaknot r' (s_rwave r_sed) [[1;1;2;2;1;1]; [1;2;3;4;5;6]] l.
Proof. exact E_C79_kcorrect. Qed.
