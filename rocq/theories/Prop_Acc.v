(** Property theorems; proofs are in AccThms.v.  Generated by tools/gen_prop.py. *)
From Coquelicot Require Import Coquelicot.
From Coq Require Import String List Arith Lia Bool ZArith QArith Qreals Reals Lra Sorting.Sorted Sorting.Permutation.
From Verif Require Import Base BaseLemmas Num Toy Interp InterpReal Spec Utils Sed Response RespDict ResponseObj LinInterp ResponseEx
  Fitter FitSpec FitterProofs FitterMC FitReal FitTable FitEx FitRealEx FitRealThms Kcorrect KSpec KTable KEx KcorrectThms
  BuildSpec BuildProofs BuildTable BuildEx QuadSpec.
Import ListNotations.
Local Open Scope R_scope.
From Verif Require Import AccThms.

(** C104.  Let F be any curve through the fluxes that the templates with coefficients c have, in the band n, at the redshifts of
    the grid: for instance their flux as a function of redshift.  What reconstruct and reconstruct_out give at a combined redshift
    Z = (1+z)(1+shift)-1 differs from F(Z), divided by 1+shift, by at most 1/8 of the second derivative of F times the square of
    the grid step, and by at most half a step times a Lipschitz constant of F. *)
Theorem C104_reconstruct :
  forall cub bq sun vega fs d k abc responses s t out map_ (r0 r1 : R) nz d' s' K w rows z c bs,
    Kcorrect cub bq sun vega fs d k abc responses s t out map_ r0 r1 nz = (d', s', Ok K) ->
    s_rflux s = table w rows -> rect w rows -> rows <> [] -> r0 < r1 -> (2 <= nz)%nat ->
    let Z := (1 + z) * (1 + bs) - 1 in
    r0 <= Z <= r1 -> -1 < bs -> length c = length rows ->
    let step := (r1 - r0) / INR (nz - 1) in
    let through_grid n F := forall i y l, nth_error (redshift_grid r0 r1 nz) i = Some y ->
      photometry cub d' (s_rwave s) w rows n y l -> F y = dot l c in
    let accurate names p := forall j n F, nth_error names j = Some n -> through_grid n F ->
      exists x, nth_error p j = Some x /\
        (forall M, curved M F r0 r1 -> Rabs (x - F Z / (1 + bs)) <= M / 8 * step ^ 2 / (1 + bs)) /\
        (forall L, (forall a b, r0 <= a <= r1 -> r0 <= b <= r1 -> Rabs (F a - F b) <= L * Rabs (a - b)) ->
           Rabs (x - F Z / (1 + bs)) <= L / 2 * step / (1 + bs)) in
    exists p q, reconstruct (k_fit K) (Some (scal z)) (Some (vec c)) bs = Ok (vec p) /\ length p = length responses /\
      accurate responses p /\
      reconstruct_out K (Some (scal z)) (Some (vec c)) bs = Ok (vec q) /\ length q = length (k_out K) /\ accurate (k_out K) q.
Proof. exact L_C104_reconstruct. Qed.
Print Assumptions C104_reconstruct.

(** The K-correction is within the corresponding error of that of the exact fluxes: -2.5 log10 of the flux F(z) in the mapped input
    band over the flux G(shift) in the output band, that one divided by 1+shift, whenever these exceed their errors. *)
Theorem C104_kcorrect :
  forall cub bq sun vega fs d k abc responses s t out map_ (r0 r1 : R) nz d' s' K w rows z c bs,
    Kcorrect cub bq sun vega fs d k abc responses s t out map_ r0 r1 nz = (d', s', Ok K) ->
    s_rflux s = table w rows -> rect w rows -> rows <> [] -> r0 < r1 -> (2 <= nz)%nat ->
    r0 <= z <= r1 -> r0 <= bs <= r1 -> -1 < bs -> length c = length rows -> 0 < fold_right Rplus 0 c ->
    let step := (r1 - r0) / INR (nz - 1) in
    let through_grid n F := forall i y l, nth_error (redshift_grid r0 r1 nz) i = Some y ->
      photometry cub d' (s_rwave s) w rows n y l -> F y = dot l c in
    exists v, kcorrect K (Some (scal z)) (Some (vec c)) bs = Ok (vec v) /\ length v = length (k_out K) /\
      forall j n_out n_in F G M, nth_error (k_out K) j = Some n_out -> nth_error (k_map K) j = Some n_in ->
        through_grid n_in F -> through_grid n_out G -> curved M F r0 r1 -> curved M G r0 r1 ->
        let e := M / 8 * step ^ 2 in e < F z -> e < G bs ->
        Rabs (nth j v 0 - -5/2 * log10 (F z / (G bs / (1 + bs)))) <= 5 / 2 / ln 10 * (e / (F z - e) + e / (G bs - e)).
Proof. exact L_C104_kcorrect. Qed.
Print Assumptions C104_kcorrect.

(** A curve through the two fluxes of the example, with second derivative 2, that bends away from the chord by 1/4, the bound. *)
Example ex_C104_reconstruct : exists d' s' K F,
  Kcorrect lin bq0 sun0 sun0 r_files [] Plain false ["u"%string] r_sed r_tmpl None None 0 1 2 = (d', s', Ok K) /\
  s_rflux r_sed = table 6 [[1;1;2;2;1;1]; [1;2;3;4;5;6]] /\
  (forall i y l, nth_error (redshift_grid 0 1 2) i = Some y ->
    photometry lin d' (s_rwave r_sed) 6 [[1;1;2;2;1;1]; [1;2;3;4;5;6]] "u" y l -> F y = dot l [1; 1/2]) /\ curved 2 F 0 1 /\
  F (1 / 2) - (F 0 + F 1) / 2 = 2 / 8 * ((1 - 0) / INR (2 - 1)) ^ 2.
Proof. exact E_C104_reconstruct. Qed.

(** The flux x of the example at redshift 0 and a curve with second derivative 2x through its fluxes, so that the error is x/4. *)
Example ex_C104_kcorrect : exists d d' s' K F x,
  Kcorrect lin bq0 sun0 sun0 r_files d Plain false ["u"; "u"]%string r_sed1 r_tmpl None None 0 1 2 = (d', s', Ok K) /\
  s_rflux r_sed1 = table 6 [[1;1;2;2;1;1]] /\ 0 < fold_right Rplus 0 [1] /\
  nth_error (k_out K) 0 = Some "u"%string /\ nth_error (k_map K) 0 = Some "u"%string /\
  (forall i y l, nth_error (redshift_grid 0 1 2) i = Some y ->
    photometry lin d' (s_rwave r_sed1) 6 [[1;1;2;2;1;1]] "u" y l -> F y = dot l [1]) /\ curved (2 * x) F 0 1 /\
  0 < x /\ 2 * x / 8 * ((1 - 0) / INR (2 - 1)) ^ 2 = x / 4 /\ F 0 = x.
Proof. exact E_C104_kcorrect. Qed.
