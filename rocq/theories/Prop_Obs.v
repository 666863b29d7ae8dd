(** Property theorems; proofs are in ObsThms.v.  Generated by tools/gen_prop.py. *)
From Coquelicot Require Import Coquelicot.
From Coq Require Import String List Arith Lia Bool ZArith QArith Qreals Reals Lra Sorting.Sorted Sorting.Permutation.
From Verif Require Import Base BaseLemmas Num Toy Interp InterpReal Spec Utils UtilsReal Sed Response RespDict ResponseObj LinInterp ResponseEx
  Fitter FitSpec FitterProofs FitterMC FitReal FitTable FitEx FitRealEx FitRealThms Kcorrect KSpec KTable KEx KcorrectThms
  BuildSpec BuildProofs BuildTable BuildEx ShiftSpec Spline SplineSpec QuadSpec BlendSpec BlendEx ObsSpec.
Import ListNotations.
Local Open Scope R_scope.
From Verif Require Import ObsThms.

(** C107.  docs/examples.rst plots the spectrum of coefficients c, seen from redshift z: its wavelengths are (1+z) times those of the
    templates, its fluxes the combined fluxes of the templates over 1+z.  reconstruct and reconstruct_out give the fluxes of this
    spectrum in the input and output bands, interpolated between the redshifts of the grid and over 1+band_shift. *)
Theorem C107_reconstruct :
  forall cub bq sun vega fs d k abc responses s t out map_ (r0 r1 : R) nz d' s' K rows z c bs,
    let wave := s_rwave s in
    splines cub -> Kcorrect cub bq sun vega fs d k abc responses s t out map_ r0 r1 nz = (d', s', Ok K) ->
    s_rflux s = table (length wave) rows -> rect (length wave) rows -> rows <> [] -> -1 < r0 < r1 -> (2 <= nz)%nat ->
    StronglySorted Rlt wave -> (4 <= length wave)%nat -> length c = length rows ->
    let Z := (1 + z) * (1 + bs) - 1 in
    r0 <= Z <= r1 ->
    let in_band n y x := exists r, dget d' n = Some r /\
      project_arr cub r (vec (spec_wave wave y)) (vec (spec_flux (length wave) rows c y)) = Ok (scal x) in
    let interpolated n x := exists i z0 z1 u x0 x1,
      nth_error (redshift_grid r0 r1 nz) i = Some z0 /\ nth_error (redshift_grid r0 r1 nz) (S i) = Some z1 /\
      0 <= u <= 1 /\ Z = (1 - u) * z0 + u * z1 /\ in_band n z0 x0 /\ in_band n z1 x1 /\ x = ((1 - u) * x0 + u * x1) / (1 + bs) in
    exists p q, reconstruct (k_fit K) (Some (scal z)) (Some (vec c)) bs = Ok (vec p) /\ Forall2 interpolated responses p /\
      reconstruct_out K (Some (scal z)) (Some (vec c)) bs = Ok (vec q) /\ Forall2 interpolated (k_out K) q.
Proof. exact L_C107_reconstruct. Qed.
Print Assumptions C107_reconstruct.

Example ex_C107_reconstruct : exists bq d d' s' K, let rows := [[1;1;2;2;1;1]; [1;2;3;4;5;6]] in
  splines notaknot /\ Kcorrect notaknot bq sun0 sun0 (fun _ => None) d Plain false ["u"; "u"]%string (b_sed rows) r_tmpl None None 0 1 2 = (d', s', Ok K) /\
  s_rwave (b_sed rows) = b_wave /\ s_rflux (b_sed rows) = table 6 rows /\ StronglySorted Rlt b_wave /\
  0 <= (1 + 1/5) * (1 + 1/10) - 1 <= 1 /\
  spec_wave b_wave 1 = [1;2;4;6;8;10] /\ spec_flux 6 rows [2; 2] 1 = [2;3;5;6;6;7].
Proof. exact E_C107_reconstruct. Qed.

(** At the redshifts of the grid they are the fluxes of the spectrum. *)
Theorem C107_at_grid_redshifts :
  forall cub bq sun vega fs d k abc responses s t out map_ (r0 r1 : R) nz d' s' K rows z c i,
    let wave := s_rwave s in
    splines cub -> Kcorrect cub bq sun vega fs d k abc responses s t out map_ r0 r1 nz = (d', s', Ok K) ->
    s_rflux s = table (length wave) rows -> rect (length wave) rows -> rows <> [] -> -1 < r0 < r1 -> (2 <= nz)%nat ->
    StronglySorted Rlt wave -> (4 <= length wave)%nat -> length c = length rows -> nth_error (redshift_grid r0 r1 nz) i = Some z ->
    let in_band n x := exists r, dget d' n = Some r /\
      project_arr cub r (vec (spec_wave wave z)) (vec (spec_flux (length wave) rows c z)) = Ok (scal x) in
    exists p q, reconstruct (k_fit K) (Some (scal z)) (Some (vec c)) 0 = Ok (vec p) /\ Forall2 in_band responses p /\
      reconstruct_out K (Some (scal z)) (Some (vec c)) 0 = Ok (vec q) /\ Forall2 in_band (k_out K) q.
Proof. exact L_C107_at_grid_redshifts. Qed.
Print Assumptions C107_at_grid_redshifts.

Example ex_C107_at_grid_redshifts : exists bq d d' s' K, let rows := [[1;1;2;2;1;1]; [1;2;3;4;5;6]] in
  splines notaknot /\ Kcorrect notaknot bq sun0 sun0 (fun _ => None) d Plain false ["u"; "u"]%string (b_sed rows) r_tmpl None None 0 1 2 = (d', s', Ok K) /\
  nth_error (redshift_grid 0 1 2) 1 = Some 1 /\ spec_flux 6 rows [2; 2] 1 = [2;3;5;6;6;7].
Proof. exact E_C107_at_grid_redshifts. Qed.

(** Between them, if F z is the flux of the spectrum seen from z, they differ from F by at most the error of linear interpolation. *)
Theorem C107_error :
  forall cub bq sun vega fs d k abc responses s t out map_ (r0 r1 : R) nz d' s' K rows z c bs,
    let wave := s_rwave s in
    splines cub -> Kcorrect cub bq sun vega fs d k abc responses s t out map_ r0 r1 nz = (d', s', Ok K) ->
    s_rflux s = table (length wave) rows -> rect (length wave) rows -> rows <> [] -> -1 < r0 < r1 -> (2 <= nz)%nat ->
    StronglySorted Rlt wave -> (4 <= length wave)%nat -> length c = length rows ->
    let Z := (1 + z) * (1 + bs) - 1 in
    r0 <= Z <= r1 -> -1 < bs ->
    let step := (r1 - r0) / INR (nz - 1) in
    let accurate n x := forall r F, dget d' n = Some r ->
      (forall y, r0 <= y <= r1 -> project_arr cub r (vec (spec_wave wave y)) (vec (spec_flux (length wave) rows c y)) = Ok (scal (F y))) ->
      (forall M, curved M F r0 r1 -> Rabs (x - F Z / (1 + bs)) <= M / 8 * step ^ 2 / (1 + bs)) /\
      (forall L, (forall a b, r0 <= a <= r1 -> r0 <= b <= r1 -> Rabs (F a - F b) <= L * Rabs (a - b)) ->
         Rabs (x - F Z / (1 + bs)) <= L / 2 * step / (1 + bs)) in
    exists p q, reconstruct (k_fit K) (Some (scal z)) (Some (vec c)) bs = Ok (vec p) /\ Forall2 accurate responses p /\
      reconstruct_out K (Some (scal z)) (Some (vec c)) bs = Ok (vec q) /\ Forall2 accurate (k_out K) q.
Proof. exact L_C107_error. Qed.
Print Assumptions C107_error.

Example ex_C107_error : exists bq d d' s' K r F, let rows := [[1;1;2;2;1;1]; [1;2;3;4;5;6]] in
  splines notaknot /\ Kcorrect notaknot bq sun0 sun0 (fun _ => None) d Plain false ["u"; "u"]%string (b_sed rows) r_tmpl None None 0 1 2 = (d', s', Ok K) /\
  dget d' "u"%string = Some r /\
  forall y, 0 <= y <= 1 -> project_arr notaknot r (vec (spec_wave b_wave y)) (vec (spec_flux 6 rows [2; 2] y)) = Ok (scal (F y)).
Proof. exact E_C107_error. Qed.

(** The K-correction compares the flux of this spectrum in the input band with that of the same spectrum moved to redshift band_shift
    in the output band. *)
Theorem C107_kcorrect :
  forall cub bq sun vega fs d k abc responses s t out map_ (r0 r1 : R) nz d' s' K rows z c bs i i',
    let wave := s_rwave s in
    splines cub -> Kcorrect cub bq sun vega fs d k abc responses s t out map_ r0 r1 nz = (d', s', Ok K) ->
    s_rflux s = table (length wave) rows -> rect (length wave) rows -> rows <> [] -> -1 < r0 < r1 -> (2 <= nz)%nat ->
    StronglySorted Rlt wave -> (4 <= length wave)%nat -> length c = length rows -> 0 < fold_right Rplus 0 c ->
    nth_error (redshift_grid r0 r1 nz) i = Some z -> nth_error (redshift_grid r0 r1 nz) i' = Some bs ->
    let in_band n y x := exists r, dget d' n = Some r /\
      project_arr cub r (vec (spec_wave wave y)) (vec (spec_flux (length wave) rows c y)) = Ok (scal x) in
    exists v, kcorrect K (Some (scal z)) (Some (vec c)) bs = Ok (vec v) /\ length v = length (k_out K) /\
      forall j n_out n_in, nth_error (k_out K) j = Some n_out -> nth_error (k_map K) j = Some n_in ->
        exists x y, in_band n_in z x /\ in_band n_out bs y /\ nth_error v j = Some (-5/2 * log10 (x / (y / (1 + bs)))).
Proof. exact L_C107_kcorrect. Qed.
Print Assumptions C107_kcorrect.

Example ex_C107_kcorrect : exists bq d d' s' K, let rows := [[1;1;2;2;1;1]; [1;2;3;4;5;6]] in
  splines notaknot /\ Kcorrect notaknot bq sun0 sun0 (fun _ => None) d Plain false ["u"; "u"]%string (b_sed rows) r_tmpl None None 0 1 2 = (d', s', Ok K) /\
  nth_error (redshift_grid 0 1 2) 1 = Some 1 /\ nth_error (redshift_grid 0 1 2) 0 = Some 0 /\ 0 < fold_right Rplus 0 [2; 2] /\
  spec_wave b_wave 1 = [1;2;4;6;8;10] /\ spec_flux 6 rows [2; 2] 1 = [2;3;5;6;6;7] /\ spec_flux 6 rows [2; 2] 0 = [4;6;10;12;12;14].
Proof. exact E_C107_kcorrect. Qed.
