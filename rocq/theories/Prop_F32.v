(** Property theorems; proofs are in F32Thms.v.  Generated by tools/gen_prop.py. *)
From Coq Require Import String List Arith ZArith QArith Qreals Reals Lra Lia Sorting.Sorted.
From Flocq Require Import Core IEEE754.BinarySingleNaN.
From Verif Require Import Base BaseLemmas Num F32 F32Proofs Interp Sed Response RespDict Fitter FitSpec FitterProofs FitTable
  F32Spec F32Grid F32Ex FitterThms FitRealThms.
Import ListNotations.
Open Scope R_scope.
From Verif Require Import F32Thms.

(** C39.  For every float32 range and grid size the grid has n finite points, starts exactly at redshift_range[0],
    never decreases, and every point is within a few roundings of the exact one. *)
Theorem C39_grid :
  forall (L : libm) (r0 r1 : b32) (n : nat), ok_range r0 r1 n ->
    length (grid32 L r0 r1 n) = n /\
    (forall k, (k < n)%nat -> fin32 (nth k (grid32 L r0 r1 n) nan32) = true) /\
    point L r0 r1 n 0 = val r0 /\
    (forall i j, (i <= j < n)%nat -> point L r0 r1 n i <= point L r0 r1 n j) /\
    (forall k, (k < n)%nat -> Rabs (point L r0 r1 n k - exact_point r0 r1 n k) <= grid_error r0 r1).
Proof. exact L_C39_grid. Qed.
Print Assumptions C39_grid.

Example ex_C39_grid : ok_range zero32 two32 4000 /\ exact_point zero32 two32 4000 3999 = 2.
Proof. exact E_C39_grid. Qed.

(** If the step is larger than twice that error the points are distinct, so no interpolation divides by zero. *)
Theorem C39_distinct :
  forall (L : libm) (r0 r1 : b32) (n : nat), ok_range r0 r1 n ->
    2 * grid_error r0 r1 < (val r1 - val r0) / INR (n - 1) ->
    forall i j, (i < j < n)%nat -> point L r0 r1 n i < point L r0 r1 n j.
Proof. exact L_C39_distinct. Qed.
Print Assumptions C39_distinct.

Example ex_C39_distinct : ok_range zero32 two32 4000 /\ 2 * grid_error zero32 two32 < (val two32 - val zero32) / INR (4000 - 1).
Proof. exact E_C39_distinct. Qed.

(** Without that condition two grid points can coincide although redshift_range[0] < redshift_range[1]. *)
Theorem C39_distinct_refuted :
  exists (r0 r1 : b32) (n : nat), ok_range r0 r1 n /\ val r0 < val r1 /\
    forall L : libm, exists k, (S k < n)%nat /\ point L r0 r1 n k = point L r0 r1 n (S k).
Proof. exact L_C39_distinct_refuted. Qed.
Print Assumptions C39_distinct_refuted.

(** The last point is exactly redshift_range[1] when the width of the range and (n - 1) times it are float32 values;
    both defaults ([0, 1] with 2000 points for Fitter, [0, 2] with 4000 for Kcorrect) qualify. *)
Theorem C39_end_exact :
  forall (L : libm) (r0 r1 : b32) (n : nat), ok_range r0 r1 n ->
    repr (val r1 - val r0) -> repr ((val r1 - val r0) * INR (n - 1)) ->
    point L r0 r1 n (n - 1) = val r1.
Proof. exact L_C39_end_exact. Qed.
Print Assumptions C39_end_exact.

Example ex_C39_end_exact :
  (ok_range zero32 one32 2000 /\ repr (val one32 - val zero32) /\ repr ((val one32 - val zero32) * INR (2000 - 1))) /\
  (ok_range zero32 two32 4000 /\ repr (val two32 - val zero32) /\ repr ((val two32 - val zero32) * INR (4000 - 1))).
Proof. exact E_C39_end_exact. Qed.

(** reconstruct (band_shift 0) of redshifts between redshift_range[0] and redshift_range[1] never fails if, besides,
    1 + redshift_range[0] and 1 + redshift_range[1] are float32 values.  The defaults qualify. *)
Theorem C39_reconstruct_in_range :
  forall (L : libm) k abc names (r0 r1 : b32) n nt (F : fitter b32) (objs : list (b32 * list b32)),
    ok_range r0 r1 n -> fitter32 L k abc names r0 r1 n nt F ->
    repr (val r1 - val r0) -> repr ((val r1 - val r0) * INR (n - 1)) -> repr (1 + val r0) -> repr (1 + val r1) ->
    Forall (fun zc => fin32 (fst zc) = true /\ val r0 <= val (fst zc) <= val r1 /\ length (snd zc) = nt) objs ->
    exists m, @reconstruct b32 (Num_b32 L) F (Some (vec (map fst objs))) (Some (table nt (map snd objs))) zero32 = Ok m /\
              shp m = [length objs; length names].
Proof. exact L_C39_reconstruct_in_range. Qed.
Print Assumptions C39_reconstruct_in_range.

Example ex_C39_reconstruct_in_range :
  ok_range zero32 two32 4000 /\ repr (1 + val zero32) /\ repr (1 + val two32) /\
  fitter32 x_libm Plain false x_names zero32 two32 9 2 (x_fitter zero32 two32 9).
Proof. exact E_C39_reconstruct_in_range. Qed.

(** Whenever the last grid point lies below redshift_range[1], a fit at redshift_range[1] silently returns zeros. *)
Theorem C39_fit_at_end_zero :
  forall (L : libm) k names (r0 r1 : b32) n nt (F : fitter b32) nnls rng o cur,
    ok_range r0 r1 n -> fitter32 L k false names r0 r1 n nt F -> length names <> 1%nat -> obj_ok (length names) o ->
    o_z o = r1 -> point L r0 r1 n (n - 1) < val r1 ->
    @fit_object b32 (Num_b32 L) nnls rng F 0 o cur = Ok (Bare (vec (repeat zero32 nt)), cur).
Proof. exact L_C39_fit_at_end_zero. Qed.
Print Assumptions C39_fit_at_end_zero.

Example ex_C39_fit_at_end_zero :
  ok_range zero32 r07 100 /\ Rabs (val r07 - 7 / 10) <= two (-25) /\
  fitter32 x_libm Plain false x_names zero32 r07 100 2 (x_fitter zero32 r07 100) /\
  point x_libm zero32 r07 100 (100 - 1) < val r07.
Proof. exact E_C39_fit_at_end_zero. Qed.

(** So "every redshift in redshift_range is fitted" is false: redshift_range [0, 0.7], nredshift 100, redshift 0.7. *)
Theorem C39_end_refuted :
  exists (r1 : b32) n (F : fitter b32), Rabs (val r1 - 7 / 10) <= two (-25) /\
    fitter32 x_libm Plain false x_names zero32 r1 n 2 F /\
    forall nnls rng m iv cur, length m = 2%nat -> length iv = 2%nat ->
      @fit_object b32 (Num_b32 x_libm) nnls rng F 0 {| o_z := r1; o_m := m; o_iv := iv |} cur =
      Ok (Bare (vec [zero32; zero32]), cur).
Proof. exact L_C39_end_refuted. Qed.
Print Assumptions C39_end_refuted.

(** Even when the last grid point is exactly redshift_range[1], so that fit_coeffs accepts it, reconstruct raises
    there if (1 + z) - 1 rounds upwards: redshift_range [0, 0.2] with the default 4000 points. *)
Theorem C39_reconstruct_refuted :
  exists (r1 : b32), Rabs (val r1 - 2 / 10) <= two (-27) /\ ok_range zero32 r1 4000 /\
    (forall L, point L zero32 r1 4000 3999 = val r1) /\
    forall (L : libm) k abc names n nt (F : fitter b32) (objs : list (b32 * list b32)),
      ok_range zero32 r1 n -> point L zero32 r1 n (n - 1) = val r1 -> fitter32 L k abc names zero32 r1 n nt F ->
      Forall (fun zc => length (snd zc) = nt) objs -> In r1 (map fst objs) ->
      @reconstruct b32 (Num_b32 L) F (Some (vec (map fst objs))) (Some (table nt (map snd objs))) zero32 = Raise ValueError.
Proof. exact L_C39_reconstruct_refuted. Qed.
Print Assumptions C39_reconstruct_refuted.

Example ex_C39_reconstruct_refuted :
  ok_range zero32 r02 5 /\ point x_libm zero32 r02 5 (5 - 1) = val r02 /\
  fitter32 x_libm Plain false x_names zero32 r02 5 2 (x_fitter zero32 r02 5).
Proof. exact E_C39_reconstruct_refuted. Qed.

(** (1 + z) - 1 is within two roundings of z. *)
Theorem C39_shift_error :
  forall (z : b32), fin32 z = true -> 0 <= val z <= two 100 ->
    Rabs (val (sub32 (mul32 (add32 (z32 1) z) (add32 (z32 1) zero32)) (z32 1)) - val z) <= two (-22) * (1 + val z).
Proof. exact L_C39_shift_error. Qed.
Print Assumptions C39_shift_error.

Example ex_C39_shift_error : fin32 r02 = true /\ 0 <= val r02 <= two 100.
Proof. exact E_C39_shift_error. Qed.

(** With nredshift=1 the only grid point is NaN, whatever the range. *)
Theorem C39_one_point :
  forall (L : libm) (r0 r1 : b32), fin32 r0 = true -> fin32 r1 = true -> grid32 L r0 r1 1 = [nan32].
Proof. exact L_C39_one_point. Qed.
Print Assumptions C39_one_point.

Example ex_C39_one_point : fin32 zero32 = true /\ fin32 two32 = true.
Proof. exact E_C39_one_point. Qed.

(** C38 in float32: after a set_Amatrix that succeeds the templates are at redshift 0 with bit-identical rest-frame
    arrays (x * (1 + 0) and x / (1 + 0) are x for every float32, NaN, infinities and signed zeros included). *)
Theorem C38_float32 :
  forall (L : libm) cub bq sun vega fs d (F : fitter b32) d' F',
    @set_Amatrix b32 (Num_b32 L) cub bq sun vega fs d F = (d', F', None) ->
    s_z (f_sed F') = zero32 /\ s_wave (f_sed F') = s_rwave (f_sed F) /\ s_flux (f_sed F') = s_rflux (f_sed F) /\
    s_rwave (f_sed F') = s_rwave (f_sed F) /\ s_rflux (f_sed F') = s_rflux (f_sed F).
Proof. exact L_C38_float32. Qed.
Print Assumptions C38_float32.

Example ex_C38_float32 : exists d' F', 
  @set_Amatrix b32 (Num_b32 x_libm) x_cub (fun _ _ _ => Raise ValueError) (Raise OSError) (Raise OSError) (fun _ => None)
    x_dict (@Fitter b32 (Num_b32 x_libm) Plain false x_names x_sed zero32 two32 9) = (d', F', None).
Proof. exact E_C38_float32. Qed.
