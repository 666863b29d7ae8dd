(** Property theorems; proofs are in FitRealThms.v.  Generated by tools/gen_prop.py. *)
From Coq Require Import String List Arith Lia Bool ZArith QArith Qreals Reals Lra Sorting.Sorted.
From Verif Require Import Base BaseLemmas Num Toy Interp InterpReal Spec Utils Sed Response RespDict LinInterp ResponseEx
  Fitter FitSpec FitterProofs FitterMC FitReal FitTable FitEx FitRealEx FitterThms.
Import ListNotations.
Local Open Scope R_scope.
From Verif Require Import FitRealThms.

(** C28.  Given the contract of the solver, the coefficients returned for an object in range are nonnegative and
    their chi^2 is minimal among all nonnegative coefficients; predicted maggies are those of reconstruct. *)
Theorem C28_optimal :
  forall nnls rng (F : fitter R) A nb nt o cur c cur',
    nnls_contract nnls -> no_ab F -> ready F A nb nt -> nb <> 1%nat -> obj_ok nb o ->
    nonneg (o_iv o) -> in_range (a_x A) (o_z o) ->
    fit_object nnls rng F 0 o cur = Ok (Bare (vec c), cur') ->
    length c = nt /\ nonneg c /\
    exists p, reconstruct F (Some (scal (o_z o))) (Some (vec c)) 0 = Ok (vec p) /\
      forall y, length y = nt -> nonneg y ->
        exists q, reconstruct F (Some (scal (o_z o))) (Some (vec y)) 0 = Ok (vec q) /\
                  chi2 (o_iv o) (o_m o) p <= chi2 (o_iv o) (o_m o) q.
Proof. exact L_C28_optimal. Qed.
Print Assumptions C28_optimal.

Example ex_C28_optimal :
  nnls_contract nnls1 /\ ready r_fitter r_tab 2 1 /\ in_range (a_x r_tab) (1 / 2) /\
  fit_object nnls1 (fun _ => 0) r_fitter 0 {| o_z := 1 / 2; o_m := [2; 6]; o_iv := [1; 4] |} 0 =
  Ok (Bare (vec [19 / 10]), 0%nat).
Proof. exact E_C28_optimal. Qed.

(** The solver is called with the default iteration limit and, if it fails, once more with 100 iterations per
    template; the fit raises RuntimeError exactly when both calls fail. *)
Theorem C28_retry :
  forall nnls rng (F : fitter R) A nb nt o cur,
    no_ab F -> ready F A nb nt -> nb <> 1%nat -> obj_ok nb o -> in_range (a_x A) (o_z o) ->
    exists M, rect nt M /\ length M = nb /\
      (forall y, length y = nt -> reconstruct F (Some (scal (o_z o))) (Some (vec y)) 0 = Ok (vec (mulmv M y))) /\
      let W := zip (fun v r => map (Rmult (sqrt v)) r) (o_iv o) M in
      let b := zip (fun m v => m * sqrt v) (o_m o) (o_iv o) in
      fit_object nnls rng F 0 o cur =
      match nnls None nt W b with
      | Some x => Ok (Bare (vec x), cur)
      | None => match nnls (Some (100 * nt)%nat) nt W b with
                | Some x => Ok (Bare (vec x), cur)
                | None => Raise RuntimeError
                end
      end.
Proof. exact L_C28_retry. Qed.
Print Assumptions C28_retry.

Example ex_C28_retry :
  exists x, fit_object slow_nnls (fun _ => 0%Q) q_fitter 0 (q_obj 0 1 2) 0 = Ok (Bare x, 0%nat) /\
  fit_object (fun _ _ _ _ => None) (fun _ => 0%Q) q_fitter 0 (q_obj 0 1 2) 0 = Raise RuntimeError.
Proof. exact E_C28_retry. Qed.

(** Every Monte Carlo coefficient vector is nonnegative and optimal for its draw. *)
Theorem C28_monte_carlo :
  forall nnls rng (F : fitter R) A nb nt mc o cur c cm mm cur',
    nnls_contract nnls -> nnls_shape nnls -> no_ab F -> ready F A nb nt -> nb <> 1%nat -> obj_ok nb o ->
    nonneg (o_iv o) -> in_range (a_x A) (o_z o) -> mc <> 0%nat ->
    fit_object nnls rng F mc o cur = Ok (Three c cm mm, cur') ->
    forall i, (i < mc)%nat ->
      let ci := column nt mc i cm in
      nonneg ci /\
      exists p, reconstruct F (Some (scal (o_z o))) (Some (vec ci)) 0 = Ok (vec p) /\
        forall y, length y = nt -> nonneg y ->
          exists q, reconstruct F (Some (scal (o_z o))) (Some (vec y)) 0 = Ok (vec q) /\
                    chi2 (o_iv o) (column nb mc i mm) p <= chi2 (o_iv o) (column nb mc i mm) q.
Proof. exact L_C28_monte_carlo. Qed.
Print Assumptions C28_monte_carlo.

Theorem C29_zero_ivar_irrelevant :
  forall nnls rng (F : fitter xr) A nb nt mc z m1 m2 iv cur,
    no_ab F -> ready F A nb nt -> nb <> 1%nat ->
    length m1 = nb -> length m2 = nb -> length iv = nb ->
    finite m1 -> finite m2 -> agree iv m1 m2 ->
    match fit_object nnls rng F mc {| o_z := z; o_m := m1; o_iv := iv |} cur,
          fit_object nnls rng F mc {| o_z := z; o_m := m2; o_iv := iv |} cur with
    | Ok (r1, k1), Ok (r2, k2) => k1 = k2 /\ out_c r1 = out_c r2 /\ (mc <> 0%nat -> out_cmc r1 = out_cmc r2)
    | Raise e1, Raise e2 => e1 = e2
    | _, _ => False
    end.
Proof. exact L_C29_zero_ivar_irrelevant. Qed.
Print Assumptions C29_zero_ivar_irrelevant.

Example ex_C29_zero_ivar_irrelevant :
  agree [Fin 1; Fin 0] [Fin 3; Fin 4] [Fin 3; Fin 5] /\ finite [Fin 3; Fin 4] /\ finite [Fin 3; Fin 5] /\
  ready (ex_fitter Plain false ["u"; "g"]%string 1 [Fin 0; Fin 1] [[Fin 1; Fin 2]; [Fin 3; Fin 4]])
        {| a_x := [Fin 0; Fin 1]; a_rows := [[Fin 1; Fin 2]; [Fin 3; Fin 4]]; a_shape := [2; 1]%nat |} 2 1.
Proof. exact E_C29_zero_ivar_irrelevant. Qed.

(** One band with NaN or infinite maggies (even with zero inverse variance), or with a negative, infinite or NaN
    inverse variance, and the fit of an object that is not out of range raises ValueError. *)
Theorem C59_unusable_band_raises :
  forall nnls rng (F : fitter xr) A nb nt mc o cur,
    no_ab F -> ready F A nb nt -> nb <> 1%nat -> obj_ok nb o -> ~ outside A (o_z o) ->
    (exists i m iv, nth_error (o_m o) i = Some m /\ nth_error (o_iv o) i = Some iv /\ ~ usable m iv) ->
    fit_object nnls rng F mc o cur = Raise ValueError.
Proof. exact L_C59_unusable_band_raises. Qed.
Print Assumptions C59_unusable_band_raises.

Example ex_C59_unusable_band_raises :
  let F := ex_fitter Plain false ["u"; "g"]%string 1 [Fin 0; Fin 1] [[Fin 1; Fin 2]; [Fin 3; Fin 4]] in
  let A := {| a_x := [Fin 0; Fin 1]; a_rows := [[Fin 1; Fin 2]; [Fin 3; Fin 4]]; a_shape := [2; 1]%nat |} in
  no_ab F /\ ready F A 2 1 /\ obj_ok 2 {| o_z := Fin (1 / 2); o_m := [Fin 1; NaN]; o_iv := [Fin 1; Fin 0] |} /\
  ~ outside A (Fin (1 / 2)) /\ ~ usable NaN (Fin 0) /\ ~ usable PInf (Fin 0) /\ ~ usable (Fin 1) (Fin (-1)) /\ usable (Fin 1) (Fin 0).
Proof. exact E_C59_unusable_band_raises. Qed.

(** ... and every batch that contains such an object raises: one bad band loses the whole batch. *)
Theorem C59_batch_raises :
  forall nnls rng (F : fitter xr) A nb nt mc objs o cur,
    nnls_shape nnls -> no_ab F -> ready F A nb nt -> nb <> 1%nat -> Forall (obj_ok nb) objs -> length objs <> 1%nat ->
    In o objs -> ~ outside A (o_z o) ->
    (exists i m iv, nth_error (o_m o) i = Some m /\ nth_error (o_iv o) i = Some iv /\ ~ usable m iv) ->
    exists e, fit_objects nnls rng F nb mc objs cur = Raise e.
Proof. exact L_C59_batch_raises. Qed.
Print Assumptions C59_batch_raises.

Example ex_C59_batch_raises :
  let F := ex_fitter Plain false ["u"; "g"]%string 1 [Fin 0; Fin 1] [[Fin 1; Fin 2]; [Fin 3; Fin 4]] in
  let A := {| a_x := [Fin 0; Fin 1]; a_rows := [[Fin 1; Fin 2]; [Fin 3; Fin 4]]; a_shape := [2; 1]%nat |} in
  nnls_shape (T := xr) ex_nnls /\ no_ab F /\ ready F A 2 1 /\
  Forall (obj_ok 2) [{| o_z := Fin 0; o_m := [Fin 1; Fin 2]; o_iv := [Fin 1; Fin 1] |}; {| o_z := Fin (1 / 2); o_m := [Fin 1; PInf]; o_iv := [Fin 1; Fin 0] |}] /\
  ~ outside A (Fin (1 / 2)) /\
  exists i m iv, nth_error [Fin 1; PInf] i = Some m /\ nth_error [Fin 1; Fin 0] i = Some iv /\ ~ usable m iv.
Proof. exact E_C59_batch_raises. Qed.

Theorem C59_usable_photometry_is_fitted :
  forall nnls rng (F : fitter xr) A x rows nb nt t m iv cur,
    no_ab F -> ready F A nb nt -> nb <> 1%nat -> length m = nb -> length iv = nb ->
    a_x A = map Fin x -> a_rows A = map (map Fin) rows -> grid_ok x -> in_range x t ->
    (forall i a v, nth_error m i = Some a -> nth_error iv i = Some v -> usable a v) ->
    (exists c, fit_object nnls rng F 0 {| o_z := Fin t; o_m := m; o_iv := iv |} cur = Ok (Bare (vec c), cur)) \/
    fit_object nnls rng F 0 {| o_z := Fin t; o_m := m; o_iv := iv |} cur = Raise RuntimeError.
Proof. exact L_C59_usable_photometry_is_fitted. Qed.
Print Assumptions C59_usable_photometry_is_fitted.

Example ex_C59_usable_photometry_is_fitted :
  let F := ex_fitter Plain false ["u"; "g"]%string 1 [Fin 0; Fin 1] [[Fin 1; Fin 2]; [Fin 3; Fin 4]] in
  let A := {| a_x := [Fin 0; Fin 1]; a_rows := [[Fin 1; Fin 2]; [Fin 3; Fin 4]]; a_shape := [2; 1]%nat |} in
  no_ab F /\ ready F A 2 1 /\ a_x A = map Fin [0; 1] /\ a_rows A = map (map Fin) [[1; 2]; [3; 4]] /\
  grid_ok [0; 1] /\ in_range [0; 1] (1 / 2) /\ usable (Fin (-1)) (Fin 0) /\ usable (Fin 2) (Fin 4).
Proof. exact E_C59_usable_photometry_is_fitted. Qed.

Theorem C59_nan_redshift :
  forall nnls rng (F : fitter xr) A nb nt mc m iv c bs cur,
    no_ab F -> ready F A nb nt -> nb <> 1%nat -> (0 < nb)%nat -> (0 < nt)%nat ->
    length m = nb -> length iv = nb -> length c = nt ->
    fit_object nnls rng F mc {| o_z := NaN; o_m := m; o_iv := iv |} cur = Raise ValueError /\
    reconstruct F (Some (scal NaN)) (Some (vec c)) bs = Ok (vec (repeat NaN nb)).
Proof. exact L_C59_nan_redshift. Qed.
Print Assumptions C59_nan_redshift.

Example ex_C59_nan_redshift :
  let F := ex_fitter Plain false ["u"; "g"]%string 1 [Fin 0; Fin 1] [[Fin 1; Fin 2]; [Fin 3; Fin 4]] in
  let A := {| a_x := [Fin 0; Fin 1]; a_rows := [[Fin 1; Fin 2]; [Fin 3; Fin 4]]; a_shape := [2; 1]%nat |} in
  no_ab F /\ ready F A 2 1 /\ length [Fin 5; Fin 6] = 2%nat /\ length [Fin 1; Fin 1] = 2%nat /\ length [Fin 7] = 1%nat.
Proof. exact E_C59_nan_redshift. Qed.

(** C33.  reconstruct is linear in the coefficients. *)
Theorem C33_linear :
  forall (F : fitter R) A nb nt z s a b c1 c2 m1 m2,
    ready F A nb nt -> length c1 = nt -> length c2 = nt -> 1 + s <> 0 ->
    reconstruct F (Some (scal z)) (Some (vec c1)) s = Ok (vec m1) ->
    reconstruct F (Some (scal z)) (Some (vec c2)) s = Ok (vec m2) ->
    reconstruct F (Some (scal z)) (Some (vec (lincomb a b c1 c2))) s = Ok (vec (lincomb a b m1 m2)).
Proof. exact L_C33_linear. Qed.
Print Assumptions C33_linear.

Example ex_C33_linear : ready r_fitter r_tab 2 1 /\ 1 + 0 <> 0 /\
  reconstruct r_fitter (Some (scal 0)) (Some (vec [5])) 0 = Ok (vec [5; 10]) /\
  lincomb 2 3 [5] [-1] = [2 * 5 + 3 * -1].
Proof. exact E_C33_linear. Qed.

Theorem C33_zero_and_sign :
  forall (F : fitter R) A nb nt z s c m,
    ready F A nb nt -> length c = nt -> 1 + s <> 0 ->
    reconstruct F (Some (scal z)) (Some (vec c)) s = Ok (vec m) ->
    length m = nb /\
    (c = repeat 0 nt -> m = repeat 0 nb) /\
    (grid_ok (a_x A) -> Forall nonneg (a_rows A) -> nonneg c -> 0 < 1 + s -> nonneg m).
Proof. exact L_C33_zero_and_sign. Qed.
Print Assumptions C33_zero_and_sign.

Example ex_C33_zero_and_sign : ready r_fitter r_tab 2 1 /\ grid_ok (a_x r_tab) /\ Forall nonneg (a_rows r_tab) /\ nonneg [5] /\
  reconstruct r_fitter (Some (scal 0)) (Some (vec [5])) 0 = Ok (vec [5; 10]).
Proof. exact E_C33_zero_and_sign. Qed.

(** C34. *)
Theorem C34_band_shift :
  forall (F : fitter R) A nb nt z s c,
    ready F A nb nt -> length c = nt -> 1 + s <> 0 ->
    reconstruct F (Some (scal z)) (Some (vec c)) s =
    rmap (map1 (fun m => m / (1 + s))) (reconstruct F (Some (scal ((1 + z) * (1 + s) - 1))) (Some (vec c)) 0).
Proof. exact L_C34_band_shift. Qed.
Print Assumptions C34_band_shift.

Example ex_C34_band_shift : ready r_fitter r_tab 2 1 /\ 1 + 1 / 10 <> 0 /\ (1 + 1 / 5) * (1 + 1 / 10) - 1 = 8 / 25 /\ in_range (a_x r_tab) (8 / 25).
Proof. exact E_C34_band_shift. Qed.

(** C35. *)
Theorem C35_noiseless :
  forall nnls rng (F : fitter R) A nb nt z c0 m iv cur c cur',
    nnls_contract nnls -> no_ab F -> ready F A nb nt -> nb <> 1%nat -> length iv = nb -> Forall (Rlt 0) iv ->
    length c0 = nt -> nonneg c0 ->
    reconstruct F (Some (scal z)) (Some (vec c0)) 0 = Ok (vec m) ->
    fit_object nnls rng F 0 {| o_z := z; o_m := m; o_iv := iv |} cur = Ok (Bare (vec c), cur') ->
    reconstruct F (Some (scal z)) (Some (vec c)) 0 = Ok (vec m).
Proof. exact L_C35_noiseless. Qed.
Print Assumptions C35_noiseless.

Example ex_C35_noiseless :
  nnls_contract nnls1 /\ no_ab r_fitter /\ ready r_fitter r_tab 2 1 /\
  Forall (Rlt 0) [1; 4] /\ nonneg [5] /\ reconstruct r_fitter (Some (scal 0)) (Some (vec [5])) 0 = Ok (vec [5; 10]) /\
  exists c, fit_object nnls1 (fun _ => 0) r_fitter 0 {| o_z := 0; o_m := [5; 10]; o_iv := [1; 4] |} 0 = Ok (Bare (vec c), 0%nat).
Proof. exact E_C35_noiseless. Qed.

(** C36.  The redshift grid (exact arithmetic). *)
Theorem C36_grid :
  forall (r0 r1 : R) n, (2 <= n)%nat -> r0 < r1 ->
    length (redshift_grid r0 r1 n) = n /\ grid_ok (redshift_grid r0 r1 n) /\
    nth 0 (redshift_grid r0 r1 n) 0 = r0 /\ last (redshift_grid r0 r1 n) 0 = r1 /\
    forall k, (k < n)%nat -> nth k (redshift_grid r0 r1 n) 0 = r0 + (r1 - r0) * INR k / INR (n - 1).
Proof. exact L_C36_grid. Qed.
Print Assumptions C36_grid.

Example ex_C36_grid : (2 <= 4000)%nat /\ 0 < 2.
Proof. exact E_C36_grid. Qed.

(** The design matrix between two grid redshifts is the convex combination of the two tables. *)
Theorem C36_interpolation :
  forall (A : atab R) nb nt k t, tab_ok A nb nt -> grid_ok (a_x A) -> (S k < length (a_x A))%nat ->
    nth k (a_x A) 0 <= t <= nth (S k) (a_x A) 0 ->
    exists w l, 0 <= w <= 1 /\ t = (1 - w) * nth k (a_x A) 0 + w * nth (S k) (a_x A) 0 /\
      acall A (scal t) = Ok (mk [nb; nt] l) /\ length l = (nb * nt)%nat /\
      forall i, nth i l 0 = (1 - w) * nth i (nth k (a_rows A) []) 0 + w * nth i (nth (S k) (a_rows A) []) 0.
Proof. exact L_C36_interpolation. Qed.
Print Assumptions C36_interpolation.

Example ex_C36_interpolation : tab_ok r_tab 2 1 /\ grid_ok (a_x r_tab) /\ nth 0 (a_x r_tab) 0 <= 1 / 2 <= nth 1 (a_x r_tab) 0.
Proof. exact E_C36_interpolation. Qed.

(** At a grid redshift it is the table of that redshift. *)
Theorem C36_at_grid_points :
  forall (A : atab R) nb nt k, tab_ok A nb nt -> grid_ok (a_x A) -> (k < length (a_x A))%nat ->
    acall A (scal (nth k (a_x A) 0)) = Ok (mk [nb; nt] (nth k (a_rows A) [])).
Proof. exact L_C36_at_grid_points. Qed.
Print Assumptions C36_at_grid_points.

Example ex_C36_at_grid_points : tab_ok r_tab 2 1 /\ grid_ok (a_x r_tab) /\ nth 1 (a_rows r_tab) [] = [3; 4] /\ nth 1 (a_x r_tab) 0 = 1.
Proof. exact E_C36_at_grid_points. Qed.

(** The table that set_Amatrix builds (stores exact): the entry for grid redshift k, band j and template i is what
    the response of band j gives for the rest-frame templates seen at that redshift, whether the templates carry
    their own interpolator or are projected in groups; and the fitter is then ready. *)
Theorem C36_table :
  forall (T : Type) (N : Num T) cub bq sun vega fs d (F : fitter T) d' F' w rows,
    (forall x : T, cst x = x) ->
    s_rflux (f_sed F) = table w rows -> rect w rows -> rows <> [] ->
    in_order (f_zs F) -> (2 <= length (f_zs F))%nat ->
    set_Amatrix cub bq sun vega fs d F = (d', F', None) ->
    f_resp F' = f_resp F /\ f_kind F' = f_kind F /\ f_abc F' = f_abc F /\
    exists A, ready F' A (length (f_resp F)) (length rows) /\ a_x A = f_zs F /\
      forall k z j n, nth_error (f_zs F) k = Some z -> nth_error (f_resp F) j = Some n ->
        exists r v l, dget d' n = Some r /\
          project_arr cub r (vec (map (fun x => nmul x (nadd n1 z)) (s_rwave (f_sed F))))
                            (table w (map (map (fun f => ndiv f (nadd n1 z))) rows)) = Ok v /\
          bto n0 [length rows] v = Ok l /\
          forall i, (i < length rows)%nat ->
            nth_error (nth k (a_rows A) []) (j * length rows + i) = nth_error l i.
Proof. exact L_C36_table. Qed.
Print Assumptions C36_table.

Example ex_C36_table :
  in_order [0; 1]%Q /\ s_rflux (q_sed true) = table 5 [[1; 1; 1; 1; 1]; [2; 3; 4; 5; 6]]%Q /\
  forall flag, exists F' A,
    set_Amatrix q_lin (fun _ _ _ => Raise ValueError) (Raise OSError) (Raise OSError) (fun _ => None)
                [("u"%string, q_resp)] (q_new flag) = ([("u"%string, q_resp)], F', None) /\
    f_A F' = Some A /\ a_shape A = [1; 2]%nat /\
    forall k i, (k < 2)%nat -> (i < 2)%nat -> Qeq_bool (nth i (nth k (a_rows A) []) 0%Q) 0 = false.
Proof. exact E_C36_table. Qed.

(** C37.  With interpolate=False the templates are projected in groups; if no group consists of a single template
    (or there is only one template) the float32 row stored is the one obtained by projecting all at once, with the
    same exceptions, in any arithmetic.  With exact stores ([cst] the identity) it holds for every group size. *)
Theorem C37_groups :
  forall (T : Type) (N : Num T) cub nchunk (r : resp T) (s : sed T) w rows,
    (0 < nchunk)%nat -> rows <> [] -> rect w rows -> s_flux s = table w rows -> s_nsed s = length rows ->
    (forall x : T, cst x = x) \/ length rows = 1%nat \/ (nchunk <> 1 /\ length rows mod nchunk <> 1)%nat ->
    project_chunks cub nchunk r s =
    (do v <- project_arr cub r (vec (s_wave s)) (s_flux s); rmap (map cst) (bto n0 [length rows] v)).
Proof. exact L_C37_groups. Qed.
Print Assumptions C37_groups.

Example ex_C37_groups :
  rect 5 [[1; 1; 1; 1; 1]; [2; 3; 4; 5; 6]]%Q /\ s_flux (q_sed false) = table 5 [[1; 1; 1; 1; 1]; [2; 3; 4; 5; 6]]%Q /\ s_nsed (q_sed false) = 2%nat /\
  (0 < 1000 /\ 1000 <> 1 /\ 2 mod 1000 <> 1 /\ 2500 mod 1000 <> 1)%nat.
Proof. exact E_C37_groups. Qed.

(** For other numbers of templates it fails: with 1001 templates the last group has one template, whose numerator is
    not rounded when it is stored, so its value can differ (here with a coarse, idempotent rounding of stores). *)
Theorem C37_single_template_group_refuted :
  exists (N : Num Q) cub (r : resp Q) (s : sed Q) rows,
    (forall x : Q, @cst Q N (@cst Q N x) = @cst Q N x) /\
    rect 5 rows /\ s_flux s = table 5 rows /\ s_nsed s = length rows /\ length rows = 1001%nat /\
    exists row row', @project_chunks Q N cub 1000 r s = Ok row /\
      (do v <- @project_arr Q N cub r (vec (s_wave s)) (s_flux s); rmap (map (@cst Q N)) (bto (@n0 Q N) [length rows] v)) = Ok row' /\
      nth_error row 999 = nth_error row' 999 /\ nth_error row 1000 <> nth_error row' 1000.
Proof. exact L_C37_single_template_group_refuted. Qed.
Print Assumptions C37_single_template_group_refuted.

(** C38. *)
Theorem C38_templates_back_at_zero :
  forall (T : Type) (N : Num T) cub bq sun vega fs d (F : fitter T) d' F',
    (forall x : T, nmul x (nadd n1 n0) = x) -> (forall x : T, ndiv x (nadd n1 n0) = x) ->
    set_Amatrix cub bq sun vega fs d F = (d', F', None) ->
    s_z (f_sed F') = n0 /\ s_wave (f_sed F') = s_rwave (f_sed F) /\ s_flux (f_sed F') = s_rflux (f_sed F) /\
    s_rwave (f_sed F') = s_rwave (f_sed F) /\ s_rflux (f_sed F') = s_rflux (f_sed F) /\
    s_flag (f_sed F') = s_flag (f_sed F) /\
    (s_flag (f_sed F) = true -> exists it, mk_cubic (s_wave (f_sed F')) (s_flux (f_sed F')) = Ok it /\ s_interp (f_sed F') = Some it).
Proof. exact L_C38_templates_back_at_zero. Qed.
Print Assumptions C38_templates_back_at_zero.

Example ex_C38_templates_back_at_zero :
  (forall x : xr, nmul x (nadd n1 n0) = x) /\ (forall x : xr, ndiv x (nadd n1 n0) = x) /\
  (forall x : R, nmul x (nadd n1 n0) = x) /\ (forall x : R, ndiv x (nadd n1 n0) = x).
Proof. exact E_C38_templates_back_at_zero. Qed.

(** C60.  reconstruct of a batch (of any size, one included) is the list of the single calls. *)
Theorem C60_reconstruct_vectorised :
  forall (T : Type) (N : Num T) (F : fitter T) A nb nt (objs : list (T * list T)) bs,
    ready F A nb nt -> Forall (fun zc => length (snd zc) = nt) objs ->
    reconstruct F (Some (vec (map fst objs))) (Some (table nt (map snd objs))) bs =
    rmap (fun ms => mk [length objs; nb] (concat (map (@dat T) ms)))
         (mapM (fun zc => reconstruct F (Some (scal (fst zc))) (Some (vec (snd zc))) bs) objs).
Proof. exact L_C60_reconstruct_vectorised. Qed.
Print Assumptions C60_reconstruct_vectorised.

Example ex_C60_reconstruct_vectorised :
  reconstruct q_fitter (Some (vec [0; 1]%Q)) (Some (table 3 [[1; 0; 0]; [0; 1; 0]]%Q)) 0%Q =
  Ok (mk [2; 2]%nat [1; 4; 3; 6]%Q) /\
  reconstruct q_fitter (Some (scal 1%Q)) (Some (vec [0; 1; 0]%Q)) 0%Q = Ok (vec [3; 6]%Q).
Proof. exact E_C60_reconstruct_vectorised. Qed.
