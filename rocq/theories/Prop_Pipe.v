(** Property theorems; proofs are in PipeThms.v.  Generated by tools/gen_prop.py. *)
From Coq Require Import String List Arith Lia Bool ZArith QArith Qreals Reals Lra Sorting.Sorted Sorting.Permutation.
From Verif Require Import Base BaseLemmas Num Toy Interp InterpReal Spec Utils Sed Response RespDict ResponseObj LinInterp ResponseEx
  Fitter FitSpec FitterProofs FitterMC FitReal FitTable FitEx FitRealEx FitRealThms Kcorrect KSpec KTable KEx KcorrectProofs XrAlg KcorrectThms AbsmagProofs AbsmagThms
  AbThms UtilsThms RespDictThms PersistThms BuildSpec BuildProofs BuildTable BuildEx BuildThms NnlsSpec NnlsExact NnlsThms PipeSpec PipeProofs PipeEx.
Import ListNotations.
Local Open Scope R_scope.
From Verif Require Import PipeThms.

(** C87.  Two objects are constructed one after the other from the same templates and redshift grid.  The photometry of
    an object in the bands of the first and its photometry in the bands of the second tell the same about the fluxes:
    the two chi^2 differ by a constant.  Then the two fits agree in the flux of every measured band, and if the measured
    bands tell the templates apart, the coefficients are the same. *)
Theorem C87_information :
  forall cub bq sun vega fs d k1 k2 (s : sed R) t out1 map1 out2 map2 r0 r1 nz d1 s1 K1 d2 s2 K2 w rows
    nnls1 nnls2 rng1 rng2 z l1 l2 cur1 c1 cur1' cur2 c2 cur2',
    Kcorrect cub bq sun vega fs d k1 false (map o_name l1) s t out1 map1 r0 r1 nz = (d1, s1, Ok K1) ->
    Kcorrect cub bq sun vega fs d1 k2 false (map o_name l2) s1 t out2 map2 r0 r1 nz = (d2, s2, Ok K2) ->
    s_rflux s = table w rows -> rect w rows -> rows <> [] -> r0 < r1 -> (2 <= nz)%nat -> r0 <= z <= r1 ->
    length l1 <> 1%nat -> length l2 <> 1%nat -> nnls_contract nnls1 -> nnls_contract nnls2 ->
    Forall (fun b => 0 <= o_ivar b) l1 -> Forall (fun b => 0 <= o_ivar b) l2 -> same_information l1 l2 ->
    fit_object nnls1 rng1 (k_fit K1) 0 (observed z l1) cur1 = Ok (Bare (vec c1), cur1') ->
    fit_object nnls2 rng2 (k_fit K2) 0 (observed z l2) cur2 = Ok (Bare (vec c2), cur2') ->
    let flux := model_flux cub d2 (s_rwave s) w rows (redshift_grid r0 r1 nz) in
    (forall b, In b (l1 ++ l2) -> 0 < o_ivar b -> exists x, flux (o_name b) c1 z x /\ flux (o_name b) c2 z x) /\
    (told_apart flux (length rows) z (l1 ++ l2) -> c1 = c2).
Proof. exact L_C87_information. Qed.
Print Assumptions C87_information.

Example ex_C87_information : exists r d1 s1 K1 d2 s2 K2 c1 c2,
  let l1 := [("u", (2, 1)); ("u", (6, 4))]%string in let l2 := [("u", (6, 4)); ("u", (2, 1))]%string in
  Kcorrect lin bq0 sun0 sun0 r_files (r_cache r) Plain false (map o_name l1) r_sed1 r_tmpl None None 0 1 2 = (d1, s1, Ok K1) /\
  Kcorrect lin bq0 sun0 sun0 r_files d1 Plain false (map o_name l2) s1 r_tmpl None None 0 1 2 = (d2, s2, Ok K2) /\
  nnls_contract nnls_exact /\ same_information l1 l2 /\
  fit_object nnls_exact (fun _ => 0) (k_fit K1) 0 (observed 0 l1) 0 = Ok (Bare (vec c1), 0%nat) /\
  fit_object nnls_exact (fun _ => 0) (k_fit K2) 0 (observed 0 l2) 0 = Ok (Bare (vec c2), 0%nat) /\
  told_apart (model_flux lin d2 (s_rwave r_sed1) 6 [[1;1;2;2;1;1]] (redshift_grid 0 1 2)) 1 0 (l1 ++ l2).
Proof. exact E_C87_information. Qed.

(** Reordering the bands, with their photometry, does not change what is told. *)
Theorem C87_reordered : forall l1 l2, Permutation l1 l2 -> same_information l1 l2.
Proof. exact L_C87_reordered. Qed.
Print Assumptions C87_reordered.

Example ex_C87_reordered : Permutation [("u", (1, 2)); ("g", (3, 4))]%string [("g", (3, 4)); ("u", (1, 2))]%string.
Proof. exact E_C87_reordered. Qed.

(** Leaving out the bands without a measurement (inverse variance 0) does not. *)
Theorem C87_unmeasured : forall l, Forall (fun b => 0 <= o_ivar b) l ->
  same_information l (filter (fun b => if Rlt_dec 0 (o_ivar b) then true else false) l).
Proof. exact L_C87_unmeasured. Qed.
Print Assumptions C87_unmeasured.

Example ex_C87_unmeasured : Forall (fun b => 0 <= o_ivar b) [("u", (1, 2)); ("g", (3, 0)); ("r", (5, 1))]%string /\
  map o_name (filter (fun b => if Rlt_dec 0 (o_ivar b) then true else false) [("u", (1, 2)); ("g", (3, 0)); ("r", (5, 1))]%string) = ["u"; "r"]%string.
Proof. exact E_C87_unmeasured. Qed.

(** Nor does replacing two measurements in the same band by their mean weighted with the inverse variances, with the sum
    of the inverse variances. *)
Theorem C87_repeated : forall n m1 v1 m2 v2 l, 0 < v1 + v2 ->
  same_information ((n, (m1, v1)) :: (n, (m2, v2)) :: l) ((n, ((v1 * m1 + v2 * m2) / (v1 + v2), v1 + v2)) :: l).
Proof. exact L_C87_repeated. Qed.
Print Assumptions C87_repeated.

Example ex_C87_repeated : 0 < 1 + 3 /\ (1 * 2 + 3 * 6) / (1 + 3) = 5.
Proof. exact E_C87_repeated. Qed.

(** C88.  If the photometry of an object is exactly that of a nonnegative combination [c0] of the templates in every
    measured band, the fit reproduces it, and if the measured bands tell the templates apart, it returns [c0]. *)
Theorem C88_recovered :
  forall cub bq sun vega fs d k (s : sed R) t out map_ r0 r1 nz d' s' K w rows nnls rng z l c0 cur c cur',
    Kcorrect cub bq sun vega fs d k false (map o_name l) s t out map_ r0 r1 nz = (d', s', Ok K) ->
    s_rflux s = table w rows -> rect w rows -> rows <> [] -> r0 < r1 -> (2 <= nz)%nat -> r0 <= z <= r1 ->
    length l <> 1%nat -> nnls_contract nnls -> Forall (fun b => 0 <= o_ivar b) l ->
    let flux := model_flux cub d' (s_rwave s) w rows (redshift_grid r0 r1 nz) in
    length c0 = length rows -> nonneg c0 -> (forall b, In b l -> 0 < o_ivar b -> flux (o_name b) c0 z (o_mag b)) ->
    fit_object nnls rng (k_fit K) 0 (observed z l) cur = Ok (Bare (vec c), cur') ->
    (forall b, In b l -> 0 < o_ivar b -> flux (o_name b) c z (o_mag b)) /\
    (told_apart flux (length rows) z l -> c = c0).
Proof. exact L_C88_recovered. Qed.
Print Assumptions C88_recovered.

Example ex_C88_recovered : exists r d s K x c,
  let l := [("u", (2 * x, 1)); ("u", (2 * x, 4))]%string in
  let flux := model_flux lin d (s_rwave r_sed1) 6 [[1;1;2;2;1;1]] (redshift_grid 0 1 2) in
  Kcorrect lin bq0 sun0 sun0 r_files (r_cache r) Plain false (map o_name l) r_sed1 r_tmpl None None 0 1 2 = (d, s, Ok K) /\
  nnls_contract nnls_exact /\ Forall (fun b => 0 < o_mag b /\ 0 < o_ivar b) l /\ nonneg [2] /\
  (forall b, In b l -> flux (o_name b) [2] 0 (o_mag b)) /\ told_apart flux 1 0 l /\
  fit_object nnls_exact (fun _ => 0) (k_fit K) 0 (observed 0 l) 0 = Ok (Bare (vec c), 0%nat).
Proof. exact E_C88_recovered. Qed.

(** ... and the absolute magnitudes are then the true ones: -2.5 log10 of the flux of [c0] in the output band at redshift
    band_shift over 1+band_shift, minus the distance modulus. *)
Theorem C88_absmag :
  forall cub bq sun vega fs d k (s : sed R) t out map_ r0 r1 nz d' s' K w rows nnls rng z l c0 cur c cur' distmod lim kc dist bs,
    Kcorrect cub bq sun vega fs d k false (map o_name l) s t out map_ r0 r1 nz = (d', s', Ok K) ->
    s_rflux s = table w rows -> rect w rows -> rows <> [] -> r0 < r1 -> (2 <= nz)%nat -> r0 <= z <= r1 ->
    length l <> 1%nat -> nnls_contract nnls -> Forall (fun b => 0 < o_mag b /\ 0 < o_ivar b) l ->
    let flux := model_flux cub d' (s_rwave s) w rows (redshift_grid r0 r1 nz) in
    length c0 = length rows -> nonneg c0 -> (forall b, In b l -> flux (o_name b) c0 z (o_mag b)) ->
    told_apart flux (length rows) z l -> 0 < fold_right Rplus 0 c0 -> r0 <= bs <= r1 -> -1 < bs ->
    fit_object nnls rng (k_fit K) 0 (observed z l) cur = Ok (Bare (vec c), cur') ->
    exists v a,
      absmag_object distmod K bs false false lim kc
        {| ko_z := z; ko_m := map o_mag l; ko_iv := map o_ivar l; ko_c := c; ko_d := dist |} = Ok a /\
      nth_error (parts a) 0 = Some (vec v) /\ length v = length (k_out K) /\
      forall j n, nth_error (k_out K) j = Some n -> exists y, flux n c0 bs y /\
        (0 < y -> nth_error v j = Some (-5/2 * log10 (y / (1 + bs)) - distmod z)).
Proof. exact L_C88_absmag. Qed.
Print Assumptions C88_absmag.

Example ex_C88_absmag : 0 < fold_right Rplus 0 [2] /\ exists r d s K x c,
  let l := [("u", (2 * x, 1)); ("u", (2 * x, 4))]%string in
  let flux := model_flux lin d (s_rwave r_sed1) 6 [[1;1;2;2;1;1]] (redshift_grid 0 1 2) in
  Kcorrect lin bq0 sun0 sun0 r_files (r_cache r) Plain false (map o_name l) r_sed1 r_tmpl None None 0 1 2 = (d, s, Ok K) /\
  nnls_contract nnls_exact /\ Forall (fun b => 0 < o_mag b /\ 0 < o_ivar b) l /\ nonneg [2] /\
  (forall b, In b l -> flux (o_name b) [2] 0 (o_mag b)) /\ told_apart flux 1 0 l /\
  fit_object nnls_exact (fun _ => 0) (k_fit K) 0 (observed 0 l) 0 = Ok (Bare (vec c), 0%nat).
Proof. exact E_C88_absmag. Qed.

(** C89.  Making an object brighter by a factor, with the same relative errors: the fitted fluxes of the measured bands
    are multiplied by the factor, and if the measured bands tell the templates apart, so are the coefficients. *)
Theorem C89_coefficients :
  forall cub bq sun vega fs d k (s : sed R) t out map_ r0 r1 nz d' s' K w rows nnls1 nnls2 rng1 rng2 z l a cur1 c1 cur1' cur2 c2 cur2',
    Kcorrect cub bq sun vega fs d k false (map o_name l) s t out map_ r0 r1 nz = (d', s', Ok K) ->
    s_rflux s = table w rows -> rect w rows -> rows <> [] -> r0 < r1 -> (2 <= nz)%nat -> r0 <= z <= r1 ->
    length l <> 1%nat -> nnls_contract nnls1 -> nnls_contract nnls2 -> Forall (fun b => 0 <= o_ivar b) l -> 0 < a ->
    let flux := model_flux cub d' (s_rwave s) w rows (redshift_grid r0 r1 nz) in
    fit_object nnls1 rng1 (k_fit K) 0 (observed z l) cur1 = Ok (Bare (vec c1), cur1') ->
    fit_object nnls2 rng2 (k_fit K) 0 (observed z (brighter a l)) cur2 = Ok (Bare (vec c2), cur2') ->
    (forall b, In b l -> 0 < o_ivar b -> exists x, flux (o_name b) c1 z x /\ flux (o_name b) c2 z (a * x)) /\
    (told_apart flux (length rows) z l -> c2 = map (Rmult a) c1).
Proof. exact L_C89_coefficients. Qed.
Print Assumptions C89_coefficients.

Example ex_C89_coefficients : exists r d s K x c1 c2,
  let l := [("u", (2 * x, 1)); ("u", (2 * x, 4))]%string in
  let flux := model_flux lin d (s_rwave r_sed1) 6 [[1;1;2;2;1;1]] (redshift_grid 0 1 2) in
  Kcorrect lin bq0 sun0 sun0 r_files (r_cache r) Plain false (map o_name l) r_sed1 r_tmpl None None 0 1 2 = (d, s, Ok K) /\
  nnls_contract nnls_exact /\ told_apart flux 1 0 l /\ 0 < fold_right Rplus 0 c1 /\
  fit_object nnls_exact (fun _ => 0) (k_fit K) 0 (observed 0 l) 0 = Ok (Bare (vec c1), 0%nat) /\
  fit_object nnls_exact (fun _ => 0) (k_fit K) 0 (observed 0 (brighter 3 l)) 0 = Ok (Bare (vec c2), 0%nat).
Proof. exact E_C89_coefficients. Qed.

(** ... and then the K-corrections are the same, and the absolute magnitudes brighter by 2.5 log10 of the factor: those of
    the measured positive fluxes; the other ones are -9999 for both. *)
Theorem C89_absmag :
  forall cub bq sun vega fs d k (s : sed R) t out map_ r0 r1 nz d' s' K w rows nnls1 nnls2 rng1 rng2 z l a cur1 c1 cur1' cur2 c2 cur2'
    distmod lim kc dist bs,
    Kcorrect cub bq sun vega fs d k false (map o_name l) s t out map_ r0 r1 nz = (d', s', Ok K) ->
    s_rflux s = table w rows -> rect w rows -> rows <> [] -> r0 < r1 -> (2 <= nz)%nat -> r0 <= z <= r1 ->
    length l <> 1%nat -> nnls_contract nnls1 -> nnls_contract nnls2 -> Forall (fun b => 0 <= o_ivar b) l -> 0 < a ->
    told_apart (model_flux cub d' (s_rwave s) w rows (redshift_grid r0 r1 nz)) (length rows) z l ->
    0 < fold_right Rplus 0 c1 -> r0 <= bs <= r1 ->
    fit_object nnls1 rng1 (k_fit K) 0 (observed z l) cur1 = Ok (Bare (vec c1), cur1') ->
    fit_object nnls2 rng2 (k_fit K) 0 (observed z (brighter a l)) cur2 = Ok (Bare (vec c2), cur2') ->
    kcorrect K (Some (scal z)) (Some (vec c2)) bs = kcorrect K (Some (scal z)) (Some (vec c1)) bs /\
    exists v1 v2 a1 a2,
      absmag_object distmod K bs false false lim kc
        {| ko_z := z; ko_m := map o_mag l; ko_iv := map o_ivar l; ko_c := c1; ko_d := dist |} = Ok a1 /\
      absmag_object distmod K bs false false lim kc
        {| ko_z := z; ko_m := map o_mag (brighter a l); ko_iv := map o_ivar (brighter a l); ko_c := c2; ko_d := dist |} = Ok a2 /\
      nth_error (parts a1) 0 = Some (vec v1) /\ nth_error (parts a2) 0 = Some (vec v2) /\
      length v1 = length (k_out K) /\ length v2 = length (k_out K) /\
      forall j n, nth_error (k_map K) j = Some n -> exists i b m1 m2,
        nth_error l i = Some b /\ o_name b = n /\ nth_error v1 j = Some m1 /\ nth_error v2 j = Some m2 /\
        (0 < o_mag b -> 0 < o_ivar b -> m2 = m1 - 5/2 * log10 a) /\
        (o_mag b <= 0 \/ o_ivar b <= 0 -> m1 = -9999 /\ m2 = -9999).
Proof. exact L_C89_absmag. Qed.
Print Assumptions C89_absmag.

Example ex_C89_absmag : exists r d s K x c1 c2,
  let l := [("u", (2 * x, 1)); ("u", (2 * x, 4))]%string in
  let flux := model_flux lin d (s_rwave r_sed1) 6 [[1;1;2;2;1;1]] (redshift_grid 0 1 2) in
  Kcorrect lin bq0 sun0 sun0 r_files (r_cache r) Plain false (map o_name l) r_sed1 r_tmpl None None 0 1 2 = (d, s, Ok K) /\
  nnls_contract nnls_exact /\ told_apart flux 1 0 l /\ 0 < fold_right Rplus 0 c1 /\
  fit_object nnls_exact (fun _ => 0) (k_fit K) 0 (observed 0 l) 0 = Ok (Bare (vec c1), 0%nat) /\
  fit_object nnls_exact (fun _ => 0) (k_fit K) 0 (observed 0 (brighter 3 l)) 0 = Ok (Bare (vec c2), 0%nat).
Proof. exact E_C89_absmag. Qed.

(** C43 for constructed objects: whenever responses_out and responses_map name the same bands in the same order (the
    default; or any selection of the input bands), the K-correction with band_shift equal to the redshift is
    -2.5 log10(1+z) in every output band with positive flux. *)
Theorem C43_constructed :
  forall cub bq sun vega fs d k abc responses (s : sed R) t out map_ r0 r1 nz d' s' K w rows z c,
    Kcorrect cub bq sun vega fs d k abc responses s t out map_ r0 r1 nz = (d', s', Ok K) -> k_out K = k_map K ->
    s_rflux s = table w rows -> rect w rows -> rows <> [] -> r0 < r1 -> (2 <= nz)%nat ->
    r0 <= z <= r1 -> -1 < z -> length c = length rows -> 0 < fold_right Rplus 0 c ->
    exists v, kcorrect K (Some (scal z)) (Some (vec c)) z = Ok (vec v) /\ length v = length (k_out K) /\
      forall j n, nth_error (k_out K) j = Some n ->
        exists x, model_flux cub d' (s_rwave s) w rows (redshift_grid r0 r1 nz) n c z x /\
          (0 < x -> nth_error v j = Some (-5/2 * log10 (1 + z))).
Proof. exact L_C43_constructed. Qed.
Print Assumptions C43_constructed.

Example ex_C43_constructed : exists d' s' K,
  Kcorrect lin bq0 sun0 sun0 r_files [] Plain false ["u"%string] r_sed r_tmpl None None 0 1 2 = (d', s', Ok K) /\ k_out K = k_map K.
Proof. exact E_C43_constructed. Qed.

(** C46 for constructed objects: whenever responses_out and responses_map name the same bands in the same order, the
    reconstructed absolute magnitude without band shift is -2.5 log10 of the flux of the model at redshift 0, minus the
    distance modulus. *)
Theorem C46_constructed :
  forall cub bq sun vega fs d k responses (s : sed R) t out map_ r0 r1 nz d' s' K w rows distmod lim kc z m iv c dist,
    Kcorrect cub bq sun vega fs d k false responses s t out map_ r0 r1 nz = (d', s', Ok K) -> k_out K = k_map K ->
    s_rflux s = table w rows -> rect w rows -> rows <> [] -> r0 < r1 -> (2 <= nz)%nat ->
    r0 <= z <= r1 -> r0 <= 0 <= r1 -> length m = length responses -> length iv = length responses ->
    length c = length rows -> 0 < fold_right Rplus 0 c ->
    let flux := model_flux cub d' (s_rwave s) w rows (redshift_grid r0 r1 nz) in
    exists v a, absmag_object distmod K 0 false true lim kc {| ko_z := z; ko_m := m; ko_iv := iv; ko_c := c; ko_d := dist |} = Ok a /\
      nth_error (parts a) 1 = Some (vec v) /\ length v = length (k_out K) /\
      forall j n, nth_error (k_out K) j = Some n -> exists x y, flux n c z x /\ flux n c 0 y /\
        (0 < x -> 0 < y -> nth_error v j = Some (-5/2 * log10 y - distmod z)).
Proof. exact L_C46_constructed. Qed.
Print Assumptions C46_constructed.

Example ex_C46_constructed : (exists d' s' K,
  Kcorrect lin bq0 sun0 sun0 r_files [] Plain false ["u"%string] r_sed r_tmpl None None 0 1 2 = (d', s', Ok K) /\ k_out K = k_map K) /\
  0 < fold_right Rplus 0 [1; 1/2].
Proof. exact E_C46_constructed. Qed.

(** C18.  The maggies lie between the smallest and the largest ratio of the spectrum to the AB source at the points of the
    grids, for every nonnegative response bracketed by the SED.  So a positive spectrum has positive maggies as long as
    its interpolation is positive there. *)
Theorem C18_between :
  forall cub bq sun vega wave y r w yy sw f s a b,
    band cub bq sun vega wave y r w yy -> spectrum sw f s -> overlaps w sw -> brackets w sw ->
    (forall t, In t sw \/ In t w -> 0 <= spline cub w yy t) -> (exists t, In t w /\ 0 < spline cub w yy t) ->
    (forall t, In t sw \/ In t w -> a * ab_flux t <= spline cub sw f t <= b * ab_flux t) ->
    exists m, project_sed cub r s = Ok (scal m) /\ a <= m <= b.
Proof. exact L_C18_between. Qed.
Print Assumptions C18_between.

Example ex_C18_between : exists r s, band lin bq0 sun0 sun0 [1;2;3;4] [0;1;1;0] r [1;2;3;4] [0;1;1;0] /\
  spectrum [1/2;1;2;3;4;5] [1;1;2;2;1;1] s /\ overlaps [1;2;3;4] [1/2;1;2;3;4;5] /\ brackets [1;2;3;4] [1/2;1;2;3;4;5] /\
  forall t, 0 <= spline lin [1;2;3;4] [0;1;1;0] t.
Proof. exact E_C18_between. Qed.
