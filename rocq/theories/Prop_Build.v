(** Property theorems; proofs are in BuildThms.v.  Generated by tools/gen_prop.py. *)
From Coq Require Import String List Arith Lia Bool ZArith QArith Qreals Reals Lra Sorting.Sorted Sorting.Permutation.
From Verif Require Import Base BaseLemmas Num Toy Interp InterpReal Spec Utils Sed Response RespDict ResponseObj LinInterp ResponseEx
  Fitter FitSpec FitterProofs FitterMC FitReal FitTable FitEx FitRealEx FitRealThms Kcorrect KSpec KTable KEx KcorrectThms
  AbThms UtilsThms RespDictThms PersistThms BuildSpec BuildProofs BuildTable BuildEx.
Import ListNotations.
Local Open Scope R_scope.
From Verif Require Import BuildThms.

(** C70.  What is constructed, and what the response cache holds afterwards, does not depend on the redshift the
    templates were at before: any history of set_redshift calls (failed ones included) can precede it. *)
Theorem C70_state_independent :
  forall (T : Type) (N : Num T) cub bq sun vega fs d k abc responses s (zs : list T) t out map_ r0 r1 nz d1 s1 o1 d2 s2 o2,
    Kcorrect cub bq sun vega fs d k abc responses s t out map_ r0 r1 nz = (d1, s1, o1) ->
    Kcorrect cub bq sun vega fs d k abc responses (moved s zs) t out map_ r0 r1 nz = (d2, s2, o2) ->
    d2 = d1 /\ o2 = o1 /\ (forall K, o1 = Ok K -> s2 = s1).
Proof. exact L_C70_state_independent. Qed.
Print Assumptions C70_state_independent.

Example ex_C70_state_independent : exists d1 K,
  Kcorrect q_lin (fun _ _ _ => Raise Unmodelled) (Raise Unmodelled) (Raise Unmodelled) (fun _ => None) q_cache Plain false
    ["u"; "g"]%string (moved (q_sed false) [1; 2]%Q) q_tmpl None None 0%Q 1%Q 2 = (d1, q_sed false, Ok K) /\
  s_z (moved (q_sed false) [1; 2]%Q) = 2%Q.
Proof. exact E_C70_state_independent. Qed.

(** Constructing the same object a second time, after other work that moved the templates and added responses to the
    cache, and with whatever files there now are, gives the same object; the cache is not changed by it. *)
Theorem C70_again :
  forall (T : Type) (N : Num T) cub bq sun vega fs fs' d d1 d' k abc responses s s1 (zs : list T) t out map_ r0 r1 nz K,
    Kcorrect cub bq sun vega fs d k abc responses s t out map_ r0 r1 nz = (d1, s1, Ok K) -> extends d1 d' ->
    Kcorrect cub bq sun vega fs' d' k abc responses (moved s1 zs) t out map_ r0 r1 nz = (d', s1, Ok K).
Proof. exact L_C70_again. Qed.
Print Assumptions C70_again.

Example ex_C70_again : exists d1 s1 K, q_build (Some ["g"]%string) (Some ["u"]%string) = (d1, s1, Ok K) /\
  extends d1 (dset d1 "x"%string q_resp) /\ dmem d1 "x"%string = false.
Proof. exact E_C70_again. Qed.

(** A construction that fails can leave the templates it was given at a redshift other than 0. *)
Theorem C70_failure_restores_refuted :
  exists d (s s' : sed Q) d' e,
    s_z s = 0%Q /\
    Kcorrect q_lin (fun _ _ _ => Raise Unmodelled) (Raise Unmodelled) (Raise Unmodelled) (fun _ => None) d Plain false ["u"%string] s
      q_tmpl None None 1%Q 2%Q 2 = (d', s', Raise e) /\
    s_z s' = 1%Q.
Proof. exact L_C70_failure_restores_refuted. Qed.
Print Assumptions C70_failure_restores_refuted.

(** That does not change what is constructed from them later. *)
Theorem C70_after_failure :
  forall (T : Type) (N : Num T) cub bq sun vega fs d k abc responses s t out map_ (r0 r1 : T) nz d1 s1 e
         fs' k' abc' responses' t' out' map' q0 q1 nz' d2 s2 o2 d3 s3 o3,
    Kcorrect cub bq sun vega fs d k abc responses s t out map_ r0 r1 nz = (d1, s1, Raise e) ->
    Kcorrect cub bq sun vega fs' d1 k' abc' responses' s t' out' map' q0 q1 nz' = (d2, s2, o2) ->
    Kcorrect cub bq sun vega fs' d1 k' abc' responses' s1 t' out' map' q0 q1 nz' = (d3, s3, o3) ->
    d3 = d2 /\ o3 = o2 /\ (forall K, o2 = Ok K -> s3 = s2).
Proof. exact L_C70_after_failure. Qed.
Print Assumptions C70_after_failure.

Example ex_C70_after_failure : exists d1 s1 e,
  Kcorrect q_lin (fun _ _ _ => Raise Unmodelled) (Raise Unmodelled) (Raise Unmodelled) (fun _ => None) q_blank Plain false ["u"%string]
    (q_sed false) q_tmpl None None 1%Q 2%Q 2 = (d1, s1, Raise e) /\ s1 <> q_sed false.
Proof. exact E_C70_after_failure. Qed.

(** C71.  A KcorrectSDSS or KcorrectGST object built with the default arguments: its responses, whether it corrects to AB,
    its redshift grid, and that every output band is matched with the input band of the same position. *)
Theorem C71_defaults :
  forall (T : Type) (N : Num T) cub bq sun vega fs (d : dict (resp T)) s t d' s' K,
    (KcorrectSDSS cub bq sun vega fs d None None s t None None None None = (d', s', Ok K) ->
       f_resp (k_fit K) = ["sdss_u0"; "sdss_g0"; "sdss_r0"; "sdss_i0"; "sdss_z0"]%string /\ k_out K = f_resp (k_fit K) /\
       k_map K = f_resp (k_fit K) /\ k_imap K = [0; 1; 2; 3; 4]%nat /\ f_kind (k_fit K) = SDSS /\ f_abc (k_fit K) = true /\
       f_zs (k_fit K) = redshift_grid (nlit 0) (nlit 2) 4000 /\ k_rr K = (cst (nlit 0), cst (nlit 2)) /\ k_tmpl K = t) /\
    (KcorrectGST cub bq sun vega fs d None None s t None None None None = (d', s', Ok K) ->
       f_resp (k_fit K) = ["galex_FUV"; "galex_NUV"; "sdss_u0"; "sdss_g0"; "sdss_r0"; "sdss_i0"; "sdss_z0"; "twomass_J";
                           "twomass_H"; "twomass_Ks"]%string /\ k_out K = f_resp (k_fit K) /\
       k_map K = f_resp (k_fit K) /\ k_imap K = [0; 1; 2; 3; 4; 5; 6; 7; 8; 9]%nat /\ f_kind (k_fit K) = GST /\
       f_abc (k_fit K) = false /\ without_ab (k_fit K) = k_fit K /\
       f_zs (k_fit K) = redshift_grid (nlit 0) (nlit 2) 4000 /\ k_rr K = (cst (nlit 0), cst (nlit 2)) /\ k_tmpl K = t).
Proof. exact L_C71_defaults. Qed.
Print Assumptions C71_defaults.

Example ex_C71_defaults : (exists d' s' K, q_sdss None None = (d', s', Ok K) /\ k_imap K = [0; 1; 2; 3; 4]%nat) /\
  exists d' s' K, q_gst None None = (d', s', Ok K) /\ k_imap K = [0; 1; 2; 3; 4; 5; 6; 7; 8; 9]%nat.
Proof. exact E_C71_defaults. Qed.

(** With its default responses and abcorrect left at True, a KcorrectSDSS object fits and computes absolute magnitudes from
    photometry in which every band has been corrected by the offset documented for the response of that band. *)
Theorem C71_sdss :
  forall cub bq sun vega fs (d : dict (resp xr)) s t out map_ rr nz d' s' K z (sh : list nat) m iv,
    KcorrectSDSS cub bq sun vega fs d None None s t out map_ rr nz = (d', s', Ok K) ->
    (shp z = [] /\ sh = [5]%nat) \/ (exists n, shp z = [n] /\ sh = [n; 5]%nat) -> length m = size sh -> length iv = size sh ->
    exists m' iv', on_ab_system (f_resp (k_fit K)) sh m iv m' iv' /\
      (forall nnls rng mc cur,
        fit_coeffs nnls rng (k_fit K) (Some z) (Some (rarr sh m)) (Some (rarr sh iv)) mc cur =
        fit_coeffs nnls rng (without_ab (k_fit K)) (Some z) (Some (rarr sh m')) (Some (rarr sh iv')) mc cur) /\
      (forall distmod c bs dist r l k, documented 5 (f_nsed (k_fit K)) z None None (Some c) ->
        absmag distmod K (Some (rarr sh m)) (Some (rarr sh iv)) (Some z) (Some c) bs dist r l k =
        absmag distmod (kwithout_ab K) (Some (rarr sh m')) (Some (rarr sh iv')) (Some z) (Some c) bs dist r l k).
Proof. exact L_C71_sdss. Qed.
Print Assumptions C71_sdss.

Example ex_C71_sdss : exists d' s' K,
  KcorrectSDSS (fun _ _ _ => Fin 0) (fun _ _ _ => Raise Unmodelled) (Raise Unmodelled) (Raise Unmodelled) (fun _ => None) x_ten None None
    x_sed x_tmpl1 None None (Some (Fin 0, Fin 1)) (Some 2%nat) = (d', s', Ok K).
Proof. exact E_C71_sdss. Qed.

(** The same for KcorrectGST with its default responses and abcorrect=True: the GALEX and 2MASS bands are left alone. *)
Theorem C71_gst :
  forall cub bq sun vega fs (d : dict (resp xr)) s t out map_ rr nz d' s' K z (sh : list nat) m iv,
    KcorrectGST cub bq sun vega fs d (Some true) None s t out map_ rr nz = (d', s', Ok K) ->
    (shp z = [] /\ sh = [10]%nat) \/ (exists n, shp z = [n] /\ sh = [n; 10]%nat) -> length m = size sh -> length iv = size sh ->
    exists m' iv', on_ab_system (f_resp (k_fit K)) sh m iv m' iv' /\
      (forall nnls rng mc cur,
        fit_coeffs nnls rng (k_fit K) (Some z) (Some (rarr sh m)) (Some (rarr sh iv)) mc cur =
        fit_coeffs nnls rng (without_ab (k_fit K)) (Some z) (Some (rarr sh m')) (Some (rarr sh iv')) mc cur) /\
      (forall distmod c bs dist r l k, documented 10 (f_nsed (k_fit K)) z None None (Some c) ->
        absmag distmod K (Some (rarr sh m)) (Some (rarr sh iv)) (Some z) (Some c) bs dist r l k =
        absmag distmod (kwithout_ab K) (Some (rarr sh m')) (Some (rarr sh iv')) (Some z) (Some c) bs dist r l k).
Proof. exact L_C71_gst. Qed.
Print Assumptions C71_gst.

Example ex_C71_gst : exists d' s' K,
  KcorrectGST (fun _ _ _ => Fin 0) (fun _ _ _ => Raise Unmodelled) (Raise Unmodelled) (Raise Unmodelled) (fun _ => None) x_ten (Some true)
    None x_sed x_tmpl1 None None (Some (Fin 0, Fin 1)) (Some 2%nat) = (d', s', Ok K).
Proof. exact E_C71_gst. Qed.

(** It fails when the same five responses are given in another order: the corrections go by position, not by name. *)
Theorem C71_other_order_refuted :
  exists cub bq sun vega fs (d : dict (resp xr)) responses s t rr nz d' s' K (m iv m' iv' : list R),
    Permutation responses sdss_responses /\
    KcorrectSDSS cub bq sun vega fs d None (Some responses) s t None None rr nz = (d', s', Ok K) /\
    length m = 5%nat /\ length iv = 5%nat /\ ~ on_ab_system (f_resp (k_fit K)) [5%nat] m iv m' iv' /\
    forall nnls rng z mc cur, shp z = [] ->
      fit_coeffs nnls rng (k_fit K) (Some z) (Some (rarr [5%nat] m)) (Some (rarr [5%nat] iv)) mc cur =
      fit_coeffs nnls rng (without_ab (k_fit K)) (Some z) (Some (rarr [5%nat] m')) (Some (rarr [5%nat] iv')) mc cur.
Proof. exact L_C71_other_order_refuted. Qed.
Print Assumptions C71_other_order_refuted.

(** C72.  For a constructed object and any redshift whose band-shifted value (1+z)(1+shift)-1 lies in the redshift range,
    reconstruct and reconstruct_out give, band by band, the flux of the templates with those coefficients (synthetic
    photometry of the rest-frame templates moved to the grid redshifts around it, interpolated), divided by 1+shift. *)
Theorem C72_reconstruct :
  forall cub bq sun vega fs d k abc responses s t out map_ (r0 r1 : R) nz d' s' K w rows z c bs,
    Kcorrect cub bq sun vega fs d k abc responses s t out map_ r0 r1 nz = (d', s', Ok K) ->
    s_rflux s = table w rows -> rect w rows -> rows <> [] -> r0 < r1 -> (2 <= nz)%nat ->
    r0 <= (1 + z) * (1 + bs) - 1 <= r1 -> length c = length rows ->
    let flux := model_flux cub d' (s_rwave s) w rows (redshift_grid r0 r1 nz) in
    (exists p, reconstruct (k_fit K) (Some (scal z)) (Some (vec c)) bs = Ok (vec p) /\ length p = length responses /\
      forall j n, nth_error responses j = Some n ->
        exists x, flux n c ((1 + z) * (1 + bs) - 1) x /\ nth_error p j = Some (x / (1 + bs))) /\
    (exists p, reconstruct_out K (Some (scal z)) (Some (vec c)) bs = Ok (vec p) /\ length p = length (k_out K) /\
      forall j n, nth_error (k_out K) j = Some n ->
        exists x, flux n c ((1 + z) * (1 + bs) - 1) x /\ nth_error p j = Some (x / (1 + bs))).
Proof. exact L_C72_reconstruct. Qed.
Print Assumptions C72_reconstruct.

Example ex_C72_reconstruct : s_rflux r_sed = table 6 [[1;1;2;2;1;1]; [1;2;3;4;5;6]] /\ (exists d' s' K,
  Kcorrect lin bq0 sun0 sun0 r_files [] Plain false ["u"%string] r_sed r_tmpl None None 0 1 2 = (d', s', Ok K)) /\
  0 <= (1 + 1 / 5) * (1 + 1 / 10) - 1 <= 1.
Proof. exact E_C72_reconstruct. Qed.

(** At a grid redshift the flux is the photometry of the templates at that redshift, with no interpolation. *)
Theorem C72_at_grid_redshifts :
  forall cub (d : dict (resp R)) wave w rows (r0 r1 : R) nz n c i z x l, r0 < r1 -> (2 <= nz)%nat ->
    model_flux cub d wave w rows (redshift_grid r0 r1 nz) n c z x -> nth_error (redshift_grid r0 r1 nz) i = Some z ->
    photometry cub d wave w rows n z l -> x = dot l c.
Proof. exact L_C72_at_grid_redshifts. Qed.
Print Assumptions C72_at_grid_redshifts.

Example ex_C72_at_grid_redshifts : exists d' x l,
  model_flux lin d' (s_rwave r_sed) 6 [[1;1;2;2;1;1]; [1;2;3;4;5;6]] (redshift_grid 0 1 2) "u" [1; 1/2] 1 x /\
  nth_error (redshift_grid 0 1 2) 1 = Some 1 /\ photometry lin d' (s_rwave r_sed) 6 [[1;1;2;2;1;1]; [1;2;3;4;5;6]] "u" 1 l.
Proof. exact E_C72_at_grid_redshifts. Qed.

(** The K-correction of a constructed object: -2.5 log10 of the ratio of the flux of the templates at the redshift in the
    mapped input band to their flux at redshift band_shift in the output band, that one divided by 1+band_shift. *)
Theorem C72_kcorrect :
  forall cub bq sun vega fs d k abc responses s t out map_ (r0 r1 : R) nz d' s' K w rows z c bs,
    Kcorrect cub bq sun vega fs d k abc responses s t out map_ r0 r1 nz = (d', s', Ok K) ->
    s_rflux s = table w rows -> rect w rows -> rows <> [] -> r0 < r1 -> (2 <= nz)%nat ->
    r0 <= z <= r1 -> r0 <= bs <= r1 -> length c = length rows -> 0 < fold_right Rplus 0 c ->
    let flux := model_flux cub d' (s_rwave s) w rows (redshift_grid r0 r1 nz) in
    exists v, kcorrect K (Some (scal z)) (Some (vec c)) bs = Ok (vec v) /\ length v = length (k_out K) /\
      forall j n_out n_in, nth_error (k_out K) j = Some n_out -> nth_error (k_map K) j = Some n_in ->
        exists x y, flux n_in c z x /\ flux n_out c bs y /\ nth_error v j = Some (-5/2 * log10 (x / (y / (1 + bs)))).
Proof. exact L_C72_kcorrect. Qed.
Print Assumptions C72_kcorrect.

Example ex_C72_kcorrect : (exists d' s' K,
  Kcorrect lin bq0 sun0 sun0 r_files [] Plain false ["u"%string] r_sed r_tmpl None None 0 1 2 = (d', s', Ok K)) /\
  0 < fold_right Rplus 0 [1; 1/2].
Proof. exact E_C72_kcorrect. Qed.

(** The coefficients fitted with a constructed object, when no AB correction is made, for a redshift in the range: they are
    nonnegative and no other nonnegative coefficients have fluxes with a smaller chi^2. *)
Theorem C72_fit :
  forall cub bq sun vega fs d k responses s t out map_ (r0 r1 : R) nz d' s' K w rows nnls rng o cur c cur',
    Kcorrect cub bq sun vega fs d k false responses s t out map_ r0 r1 nz = (d', s', Ok K) ->
    s_rflux s = table w rows -> rect w rows -> rows <> [] -> r0 < r1 -> (2 <= nz)%nat -> length responses <> 1%nat ->
    nnls_contract nnls -> obj_ok (length responses) o -> nonneg (o_iv o) -> r0 <= o_z o <= r1 ->
    fit_object nnls rng (k_fit K) 0 o cur = Ok (Bare (vec c), cur') ->
    let flux := model_flux cub d' (s_rwave s) w rows (redshift_grid r0 r1 nz) in
    let fluxes c p := length p = length responses /\
      forall j n x, nth_error responses j = Some n -> nth_error p j = Some x -> flux n c (o_z o) x in
    length c = length rows /\ nonneg c /\
    exists p, fluxes c p /\
      forall y, length y = length rows -> nonneg y ->
        exists q, fluxes y q /\ chi2 (o_iv o) (o_m o) p <= chi2 (o_iv o) (o_m o) q.
Proof. exact L_C72_fit. Qed.
Print Assumptions C72_fit.

Example ex_C72_fit : exists d' s' K c cur',
  Kcorrect lin bq0 sun0 sun0 r_files [] Plain false ["u"; "u"]%string r_sed1 r_tmpl None None 0 1 2 = (d', s', Ok K) /\
  nnls_contract nnls1 /\
  fit_object nnls1 (fun _ => 0) (k_fit K) 0 {| o_z := 1 / 2; o_m := [2; 6]; o_iv := [1; 4] |} 0 = Ok (Bare (vec c), cur').
Proof. exact E_C72_fit. Qed.

(** The flux is determined by the templates, the responses, the coefficients and the redshift. *)
Theorem C72_flux_determined :
  forall cub (d : dict (resp R)) wave w rows (r0 r1 : R) nz n c z x x', r0 < r1 -> (2 <= nz)%nat ->
    model_flux cub d wave w rows (redshift_grid r0 r1 nz) n c z x ->
    model_flux cub d wave w rows (redshift_grid r0 r1 nz) n c z x' -> x' = x.
Proof. exact L_C72_flux_determined. Qed.
Print Assumptions C72_flux_determined.

Example ex_C72_flux_determined : exists d' x,
  model_flux lin d' (s_rwave r_sed) 6 [[1;1;2;2;1;1]; [1;2;3;4;5;6]] (redshift_grid 0 1 2) "u" [1; 1/2] (1/5) x.
Proof. exact E_C72_flux_determined. Qed.

(** C73.  Construction succeeds, over the reals, when: every input and output response is cached with a curve or can be
    loaded from its file; responses_map has the length of responses_out and names input responses only; the templates
    have at least four strictly increasing wavelengths; and the redshift range is increasing and above -1 with at least
    two grid points. *)
Theorem C73_construction_succeeds :
  forall cub bq sun vega fs d k abc responses (s : sed R) t out map_ r0 r1 nz rows,
    let o := match out with Some l => l | None => responses end in
    let m := match map_ with Some l => l | None => responses end in
    (forall n, In n responses \/ In n o -> obtainable cub bq sun vega fs d n) ->
    length m = length o -> (forall name, In name m -> In name responses) ->
    StronglySorted Rlt (s_rwave s) -> (4 <= length (s_rwave s))%nat ->
    s_rflux s = table (length (s_rwave s)) rows -> rect (length (s_rwave s)) rows -> rows <> [] ->
    -1 < r0 -> r0 < r1 -> (2 <= nz)%nat ->
    exists d' s' K, Kcorrect cub bq sun vega fs d k abc responses s t out map_ r0 r1 nz = (d', s', Ok K).
Proof. exact L_C73_construction_succeeds. Qed.
Print Assumptions C73_construction_succeeds.

Example ex_C73_construction_succeeds :
  obtainable lin bq0 sun0 sun0 r_files [] "u" /\ StronglySorted Rlt (s_rwave r_sed) /\ (4 <= length (s_rwave r_sed))%nat /\
  s_rflux r_sed = table (length (s_rwave r_sed)) [[1;1;2;2;1;1]; [1;2;3;4;5;6]].
Proof. exact E_C73_construction_succeeds. Qed.
