(** Property theorems; proofs are in ErrorThms.v.  Generated by tools/gen_prop.py. *)
From Coq Require Import String List Arith Lia Bool ZArith QArith Qreals Reals Lra.
From Verif Require Import Base BaseLemmas Num Toy Interp Spec Utils Sed Response RespDict ResponseObj
  Fitter FitSpec FitterProofs FitterMC FitEx FitterThms Kcorrect KSpec KcorrectProofs KEx Persist PersistSpec AbsmagProofs.
Import ListNotations.
Local Open Scope nat_scope.
From Verif Require Import ErrorThms.

(** C74.  fit_coeffs without inverse variances raises TypeError, for one object and for batches. *)
Theorem C74_no_ivar :
  forall (T : Type) (N : Num T) nnls rng (F : fitter T) z m mc cur,
    no_ab F -> documented (length (f_resp F)) (f_nsed F) z m None None -> wf z -> shp z <> [0] ->
    fit_coeffs nnls rng F (Some z) m None mc cur = Raise TypeError.
Proof. exact L_C74_no_ivar. Qed.
Print Assumptions C74_no_ivar.

Example ex_C74_no_ivar : no_ab q_fitter /\ documented 2 3 (vec [0; 1]%Q) (Some (table 2 [[1; 2]; [3; 4]]%Q)) None None /\
  fit_coeffs ex_nnls (fun _ => 0%Q) q_fitter (Some (vec [0; 1]%Q)) (Some (table 2 [[1; 2]; [3; 4]]%Q)) None 0 0 = Raise TypeError.
Proof. exact E_C74_no_ivar. Qed.

(** Without maggies the exception is TypeError, except that for one object (mc=0) the out-of-range redshift is noticed first:
    then the answer is zero coefficients and no exception. *)
Theorem C74_no_maggies :
  forall (T : Type) (N : Num T) nnls rng (F : fitter T) A nb nt z iv mc cur,
    no_ab F -> ready F A nb nt -> nb <> 1 -> length iv = nb ->
    (~ outside A (cst z) -> fit_coeffs nnls rng F (Some (scal z)) None (Some (vec iv)) mc cur = Raise TypeError) /\
    (outside A (cst z) -> fit_coeffs nnls rng F (Some (scal z)) None (Some (vec iv)) 0 cur = Ok (Bare (vec (repeat n0 nt)), cur)).
Proof. exact L_C74_no_maggies. Qed.
Print Assumptions C74_no_maggies.

Example ex_C74_no_maggies : ~ outside q_tab 1%Q /\ outside q_tab 5%Q /\
  fit_coeffs ex_nnls (fun _ => 0%Q) q_fitter (Some (scal 1%Q)) None (Some (vec [1; 1]%Q)) 0 0 = Raise TypeError /\
  fit_coeffs ex_nnls (fun _ => 0%Q) q_fitter (Some (scal 5%Q)) None (Some (vec [1; 1]%Q)) 0 0 = Ok (Bare (vec [0; 0; 0]%Q), 0).
Proof. exact E_C74_no_maggies. Qed.

(** A batch of two or more without maggies always raises; an empty batch never does, with or without photometry. *)
Theorem C74_batches :
  forall (T : Type) (N : Num T) nnls rng (F : fitter T) z m iv mc cur,
    no_ab F -> documented (length (f_resp F)) (f_nsed F) z m iv None -> wf z ->
    (forall n, shp z = [n] -> 2 <= n -> m = None -> fit_coeffs nnls rng F (Some z) m iv mc cur = Raise TypeError) /\
    (shp z = [0] -> fit_coeffs nnls rng F (Some z) m iv 0 cur = Ok (Bare (mk [0; f_nsed F] []), cur)).
Proof. exact L_C74_batches. Qed.
Print Assumptions C74_batches.

Example ex_C74_batches : fit_coeffs ex_nnls (fun _ => 0%Q) q_fitter (Some (vec [5; 5]%Q)) None (Some (table 2 [[1; 2]; [3; 4]]%Q)) 0 0
    = Raise TypeError /\
  fit_coeffs ex_nnls (fun _ => 0%Q) q_fitter (Some (vec (@nil Q))) None None 0 7 = Ok (Bare (mk [0; 3] []), 7).
Proof. exact E_C74_batches. Qed.

(** absmag without maggies, or without inverse variances, raises TypeError once the K-corrections can be computed. *)
Theorem C74_absmag :
  forall (T : Type) (N : Num T) distmod (K : kcor T) z m iv c bs d r l k kc,
    no_ab (k_fit K) -> documented (length (f_resp (k_fit K))) (f_nsed (k_fit K)) z m iv (Some c) ->
    match d with None => True | Some x => shp x = shp z end -> rounding N ->
    kcorrect K (Some z) (Some c) bs = Ok kc -> Forall (fun i => i < length (f_resp (k_fit K))) (k_imap K) ->
    m = None \/ iv = None ->
    absmag distmod K m iv (Some z) (Some c) bs d r l k = Raise TypeError.
Proof. exact L_C74_absmag. Qed.
Print Assumptions C74_absmag.

Example ex_C74_absmag : (exists kc, kcorrect q_kcor (Some (scal 1%Q)) (Some (vec [1; 0; 2]%Q)) 0%Q = Ok kc) /\
  absmag (fun z => z) q_kcor None (Some (vec [1; 1]%Q)) (Some (scal 1%Q)) (Some (vec [1; 0; 2]%Q)) 0%Q None false false false
    = Raise TypeError /\
  absmag (fun z => z) q_kcor (Some (vec [1; 1]%Q)) None (Some (scal 1%Q)) (Some (vec [1; 0; 2]%Q)) 0%Q None true true true
    = Raise TypeError.
Proof. exact E_C74_absmag. Qed.

(** Without coefficients, at redshifts within the range: TypeError for one object, AttributeError for arrays (also empty ones). *)
Theorem C74_no_coeffs :
  forall (T : Type) (N : Num T) (F : fitter T) A nb nt bs,
    tab_ok A nb nt ->
    (forall z, ~ outside A (nsub (nmul (nadd n1 (cst z)) (nadd n1 bs)) n1) -> reconstruct_ F (Some A) (Some (scal z)) None bs = Raise TypeError) /\
    (forall zs, (forall z, In z zs -> ~ outside A (nsub (nmul (nadd n1 (cst z)) (nadd n1 bs)) n1)) ->
       reconstruct_ F (Some A) (Some (vec zs)) None bs = Raise AttributeError).
Proof. exact L_C74_no_coeffs. Qed.
Print Assumptions C74_no_coeffs.

Example ex_C74_no_coeffs : reconstruct q_fitter (Some (scal 1%Q)) None 0%Q = Raise TypeError /\
  reconstruct q_fitter (Some (vec [1; 2]%Q)) None 0%Q = Raise AttributeError /\ tab_ok q_tab 2 3.
Proof. exact E_C74_no_coeffs. Qed.

(** C74.  derived without coefficients raises AttributeError, for one object and for catalogues, with and without AB correction,
    whatever the templates, unless the redshift or the distance has more than one dimension: TypeError. *)
Theorem C74_derived :
  forall (T : Type) (N : Num T) distmod dict (K : kcor T) z bs d,
    derived distmod dict K (Some z) None bs d =
    Raise (if Nat.leb (ndim z) 1 && match d with None => true | Some x => Nat.leb (ndim x) 1 end then AttributeError else TypeError).
Proof. exact L_C74_derived. Qed.
Print Assumptions C74_derived.

Example ex_C74_derived : derived (fun z => z) [] q_kcor (Some (vec [1; 2]%Q)) None 0%Q None = Raise AttributeError /\
  derived (fun z => z) [] q_kcor (Some (scal 1%Q)) None 0%Q (Some (mk [1; 1] [1%Q])) = Raise TypeError.
Proof. exact E_C74_derived. Qed.

(** C64.  The object left by a failing fromfits (C64_missing_response) has the templates and names of the file and its old
    tables.  When the numbers of templates differ, reconstruct raises ValueError at every redshift, for valid coefficients. *)
Theorem C64_mixed_reconstruct :
  forall (T : Type) (N : Num T) (F : fitter T) A nb nt z (c : list T) bs,
    tab_ok A nb nt -> f_nsed F <> nt -> length c = f_nsed F ->
    reconstruct_ F (Some A) (Some (scal z)) (Some (vec c)) bs = Raise ValueError /\
    reconstruct_ F (Some A) (Some (vec [z])) (Some (table (f_nsed F) [c])) bs = Raise ValueError.
Proof. exact L_C64_mixed_reconstruct. Qed.
Print Assumptions C64_mixed_reconstruct.

Example ex_C64_mixed_reconstruct : let F := ex_fitter Plain false ["u"; "g"]%string 2 [0; 1; 2]%Q [] in
  tab_ok q_tab 2 3 /\ f_nsed F <> 3 /\ length [5; 6]%Q = f_nsed F /\
  reconstruct_ F (Some q_tab) (Some (scal 1%Q)) (Some (vec [5; 6]%Q)) 0%Q = Raise ValueError.
Proof. exact E_C64_mixed_reconstruct. Qed.

(** ... and fit_coeffs (mc=0), which takes the failure of the multiplication by the table for an out-of-range redshift,
    answers with zero coefficients for any photometry at any redshift (unless one of the two has a single template). *)
Theorem C64_mixed_fit :
  forall (T : Type) (N : Num T) nnls rng (F : fitter T) A nb nt z (m iv : list T) cur,
    no_ab F -> f_A F = Some A -> tab_ok A nb nt -> f_nsed F <> nt -> f_nsed F <> 1 -> nt <> 1 ->
    length (f_resp F) <> 1 -> length m = length (f_resp F) -> length iv = length (f_resp F) ->
    fit_coeffs nnls rng F (Some (scal z)) (Some (vec m)) (Some (vec iv)) 0 cur = Ok (Bare (vec (repeat n0 (f_nsed F))), cur).
Proof. exact L_C64_mixed_fit. Qed.
Print Assumptions C64_mixed_fit.

Example ex_C64_mixed_fit : let F := ex_fitter Plain false ["u"; "g"]%string 2 [0; 1; 2]%Q [] in
  let F' := {| f_kind := Plain; f_abc := false; f_resp := f_resp F; f_sed := f_sed F; f_zs := f_zs F; f_A := Some q_tab |} in
  fit_coeffs ex_nnls (fun _ => 0%Q) F' (Some (scal 1%Q)) (Some (vec [5; 6]%Q)) (Some (vec [1; 1]%Q)) 0 0
    = Ok (Bare (vec [0; 0]%Q), 0) /\
  reconstruct F' (Some (scal 1%Q)) (Some (vec [5; 6]%Q)) 0%Q = Raise ValueError /\
  fit_coeffs ex_nnls (fun _ => 0%Q) q_fitter (Some (scal 1%Q)) (Some (vec [5; 6]%Q)) (Some (vec [1; 1]%Q)) 0 0
    = Ok (Bare (vec [5; 6; 0]%Q), 0).
Proof. exact E_C64_mixed_fit. Qed.

(** C39.  The grid depends on the redshift range only through its float32 rounding. *)
Theorem C39_range_rounded :
  forall (T : Type) (N : Num T) (r0 r1 r0' r1' : T) n,
    cst r0 = cst r0' -> cst r1 = cst r1' -> redshift_grid r0 r1 n = redshift_grid r0' r1' n.
Proof. exact L_C39_range_rounded. Qed.
Print Assumptions C39_range_rounded.

Example ex_C39_range_rounded : rounding Num_floor /\ @redshift_grid Q Num_floor (1 # 2) (5 # 2) 3 = [0; 1; 2]%Q.
Proof. exact E_C39_range_rounded. Qed.

(** C55.  KcorrectGST.to_ab of a number raises IndexError. *)
Theorem C55_scalar : forall (T : Type) (N : Num T) (x : T) iv, to_ab GST (scal x) iv = Raise IndexError.
Proof. exact L_C55_scalar. Qed.
Print Assumptions C55_scalar.

(** C09.  maggies2flambda of a number raises IndexError. *)
Theorem C09_scalar : forall (T : Type) (N : Num T) (leff : list T) (x : T) iv, maggies2flambda_core leff (scal x) iv = Raise IndexError.
Proof. exact L_C09_scalar. Qed.
Print Assumptions C09_scalar.

(** C14.  A file with a one-dimensional FLUX image is read as a single spectrum. *)
Theorem C14_one_dimensional :
  forall (T : Type) (N : Num T) (wave flux : list T) ext, 2 <= length wave -> length flux = length wave ->
    exists s, sed_fromfits [ {| h_name := "WAVE"; h_cols := [(""%string, vec wave)] |};
                             {| h_name := "FLUX"; h_cols := [(""%string, vec flux)] |} ] ext false = Ok s /\
      s_rwave s = wave /\ s_rflux s = mk [1; length wave] flux /\ s_wave s = wave /\ s_flux s = s_rflux s /\ s_nsed s = 1 /\
      s_bin s = true.
Proof. exact L_C14_one_dimensional. Qed.
Print Assumptions C14_one_dimensional.

Example ex_C14_one_dimensional : 2 <= length [1; 2; 3]%Z /\ length [4; 5; 6]%Z = length [1; 2; 3]%Z.
Proof. exact E_C14_one_dimensional. Qed.

(** C11.  The float32 roundings in the set-up of the solar and Vega spectra: the wavelengths, the converted fluxes and the
    scaled fluxes. *)
Theorem C11_rounding :
  forall (T : Type) (N : Num T) (scale : T) (wave : list T) (u : basel_unit T),
    length (b_flux T u) = length wave ->
    basel_sed scale (wave, [u]) =
    SED (map (fun w => cst (nmul w (nlit 10))) wave)
        (mk [1; length wave]
            (zip (fun f w => let l := cst (nmul w (nlit 10)) in
                    cst (nmul (cst (ndiv (nmul (nmul (nmul npi (nlit 4)) f) (nlit (299792 * 10000000000000))) (nmul l l))) scale))
                 (b_flux T u) wave)) true.
Proof. exact L_C11_rounding. Qed.
Print Assumptions C11_rounding.

Example ex_C11_rounding :
  let u := {| b_modelno := 1; b_teff := 1; b_logg := 1; b_mh := 1; b_vturb := 1; b_xh := 1; b_flux := [1;1;1;1] |}%Z in
  length (b_flux Z u) = length [1; 2; 3; 4]%Z.
Proof. exact E_C11_rounding. Qed.

(** C75.  Response.project(wave=, flux=) checks its arguments in this order, whatever the response. *)
Theorem C75_checks :
  forall (T : Type) (N : Num T) cub (r : resp T) (wave flux : nd T),
    (length (shp wave) <> 1 -> project_arr cub r wave flux = Raise ValueError) /\
    forall n, shp wave = [n] ->
      (shp flux = [] -> project_arr cub r wave flux = Raise IndexError) /\
      (shp flux <> [] -> last (shp flux) 0 <> n -> project_arr cub r wave flux = Raise ValueError) /\
      (2 < length (shp flux) -> project_arr cub r wave flux = Raise ValueError) /\
      (shp flux <> [] -> length (dat wave) = n -> n < 4 -> project_arr cub r wave flux = Raise ValueError).
Proof. exact L_C75_checks. Qed.
Print Assumptions C75_checks.

Example ex_C75_checks :
  project_arr q_lin q_resp (scal 1%Q) (scal 1%Q) = Raise ValueError /\
  project_arr q_lin q_resp (vec [1; 2; 3; 4]%Q) (scal 1%Q) = Raise IndexError /\
  project_arr q_lin q_resp (vec [1; 2; 3; 4]%Q) (vec [1; 2; 3]%Q) = Raise ValueError /\
  project_arr q_lin q_resp (vec [1; 2; 3; 4]%Q) (mk [1; 1; 4] [1; 2; 3; 4]%Q) = Raise ValueError /\
  project_arr q_lin q_resp (vec [1; 2; 3]%Q) (vec [1; 2; 3]%Q) = Raise ValueError.
Proof. exact E_C75_checks. Qed.

(** What it returns for accepted arguments is a number, or, for a two-dimensional flux with a number of rows other than 1 and an
    overlap with the band, one number per row. *)
Theorem C75_shape :
  forall (T : Type) (N : Num T) cub (r : resp T) (wave flux : nd T) v,
    project_arr cub r wave flux = Ok v ->
    length (shp wave) = 1 /\ (shp v = [] \/ exists n m, shp flux = [n; m] /\ n <> 1 /\ shp v = [n]).
Proof. exact L_C75_shape. Qed.
Print Assumptions C75_shape.

Example ex_C75_shape : exists v, project_arr q_lin q_resp (vec [1; 2; 3; 4; 6]%Q) (mk [2; 5] [1; 1; 1; 1; 1; 2; 3; 4; 5; 6]%Q) = Ok v /\ shp v = [2].
Proof. exact E_C75_shape. Qed.

(** C76.  fit_coeffs of two or more objects returns float32 values only. *)
Theorem C76_fit_batch :
  forall (T : Type) (N : Num T) nnls rng (F : fitter T) z m iv mc cur o cur' n,
    rounding N -> shp z = [n] -> n <> 1 -> fit_coeffs nnls rng F (Some z) m iv mc cur = Ok (o, cur') ->
    Forall (fun v => cst v = v) (dat (out_c o)) /\ Forall (fun v => cst v = v) (dat (out_cmc o)) /\
    Forall (fun v => cst v = v) (dat (out_mmc o)).
Proof. exact L_C76_fit_batch. Qed.
Print Assumptions C76_fit_batch.

Example ex_C76_fit_batch : exists c,
  @fit_coeffs Q Num_floor (fun _ n _ _ => Some (repeat (3 # 2) n)) (fun _ => 0%Q) q_fitter (Some (vec [0; 1]%Q))
    (Some (table 2 [[1; 2]; [3; 4]]%Q)) (Some (table 2 [[1; 1]; [1; 1]]%Q)) 0 0 = Ok (Bare c, 0) /\ dat c = [1; 1; 1; 1; 1; 1]%Q.
Proof. exact E_C76_fit_batch. Qed.

(** The coefficients of a single object are not rounded: the row of a batch can differ from the fit of the object. *)
Theorem C76_fit_single_refuted :
  exists (N : Num Q) nnls (F : fitter Q) z m iv c,
    rounding N /\ fit_coeffs nnls (fun _ => 0%Q) F (Some (scal z)) (Some (vec m)) (Some (vec iv)) 0 0 = Ok (Bare (vec c), 0) /\
    map cst c <> c /\
    fit_coeffs nnls (fun _ => 0%Q) F (Some (vec [z; z])) (Some (table 2 [m; m])) (Some (table 2 [iv; iv])) 0 0
      = Ok (Bare (table 3 [map cst c; map cst c]), 0).
Proof. exact L_C76_fit_single_refuted. Qed.
Print Assumptions C76_fit_single_refuted.

(** kcorrect of an array returns float32 values only. *)
Theorem C76_kcorrect_batch :
  forall (T : Type) (N : Num T) (K : kcor T) z c bs k n,
    rounding N -> shp z = [n] -> kcorrect K (Some z) c bs = Ok k -> Forall (fun v => cst v = v) (dat k).
Proof. exact L_C76_kcorrect_batch. Qed.
Print Assumptions C76_kcorrect_batch.

Example ex_C76_kcorrect_batch : exists k, kcorrect q_kcor (Some (vec [1; 0]%Q)) (Some (table 3 [[1; 0; 2]; [0; 0; 1]]%Q)) 0%Q = Ok k /\
  shp k = [2; 2].
Proof. exact E_C76_kcorrect_batch. Qed.

(** absmag returns float32 values, for single objects also (the K-corrections of kcorrect=True excepted). *)
Theorem C76_absmag :
  forall (T : Type) (N : Num T) distmod (K : kcor T) m iv z c bs d r l o,
    rounding N -> cst (nlit (-(9999) # 1)) = (nlit (-(9999) # 1) : T) -> cst (nadd n0 (nlit (-(9999) # 1))) = (nadd n0 (nlit (-(9999) # 1)) : T) ->
    absmag distmod K m iv z c bs d r l false = Ok o ->
    match o with
    | Bare1 a => Forall (fun v => cst v = v) (dat a)
    | Tuple t => Forall (fun a => Forall (fun v => cst v = v) (dat a)) t
    end.
Proof. exact L_C76_absmag. Qed.
Print Assumptions C76_absmag.

Example ex_C76_absmag : exists N : Num Q, rounding N /\ cst (nlit (-(9999) # 1)) = (nlit (-(9999) # 1) : Q) /\
  cst (nadd n0 (nlit (-(9999) # 1))) = (nadd n0 (nlit (-(9999) # 1)) : Q) /\ cst (1 # 2) <> 1 # 2 /\
  exists a b c, @absmag Q N (fun z => z) q_kcor (Some (vec [1; 2]%Q)) (Some (vec [1; 0]%Q)) (Some (scal 1%Q)) (Some (vec [1; 0; 2]%Q)) 0%Q None
    true true false = Ok (Tuple [a; b; c]).
Proof. exact E_C76_absmag. Qed.

(** C77.  A response curve whose interpolation vanishes at all its samples has no half maximum: IndexError. *)
Theorem C77_dark :
  forall cub bq (wave : list xr) (it : interp1 xr),
    wave <> [] -> (forall w, In w wave -> ieval1 cub (ix it) (hd [] (iys it)) w = Fin 0) ->
    fwhm_limits cub bq wave it = Raise IndexError.
Proof. exact L_C77_dark. Qed.
Print Assumptions C77_dark.

Example ex_C77_dark : fwhm_limits (fun _ _ _ => Fin 0) (fun _ _ _ => Raise Unmodelled) [Fin 1; Fin 2]
    {| ix := [Fin 1; Fin 2]; iys := [[Fin 0; Fin 0]] |} = Raise IndexError.
Proof. exact E_C77_dark. Qed.

(** So no Response object can be made of a curve of zeros (when the spline through zeros is zero), whatever the wavelengths. *)
Theorem C77_dark_response :
  forall cub bq sun vega (wave y : list xr) r,
    (forall xs ys t, Forall (eq (Fin 0)) ys -> cub xs ys t = Fin 0) -> Forall (eq (Fin 0)) y ->
    Response cub bq sun vega wave y <> Ok r.
Proof. exact L_C77_dark_response. Qed.
Print Assumptions C77_dark_response.

Example ex_C77_dark_response : exists cub : list xr -> list xr -> xr -> xr,
  (forall xs ys t, Forall (eq (Fin 0)) ys -> cub xs ys t = Fin 0) /\ Forall (eq (Fin 0)) [Fin 0; Fin 0; Fin 0; Fin 0].
Proof. exact E_C77_dark_response. Qed.

(** Missing files: Response.fromfits, Template and all_responses raise OSError and change nothing. *)
Theorem C77_missing :
  forall (T : Type) (N : Num T) cub bq sun vega (r : resp T) fs check_ d,
    resp_fromfits cub bq sun vega r None = (r, Some OSError) /\
    (forall interp, Template (@None (kfits T)) interp = Raise OSError) /\
    all_responses cub bq sun vega fs check_ None d = (d, Raise OSError).
Proof. exact L_C77_missing. Qed.
Print Assumptions C77_missing.

(** What absmag rounds to float32, in any arithmetic: the inputs, -2.5 log10 of the flux, and the result after the distance
    modulus and the K-correction have been subtracted; in the magnitudes, the reconstructed magnitudes and the limits. *)
Theorem C76_absmag_values :
  forall (T : Type) (N : Num T) distmod (K : kcor T) A Ao nb no nt bs o ks om,
    rounding N -> kready K A Ao nb no nt -> no_ab (k_fit K) -> kobj_ok nb nt o ->
    kcorrect K (Some (scal (ko_z o))) (Some (vec (ko_c o))) bs = Ok (vec ks) ->
    reconstruct_out K (Some (scal (ko_z o))) (Some (vec (ko_c o))) bs = Ok (vec om) ->
    exists a r l, absmag_object distmod K bs false true true false o = Ok (Tuple [vec a; vec r; vec l]) /\
      length a = no /\ length r = no /\ length l = no /\
      forall j d, j < no ->
        let mag := fun f => cst (nsub (nsub (cst (nmul (nlit (-(5) # 2)) (nlog10 f))) (distmod (cst (ko_z o)))) (nth j ks d)) in
        let m := cst (nth (in_band K j) (ko_m o) d) in
        let iv := cst (nth (in_band K j) (ko_iv o) d) in
        (nltb n0 m = true -> nltb n0 iv = true -> nleb m n0 = false -> nleb iv n0 = false -> nth_error a j = Some (mag m)) /\
        (nltb n0 (nth j om d) = true -> nleb (nth j om d) n0 = false -> nth_error r j = Some (mag (nth j om d))) /\
        (nltb n0 iv = true -> nleb iv n0 = false -> nth_error l j = Some (mag (ndiv n1 (nsqrt iv)))).
Proof. exact L_C76_absmag_values. Qed.
Print Assumptions C76_absmag_values.

Example ex_C76_absmag_values : rounding Num_Q /\ kready q_kcor q_tab q_out 2 2 3 /\
  kobj_ok 2 3 {| ko_z := 1%Q; ko_m := [1; 2]%Q; ko_iv := [1; 1]%Q; ko_c := [1; 0; 2]%Q; ko_d := 0%Q |} /\
  (exists ks, kcorrect q_kcor (Some (scal 1%Q)) (Some (vec [1; 0; 2]%Q)) 0%Q = Ok (vec ks)) /\
  exists om, reconstruct_out q_kcor (Some (scal 1%Q)) (Some (vec [1; 0; 2]%Q)) 0%Q = Ok (vec om).
Proof. exact E_C76_absmag_values. Qed.

(** C07.  error_floor with arrays that do not fit: a number has no bands (IndexError); a floor of another length or inverse
    variances of another shape are meant to be reported, but the code raises a string, which is itself a TypeError. *)
Theorem C07_shapes :
  forall (T : Type) (N : Num T) store (floor maggies ivar : nd T) n, shp floor = [n] ->
    (shp maggies = [] -> error_floor store floor maggies ivar = Raise IndexError) /\
    (shp maggies <> [] -> last (shp maggies) 0 <> n -> error_floor store floor maggies ivar = Raise TypeError) /\
    (shp maggies <> [] -> shp ivar <> shp maggies -> error_floor store floor maggies ivar = Raise TypeError).
Proof. exact L_C07_shapes. Qed.
Print Assumptions C07_shapes.

Example ex_C07_shapes : shp (vec [1; 2]%Q) = [2] /\
  error_floor (fun x => x) (vec [1; 2]%Q) (vec [1; 2; 3]%Q) (vec [1; 2; 3]%Q) = Raise TypeError.
Proof. exact E_C07_shapes. Qed.

(** C04.  sdss_asinh_to_maggies with arrays that do not fit: magnitude errors or extinctions of another shape than the
    magnitudes, or other than five bands, raise TypeError (the code raises a string); a number raises IndexError. *)
Theorem C04_shapes :
  forall (T : Type) (N : Num T) (mag : nd T) err ext,
    ((exists e, err = Some e /\ shp e <> shp mag) \/ (exists e, ext = Some e /\ shp e <> shp mag) ->
       sdss_asinh_to_maggies mag err ext = Raise TypeError) /\
    ((forall e, err = Some e \/ ext = Some e -> shp e = shp mag) ->
       (shp mag = [] -> sdss_asinh_to_maggies mag err ext = Raise IndexError) /\
       (shp mag <> [] -> last (shp mag) 0 <> 5 -> sdss_asinh_to_maggies mag err ext = Raise TypeError)).
Proof. exact L_C04_shapes. Qed.
Print Assumptions C04_shapes.

Example ex_C04_shapes :
  sdss_asinh_to_maggies (vec [1; 2; 3; 4; 5]%Q) None (Some (vec [1; 1]%Q)) = Raise TypeError /\
  sdss_asinh_to_maggies (scal 1%Q) (Some (scal 1%Q)) None = Raise IndexError.
Proof. exact E_C04_shapes. Qed.

(** C67.  tofits of a response of an empty curve raises IndexError, of a curve with different numbers of wavelengths and
    responses ValueError; except that a single response beside several wavelengths is written as a constant curve. *)
Theorem C67_bad_curve :
  forall (T : Type) (N : Num T) (r : resp T) w y, p_wave r = Some w -> p_resp r = Some y ->
    (w = [] \/ y = [] -> resp_tofits r = Raise IndexError) /\
    (w <> [] -> y <> [] -> length y <> length w -> length y <> 1%nat -> resp_tofits r = Raise ValueError) /\
    (forall x, (2 <= length w)%nat -> y = [x] ->
      resp_tofits r = Ok [HNum {| h_name := ""%string; h_cols := [("wave"%string, mk [1; length w]%nat w);
                                                                    ("response"%string, mk [1; length w]%nat (repeat x (length w)))] |}]).
Proof. exact L_C67_bad_curve. Qed.
Print Assumptions C67_bad_curve.

Example ex_C67_bad_curve : exists r : resp Q, p_wave r = Some [1; 2; 3]%Q /\ p_resp r = Some [5]%Q /\ (2 <= length [1; 2; 3]%Q)%nat.
Proof. exact E_C67_bad_curve. Qed.
