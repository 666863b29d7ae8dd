(** Model of the example programs bin/k_plot_test_gst, bin/k_plot_test_mtol and bin/k_plot_test_sdss up to the arrays that are
    plotted.  The catalogues are lists of rows with the columns that are used; reading the FITS files and drawing are not modelled. *)
From Coq Require Import String List Arith Bool ZArith QArith.
From Verif Require Import Base Num Interp Utils Fitter.
Import ListNotations.
Local Open Scope nat_scope.
Local Open Scope res_scope.

Section Scripts.
  Context {T : Type} {N : Num T}.
  Local Open Scope num_scope.

  (** a != b; true for a NaN. *)
  Definition nneb (a b : T) : bool := negb (nleb a b && nleb b a).

  (** A row of gst_tests_small.fits.  [g_model], [g_model_ivar] have five entries; [g_ext] is EXTINCTION[:, 2]. *)
  Record gst_row := {
    g_fuv : T; g_fuverr : T; g_nuv : T; g_nuverr : T; g_model : list T; g_model_ivar : list T;
    g_j : T; g_jsig : T; g_h : T; g_hsig : T; g_k : T; g_ksig : T; g_ext : T; g_z : T }.

  (** bin/k_plot_test_gst:58-70, one entry of the GALEX columns; [zp] is fuv_zp or nuv_zp. *)
  Definition galex_ok (flux err : T) : bool :=
    nneb flux (nlit (-(99) # 1)) && nneb flux n0 && (nneb err (nlit (-(99) # 1)) && nneb err n0).
  Definition galex_scale (zp : Q) : T := npow10 (nlit (-(2) # 5) * nlit zp).
  Definition galex_m (zp : Q) (flux err : T) : T := if galex_ok flux err then cst (flux * galex_scale zp) else n0.
  Definition galex_iv (zp : Q) (flux err : T) : T := if galex_ok flux err then cst (n1 / nsq (err * galex_scale zp)) else n0.

  (** bin/k_plot_test_gst:83-97, one entry of the 2MASS columns; [v] is the vega2ab of the response. *)
  Definition tmass_ok (mag sig : T) : bool := nneb mag n0 && (n0 <? sig).
  Definition tmass_m (v mag sig : T) : T := if tmass_ok mag sig then cst (npow10 (nlit (-(2) # 5) * (mag + v))) else n0.
  Definition tmass_iv (v mag sig : T) : T :=
    if tmass_ok mag sig then cst (n1 / nsq (tmass_m v mag sig * nln (nlit (10 # 1)) / nlit (5 # 2) * sig)) else n0.

  (** bin/k_plot_test_gst:52-97, one row of maggies and ivar; [s] is the row of sdss_maggies or sdss_ivar. *)
  Definition gst_raw_m (vj vh vk : T) (r : gst_row) (s : list T) : list T :=
    [galex_m (1882 # 100) (g_fuv r) (g_fuverr r); galex_m (2008 # 100) (g_nuv r) (g_nuverr r)] ++
    map (fun x => cst (x * nlit (1 # 1000000000))) s ++
    [tmass_m vj (g_j r) (g_jsig r); tmass_m vh (g_h r) (g_hsig r); tmass_m vk (g_k r) (g_ksig r)].
  Definition gst_raw_iv (vj vh vk : T) (r : gst_row) (s : list T) : list T :=
    [galex_iv (1882 # 100) (g_fuv r) (g_fuverr r); galex_iv (2008 # 100) (g_nuv r) (g_nuverr r)] ++
    map (fun x => cst (x * nlit (1000000000000000000 # 1))) s ++
    [tmass_iv vj (g_j r) (g_jsig r); tmass_iv vh (g_h r) (g_hsig r); tmass_iv vk (g_k r) (g_ksig r)].

  (** bin/k_plot_test_gst:102-104 *)
  Definition red_fac : list T :=
    let l := map (fun q => cst (nlit q)) [829 # 100; 818 # 100; 5155 # 1000; 3793 # 1000; 2751 # 1000;
                                          2086 # 1000; 1479 # 1000; 902 # 1000; 576 # 1000; 367 # 1000] in
    map (fun x => x / nth 4 l n0) l.
  (** bin/k_plot_test_gst:105-109, one row (the code goes through the columns; no entry depends on another). *)
  Definition deredden_m (ext : T) (row : list T) : list T :=
    zip (fun f x => cst (x * npow10 (nlit (2 # 5) * ext * f))) red_fac row.
  Definition deredden_iv (ext : T) (row : list T) : list T :=
    zip (fun f x => cst (x * npow10 (nlit (-(4) # 5) * ext * f))) red_fac row.

  (** bin/k_plot_test_gst:121-126, bin/k_plot_test_mtol:67-72: the entries in ibad, and the arrays after the assignments. *)
  Definition bad (m iv : T) : bool := negb (nfin m) || negb (nfin iv) || (iv <? n0).
  Definition clean (m iv : nd T) : nd T * nd T * nat :=
    (mk (shp m) (zip (fun x y => if bad x y then n0 else x) (dat m) (dat iv)),
     mk (shp m) (zip (fun x y => if bad x y then n0 else y) (dat m) (dat iv)),
     length (filter (fun b => b) (zip bad (dat m) (dat iv)))).

  (** bin/k_plot_test_gst:115-116 *)
  Definition gst_floor : nd T :=
    vec (map (fun q => cst (nlit q)) [3 # 100; 3 # 100; 2 # 100; 2 # 100; 2 # 100; 2 # 100; 2 # 100; 4 # 100; 4 # 100; 4 # 100]).

  (** bin/k_plot_test_gst:49-126: maggies, ivar and the number that is printed as nbad.  The vega2ab attributes are numbers. *)
  Definition gst_photometry (vj vh vk : T) (rows : list gst_row) : res (nd T * nd T * nat) :=
    let n := length rows in
    do r <- sdss_ab_correct (mk [n; 5%nat] (concat (map g_model rows))) (Some (mk [n; 5%nat] (concat (map g_model_ivar rows))))
                            default_abfix;
    match snd r with
    | None => Raise TypeError
    | Some siv =>
      let m := mk [n; 10%nat] (concat (zip (fun r s => deredden_m (g_ext r) (gst_raw_m vj vh vk r s)) rows (lrows (fst r)))) in
      let iv := mk [n; 10%nat] (concat (zip (fun r s => deredden_iv (g_ext r) (gst_raw_iv vj vh vk r s)) rows (lrows siv))) in
      do iv' <- error_floor cst gst_floor m iv;
      Ok (clean m iv')
    end.

  Variable nnls : option nat -> nat -> list (list T) -> list T -> option (list T).
  Variable rng : nat -> T.

  (** bin/k_plot_test_gst:49-133: the coefficients.  [F] is the KcorrectGST object. *)
  Definition gst_coeffs (F : fitter T) (vj vh vk : T) (rows : list gst_row) (cur : nat) : res (fc_out T * nat) :=
    do p <- gst_photometry vj vh vk rows;
    let '(m, iv, _) := p in
    fit_coeffs nnls rng F (Some (vec (map g_z rows))) (Some m) (Some iv) 0 cur.

  (** A row of the imaging catalogue, and of gst_tests_small.fits as bin/k_plot_test_sdss uses it: PETROFLUX, PETROFLUX_IVAR and
      EXTINCTION, five entries each. *)
  Record im_row := { i_flux : list T; i_ivar : list T; i_ext : list T }.

  (** bin/k_plot_test_mtol:38-42; OBJECT_POSITION is taken to be nonnegative. *)
  Definition mtol_select (post : list (T * nat)) (im : list im_row) : res (list (T * im_row)) :=
    mapM (fun p => match nth_error im (snd p) with Some r => Ok (fst p, r) | None => Raise IndexError end)
         (firstn (100 * 100) (filter (fun p => fst p <? nlit (1 # 5)) post)).
  (** bin/k_plot_test_mtol:62 *)
  Definition mtol_floor : nd T := vec (map (fun q => cst (nlit q)) [5 # 100; 2 # 100; 2 # 100; 2 # 100; 3 # 100]).
  (** bin/k_plot_test_mtol:47-72 *)
  Definition mtol_photometry (rows : list im_row) : res (nd T * nd T * nat) :=
    let n := length rows in
    let ext := concat (map i_ext rows) in
    do r <- sdss_ab_correct (mk [n; 5%nat] (concat (map i_flux rows))) (Some (mk [n; 5%nat] (concat (map i_ivar rows)))) default_abfix;
    match snd r with
    | None => Raise TypeError
    | Some siv =>
      let m := mk [n; 5%nat] (zip (fun x e => x * nlit (1 # 1000000000) * npow10 (nlit (2 # 5) * e)) (dat (fst r)) ext) in
      let iv := mk [n; 5%nat] (zip (fun x e => x * nlit (1000000000000000000 # 1) * npow10 (nlit (-(4) # 5) * e)) (dat siv) ext) in
      do iv' <- error_floor cst mtol_floor m iv;
      Ok (clean m iv')
    end.
  (** bin/k_plot_test_mtol:24-79; [F] is the KcorrectSDSS object made with abcorrect=False. *)
  Definition mtol_coeffs (F : fitter T) (post : list (T * nat)) (im : list im_row) (cur : nat) : res (fc_out T * nat) :=
    do rows <- mtol_select post im;
    do p <- mtol_photometry (map snd rows);
    let '(m, iv, _) := p in
    fit_coeffs nnls rng F (Some (vec (map fst rows))) (Some m) (Some iv) 0 cur.

  (** bin/k_plot_test_sdss:19-20 *)
  Definition sdss_photometry (rows : list im_row) : nd T * nd T :=
    let n := length rows in
    (mk [n; 5%nat] (concat (map (fun r => zip (fun x e => x * npow10 (nlit (2 # 5) * e)) (i_flux r) (i_ext r)) rows)),
     mk [n; 5%nat] (concat (map (fun r => zip (fun x e => x * npow10 (nlit (-(4) # 5) * e)) (i_ivar r) (i_ext r)) rows))).
  (** bin/k_plot_test_sdss:19-22; [F] is the KcorrectSDSS object, with abcorrect=True. *)
  Definition sdss_coeffs (F : fitter T) (zs : list T) (rows : list im_row) (cur : nat) : res (fc_out T * nat) :=
    fit_coeffs nnls rng F (Some (vec zs)) (Some (fst (sdss_photometry rows))) (Some (snd (sdss_photometry rows))) 0 cur.
  (** -2.5 log10(a / b) for columns a, b *)
  Definition mag_ratio (a b : nd T) : res (nd T) := bin (fun x y => nlit (-(5) # 2) * nlog10 (x / y)) n0 n0 a b.
  (** bin/k_plot_test_sdss:91-94: the plotted magnitude residuals of band [i]; [rm] is the reconstructed photometry. *)
  Definition sdss_residual (maggies rm : nd T) (i : nat) : res (nd T) :=
    do om <- sdss_ab_correct maggies None default_abfix;
    do o <- get_last i n0 (fst om);
    do r <- get_last i n0 rm;
    mag_ratio o r.
  (** bin/k_plot_test_sdss:114-119: the plotted residuals of the colour of bands [i] and [i+1]. *)
  Definition sdss_colour_residual (maggies rm : nd T) (i : nat) : res (nd T) :=
    do om <- sdss_ab_correct maggies None default_abfix;
    do o <- get_last i n0 (fst om);
    do o' <- get_last (S i) n0 (fst om);
    do oc <- mag_ratio o o';
    do r <- get_last i n0 rm;
    do r' <- get_last (S i) n0 rm;
    do rc <- mag_ratio r r';
    bin nsub n0 n0 oc rc.

  (** bin/k_plot_test_gst:284-287, bin/k_plot_test_mtol:109-112, one object: the plotted colour and mass-to-light ratio, from mtol in
      V, the absolute magnitudes in B and V, and the vega2ab of B and V. *)
  Definition plotted_mtol (mtol vV : T) : T := nlog10 (mtol / npow10 (nlit (2 # 5) * vV)).
  Definition plotted_bmv (mB mV vB vV : T) : T := mB - mV - vB + vV.
End Scripts.
Arguments gst_row T : clear implicits.
Arguments im_row T : clear implicits.
