(** Model of the example programs bin/k_plot_test_v4_lrg1_colors, bin/k_plot_test_v4_default_fit and bin/k_plot_test_v4_lrg1_fit up
    to the arrays that are plotted.  The SED object read from the template file is an argument; drawing is not modelled. *)
From Coq Require Import String List Arith Bool ZArith QArith.
From Verif Require Import Base Num Interp Utils Sed Response RespDict Fitter Kcorrect Scripts.
Import ListNotations.
Local Open Scope nat_scope.
Local Open Scope res_scope.

Section ScriptsV4.
  Context {T : Type} {N : Num T}.
  Variable cub : list T -> list T -> T -> T.
  Variable bq : (T -> T) -> T -> T -> res T.
  Variable sun vega : res (list T * list (basel_unit T)).
  Local Open Scope num_scope.

  (** bin/k_plot_test_v4_lrg1_colors:18-22, entry [i] of zs; float32 arrays, so every operation rounds. *)
  Definition color_z (nz i : nat) : T :=
    cst (nlit 0 + cst (cst (cst (nlit (55 # 100) - nlit 0) * cst (nnat i + nlit (1 # 2))) / nnat nz)).
  Definition color_zs (nz : nat) : list T := map (color_z nz) (seq 0 nz).

  (** bin/k_plot_test_v4_lrg1_colors:27-28, one row: project must give one number, an array cannot be stored in maggies[i, j].
      1 + z in set_redshift is taken without the rounding to float32 that recent NumPy versions make. *)
  Definition color_row (d : dict (resp T)) (names : list string) (s : sed T) : res (list T) :=
    mapM (fun n => match dget d n with
                   | None => Raise KeyError
                   | Some r => do v <- project_sed cub r s; do x <- bto n0 [] v; Ok (cst (hd n0 x))
                   end) names.
  (** bin/k_plot_test_v4_lrg1_colors:25-28, with the state of the SED object. *)
  Fixpoint color_loop (d : dict (resp T)) (names : list string) (zs : list T) (s : sed T) : sed T * res (list (list T)) :=
    match zs with
    | [] => (s, Ok [])
    | z :: r =>
      match set_redshift s z with
      | (s1, Some e) => (s1, Raise e)
      | (s1, None) =>
        match color_row d names s1 with
        | Raise e => (s1, Raise e)
        | Ok row => let (s2, t) := color_loop d names r s1 in (s2, do l <- t; Ok (row :: l))
        end
      end
    end.
  (** bin/k_plot_test_v4_lrg1_colors:12-33, for [nz] redshifts (the program has 1000): the cache, the state of the SED object and
      the colours umg, gmr, rmi and imz. *)
  Definition lrg1_colors (fs : @fsys T) (d : dict (resp T)) (s : sed T) (nz : nat) : dict (resp T) * sed T * res (list (nd T)) :=
    match load_all cub bq sun vega fs sdss_responses d with
    | (d', Some e) => (d', s, Raise e)
    | (d', None) =>
      let (s', t) := color_loop d' sdss_responses (color_zs nz) s in
      (d', s', do rows <- t;
               let maggies := mk [nz; 5] (concat rows) in
               mapM (fun j => do a <- get_last j n0 maggies; do b <- get_last (S j) n0 maggies; mag_ratio a b) (seq 0 4))
    end.

  Variable nnls : option nat -> nat -> list (list T) -> list T -> option (list T).
  Variable rng : nat -> T.

  (** coeffs.dot(templates.flux) *)
  Definition dot_flux (c : list T) (flux : nd T) : list T :=
    map (fun k => dotp c (map (fun f => nth k f n0) (lrows flux))) (seq 0 (lastd (shp flux))).

  (** What bin/k_plot_test_v4_default_fit and bin/k_plot_test_v4_lrg1_fit compute. *)
  Record v4_plot := { v_coeffs : nd T; v_curve : list (T * T); v_observed : list (T * T); v_fit : list (T * T) }.
  Definition v4_names : list string :=
    (sdss_responses ++ ["twomass_Ks"%string; "wise_w4"%string])%list.
  Definition v4_z : T := nlit (532 # 10000).

  (** bin/k_plot_test_v4_default_fit:16-47, bin/k_plot_test_v4_lrg1_fit:16-47: the curve and the points that are plotted.  leff is a
      float32 array; an attribute lambda_eff that is None becomes NaN. *)
  Definition v4_fit (fs : @fsys T) (d : dict (resp T)) (s : sed T) (cur : nat) : dict (resp T) * res v4_plot :=
    match set_Amatrix cub bq sun vega fs d (Fitter Plain false v4_names s (nlit 0) (nlit (1 # 10)) 100) with
    | (d', _, Some e) => (d', Raise e)
    | (d', F, None) =>
      (d', do leff <- mapM (fun n => match dget d' n with
                                     | Some r => Ok (cst (f32_or_nan (p_leff r))) | None => Raise KeyError end) v4_names;
           do oc <- fit_coeffs nnls rng F (Some (scal v4_z)) (Some (vec (repeat n1 7))) (Some (vec (repeat n1 7))) 0 cur;
           match fst oc with
           | Bare c =>
             do m <- reconstruct F (Some (scal v4_z)) (Some c) n0;
             let points ys := zip (fun w y => (nlog10 w, nlog10 y)) leff ys in
             Ok {| v_coeffs := c;
                   v_curve := zip (fun w f => (nlog10 w, nlog10 (f / sed_ab1 w))) (s_wave (f_sed F)) (dot_flux (dat c) (s_flux (f_sed F)));
                   v_observed := points (repeat n1 7);
                   v_fit := points (dat m) |}
           | _ => Raise ValueError
           end)
    end.
End ScriptsV4.
Arguments v4_plot T : clear implicits.
