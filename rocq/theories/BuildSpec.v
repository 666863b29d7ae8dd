(** Vocabulary for the theorems about the construction of Kcorrect objects. *)
From Coq Require Import String List Arith Bool Reals.
From Verif Require Import Base Num Spec Interp Sed Response RespDict Fitter FitSpec Kcorrect.
Import ListNotations.

(** The same rest-frame spectra, whatever redshift the templates are at.  (The interpolator is rebuilt by
    set_redshift if there is one.) *)
Definition same_rest {T} (s s' : sed T) : Prop :=
  s_rwave s' = s_rwave s /\ s_rflux s' = s_rflux s /\ s_flag s' = s_flag s /\ s_bin s' = s_bin s /\
  (s_flag s = false -> s_interp s' = s_interp s).

(** The cache [d'] has every entry of [d], unchanged. *)
Definition extends {A} (d d' : dict A) : Prop := forall name r, dget d name = Some r -> dget d' name = Some r.

(** Any sequence of set_redshift calls; those that raise included. *)
Definition moved {T} {N : Num T} (s : sed T) (zs : list T) : sed T := sed_run s (map SetRedshift zs).

(** Projecting the templates with rest-frame wavelengths [wave] and spectra [rows], seen at redshift [z], on the
    response cached under [name] gives [l], one number per template. *)
Definition photometry {T} {N : Num T} (cub : list T -> list T -> T -> T) (d : dict (resp T)) (wave : list T) (w : nat)
  (rows : list (list T)) (name : string) (z : T) (l : list T) : Prop :=
  exists r v, dget d name = Some r /\
    project_arr cub r (vec (map (fun x => nmul x (nadd n1 z)) wave))
                      (table w (map (map (fun f => ndiv f (nadd n1 z))) rows)) = Ok v /\
    bto n0 [length rows] v = Ok l.

(** The AB offsets of the documentation (kcorrect.py:941-945, 1137-1141), by the name of the response. *)
Local Open Scope R_scope.
Definition ab_offset (name : string) : R :=
  if String.eqb name "sdss_u0" then -0.036
  else if String.eqb name "sdss_g0" then 0.012
  else if String.eqb name "sdss_r0" then 0.010
  else if String.eqb name "sdss_i0" then 0.028
  else if String.eqb name "sdss_z0" then 0.040
  else 0.
(** Photometry [m'], [iv'] is [m], [iv] on the AB system, for an array of shape [s] whose bands are [names]. *)
Definition on_ab_system (names : list string) (s : list nat) (m iv m' iv' : list R) : Prop :=
  length m' = size s /\ length iv' = size s /\
  forall j name, (j < size s)%nat -> nth_error names (j mod length names) = Some name ->
    nth j m' 0 = nth j m 0 * pow10 (-0.4 * ab_offset name) /\
    nth j iv' 0 = nth j iv 0 / (pow10 (-0.4 * ab_offset name)) ^ 2.

(** The flux at redshift [z] in the band [name] of the templates with coefficients [c]: from the photometry of the
    templates at the grid redshifts around [z], linearly interpolated. *)
Definition model_flux (cub : list R -> list R -> R -> R) (d : dict (resp R)) (wave : list R) (w : nat) (rows : list (list R))
  (grid : list R) (name : string) (c : list R) (z x : R) : Prop :=
  exists i z0 z1 l0 l1 u,
    nth_error grid i = Some z0 /\ nth_error grid (S i) = Some z1 /\ 0 <= u <= 1 /\ z = (1 - u) * z0 + u * z1 /\
    photometry cub d wave w rows name z0 l0 /\ photometry cub d wave w rows name z1 l1 /\
    x = (1 - u) * dot l0 c + u * dot l1 c.

(** A response whose curve and interpolator are set. *)
Definition curve_set {T} (r : resp T) : Prop := exists w it, p_wave r = Some w /\ p_interp r = Some it.
(** A spline through the templates seen at redshift [z] exists (at least four distinct wavelengths). *)
Definition sampled_at {T} {N : Num T} (wave : list T) (flux : nd T) (z : T) : Prop :=
  exists it, mk_cubic (map (fun x => nmul x (nadd n1 z)) wave) (map1 (fun f => ndiv f (nadd n1 z)) flux) = Ok it.
(** The response called [name] is in the cache with a curve, or is absent and its file can be loaded. *)
Definition obtainable {T} {N : Num T} cub bq sun vega (fs : @fsys T) (d : dict (resp T)) (name : string) : Prop :=
  (exists r, dget d name = Some r /\ curve_set r) \/
  (dget d name = None /\ exists w y r, fs (name ++ ".dat")%string = Some (Ok (w, y)) /\ Response cub bq sun vega w y = Ok r).
