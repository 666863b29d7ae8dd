(** Spec: the small vocabulary the property theorems are stated in.  Nothing here
    is taken from the code model; each definition is the textbook notion. *)
From Coq Require Import String Ascii List Arith Reals Sorting.Sorted Sorting.Permutation.
From Verif Require Import Base Num.
Import ListNotations.
Local Open Scope R_scope.

(** An array of finite numbers of shape [s]. *)
Definition rarr (s : list nat) (l : list R) : nd xr := mk s (map Fin l).

(** * Photometry *)
(** Magnitude of a (positive) flux in maggies. *)
Definition magnitude (f : R) : R := -2.5 * log10 f.

(** SDSS softening parameters b for u, g, r, i, z (Stoughton et al. 2002, table 21). *)
Definition softening : list R := [1.4e-10; 0.9e-10; 1.2e-10; 1.8e-10; 7.4e-10].

(** The SDSS definition of the asinh magnitude of flux [f] (Lupton et al. 1999). *)
Definition luptitude (b f : R) : R := - (2.5 / ln 10) * (arcsinh (f / (2 * b)) + ln b).

(** f_lambda of an AB source of 0 mag: 3631 Jy * c / lambda^2, lambda in Angstrom. *)
Definition ab_flux (w : R) : R := 3631e-23 * 2.99792e18 / w ^ 2.

(** An inverse variance after a fractional error floor [fl > 0] on flux [m <> 0]:
    the error is the larger of the original one and fl * |m|. *)
Definition floored_ivar (fl m iv : R) : R := Rmin iv (1 / (Rabs m * fl) ^ 2).

(** numpy's store of a float into an integer array: truncation towards zero. *)
Definition trunc_store (x : xr) : xr :=
  match x with Fin r => Fin (IZR (if Rle_dec 0 r then Int_part r else (- Int_part (- r))%Z)) | y => y end.

(** The wavelengths over which a spectrum sampled at [sw] should be integrated through a band sampled
    at [rw]: all band samples, all spectrum samples inside the band, and the nearest spectrum sample
    on either side. *)
Definition in_grid (rw sw : list R) (t : R) : Prop :=
  let lo := nth 0 rw 0 in
  let hi := last rw 0 in
  In t rw \/ (In t sw /\ lo <= t <= hi) \/
  (In t sw /\ t < lo /\ forall u, In u sw -> u < lo -> u <= t) \/
  (In t sw /\ hi < t /\ forall u, In u sw -> hi < u -> t <= u).
Definition is_grid (rw sw g : list R) : Prop :=
  StronglySorted Rlt g /\ forall t, In t g <-> in_grid rw sw t.

(** The curve interpolated through samples (xs, ys) by [cub]; zero outside the sampled range. *)
Definition spline (cub : list R -> list R -> R -> R) (xs ys : list R) (t : R) : R :=
  if Rlt_dec t (nth 0 xs 0) then 0 else if Rlt_dec (last xs 0) t then 0 else cub xs ys t.

(** Photon flux through a band sampled on grid [g]: the trapezoid rule for the integral of h. *)
Fixpoint trapezoid (h : R -> R) (g : list R) : R :=
  match g with
  | a :: r => match r with b :: _ => (b - a) * (h a + h b) / 2 + trapezoid h r | [] => 0 end
  | [] => 0
  end.

(** What response.py computes in its place: boundary terms minus the integral. *)
Definition boundary_minus (h : R -> R) (g : list R) : R :=
  last g 0 * h (last g 0) - hd 0 g * h (hd 0 g) - trapezoid h g.

(** The samples of a Response object. *)
Definition sorted_samples (wave y w yy : list R) : Prop :=
  StronglySorted Rlt w /\ length yy = length w /\ Permutation (combine wave y) (combine w yy).

(** A directory entry named [f] is the response file of [name]. *)
Definition dat_file (f name : string) : Prop := f = (name ++ ".dat")%string.
Fixpoint newline_free (s : string) : Prop :=
  match s with ""%string => True | String c r => c <> Ascii.ascii_of_nat 10 /\ newline_free r end.

(** Offsets from the SDSS photometric system to AB in u, g, r, i, z, in magnitudes (sdss-calib/1152). *)
Definition abfix : list R := [-0.036; 0.012; 0.010; 0.028; 0.040].
