(** The flux of a spectrum in a band, as a ratio of integrals; nothing here is taken from the code model. *)
From Coq Require Import List Reals.
From Coquelicot Require Import Coquelicot.
From Verif Require Import Spec FitSpec ResponseObj ShiftSpec QuadSpec.
Import ListNotations.
Local Open Scope R_scope.

Section Flux.
  Variable cub : list R -> list R -> R -> R.
  Variables w yy : list R.       (* the samples of the response *)
  Variable wave : list R.        (* the rest-frame wavelengths of the templates *)
  (** Photons counted per unit of wavelength: the spectrum with rest-frame samples [f], seen from redshift [z], and the AB source. *)
  Definition photons (f : list R) (z t : R) : R := spline cub wave f (t / (1 + z)) / (1 + z) * spline cub w yy t * t.
  Definition ab_photons (t : R) : R := ab_flux t * spline cub w yy t * t.
  Definition band_flux (f : list R) (z : R) : R :=
    RInt (photons f z) (nth 0 w 0) (last w 0) / RInt ab_photons (nth 0 w 0) (last w 0).
  (** The flux of the sum of the spectra [rows] with coefficients [c]. *)
  Definition sum_flux (rows : list (list R)) (c : list R) (z : R) : R :=
    dot (map (fun f => band_flux f z) rows) c.

  (** At redshift [z] the templates cover the band, and on every step of the integration grid, none longer than [h], the integrands
      have second derivatives of at most [M] and [M'].  The fluxes of the templates are at most [B]. *)
  Definition resolved (rows : list (list R)) (h M M' B z : R) : Prop :=
    overlaps w (seen_wave z wave) /\ brackets w (seen_wave z wave) /\ (forall f, In f rows -> Rabs (band_flux f z) <= B) /\
    exists g, is_grid w (seen_wave z wave) g /\
      forall a b, adjacent g a b -> nth 0 w 0 <= a -> b <= last w 0 ->
        b - a <= h /\ curved M' ab_photons a b /\ forall f, In f rows -> curved M (photons f z) a b.

  (** The error that the sums over such a grid make in the flux of the templates with coefficients [c]. *)
  Definition sums_error (c : list R) (h M M' B : R) : R :=
    let e := h ^ 2 / 12 * (last w 0 - nth 0 w 0) in
    let D := RInt ab_photons (nth 0 w 0) (last w 0) in
    fold_right Rplus 0 (map Rabs c) * ((M + B * M') * e / (D - M' * e)).
  (** [h], [M], [M'] and [B] are such constants for every redshift of [grid], [h] small enough for the photons of the AB source to be
      counted, and the response ends with zeros. *)
  Definition sampled_well (rows : list (list R)) (grid : list R) (h M M' B : R) : Prop :=
    nth 0 yy 0 = 0 /\ last yy 0 = 0 /\ (forall u, In u grid -> resolved rows h M M' B u) /\ 0 <= M' /\
    M' * (h ^ 2 / 12 * (last w 0 - nth 0 w 0)) < RInt ab_photons (nth 0 w 0) (last w 0).
  (** [E] is a bound for the error of fluxes interpolated between the redshifts of [grid], [step] apart in [r0, r1]. *)
  Definition error_bound (rows : list (list R)) (c grid : list R) (r0 r1 step E : R) : Prop :=
    exists Mz h M M' B, curved Mz (sum_flux rows c) r0 r1 /\ sampled_well rows grid h M M' B /\
      E = Mz / 8 * step ^ 2 + sums_error c h M M' B.
End Flux.
