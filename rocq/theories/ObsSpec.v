(** Vocabulary for C107: the spectrum of a fit that docs/examples.rst plots; nothing here is taken from the code model. *)
From Coq Require Import List Reals.
From Verif Require Import FitSpec BlendSpec ShiftSpec.
Import ListNotations.
Local Open Scope R_scope.

(** docs/examples.rst:161-162: [wave = kc.templates.restframe_wave * (1. + redshift)],
    [spec = coeffs.dot(kc.templates.restframe_flux) / (1. + redshift)]. *)
Definition spec_wave (wave : list R) (z : R) : list R := map (fun t => t * (1 + z)) wave.
Definition spec_flux (w : nat) (rows : list (list R)) (c : list R) (z : R) : list R := map (fun f => f / (1 + z)) (combined w rows c).
