(** What the properties of SED.plot (C82) say. *)
From Coq Require Import String List Arith Bool ZArith Reals.
From Verif Require Import Base Num Sed FitSpec Plot.
Import ListNotations.

Section PlotSpec.
  Context {T : Type} {N : Num T}.
  (** An SED whose current wavelengths are [w] and whose current fluxes are the rows [rows]. *)
  Definition spectra (s : sed T) (w : list T) (rows : list (list T)) : Prop :=
    s_wave s = w /\ s_flux s = table (length w) rows /\ rect (length w) rows.
  (** Python indexing of a list of spectra. *)
  Definition pick (rows : list (list T)) (i : Z) : option (list T) :=
    if (0 <=? i)%Z then nth_error rows (Z.to_nat i)
    else if (- Z.of_nat (length rows) <=? i)%Z then nth_error rows (Z.to_nat (Z.of_nat (length rows) + i)) else None.
  (** The points to show for a spectrum: log lambda and log lambda f_lambda wherever the flux is positive. *)
  Definition points (w r : list T) : list (T * T) :=
    map (fun p => (nlog10 (fst p), nlog10 (nmul (fst p) (snd p)))) (filter (fun p => nltb n0 (snd p)) (combine w r)).
  Definition shows (w : list T) (c : draw T) (r : list T) : Prop :=
    exists xs ys, c = Curve xs ys /\ length xs = length ys /\ combine xs ys = points w r.
End PlotSpec.

Local Open Scope R_scope.
(** A sample of one of the spectra with positive flux and wavelength between the limits. *)
Definition visible (w : list R) (rows : list (list R)) (a b l f : R) : Prop :=
  exists r, In r rows /\ In (l, f) (combine w r) /\ a < l < b /\ 0 < f.
(** The same plot, shifted along the wavelength axis. *)
Definition shift_draw (d : R) (c : draw R) : draw R :=
  match c with
  | Curve xs ys => Curve (map (Rplus d) xs) ys
  | XLim a b => XLim (d + a) (d + b)
  | YLim a b => YLim a b
  | Labels => Labels
  end.
