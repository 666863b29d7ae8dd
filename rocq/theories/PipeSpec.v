(** What the properties C87-C90 say: measurements of an object, band by band, and what they tell about the fluxes. *)
From Coq Require Import String List Arith Bool Reals.
From Verif Require Import Base Num Fitter FitSpec Kcorrect KSpec BuildSpec.
Import ListNotations.
Local Open Scope R_scope.

(** The photometry of one object: for each band the name of its response, the maggies and the inverse variance. *)
Definition obs := (string * (R * R))%type.
Definition o_name (b : obs) : string := fst b.
Definition o_mag (b : obs) : R := fst (snd b).
Definition o_ivar (b : obs) : R := snd (snd b).
(** The arguments of fit_coeffs for an object with that photometry. *)
Definition observed (z : R) (l : list obs) : obj R := {| o_z := z; o_m := map o_mag l; o_iv := map o_ivar l |}.
(** chi^2 of fluxes given by the name of the band. *)
Definition misfit (f : string -> R) (l : list obs) : R :=
  fold_right Rplus 0 (map (fun b => o_ivar b * (o_mag b - f (o_name b)) ^ 2) l).
(** Two lists of measurements that tell the same about the fluxes: their chi^2 differ by a constant. *)
Definition same_information (l1 l2 : list obs) : Prop := exists k, forall f, misfit f l1 = misfit f l2 + k.
(** The templates can be told apart by the measured bands of [l]: no combination but zero is dark in all of them. *)
Definition told_apart (flux : string -> list R -> R -> R -> Prop) (nt : nat) (z : R) (l : list obs) : Prop :=
  forall y, length y = nt -> (forall b, In b l -> 0 < o_ivar b -> flux (o_name b) y z 0) -> y = repeat 0 nt.
(** The same object [a] times brighter, measured with the same relative precision. *)
Definition brighter (a : R) (l : list obs) : list obs := map (fun b => (o_name b, (a * o_mag b, o_ivar b / (a * a)))) l.
