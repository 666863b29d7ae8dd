(** Vocabulary for C110: photometry in the system of an instrument. *)
From Coq Require Import List Arith Reals.
From Verif Require Import Base Num Fitter FitSpec CatSpec PipeSpec.
Import ListNotations.
Local Open Scope R_scope.

(** AB maggies as maggies of the system of the instrument, from which to_ab (kcorrect.py:911-957, 1105-1157) converts: the
    offsets of the bands are subtracted from the magnitudes. *)
Definition in_system (k : abkind) (p : list R) : list R := map (fun j => nth j p 0 * pow10 (0.4 * ab_offsets k j)) (seq 0 (length p)).
(** The photometry of an object in AB maggies. *)
Definition in_ab (k : abkind) (o : obj R) : obj R :=
  {| o_z := o_z o;
     o_m := map (fun j => nth j (o_m o) 0 * pow10 (-0.4 * ab_offsets k j)) (seq 0 (length (o_m o)));
     o_iv := map (fun j => nth j (o_iv o) 0 / pow10 (-0.4 * ab_offsets k j) ^ 2) (seq 0 (length (o_iv o))) |}.
