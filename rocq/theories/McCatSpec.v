(** Vocabulary of Monte Carlo catalogues (C118). *)
From Coq Require Import List Arith.
From Verif Require Import Base Num Fitter FitSpec.
Import ListNotations.

(** Two arrays put together along the first axis (np.concatenate). *)
Definition stack {A} (x y : nd A) : nd A := mk (hd 0 (shp x) + hd 0 (shp y) :: tl (shp x)) (dat x ++ dat y).
(** The same for what fit_coeffs returns. *)
Definition stack_out {T} (a b : fc_out T) : fc_out T :=
  match a, b with
  | Bare c, Bare c' => Bare (stack c c')
  | Three c cm mm, Three c' cm' mm' => Three (stack c c') (stack cm cm') (stack mm mm')
  | _, _ => a
  end.
(** The number of bands of an object with a positive inverse error: those that Monte Carlo draws vary. *)
Definition measured {T} {N : Num T} (o : obj T) : nat :=
  length (filter (fun e => nltb n0 e) (map (fun v => nsqrt (cst v)) (o_iv o))).
Definition measured_all {T} {N : Num T} (objs : list (obj T)) : nat := list_sum (map measured objs).
