(** Vocabulary for the theorems about band shifts. *)
From Coq Require Import List Arith Reals.
From Verif Require Import Base Num Spec Utils Sed Response ResponseObj.
Import ListNotations.
Local Open Scope R_scope.

(** [r] and [r'] are the responses with the same samples, the wavelengths of [r'] being those of [r] divided by [k]. *)
Definition blueshifted cub bq sun vega (k : R) (r r' : resp R) : Prop :=
  exists wave y w yy w' yy', band cub bq sun vega wave y r w yy /\ band cub bq sun vega (map (fun t => t / k) wave) y r' w' yy'.

(** The spectra [rows] on the wavelengths [wave], each projected on [r], give [l]. *)
Definition through (cub : list R -> list R -> R -> R) (r : resp R) (wave : list R) (rows : list (list R)) (l : list R) : Prop :=
  length l = length rows /\
  forall k f, nth_error rows k = Some f -> exists s, SED wave (vec f) true = Ok s /\ project_sed cub r s = Ok (scal (nth k l 0)).

(** Rest-frame wavelengths and spectra as seen from redshift [z]. *)
Definition seen_wave (z : R) (wave : list R) : list R := map (fun t => t * (1 + z)) wave.
Definition seen_rows (z : R) (rows : list (list R)) : list (list R) := map (map (fun f => f / (1 + z))) rows.
