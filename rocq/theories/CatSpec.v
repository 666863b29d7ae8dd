(** What is said about catalogues (C109). *)
From Coq Require Import String List Arith Bool Reals.
From Verif Require Import Base Num Spec Interp Sed Response RespDict Fitter FitSpec Kcorrect KSpec.
Import ListNotations.
Local Open Scope nat_scope.

Section Cat.
  Context {T : Type} {N : Num T}.
  Variable nnls : option nat -> nat -> list (list T) -> list T -> option (list T).
  Variable rng : nat -> T.
  Variable distmod : T -> T.
  Variable solar : dict (resp T).
  Variable K : kcor T.

  (** The program of docs/examples.rst:27-155 for a catalogue: fit_coeffs of all objects, then absmag of all objects with
      everything that it can return. *)
  Definition catalogue (nb : nat) (bs : T) (objs : list (obj T)) : res (nd T * am_out T) :=
    do r <- fit_objects nnls rng (k_fit K) nb 0 objs 0;
    let c := out_c (fst r) in
    do a <- absmag distmod K (Some (objs_m nb objs)) (Some (objs_iv nb objs)) (Some (objs_z objs)) (Some c) bs None true true true;
    Ok (c, a).
  (** The same calls for one object alone. *)
  Definition alone (bs : T) (o : obj T) : res (nd T * am_out T) :=
    do r <- fit_object nnls rng (k_fit K) 0 o 0;
    let c := out_c (fst r) in
    do a <- absmag distmod K (Some (vec (o_m o))) (Some (vec (o_iv o))) (Some (scal (o_z o))) (Some c) bs None true true true;
    Ok (c, a).

  (** docs/examples.rst:208-217: derived quantities of the fits of a catalogue, and of one object. *)
  Definition catalogue_derived (nb : nat) (bs : T) (objs : list (obj T)) : res (outdict T) :=
    do r <- fit_objects nnls rng (k_fit K) nb 0 objs 0;
    derived distmod solar K (Some (objs_z objs)) (Some (out_c (fst r))) bs None.
  Definition alone_derived (bs : T) (o : obj T) : res (outdict T) :=
    do r <- fit_object nnls rng (k_fit K) 0 o 0;
    derived distmod solar K (Some (scal (o_z o))) (Some (out_c (fst r))) bs None.
End Cat.

Local Open Scope R_scope.
(** An object with finite photometry, and its photometry with the magnitude offset [off k] added in band k. *)
Definition finite_obj (z : xr) (m iv : list R) : obj xr := {| o_z := z; o_m := map Fin m; o_iv := map Fin iv |}.
Definition offset_obj (off : nat -> R) (z : xr) (m iv : list R) : obj xr :=
  finite_obj z (map (fun k => nth k m 0 * pow10 (-0.4 * off k)) (seq 0 (length m)))
               (map (fun k => nth k iv 0 / pow10 (-0.4 * off k) ^ 2) (seq 0 (length iv))).
(** The offsets of KcorrectSDSS (bands ugriz) and KcorrectGST (ugriz after two other bands): kcorrect.py:814-1157. *)
Definition ab_offsets (k : abkind) (j : nat) : R :=
  let ugriz := [-0.036; 0.012; 0.010; 0.028; 0.040] in
  match k with Plain => 0 | SDSS => nth j ugriz 0 | GST => if (Nat.leb 2 j && Nat.leb j 6)%bool then nth (j - 2) ugriz 0 else 0 end.
Definition ab_bands (k : abkind) (nb : nat) : Prop := match k with Plain => True | SDSS => nb = 5%nat | GST => (7 <= nb)%nat end.
