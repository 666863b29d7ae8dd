(** Property theorems; proofs are in McCatThms.v.  Generated by tools/gen_prop.py. *)
From Coq Require Import String List Arith Lia Bool ZArith QArith.
From Verif Require Import Base BaseLemmas Num Toy Spec Interp Utils Sed Response RespDict Fitter FitSpec FitEx McCatSpec.
Import ListNotations.
Local Open Scope nat_scope.
From Verif Require Import McCatThms.

(** C118.  A catalogue cut into two, neither of them a single object, and fitted one after the other gives the arrays of the
    whole catalogue, with and without Monte Carlo: the coefficients and the draws put together, with the random stream where
    the whole leaves it.  The whole raises what the first part that fails raises. *)
Theorem C118_split :
  forall (T : Type) (N : Num T) nnls rng (F : fitter T) A nb nt mc a b cur,
    nnls_shape nnls -> no_ab F -> ready F A nb nt -> nb <> 1 -> Forall (obj_ok nb) (a ++ b) ->
    length a <> 1 -> length b <> 1 ->
    let fit := fit_objects nnls rng F nb mc in
    (forall x k y k', fit a cur = Ok (x, k) -> fit b k = Ok (y, k') -> fit (a ++ b) cur = Ok (stack_out x y, k')) /\
    (forall e, fit a cur = Raise e -> fit (a ++ b) cur = Raise e) /\
    (forall x k e, fit a cur = Ok (x, k) -> fit b k = Raise e -> fit (a ++ b) cur = Raise e).
Proof. exact L_C118_split. Qed.
Print Assumptions C118_split.

Example ex_C118_split : exists x y k k',
  let a := [q_obj 0 1 2; q_obj 1 3 4] in let b := [q_obj 1 5 6; q_obj 0 7 8] in let rng := fun n => inject_Z (Z.of_nat n) in
  nnls_shape (T := Q) ex_nnls /\ no_ab q_fitter /\ ready q_fitter q_tab 2 3 /\ Forall (obj_ok 2) (a ++ b) /\
  fit_objects ex_nnls rng q_fitter 2 2 a 10 = Ok (x, k) /\ fit_objects ex_nnls rng q_fitter 2 2 b k = Ok (y, k') /\
  fit_objects ex_nnls rng q_fitter 2 2 (a ++ b) 10 = Ok (stack_out x y, k') /\ k = 18 /\ k' = 26.
Proof. exact E_C118_split. Qed.

(** In a Monte Carlo catalogue object i gets what it gets alone when the random stream is where the objects before it leave it:
    mc variates for each of their measured bands further on. *)
Theorem C118_offset :
  forall (T : Type) (N : Num T) nnls rng (F : fitter T) A nb nt mc objs cur r cur',
    nnls_shape nnls -> no_ab F -> ready F A nb nt -> nb <> 1 -> mc <> 0 -> Forall (obj_ok nb) objs -> length objs <> 1 ->
    fit_objects nnls rng F nb mc objs cur = Ok (r, cur') ->
    exists c cm mm, r = Three c cm mm /\ cur' = cur + mc * measured_all objs /\
      forall i o, nth_error objs i = Some o ->
        let k := cur + mc * measured_all (firstn i objs) in
        exists ci cmi mmi, fit_object nnls rng F mc o k = Ok (Three ci cmi mmi, k + mc * measured o) /\
          row i c = map1 cst ci /\ row i cm = cmi /\ row i mm = mmi.
Proof. exact L_C118_offset. Qed.
Print Assumptions C118_offset.

Example ex_C118_offset : exists c cm mm ci cmi mmi,
  let objs := [q_obj 0 1 2; {| o_z := 1; o_m := [3; 4]; o_iv := [0; 1] |}; q_obj 1 5 6]%Q in let rng := fun n => inject_Z (Z.of_nat n) in
  fit_objects ex_nnls rng q_fitter 2 2 objs 10 = Ok (Three c cm mm, 20) /\ measured_all (firstn 2 objs) = 3 /\
  fit_object ex_nnls rng q_fitter 2 (q_obj 1 5 6) 16 = Ok (Three ci cmi mmi, 20) /\ row 2 mm = mmi.
Proof. exact E_C118_offset. Qed.

(** So what an object gets in a Monte Carlo catalogue depends on the other objects only through the number of measured bands of
    those before it: other fluxes, errors and redshifts of these, and whatever comes after, change nothing. *)
Theorem C118_others :
  forall (T : Type) (N : Num T) nnls rng (F : fitter T) A nb nt mc objs objs' cur c cm mm k c' cm' mm' k' i o,
    nnls_shape nnls -> no_ab F -> ready F A nb nt -> nb <> 1 -> mc <> 0 ->
    Forall (obj_ok nb) objs -> length objs <> 1 -> Forall (obj_ok nb) objs' -> length objs' <> 1 ->
    fit_objects nnls rng F nb mc objs cur = Ok (Three c cm mm, k) -> fit_objects nnls rng F nb mc objs' cur = Ok (Three c' cm' mm', k') ->
    nth_error objs i = Some o -> nth_error objs' i = Some o ->
    measured_all (firstn i objs) = measured_all (firstn i objs') ->
    row i c = row i c' /\ row i cm = row i cm' /\ row i mm = row i mm'.
Proof. exact L_C118_others. Qed.
Print Assumptions C118_others.

Example ex_C118_others : exists r r' k,
  let objs := [q_obj 0 1 2; q_obj 1 5 6; q_obj 0 9 9] in let objs' := [q_obj 1 7 7; q_obj 1 5 6] in let rng := fun n => inject_Z (Z.of_nat n) in
  fit_objects ex_nnls rng q_fitter 2 2 objs 10 = Ok (r, 22) /\ fit_objects ex_nnls rng q_fitter 2 2 objs' 10 = Ok (r', k) /\
  measured_all (firstn 1 objs) = measured_all (firstn 1 objs') /\ row 1 (out_mmc r) = row 1 (out_mmc r') /\ row 0 (out_mmc r) <> row 0 (out_mmc r').
Proof. exact E_C118_others. Qed.
