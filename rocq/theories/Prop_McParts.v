(** Property theorems; proofs are in McPartsThms.v.  Generated by tools/gen_prop.py. *)
From Coq Require Import String List Arith Lia Bool ZArith QArith Reals.
From Verif Require Import Base BaseLemmas Num Toy Spec Interp Sed Response RespDict Fitter FitSpec FitEx Kcorrect KSpec KEx CatSpec McCatSpec.
Import ListNotations.
Local Open Scope nat_scope.
From Verif Require Import McPartsThms.

(** A catalogue cut into any number of parts, none of them a single object, and fitted part by part, as when it is read in
    chunks, gives the arrays of the whole catalogue put together, with the random stream where the whole leaves it; the whole
    raises what the first part that fails raises. *)
Theorem C118_parts :
  forall (T : Type) (N : Num T) nnls rng (F : fitter T) A nb nt mc parts p cur,
    nnls_shape nnls -> no_ab F -> ready F A nb nt -> nb <> 1 -> Forall (obj_ok nb) (concat (p :: parts)) ->
    Forall (fun l => length l <> 1) (p :: parts) ->
    let fit := fit_objects nnls rng F nb mc in
    (forall x xs k, run_each fit (p :: parts) cur = Ok (x :: xs, k) -> fit (concat (p :: parts)) cur = Ok (fold_left stack_out xs x, k)) /\
    (forall e, run_each fit (p :: parts) cur = Raise e -> fit (concat (p :: parts)) cur = Raise e).
Proof. exact L_C118_parts. Qed.
Print Assumptions C118_parts.

Example ex_C118_parts : exists x y z k,
  let parts := [[q_obj 0 1 2; q_obj 1 3 4]; [q_obj 1 5 6; q_obj 0 7 8]; [q_obj 0 2 1; q_obj 1 1 1; q_obj 0 3 3]] in
  let rng := fun n => inject_Z (Z.of_nat n) in
  nnls_shape (T := Q) ex_nnls /\ no_ab q_fitter /\ ready q_fitter q_tab 2 3 /\ Forall (obj_ok 2) (concat parts) /\ Forall (fun l => length l <> 1) parts /\
  run_each (fit_objects ex_nnls rng q_fitter 2 2) parts 10 = Ok ([x; y; z], k) /\
  fit_objects ex_nnls rng q_fitter 2 2 (concat parts) 10 = Ok (stack_out (stack_out x y) z, k) /\ k = 38.
Proof. exact E_C118_parts. Qed.

(** The same for KcorrectSDSS and KcorrectGST with abcorrect=True and finite photometry. *)
Theorem C118_parts_ab :
  forall nnls rng (F : fitter xr) A nb nt mc (parts : list (list (xr * list R * list R))) p cur,
    nnls_shape nnls -> ready F A nb nt -> f_abc F = true -> f_kind F <> Plain -> ab_bands (f_kind F) nb ->
    Forall (fun o => length (snd (fst o)) = nb /\ length (snd o) = nb) (concat (p :: parts)) -> Forall (fun l => length l <> 1) (p :: parts) ->
    let fit := fun l => fit_objects nnls rng F nb mc (map (fun o => finite_obj (fst (fst o)) (snd (fst o)) (snd o)) l) in
    (forall x xs k, run_each fit (p :: parts) cur = Ok (x :: xs, k) -> fit (concat (p :: parts)) cur = Ok (fold_left stack_out xs x, k)) /\
    (forall e, run_each fit (p :: parts) cur = Raise e -> fit (concat (p :: parts)) cur = Raise e).
Proof. exact L_C118_parts_ab. Qed.
Print Assumptions C118_parts_ab.

Example ex_C118_parts_ab : exists x y k,
  let A := {| a_x := [Fin 0; Fin 1]; a_rows := [map Fin [1; 2; 3; 4; 5]; map Fin [2; 3; 4; 5; 6]]; a_shape := [5; 1]%nat |}%R in
  let F := ex_fitter SDSS true ["u"; "g"; "r"; "i"; "z"]%string 1%nat (a_x A) (a_rows A) in
  let a := [(Fin 0, [1; 2; 3; 4; 5], [1; 1; 1; 1; 1]); (Fin (1 / 2), [0; -1; 3; 4; 5], [0; 1; 1; 0; 1])]%R in
  let b := [(Fin 1, [2; 2; 2; 2; 2], [4; 0; 4; 0; 4]); (Fin 0, [1; 1; 1; 1; 1], [1; 2; 3; 4; 5])]%R in
  let fit := fun l => fit_objects ex_nnls (fun n => Fin (INR n)) F 5 2 (map (fun o => finite_obj (fst (fst o)) (snd (fst o)) (snd o)) l) in
  nnls_shape (T := xr) ex_nnls /\ ready F A 5 1 /\ f_abc F = true /\ f_kind F <> Plain /\ ab_bands (f_kind F) 5 /\
  Forall (fun o : xr * list R * list R => length (snd (fst o)) = 5 /\ length (snd o) = 5) (concat [a; b]) /\
  Forall (fun l : list (xr * list R * list R) => length l <> 1) [a; b] /\ run_each fit [a; b] 0 = Ok ([x; y], k).
Proof. exact E_C118_parts_ab. Qed.
