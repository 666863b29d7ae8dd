(** Monte Carlo catalogues cut into any number of parts (C118): the proofs. *)
From Coq Require Import String List Arith Lia Bool ZArith QArith Reals.
From Verif Require Import Base BaseLemmas Num Toy Spec Interp Sed Response RespDict Fitter FitSpec FitEx Kcorrect KSpec KEx CatSpec McCatSpec.
Import ListNotations.
Local Open Scope nat_scope.
(* STATEMENTS *)
From Verif Require Import FitterThms McCatThms McCatAbThms.

Lemma parts_gen O T (fit : list O -> nat -> res (fc_out T * nat)) (P : O -> Prop) :
  (forall a b cur, Forall P (a ++ b) -> length a <> 1 -> length b <> 1 ->
    (forall x k y k', fit a cur = Ok (x, k) -> fit b k = Ok (y, k') -> fit (a ++ b) cur = Ok (stack_out x y, k')) /\
    (forall e, fit a cur = Raise e -> fit (a ++ b) cur = Raise e) /\
    (forall x k e, fit a cur = Ok (x, k) -> fit b k = Raise e -> fit (a ++ b) cur = Raise e)) ->
  forall parts p cur, Forall P (concat (p :: parts)) -> Forall (fun l => length l <> 1) (p :: parts) ->
    (forall x xs k, run_each fit (p :: parts) cur = Ok (x :: xs, k) -> fit (concat (p :: parts)) cur = Ok (fold_left stack_out xs x, k)) /\
    (forall e, run_each fit (p :: parts) cur = Raise e -> fit (concat (p :: parts)) cur = Raise e).
Proof.
  intros S. induction parts as [|q ps IH]; intros p cur HP HL.
  - cbn [concat] in *. rewrite app_nil_r. cbn [run_each]. split.
    + intros x xs k E. destruct (fit p cur) as [[b k1]|]; [|discriminate]. injection E as <- <- <-. reflexivity.
    + intros e E. destruct (fit p cur) as [[b k1]|]; [discriminate|injection E as <-; reflexivity].
  - pose proof (Forall_inv HL) as Lp. pose proof (Forall_inv (Forall_inv_tail HL)) as Lq. cbn beta in Lp, Lq.
    assert (HP' : Forall P (concat ((p ++ q) :: ps))) by (cbn [concat] in *; rewrite <- app_assoc; exact HP).
    assert (Hpq : Forall P (p ++ q)) by (cbn [concat] in HP'; apply Forall_app in HP' as [? ?]; auto).
    destruct (IH (p ++ q) cur HP') as [I1 I2].
    { constructor; [rewrite app_length; lia|]. apply (Forall_inv_tail (Forall_inv_tail HL)). }
    destruct (S p q cur Hpq Lp Lq) as (S1 & S2 & S3).
    replace (concat (p :: q :: ps)) with (concat ((p ++ q) :: ps)) by (cbn [concat]; rewrite app_assoc; reflexivity).
    cbn [run_each] in *. split.
    + intros x xs k E. destruct (fit p cur) as [[b k1]|] eqn:E1; [|discriminate]. destruct (fit q k1) as [[c k2]|] eqn:E2; [|discriminate].
      rewrite (S1 b k1 c k2 eq_refl E2) in I1. destruct (run_each fit ps k2) as [[bs k3]|]; [|discriminate]. injection E as <- <- <-.
      apply (I1 _ bs k3 eq_refl).
    + intros e E. destruct (fit p cur) as [[b k1]|e1] eqn:E1.
      * destruct (fit q k1) as [[c k2]|e2] eqn:E2.
        -- rewrite (S1 b k1 c k2 eq_refl E2) in I2. destruct (run_each fit ps k2) as [[bs k3]|]; [discriminate|]. auto.
        -- rewrite (S3 b k1 e2 eq_refl E2) in I2. auto.
      * rewrite (S2 e1 eq_refl) in I2. auto.
Qed.

(** A catalogue cut into any number of parts, none of them a single object, and fitted part by part, as when it is read in
    chunks, gives the arrays of the whole catalogue put together, with the random stream where the whole leaves it; the whole
    raises what the first part that fails raises. *)
Lemma L_C118_parts :
  forall (T : Type) (N : Num T) nnls rng (F : fitter T) A nb nt mc parts p cur,
    nnls_shape nnls -> no_ab F -> ready F A nb nt -> nb <> 1 -> Forall (obj_ok nb) (concat (p :: parts)) ->
    Forall (fun l => length l <> 1) (p :: parts) ->
    let fit := fit_objects nnls rng F nb mc in
    (forall x xs k, run_each fit (p :: parts) cur = Ok (x :: xs, k) -> fit (concat (p :: parts)) cur = Ok (fold_left stack_out xs x, k)) /\
    (forall e, run_each fit (p :: parts) cur = Raise e -> fit (concat (p :: parts)) cur = Raise e).
Proof.
  intros T N nnls rng F A nb nt mc parts p cur Hs Hab H H1 Hok HL fit. apply (parts_gen _ _ fit (obj_ok nb)); auto.
  intros a b c Hc La Lb. apply (L_C118_split T N nnls rng F A nb nt mc a b c); auto.
Qed.
Lemma E_C118_parts : exists x y z k,
  let parts := [[q_obj 0 1 2; q_obj 1 3 4]; [q_obj 1 5 6; q_obj 0 7 8]; [q_obj 0 2 1; q_obj 1 1 1; q_obj 0 3 3]] in
  let rng := fun n => inject_Z (Z.of_nat n) in
  nnls_shape (T := Q) ex_nnls /\ no_ab q_fitter /\ ready q_fitter q_tab 2 3 /\ Forall (obj_ok 2) (concat parts) /\ Forall (fun l => length l <> 1) parts /\
  run_each (fit_objects ex_nnls rng q_fitter 2 2) parts 10 = Ok ([x; y; z], k) /\
  fit_objects ex_nnls rng q_fitter 2 2 (concat parts) 10 = Ok (stack_out (stack_out x y) z, k) /\ k = 38.
Proof.
  do 4 eexists. cbv zeta. split; [apply E_C27_rows|]. split; [left; reflexivity|]. split; [apply q_ready|]. split; [repeat constructor|].
  split; [repeat constructor; discriminate|].
  split; [vm_compute; reflexivity|]. split; [vm_compute; reflexivity|]. reflexivity.
Qed.

(** The same for KcorrectSDSS and KcorrectGST with abcorrect=True and finite photometry. *)
Lemma L_C118_parts_ab :
  forall nnls rng (F : fitter xr) A nb nt mc (parts : list (list (xr * list R * list R))) p cur,
    nnls_shape nnls -> ready F A nb nt -> f_abc F = true -> f_kind F <> Plain -> ab_bands (f_kind F) nb ->
    Forall (fun o => length (snd (fst o)) = nb /\ length (snd o) = nb) (concat (p :: parts)) -> Forall (fun l => length l <> 1) (p :: parts) ->
    let fit := fun l => fit_objects nnls rng F nb mc (map (fun o => finite_obj (fst (fst o)) (snd (fst o)) (snd o)) l) in
    (forall x xs k, run_each fit (p :: parts) cur = Ok (x :: xs, k) -> fit (concat (p :: parts)) cur = Ok (fold_left stack_out xs x, k)) /\
    (forall e, run_each fit (p :: parts) cur = Raise e -> fit (concat (p :: parts)) cur = Raise e).
Proof.
  intros nnls rng F A nb nt mc parts p cur Hs H Habc Hk Hb Hok HL fit.
  apply (parts_gen _ _ fit (fun o => length (snd (fst o)) = nb /\ length (snd o) = nb)); auto.
  intros a b c Hc La Lb. apply (L_C118_split_ab nnls rng F A nb nt mc a b c); auto.
Qed.
Lemma E_C118_parts_ab : exists x y k,
  let A := {| a_x := [Fin 0; Fin 1]; a_rows := [map Fin [1; 2; 3; 4; 5]; map Fin [2; 3; 4; 5; 6]]; a_shape := [5; 1]%nat |}%R in
  let F := ex_fitter SDSS true ["u"; "g"; "r"; "i"; "z"]%string 1%nat (a_x A) (a_rows A) in
  let a := [(Fin 0, [1; 2; 3; 4; 5], [1; 1; 1; 1; 1]); (Fin (1 / 2), [0; -1; 3; 4; 5], [0; 1; 1; 0; 1])]%R in
  let b := [(Fin 1, [2; 2; 2; 2; 2], [4; 0; 4; 0; 4]); (Fin 0, [1; 1; 1; 1; 1], [1; 2; 3; 4; 5])]%R in
  let fit := fun l => fit_objects ex_nnls (fun n => Fin (INR n)) F 5 2 (map (fun o => finite_obj (fst (fst o)) (snd (fst o)) (snd o)) l) in
  nnls_shape (T := xr) ex_nnls /\ ready F A 5 1 /\ f_abc F = true /\ f_kind F <> Plain /\ ab_bands (f_kind F) 5 /\
  Forall (fun o : xr * list R * list R => length (snd (fst o)) = 5 /\ length (snd o) = 5) (concat [a; b]) /\
  Forall (fun l : list (xr * list R * list R) => length l <> 1) [a; b] /\ run_each fit [a; b] 0 = Ok ([x; y], k).
Proof.
  destruct E_C118_split_ab as (x & y & k & k' & H1 & H2 & H3 & H4 & H5 & H6 & H7 & H8). exists x, y, k'. cbv zeta.
  split; [exact H1|]. split; [exact H2|]. split; [exact H3|]. split; [exact H4|]. split; [exact H5|]. split; [exact H6|].
  split; [repeat constructor; discriminate|]. cbn [run_each]. cbv zeta in H7, H8. rewrite H7, H8. reflexivity.
Qed.
