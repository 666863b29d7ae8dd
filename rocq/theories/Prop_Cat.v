(** Property theorems; proofs are in CatThms.v.  Generated by tools/gen_prop.py. *)
From Coq Require Import String List Arith Lia Bool QArith Qreals Reals Lra.
From Verif Require Import Base BaseLemmas Num Toy Spec Interp Sed Response RespDict Fitter FitSpec FitEx Kcorrect KSpec KEx CatSpec.
Import ListNotations.
Local Open Scope nat_scope.
From Verif Require Import CatThms.

(** C109.  A catalogue processed at once (fit_coeffs, then absmag with everything it can return) gives for every object
    what processing the object alone gives: row i of the coefficients and of each of the four arrays is the result for
    object i.  It fails if and only if one of its objects fails alone, with the exception of one of these.  (Exact
    arithmetic with special values, at least two bands; with rounding the K-corrections of a catalogue are rounded first.) *)
Theorem C109_rows :
  forall (T : Type) (N : Num T) nnls rng distmod (K : kcor T) A Ao nb no nt bs objs,
    (forall x : T, cst x = x) -> (forall x : T, nmul x n1 = x) -> nnls_shape nnls ->
    kready K A Ao nb no nt -> no_ab (k_fit K) -> nb <> 1 -> Forall (obj_ok nb) objs ->
    let one := alone nnls rng distmod K bs in
    let all := catalogue nnls rng distmod K nb bs objs in
    (forall outs, Forall2 (fun o out => one o = Ok out) objs outs ->
       exists cs a, all = Ok (table nt cs, a) /\ Forall2 (fun out c => fst out = vec c /\ length c = nt) outs cs /\ length (parts a) = 4 /\
         forall p arr, nth_error (parts a) p = Some arr ->
           exists rows, arr = table no rows /\ Forall2 (fun out row => nth_error (parts (snd out)) p = Some (vec row) /\ length row = no) outs rows) /\
    (forall o e, In o objs -> one o = Raise e -> exists e', all = Raise e') /\
    (forall e, all = Raise e -> exists o, In o objs /\ one o = Raise e).
Proof. exact L_C109_rows. Qed.
Print Assumptions C109_rows.

Example ex_C109_rows : let one := alone ex_nnls (fun _ => 0%Q) (fun z => z) q_kcor 0%Q in
  kready q_kcor q_tab q_out 2 2 3 /\ no_ab (k_fit q_kcor) /\ nnls_shape (T := Q) ex_nnls /\ (forall x : Q, cst x = x) /\
  Forall (obj_ok 2) [q_obj 0 1 2; q_obj 1 3 4] /\
  (exists outs, Forall2 (fun o out => one o = Ok out) [q_obj 0 1 2; q_obj 1 3 4] outs) /\
  one (q_obj 9 3 4) = Raise ValueError /\
  catalogue ex_nnls (fun _ => 0%Q) (fun z => z) q_kcor 2 0%Q [q_obj 0 1 2; q_obj 9 3 4; q_obj 1 3 4] = Raise ValueError.
Proof. exact E_C109_rows. Qed.

(** So the objects of a catalogue do not influence each other: any of them, in any order, repeated or not, make a
    catalogue whose rows are those of the first.  In particular a catalogue can be reordered, split and put together. *)
Theorem C109_selection :
  forall (T : Type) (N : Num T) nnls rng distmod (K : kcor T) A Ao nb no nt bs objs objs' c a,
    (forall x : T, cst x = x) -> (forall x : T, nmul x n1 = x) -> nnls_shape nnls ->
    kready K A Ao nb no nt -> no_ab (k_fit K) -> nb <> 1 -> Forall (obj_ok nb) objs -> incl objs' objs ->
    catalogue nnls rng distmod K nb bs objs = Ok (c, a) ->
    exists c' a', catalogue nnls rng distmod K nb bs objs' = Ok (c', a') /\ length (parts a) = 4 /\ length (parts a') = 4 /\
      forall i j o, nth_error objs i = Some o -> nth_error objs' j = Some o ->
        row j c' = row i c /\
        forall p x x', nth_error (parts a) p = Some x -> nth_error (parts a') p = Some x' -> row j x' = row i x.
Proof. exact L_C109_selection. Qed.
Print Assumptions C109_selection.

Example ex_C109_selection : exists c a,
  catalogue ex_nnls (fun _ => 0%Q) (fun z => z) q_kcor 2 0%Q [q_obj 0 1 2; q_obj 1 3 4] = Ok (c, a) /\
  incl [q_obj 1 3 4; q_obj 0 1 2; q_obj 1 3 4] [q_obj 0 1 2; q_obj 1 3 4] /\ row 1 c <> row 0 c.
Proof. exact E_C109_selection. Qed.

(** The same for the derived quantities of the fits, for as many output as input bands (or no output bands): every entry
    of the dictionary has one row per object, the one obtained for the object alone; the catalogue fails if and only if
    one of its objects does. *)
Theorem C109_derived :
  forall (T : Type) (N : Num T) nnls rng distmod solar (K : kcor T) A Ao nb no nt bs sols objs,
    (forall x : T, cst x = x) -> (forall x : T, nmul x n1 = x) -> nnls_shape nnls ->
    kready K A Ao nb no nt -> no_ab (k_fit K) -> nb <> 1 -> nb = no \/ no = 0 -> tmpl_shape K nt -> solars solar K sols ->
    Forall (obj_ok nb) objs ->
    let one := alone_derived nnls rng distmod solar K bs in
    let all := catalogue_derived nnls rng distmod solar K nb bs objs in
    (forall outs, Forall2 (fun o out => one o = Ok out) objs outs ->
       exists a, all = Ok a /\ length a = 7 /\
         forall q key arr, nth_error a q = Some (key, arr) ->
           (exists vals, arr = vec vals /\ Forall2 (fun o v => nth_error o q = Some (key, scal v)) outs vals) \/
           (exists rows, arr = table no rows /\ Forall2 (fun o row => nth_error o q = Some (key, vec row)) outs rows)) /\
    (forall o e, In o objs -> one o = Raise e -> exists e', all = Raise e') /\
    (forall e, all = Raise e -> exists o, In o objs /\ one o = Raise e).
Proof. exact L_C109_derived. Qed.
Print Assumptions C109_derived.

Example ex_C109_derived : exists a b,
  alone_derived ex_nnls (fun _ => 0%Q) (fun z => z) q_solar q_kcor 0%Q (q_obj 1 3 4) = Ok a /\
  catalogue_derived ex_nnls (fun _ => 0%Q) (fun z => z) q_solar q_kcor 2 0%Q [q_obj 0 1 2; q_obj 1 3 4] = Ok b /\
  tmpl_shape q_kcor 3 /\ catalogue_derived ex_nnls (fun _ => 0%Q) (fun z => z) q_solar q_kcor 2 7%Q [q_obj 0 1 2; q_obj 1 3 4] = Raise ValueError.
Proof. exact E_C109_derived. Qed.

(** With the AB correction of KcorrectSDSS or KcorrectGST (and finite photometry), a catalogue, and an object alone, give
    what they give without the correction for photometry with the offsets of the bands applied; so the two theorems above
    hold for these classes too. *)
Theorem C109_abcorrect :
  forall nnls rng distmod (K : kcor xr) A Ao nb no nt bs (objs : list (xr * list R * list R)),
    nnls_shape nnls -> kready K A Ao nb no nt -> f_abc (k_fit K) = true -> f_kind (k_fit K) <> Plain -> ab_bands (f_kind (k_fit K)) nb ->
    Forall (fun o => length (snd (fst o)) = nb /\ length (snd o) = nb) objs ->
    let fin := fun o : xr * list R * list R => finite_obj (fst (fst o)) (snd (fst o)) (snd o) in
    let cor := fun o : xr * list R * list R => offset_obj (ab_offsets (f_kind (k_fit K))) (fst (fst o)) (snd (fst o)) (snd o) in
    catalogue nnls rng distmod K nb bs (map fin objs) = catalogue nnls rng distmod (kwithout_ab K) nb bs (map cor objs) /\
    Forall (fun o => alone nnls rng distmod K bs (fin o) = alone nnls rng distmod (kwithout_ab K) bs (cor o)) objs.
Proof. exact L_C109_abcorrect. Qed.
Print Assumptions C109_abcorrect.

Example ex_C109_abcorrect :
  let A := {| a_x := [Fin 0; Fin 1]; a_rows := [map Fin [1; 2; 3; 4; 5]; map Fin [2; 3; 4; 5; 6]]; a_shape := [5; 1]%nat |}%R in
  let K := {| k_fit := ex_fitter SDSS true ["u"; "g"; "r"; "i"; "z"]%string 1%nat (a_x A) (a_rows A); k_tmpl := ex_tmpl [] [] [] [] [] [];
              k_out := ["g"]%string; k_map := ["g"]%string; k_imap := [1]%nat; k_rr := (Fin 0, Fin 1);
              k_Aout := Some {| a_x := a_x A; a_rows := [[Fin 1]; [Fin 2]]; a_shape := [1; 1]%nat |} |}%R in
  kready K A {| a_x := a_x A; a_rows := [[Fin 1]; [Fin 2]]; a_shape := [1; 1]%nat |}%R 5 1 1 /\ f_abc (k_fit K) = true /\
  ab_bands (f_kind (k_fit K)) 5 /\ Forall (fun o : xr * list R * list R => length (snd (fst o)) = 5 /\ length (snd o) = 5)
    [(Fin 0, [1; 2; 3; 4; 5], [1; 1; 1; 1; 1]); (Fin (1 / 2), [0; -1; 3; 4; 5], [0; 1; 1; 0; 1])]%R /\
  ab_offsets SDSS 0 = (-0.036)%R /\ ab_offsets GST 2 = (-0.036)%R.
Proof. exact E_C109_abcorrect. Qed.
