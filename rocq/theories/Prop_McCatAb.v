(** Property theorems; proofs are in McCatAbThms.v.  Generated by tools/gen_prop.py. *)
From Coq Require Import String List Arith Lia Bool QArith Qreals Reals Lra.
From Verif Require Import Base BaseLemmas Num Toy Spec Interp Sed Response RespDict Fitter FitSpec FitEx Kcorrect KSpec KEx CatSpec McCatSpec.
Import ListNotations.
Local Open Scope nat_scope.
From Verif Require Import McCatAbThms.

(** The same for KcorrectSDSS and KcorrectGST with abcorrect=True and finite photometry: the parts of a catalogue give the
    arrays of the whole. *)
Theorem C118_split_ab :
  forall nnls rng (F : fitter xr) A nb nt mc (a b : list (xr * list R * list R)) cur,
    nnls_shape nnls -> ready F A nb nt -> f_abc F = true -> f_kind F <> Plain -> ab_bands (f_kind F) nb ->
    Forall (fun o => length (snd (fst o)) = nb /\ length (snd o) = nb) (a ++ b) -> length a <> 1 -> length b <> 1 ->
    let fit := fun l => fit_objects nnls rng F nb mc (map (fun o => finite_obj (fst (fst o)) (snd (fst o)) (snd o)) l) in
    (forall x k y k', fit a cur = Ok (x, k) -> fit b k = Ok (y, k') -> fit (a ++ b) cur = Ok (stack_out x y, k')) /\
    (forall e, fit a cur = Raise e -> fit (a ++ b) cur = Raise e) /\
    (forall x k e, fit a cur = Ok (x, k) -> fit b k = Raise e -> fit (a ++ b) cur = Raise e).
Proof. exact L_C118_split_ab. Qed.
Print Assumptions C118_split_ab.

Example ex_C118_split_ab : exists x y k k',
  let A := {| a_x := [Fin 0; Fin 1]; a_rows := [map Fin [1; 2; 3; 4; 5]; map Fin [2; 3; 4; 5; 6]]; a_shape := [5; 1]%nat |}%R in
  let F := ex_fitter SDSS true ["u"; "g"; "r"; "i"; "z"]%string 1%nat (a_x A) (a_rows A) in
  let a := [(Fin 0, [1; 2; 3; 4; 5], [1; 1; 1; 1; 1]); (Fin (1 / 2), [0; -1; 3; 4; 5], [0; 1; 1; 0; 1])]%R in
  let b := [(Fin 1, [2; 2; 2; 2; 2], [4; 0; 4; 0; 4]); (Fin 0, [1; 1; 1; 1; 1], [1; 2; 3; 4; 5])]%R in
  let fit := fun l => fit_objects ex_nnls (fun n => Fin (INR n)) F 5 2 (map (fun o => finite_obj (fst (fst o)) (snd (fst o)) (snd o)) l) in
  nnls_shape (T := xr) ex_nnls /\ ready F A 5 1 /\ f_abc F = true /\ f_kind F <> Plain /\ ab_bands (f_kind F) 5 /\
  Forall (fun o : xr * list R * list R => length (snd (fst o)) = 5 /\ length (snd o) = 5) (a ++ b) /\
  fit a 0 = Ok (x, k) /\ fit b k = Ok (y, k').
Proof. exact E_C118_split_ab. Qed.

(** ... and each object gets what it gets alone, the random stream being mc variates per measured band of the objects before
    it further on.  The AB correction does not change which bands are measured. *)
Theorem C118_offset_ab :
  forall nnls rng (F : fitter xr) A nb nt mc (objs : list (xr * list R * list R)) cur r cur',
    nnls_shape nnls -> ready F A nb nt -> f_abc F = true -> f_kind F <> Plain -> ab_bands (f_kind F) nb -> mc <> 0 ->
    Forall (fun o => length (snd (fst o)) = nb /\ length (snd o) = nb) objs -> length objs <> 1 ->
    let fin := fun o : xr * list R * list R => finite_obj (fst (fst o)) (snd (fst o)) (snd o) in
    let bands := fun l : list (xr * list R * list R) => list_sum (map (fun o => length (filter (fun v => if Rlt_dec 0 v then true else false) (snd o))) l) in
    fit_objects nnls rng F nb mc (map fin objs) cur = Ok (r, cur') ->
    exists c cm mm, r = Three c cm mm /\ cur' = cur + mc * bands objs /\
      forall i o, nth_error objs i = Some o ->
        exists ci cmi mmi k, fit_object nnls rng F mc (fin o) (cur + mc * bands (firstn i objs)) = Ok (Three ci cmi mmi, k) /\
          row i c = ci /\ row i cm = cmi /\ row i mm = mmi.
Proof. exact L_C118_offset_ab. Qed.
Print Assumptions C118_offset_ab.

Example ex_C118_offset_ab : exists r k,
  let A := {| a_x := [Fin 0; Fin 1]; a_rows := [map Fin [1; 2; 3; 4; 5]; map Fin [2; 3; 4; 5; 6]]; a_shape := [5; 1]%nat |}%R in
  let F := ex_fitter SDSS true ["u"; "g"; "r"; "i"; "z"]%string 1%nat (a_x A) (a_rows A) in
  let objs := [(Fin 0, [1; 2; 3; 4; 5], [1; 1; 1; 1; 1]); (Fin (1 / 2), [0; -1; 3; 4; 5], [0; 1; 1; 0; 1])]%R in
  ready F A 5 1 /\ ab_bands (f_kind F) 5 /\
  fit_objects ex_nnls (fun n => Fin (INR n)) F 5 2 (map (fun o => finite_obj (fst (fst o)) (snd (fst o)) (snd o)) objs) 0 = Ok (r, k).
Proof. exact E_C118_offset_ab. Qed.

(** So with abcorrect=True too an object's results depend on the other objects only through the number of measured bands of
    those before it. *)
Theorem C118_others_ab :
  forall nnls rng (F : fitter xr) A nb nt mc (objs objs' : list (xr * list R * list R)) cur c cm mm k c' cm' mm' k' i o,
    nnls_shape nnls -> ready F A nb nt -> f_abc F = true -> f_kind F <> Plain -> ab_bands (f_kind F) nb -> mc <> 0 ->
    Forall (fun o => length (snd (fst o)) = nb /\ length (snd o) = nb) objs -> length objs <> 1 ->
    Forall (fun o => length (snd (fst o)) = nb /\ length (snd o) = nb) objs' -> length objs' <> 1 ->
    let fit := fun l => fit_objects nnls rng F nb mc (map (fun o => finite_obj (fst (fst o)) (snd (fst o)) (snd o)) l) in
    let bands := fun l : list (xr * list R * list R) => list_sum (map (fun o => length (filter (fun v => if Rlt_dec 0 v then true else false) (snd o))) l) in
    fit objs cur = Ok (Three c cm mm, k) -> fit objs' cur = Ok (Three c' cm' mm', k') ->
    nth_error objs i = Some o -> nth_error objs' i = Some o -> bands (firstn i objs) = bands (firstn i objs') ->
    row i c = row i c' /\ row i cm = row i cm' /\ row i mm = row i mm'.
Proof. exact L_C118_others_ab. Qed.
Print Assumptions C118_others_ab.

Example ex_C118_others_ab : exists c cm mm k c' cm' mm' k',
  let A := {| a_x := [Fin 0; Fin 1]; a_rows := [map Fin [1; 2; 3; 4; 5]; map Fin [2; 3; 4; 5; 6]]; a_shape := [5; 1]%nat |}%R in
  let F := ex_fitter SDSS true ["u"; "g"; "r"; "i"; "z"]%string 1%nat (a_x A) (a_rows A) in
  let o := (Fin (1 / 2), [0; -1; 3; 4; 5], [0; 1; 1; 0; 1])%R in
  let objs := [(Fin 0, [1; 2; 3; 4; 5], [1; 0; 1; 1; 1])%R; o] in
  let objs' := [(Fin 1, [9; 8; 7; 6; 5], [2; 3; 4; 5; 0])%R; o; o] in
  let fit := fun l => fit_objects ex_nnls (fun n => Fin (INR n)) F 5 2 (map (fun o => finite_obj (fst (fst o)) (snd (fst o)) (snd o)) l) in
  let bands := fun l : list (xr * list R * list R) => list_sum (map (fun o => length (filter (fun v => if Rlt_dec 0 v then true else false) (snd o))) l) in
  ready F A 5 1 /\ ab_bands (f_kind F) 5 /\ fit objs 0 = Ok (Three c cm mm, k) /\ fit objs' 0 = Ok (Three c' cm' mm', k') /\
  bands (firstn 1 objs) = bands (firstn 1 objs').
Proof. exact E_C118_others_ab. Qed.
