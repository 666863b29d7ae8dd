(** Property theorems; proofs are in SetThms.v.  Generated by tools/gen_prop.py. *)
From Coq Require Import String List Arith Lia Bool ZArith QArith.
From Verif Require Import Base BaseLemmas Num Interp Sed Response RespDict Fitter FitSpec Toy FitEx Kcorrect KEx BuildSpec BuildEx PersistSpec.
Import ListNotations.
Local Open Scope nat_scope.
From Verif Require Import SetThms.

(** C112.  A set_Amatrix that raises keeps the table that the object had, its bands, grid and AB settings, and the rest-frame
    spectra of its templates, which stay as they were or are left at one of the redshifts of the grid or at 0.  All entries of the
    response cache stay. *)
Theorem C112_kept :
  forall (T : Type) (N : Num T) cub bq sun vega fs d (F : fitter T) d' F' e,
    set_Amatrix cub bq sun vega fs d F = (d', F', Some e) ->
    f_A F' = f_A F /\ f_kind F' = f_kind F /\ f_abc F' = f_abc F /\ f_resp F' = f_resp F /\ f_zs F' = f_zs F /\
    same_rest (f_sed F) (f_sed F') /\ extends d d' /\
    (f_sed F' = f_sed F \/ s_z (f_sed F') = n0 \/ In (s_z (f_sed F')) (f_zs F)).
Proof. exact L_C112_kept. Qed.
Print Assumptions C112_kept.

Example ex_C112_kept : exists F1 d' F' e,
  set_Amatrix q_lin (fun _ _ _ => Raise Unmodelled) (Raise Unmodelled) (Raise Unmodelled) (fun _ => None) [("u"%string, q_resp)] (q_new true) =
    ([("u"%string, q_resp)], F1, None) /\ f_A F1 <> None /\
  set_Amatrix q_lin (fun _ _ _ => Raise Unmodelled) (Raise Unmodelled) (Raise Unmodelled) (fun _ => None) q_blank
    {| f_kind := Plain; f_abc := false; f_resp := ["u"%string]; f_sed := f_sed F1; f_zs := [1; 2]%Q; f_A := f_A F1 |} = (d', F', Some e) /\
  s_z (f_sed F') = 1%Q.
Proof. exact E_C112_kept. Qed.

(** So every method of the object returns after it what it returned before. *)
Theorem C112_usable :
  forall (T : Type) (N : Num T) cub bq sun vega fs d (K : kcor T) d' F' e,
    set_Amatrix cub bq sun vega fs d (k_fit K) = (d', F', Some e) ->
    same_results K {| k_fit := F'; k_tmpl := k_tmpl K; k_out := k_out K; k_map := k_map K; k_Aout := k_Aout K; k_imap := k_imap K; k_rr := k_rr K |}.
Proof. exact L_C112_usable. Qed.
Print Assumptions C112_usable.

Example ex_C112_usable : exists d1 s1 K d' F' e,
  q_build (Some ["g"]%string) (Some ["u"]%string) = (d1, s1, Ok K) /\
  set_Amatrix q_lin (fun _ _ _ => Raise Unmodelled) (Raise Unmodelled) (Raise Unmodelled) (fun _ => None) q_blank (k_fit K) = (d', F', Some e).
Proof. exact E_C112_usable. Qed.

(** If the file of a response is missing, set_Amatrix raises ValueError and changes nothing but the cache; called again it
    raises again, although the file may be there by then. *)
Theorem C112_missing :
  forall (T : Type) (N : Num T) cub bq sun vega fs d (F : fitter T) pre name post,
    f_resp F = pre ++ name :: post -> (forall m, In m pre -> dmem d m = true) -> dmem d name = false ->
    fs (name ++ ".dat")%string = None -> f_zs F <> [] -> 0 < f_nsed F ->
    exists d', set_Amatrix cub bq sun vega fs d F = (d', F, Some ValueError) /\
      forall fs', exists d2 F2 e, set_Amatrix cub bq sun vega fs' d' F = (d2, F2, Some e).
Proof. exact L_C112_missing. Qed.
Print Assumptions C112_missing.

Example ex_C112_missing :
  f_resp (q_new true) = [] ++ "u"%string :: [] /\ dmem (@nil (string * resp Q)) "u"%string = false /\ f_zs (q_new true) <> [] /\ 0 < f_nsed (q_new true).
Proof. exact E_C112_missing. Qed.
