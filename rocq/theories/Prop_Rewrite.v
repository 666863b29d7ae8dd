(** Property theorems; proofs are in RewriteThms.v.  Generated by tools/gen_prop.py. *)
From Coq Require Import String Ascii List Arith Lia Bool ZArith QArith Qreals Reals Lra.
From Verif Require Import ResponseObj LinInterp ResponseEx.
From Verif Require Import Base BaseLemmas Num Toy Interp InterpReal Utils Sed Response RespDict Fitter FitSpec FitterProofs FitterMC
  FitReal FitTable FitEx FitRealEx Kcorrect KSpec KTable KEx KcorrectProofs Persist PersistSpec
  PersistProofs PersistEx.
Import ListNotations.
Local Open Scope R_scope.
From Verif Require Import RewriteThms.

(** C65.  Writing again what was read gives the same file. *)
Theorem C65_rewritten :
  forall (T : Type) (N : Num T) (s s' : sed T) t t' nsed, (forall x : T, cst (cst x) = cst x) -> sed_shape s nsed -> tmpl_full t ->
    Template (Some (template_file s t)) false = Ok (s', t') -> template_file s' t' = template_file s t.
Proof. exact L_C65_rewritten. Qed.
Print Assumptions C65_rewritten.

Example ex_C65_rewritten : (forall x : R, cst (cst x) = cst x) /\ sed_shape r_sed 1 /\ tmpl_full (k_tmpl (r_obj Plain false 1)).
Proof. exact E_C65_rewritten. Qed.

(** C53.  Whatever the object into which a file of tofits is read, with the truncated range: tofits of that object writes the same file. *)
Theorem C53_rewritten :
  forall trunc cub bq sun vega fs d d' (K0 K K' : kcor R) A Ao nb no nt f,
    consistent K A Ao nb no nt -> grid_ok (f_zs (k_fit K)) -> nb <> 0%nat -> no <> 0%nat -> nt <> 0%nat -> tmpl_full (k_tmpl K) ->
    (forall n, trunc (IZR n) = n) -> kcor_file trunc K = Ok f -> kcor_fromfits cub bq sun vega fs d K0 (Some f) = (d', K', None) ->
    kcor_file trunc K' = Ok f.
Proof. exact L_C53_rewritten. Qed.
Print Assumptions C53_rewritten.

Example ex_C53_rewritten : let K := r_obj Plain false (1/2) in
  consistent K (r_tab_in (1/2)) (r_tab_out (1/2)) 2 2 1 /\ grid_ok (f_zs (k_fit K)) /\ tmpl_full (k_tmpl K) /\ (forall n, Rtrunc (IZR n) = n) /\
  exists f K', kcor_file Rtrunc K = Ok f /\
    kcor_fromfits (fun _ _ _ => 0) (fun _ _ _ => Raise Unmodelled) (Raise Unmodelled) (Raise Unmodelled) no_files r_cache (@fresh R _) (Some f)
      = (r_cache, K', None).
Proof. exact E_C53_rewritten. Qed.
