(** Property theorems; proofs are in SparseThms.v.  Generated by tools/gen_prop.py. *)
From Coq Require Import String List Arith Lia Bool ZArith QArith Qreals Reals Lra.
From Verif Require Import Base BaseLemmas Num Toy Interp InterpReal Spec Utils UtilsReal Sed Response RespDict ResponseObj LinInterp ResponseEx
  Fitter FitSpec FitterProofs FitterMC FitReal FitTable FitEx FitRealEx FitRealThms Kcorrect KSpec KTable KEx KcorrectProofs XrAlg KcorrectThms AbsmagProofs AbsmagThms
  NnlsSpec NnlsExact NnlsEx NnlsThms SparseSpec SparseProofs SparseEx.
Import ListNotations.
Local Open Scope R_scope.
From Verif Require Import SparseThms.

(** C102.  For any nonnegative coefficients, and any list of redshifts and band shifts, there are nonnegative coefficients
    that use only some of the same templates, at most one for each response and pair of the list, with the same fluxes. *)
Theorem C102_fluxes :
  forall (F : fitter R) A nb nt c qs, ready F A nb nt -> length c = nt -> nonneg c ->
    exists x, length x = nt /\ nonneg x /\ within c x /\ (used x <= length qs * nb)%nat /\
      forall z bs, In (z, bs) qs ->
        reconstruct F (Some (scal z)) (Some (vec x)) bs = reconstruct F (Some (scal z)) (Some (vec c)) bs.
Proof. exact L_C102_fluxes. Qed.
Print Assumptions C102_fluxes.

Example ex_C102_fluxes : ready trio_fitter trio_tab 2 3 /\ nonneg [1; 1; 1] /\ used [1; 1; 1] = 3%nat /\
  (forall x, length x = 3%nat -> nonneg x -> (used x <= 0)%nat -> x = [0; 0; 0]).
Proof. exact E_C102_fluxes. Qed.

(** So there are always coefficients of at most (number of responses) + 2 (number of output responses) + 7 templates that
    give an object the same fluxes, K-corrections, absolute magnitudes and derived quantities. *)
Theorem C102_everything :
  forall distmod d (K : kcor R) A Ao nb no nt z c bs,
    kready K A Ao nb no nt -> tmpl_shape K nt -> length c = nt -> nonneg c ->
    exists x, length x = nt /\ nonneg x /\ within c x /\ (used x <= nb + 2 * no + 7)%nat /\
      reconstruct (k_fit K) (Some (scal z)) (Some (vec x)) 0 = reconstruct (k_fit K) (Some (scal z)) (Some (vec c)) 0 /\
      reconstruct_out K (Some (scal z)) (Some (vec x)) bs = reconstruct_out K (Some (scal z)) (Some (vec c)) bs /\
      kcorrect K (Some (scal z)) (Some (vec x)) bs = kcorrect K (Some (scal z)) (Some (vec c)) bs /\
      (forall m iv dist r l k,
        absmag distmod K m iv (Some (scal z)) (Some (vec x)) bs dist r l k =
        absmag distmod K m iv (Some (scal z)) (Some (vec c)) bs dist r l k) /\
      (forall dist, derived distmod d K (Some (scal z)) (Some (vec x)) bs (option_map scal dist) =
                    derived distmod d K (Some (scal z)) (Some (vec c)) bs (option_map scal dist)).
Proof. exact L_C102_everything. Qed.
Print Assumptions C102_everything.

Example ex_C102_everything : kready dozen_kcor dozen_tab dozen_tab 1 1 12 /\ tmpl_shape dozen_kcor 12 /\ nonneg (repeat 1 12) /\
  (1 + 2 * 1 + 7 < used (repeat 1%R 12))%nat.
Proof. exact E_C102_everything. Qed.

(** Whatever the solver, there is a fit as good that uses only some of the templates of its own, at most one for each measured band. *)
Theorem C102_fit :
  forall nnls rng (F : fitter R) A nb nt o cur c cur',
    nnls_contract nnls -> no_ab F -> ready F A nb nt -> nb <> 1%nat -> obj_ok nb o ->
    nonneg (o_iv o) -> in_range (a_x A) (o_z o) ->
    fit_object nnls rng F 0 o cur = Ok (Bare (vec c), cur') ->
    exists x p q, length x = nt /\ nonneg x /\ within c x /\ (used x <= measured (o_iv o))%nat /\
      reconstruct F (Some (scal (o_z o))) (Some (vec c)) 0 = Ok (vec p) /\
      reconstruct F (Some (scal (o_z o))) (Some (vec x)) 0 = Ok (vec q) /\ same_measured (o_iv o) q p /\
      forall y py, length y = nt -> nonneg y -> reconstruct F (Some (scal (o_z o))) (Some (vec y)) 0 = Ok (vec py) ->
        chi2 (o_iv o) (o_m o) q <= chi2 (o_iv o) (o_m o) py.
Proof. exact L_C102_fit. Qed.
Print Assumptions C102_fit.

Example ex_C102_fit :
  nnls_contract (prefer [1; 1; 0]) /\ no_ab trio_fitter /\ ready trio_fitter trio_tab 2 3 /\ nonneg [1; 0] /\ in_range (a_x trio_tab) 0 /\
  fit_object (prefer [1; 1; 0]) (fun _ => 0) trio_fitter 0 {| o_z := 0; o_m := [3; 7]; o_iv := [1; 0] |} 0 = Ok (Bare (vec [1; 1; 0]), 0%nat) /\
  measured [1; 0] = 1%nat /\ used [1; 1; 0] = 2%nat.
Proof. exact E_C102_fit. Qed.

(** Coefficients of templates that no combination cancels in the measured bands are no more than the measured bands. *)
Theorem C102_independent :
  forall (F : fitter R) A nb nt z c iv,
    ready F A nb nt -> length c = nt -> length iv = nb -> in_range (a_x A) z ->
    (forall y q, length y = nt -> within c y -> reconstruct F (Some (scal z)) (Some (vec y)) 0 = Ok (vec q) -> dark_measured iv q -> y = repeat 0 nt) ->
    (used c <= measured iv)%nat.
Proof. exact L_C102_independent. Qed.
Print Assumptions C102_independent.

Example ex_C102_independent : ready trio_fitter trio_tab 2 3 /\ in_range (a_x trio_tab) 0 /\ measured [1; 0] = 1%nat /\
  forall y q, length y = 3%nat -> within [0; 5; 0] y -> reconstruct trio_fitter (Some (scal 0)) (Some (vec y)) 0 = Ok (vec q) ->
    dark_measured [1; 0] q -> y = repeat 0 3.
Proof. exact E_C102_independent. Qed.

(** What the solver is asked for allows more. *)
Theorem C102_solver_refuted :
  exists nnls rng (F : fitter R) A o c, nnls_contract nnls /\ no_ab F /\ ready F A 2 3 /\ obj_ok 2 o /\ Forall (Rlt 0) (o_iv o) /\
    in_range (a_x A) (o_z o) /\ fit_object nnls rng F 0 o 0 = Ok (Bare (vec c), 0%nat) /\ (measured (o_iv o) < used c)%nat.
Proof. exact L_C102_solver_refuted. Qed.
Print Assumptions C102_solver_refuted.
