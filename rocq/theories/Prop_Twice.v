(** Property theorems; proofs are in TwiceThms.v.  Generated by tools/gen_prop.py. *)
From Coq Require Import String List Arith Lia Bool ZArith QArith Qreals Reals Lra.
From Verif Require Import Base BaseLemmas Num Toy Spec Interp Utils Sed Response RespDict Fitter FitSpec
  FitEx Kcorrect KSpec KEx.
Import ListNotations.
Local Open Scope R_scope.
From Verif Require Import TwiceThms.

(** C56.  absmag_mc of a KcorrectSDSS object with abcorrect=True applied to photometry that is already in the AB system, as
    the maggies_mc of its fit_coeffs are (L_C56_draws): every measured magnitude of every draw is larger by the AB offset of
    its input band than absmag_mc of the same object without the correction makes it, and it raises whenever that does. *)
Theorem C56_twice :
  forall distmod (K : kcor xr) A Ao nt bs (wd : bool) z (M : list (list R)) (iv : list R) C d mc,
    kready K A Ao 5 5 nt -> f_kind (k_fit K) = SDSS -> f_abc (k_fit K) = true ->
    rect mc M -> length M = 5%nat -> length iv = 5%nat -> rect mc C -> length C = nt ->
    let call := fun K => absmag_mc distmod K (table mc (map (map Fin) M)) (Some (vec (map Fin iv))) (Some (scal z)) (table mc C) bs
                           (if wd then Some (scal d) else None) false false in
    match call (kwithout_ab K), call K with
    | Ok (Bare1 x), Ok (Bare1 y) =>
        shp x = [5%nat; mc] /\ shp y = [5%nat; mc] /\
        forall j i, (j < 5)%nat -> (i < mc)%nat ->
          let b := in_band K j in
          let flux := nth i (nth b M []) 0 in
          (0 < flux -> 0 < nth b iv 0 ->
             nth (j * mc + i) (dat y) NaN = nadd (nth (j * mc + i) (dat x) NaN) (Fin (nth b abfix 0))) /\
          (flux <= 0 \/ nth b iv 0 <= 0 ->
             nth (j * mc + i) (dat x) NaN = Fin (-9999) /\ nth (j * mc + i) (dat y) NaN = Fin (-9999))
    | Raise e, Raise e' => e = e'
    | _, _ => False
    end.
Proof. exact L_C56_twice. Qed.
Print Assumptions C56_twice.

Example ex_C56_twice :
  kready x_kcor5 x_tab5 x_tab5 5 5 1 /\ f_kind (k_fit x_kcor5) = SDSS /\ f_abc (k_fit x_kcor5) = true /\
  rect 2 [[1; 2]; [2; 3]; [-3; 1]; [4; 4]; [5; 6]] /\ length [[1; 2]; [2; 3]; [-3; 1]; [4; 4]; [5; 6]] = 5%nat /\ rect 2 [[Fin 1; Fin 2]].
Proof. exact E_C56_twice. Qed.
