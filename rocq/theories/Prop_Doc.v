(** Property theorems; proofs are in DocThms.v.  Generated by tools/gen_prop.py. *)
From Coq Require Import String List Arith Lia Bool ZArith QArith Qreals Reals Lra.
From Verif Require Import Base BaseLemmas Num Toy Interp InterpReal Spec Utils UtilsReal Sed Response RespDict ResponseObj LinInterp ResponseEx
  Fitter FitSpec FitterProofs FitterMC FitReal FitTable FitEx FitRealEx FitRealThms Kcorrect KSpec KTable KEx KcorrectProofs XrAlg KcorrectThms AbsmagProofs AbsmagThms SteadyThms ErrorThms.
Import ListNotations.
Local Open Scope R_scope.
From Verif Require Import DocThms.

(** docs/examples.rst:79-81 has it that the magnitude of a band that was not measured is determined from the reconstructed
    maggies: it is -9999 although these are positive. *)
Theorem C44_documented_refuted :
  exists distmod (K : kcor R) A nb nt o om a r,
    kready K A A nb nb nt /\ no_ab (k_fit K) /\ kobj_ok nb nt o /\ Forall (Rlt 0) (ko_m o) /\ nth 0 (ko_iv o) 1 = 0 /\ nonneg (ko_c o) /\
    reconstruct_out K (Some (scal (ko_z o))) (Some (vec (ko_c o))) 0 = Ok (vec om) /\ 0 < nth 0 om 0 /\
    absmag_object distmod K 0 false true false false o = Ok (Tuple [vec a; vec r]) /\ nth_error a 0 = Some (-9999) /\ nth_error r 0 = Some (-30).
Proof. exact L_C44_documented_refuted. Qed.
Print Assumptions C44_documented_refuted.

(** docs/examples.rst:212-213 takes derived()['mtol'] for the stellar masses, "one entry per object": it has one entry per
    object and output band and is not the mass, which is the entry 'mremain'. *)
Theorem C50_documented_refuted :
  exists distmod dict (K : kcor Q) A Ao nb no nt objs out mtol mremain,
    kready K A Ao nb no nt /\ Forall (zc_ok nt) objs /\ derived_objects distmod dict K nt 0%Q objs = Ok out /\
    In ("mtol"%string, mtol) out /\ In ("mremain"%string, mremain) out /\
    shp mremain = [length objs] /\ shp mtol = [length objs; no] /\ no <> 1%nat /\
    forall j, (j < no)%nat -> nth j (dat mtol) 0%Q <> nth 0 (dat mremain) 0%Q.
Proof. exact L_C50_documented_refuted. Qed.
Print Assumptions C50_documented_refuted.

(** docs/templates.rst:156 gives the shape of the coefficients of a single object as [1, n]: it is [n]. *)
Theorem C26_documented_refuted :
  exists nnls rng (F : fitter Q) A nb nt o c, nnls_shape nnls /\ ready F A nb nt /\ obj_ok nb o /\
    fit_object nnls rng F 0 o 0 = Ok (Bare c, 0%nat) /\ shp c <> [1%nat; nt] /\ shp c = [nt].
Proof. exact L_C26_documented_refuted. Qed.
Print Assumptions C26_documented_refuted.
