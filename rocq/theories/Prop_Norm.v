(** Property theorems; proofs are in NormThms.v.  Generated by tools/gen_prop.py. *)
From Coq Require Import String List Arith Lia Bool ZArith QArith Qreals Reals Lra Sorting.Sorted.
From Verif Require Import Base BaseLemmas Num Toy Interp InterpReal Spec Utils UtilsReal Sed Response RespDict ResponseObj ResponseEx
  Fitter Kcorrect BuildSpec BuildEx BuildThms Spline SplineSpec SplineProofs SplineThms ShiftThms NormSpec.
Import ListNotations.
Local Open Scope R_scope.
From Verif Require Import NormThms.

(** C91.  Multiplying the response curve by a positive constant: the constructor raises the same exception or gives a Response with
    the same wavelengths, effective wavelength, solar magnitude, Vega offset and width, and the same projections. *)
Theorem C91_response :
  forall cub bq sun vega wave y k, splines cub -> 0 < k ->
    match Response cub bq sun vega wave y, Response cub bq sun vega wave (map (fun v => k * v) y) with
    | Ok r, Ok r' => same_band cub r r' /\ exists yy, p_resp r = Some yy /\ p_resp r' = Some (map (fun v => k * v) yy)
    | Raise e, Raise e' => e = e'
    | _, _ => False
    end.
Proof. exact L_C91_response. Qed.
Print Assumptions C91_response.

Example ex_C91_response : exists bq r, splines notaknot /\ Response notaknot bq sun0 sun0 [1;2;3;4] [0;1;1;0] = Ok r /\ 0 < 100.
Proof. exact E_C91_response. Qed.

(** If the throughput columns of the response files (each by a factor of its own) are in other units, the constructor returns the same
    object or raises the same exception, and leaves the templates in the same state; so do all later calls on the object. *)
Theorem C91_construction :
  forall cub bq sun vega fs fs' d d' k abc responses (s : sed R) t out map_ r0 r1 nz d1 s1 K d1' s1' K', splines cub ->
    (forall n, exists k, 0 < k /\ fs' n = in_units k (fs n)) -> same_bands cub d d' ->
    Kcorrect cub bq sun vega fs d k abc responses s t out map_ r0 r1 nz = (d1, s1, K) ->
    Kcorrect cub bq sun vega fs' d' k abc responses s t out map_ r0 r1 nz = (d1', s1', K') ->
    K = K' /\ s1 = s1' /\ same_bands cub d1 d1'.
Proof. exact L_C91_construction. Qed.
Print Assumptions C91_construction.

Example ex_C91_construction : exists bq fs fs' d s K, splines notaknot /\ fs "u.dat"%string <> fs' "u.dat"%string /\
  (forall n, exists k, 0 < k /\ fs' n = in_units k (fs n)) /\ same_bands notaknot [] [] /\
  Kcorrect notaknot bq sun0 sun0 fs [] Plain false ["u"; "u"]%string r_sed r_tmpl None None 0 1 2 = (d, s, Ok K).
Proof. exact E_C91_construction. Qed.

(** maggies2flambda and the list of responses are the same as well. *)
Theorem C91_flambda :
  forall cub bq sun vega fs fs' d d' names m iv d1 x d1' x', splines cub ->
    (forall n, exists k, 0 < k /\ fs' n = in_units k (fs n)) -> same_bands cub d d' ->
    maggies2flambda cub bq sun vega fs d names m iv = (d1, x) -> maggies2flambda cub bq sun vega fs' d' names m iv = (d1', x') ->
    x = x' /\ same_bands cub d1 d1'.
Proof. exact L_C91_flambda. Qed.
Print Assumptions C91_flambda.

Example ex_C91_flambda : exists bq r r', splines notaknot /\ Response notaknot bq sun0 sun0 [1;2;3;4] [0;1;1;0] = Ok r /\
  Response notaknot bq sun0 sun0 [1;2;3;4] [100*0;100*1;100*1;100*0] = Ok r' /\ same_bands notaknot [("u", r)]%string [("u", r')]%string.
Proof. exact E_C91_flambda. Qed.

Theorem C91_listing :
  forall cub bq sun vega fs fs' d d' chk files d1 x d1' x', splines cub ->
    (forall n, exists k, 0 < k /\ fs' n = in_units k (fs n)) -> same_bands cub d d' ->
    all_responses cub bq sun vega fs chk files d = (d1, x) -> all_responses cub bq sun vega fs' chk files d' = (d1', x') ->
    x = x' /\ same_bands cub d1 d1'.
Proof. exact L_C91_listing. Qed.
Print Assumptions C91_listing.

Example ex_C91_listing : in_units 100 (Some (Ok ([1;2], [0;1]))) = Some (Ok ([1;2], [100*0;100*1])) /\ splines notaknot /\ same_bands notaknot [] [].
Proof. exact E_C91_listing. Qed.
