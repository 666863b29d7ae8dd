(** Property theorems; proofs are in DerRoundThms.v.  Generated by tools/gen_prop.py. *)
From Coq Require Import String List Arith Lia Bool ZArith QArith Qreals Reals Lra.
From Flocq Require Import Core.
From Verif Require Import Base BaseLemmas Num Spec Interp Sed Response RespDict Fitter FitSpec FitRealEx Kcorrect KSpec KEx RoundSpec UtilsRoundSpec.
Import ListNotations.
Local Open Scope R_scope.
From Verif Require Import DerRoundThms.

(** C115.  The derived quantities of one object, in an arithmetic with relative error u: the masses are those of the coefficients
    and the distance modulus up to nt + 4 roundings and the two of the exponent; the ratios b50, b300, b1000 and metallicity are
    those of the coefficients up to 2 nt + 7 and 2 nt + 8 roundings, independently of the distance; they are 0 exactly when the
    mass is; and the mass-to-light ratios are those of the mass and the (computed) output fluxes up to nt + 8 roundings and those
    of the two exponents, 0 exactly when the flux is not positive. *)
Theorem C115_derived : forall u (N : Num R) distmod dict (K : kcor R) A Ao nb no nt bs sols z c fl,
  0 <= u < 1 -> std_model u N -> std_fun u N -> rounding N ->
  kready K A Ao nb no nt -> tmpl_shape K nt -> solars dict K sols -> length c = nt -> nonneg c ->
  let t := k_tmpl K in
  nonneg (t_intsfh t) -> nonneg (t_mremain t) -> nonneg (t_mets t) -> nonneg (t_m50 t) -> nonneg (t_m300 t) -> nonneg (t_m1000 t) ->
  @reconstruct_out R N K (Some (scal 0)) (Some (vec c)) bs = Ok (vec fl) ->
  let dm := distmod (@cst R N z) in
  let mass := fun v => dot c v * pow10 (0.4 * dm) in
  let B := (1 + growth u (nt + 4)) * pow10 (0.4 * Rabs dm * growth u 2) - 1 in
  let ratio := fun k r x y =>
    (dot c (t_mremain t) = 0 -> r = 0) /\
    (0 < dot c (t_mremain t) -> 0 < dot c y -> rel (growth u (2 * nt + k)) r (dot c x / dot c y)) in
  exists M I b50 b300 b1000 Z mt,
    @derived_object R N distmod dict K bs (z, c) =
      Ok [("mremain", scal M); ("intsfh", scal I); ("mtol", vec mt); ("b50", scal b50); ("b300", scal b300); ("b1000", scal b1000);
          ("metallicity", scal Z)]%string /\
    rel B M (mass (t_mremain t)) /\ rel B I (mass (t_intsfh t)) /\
    ratio 7%nat b50 (t_m50 t) (t_intsfh t) /\ ratio 7%nat b300 (t_m300 t) (t_intsfh t) /\ ratio 7%nat b1000 (t_m1000 t) (t_intsfh t) /\
    ratio 8%nat Z (zip Rmult (t_mremain t) (t_mets t)) (t_mremain t) /\
    forall j, (j < length fl)%nat -> (j < length sols)%nat ->
      let s := nth j sols 0 in let f := nth j fl 0 in
      (f <= 0 -> nth j mt 0 = 0) /\
      (0 < f -> rel ((1 + growth u (nt + 8)) * pow10 (0.4 * Rabs dm * growth u 2 + 0.4 * Rabs (s + dm) * growth u 3) - 1)
                    (nth j mt 0) (dot c (t_mremain t) * pow10 (- 0.4 * s) / f)).
Proof. exact L_C115_derived. Qed.
Print Assumptions C115_derived.

Example ex_C115_derived : kready r_kcor r_tab r_tab 2 2 1 /\ tmpl_shape r_kcor 1 /\ solars r_solar r_kcor [5; 4] /\ nonneg [2] /\
  exists M I b50 b300 b1000 Z mt,
    @derived_object R Num_24 (fun _ => 35) r_solar r_kcor 0 (1, [2]) =
      Ok [("mremain", scal M); ("intsfh", scal I); ("mtol", vec mt); ("b50", scal b50); ("b300", scal b300); ("b1000", scal b1000);
          ("metallicity", scal Z)]%string /\
    rel (growth (bpow radix2 (-24)) 9) b50 (1 / 8) /\ rel (growth (bpow radix2 (-24)) 10) Z (1 / 50).
Proof. exact E_C115_derived. Qed.

(** C115.  Mass-to-light ratios against the exact fluxes of the output table, when neighbouring grid tables differ by a factor of
    at most kappa: those are taken at a redshift z' within five roundings of the band shift, and their own error adds the
    factor 1 / (1 - 2 kappa (growth of nt + 10 roundings)). *)
Theorem C115_mtol : forall u (N : Num R) distmod dict (K : kcor R) A Ao nb no nt bs sols z c kappa,
  0 <= u < 1 -> std_model u N -> std_fun u N -> rounding N ->
  kready K A Ao nb no nt -> tmpl_shape K nt -> solars dict K sols -> length c = nt -> nonneg c -> 0 < fold_right Rplus 0 c ->
  let t := k_tmpl K in
  nonneg (t_intsfh t) -> nonneg (t_mremain t) -> nonneg (t_mets t) -> nonneg (t_m50 t) -> nonneg (t_m300 t) -> nonneg (t_m1000 t) ->
  grid_ok (a_x Ao) -> gentle kappa Ao no nt -> -1 < bs ->
  let eps := 2 * kappa * growth u (nt + 10) in eps < 1 ->
  let dm := distmod (@cst R N z) in
  exists z', Rabs (z' - bs) <= growth u 5 * (2 + bs) /\
    (in_range (a_x Ao) z' -> exists o mt e,
      @derived_object R N distmod dict K bs (z, c) = Ok o /\ In ("mtol"%string, vec mt) o /\
      @reconstruct_out R Num_R K (Some (scal z')) (Some (vec c)) 0 = Ok (vec e) /\
      forall j, (j < no)%nat -> let s := nth j sols 0 in
        rel ((1 + growth u (nt + 8)) * pow10 (0.4 * Rabs dm * growth u 2 + 0.4 * Rabs (s + dm) * growth u 3) / (1 - eps) - 1)
            (nth j mt 0) (dot c (t_mremain t) * pow10 (- 0.4 * s) / (nth j e 0 / (1 + bs)))).
Proof. exact L_C115_mtol. Qed.
Print Assumptions C115_mtol.

Example ex_C115_mtol : kready r_kcor r_tab r_tab 2 2 1 /\ grid_ok (a_x r_tab) /\ gentle 3 r_tab 2 1 /\
  2 * 3 * growth (bpow radix2 (-24)) (1 + 10) < 1 /\ nonneg [2] /\ 0 < fold_right Rplus 0 [2] /\ in_range (a_x r_tab) (/ 2) /\
  exists z', Rabs (z' - / 2) <= growth (bpow radix2 (-24)) 5 * (2 + / 2) /\
    exists o mt, @derived_object R Num_24 (fun _ => 35) r_solar r_kcor (/ 2) (1, [2]) = Ok o /\ In ("mtol"%string, vec mt) o.
Proof. exact E_C115_mtol. Qed.
