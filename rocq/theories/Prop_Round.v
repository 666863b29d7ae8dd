(** Property theorems; proofs are in RoundThms.v.  Generated by tools/gen_prop.py. *)
From Coq Require Import String List Arith Lia Bool ZArith QArith Qreals Reals Lra Sorting.Sorted Permutation.
From Flocq Require Import Core.
From Flocq Require Relative.
From Verif Require Import Base BaseLemmas Num Interp InterpReal Spec Fitter FitSpec FitterProofs FitterMC FitReal FitTable FitEx
  FitRealEx FitterThms FitRealThms Kcorrect KSpec KTable KEx KcorrectProofs KcorrectThms AbsmagProofs RoundSpec RoundProofs.
Import ListNotations.
Local Open Scope R_scope.
From Verif Require Import RoundThms.

(** Rounding every operation to 24-bit significands (float32 without underflow and overflow) meets the standard model with
    u = 2^-24. *)
Theorem C83_model : std_model (bpow radix2 (-24)) Num_24 /\ std_log (bpow radix2 (-24)) Num_24 /\ rounding Num_24.
Proof. exact L_C83_model. Qed.
Print Assumptions C83_model.

Example ex_C83_model : 0 <= bpow radix2 (-24) < 1 /\ @nadd R Num_24 1 (bpow radix2 (-30)) = 1.
Proof. exact E_C83_model. Qed.

(** reconstruct in an arithmetic that rounds: it raises ValueError or returns exactly according to the range of the
    rounded redshift z' (within growth 5 of (1+z)(1+bs)-1), and each returned flux differs from the exact interpolation and
    sum at z' by at most twice the growth of nt + 10 roundings of sum_j |c_j| h_j / (1+bs). *)
Theorem C83_reconstruct : forall u (N : Num R) (F : fitter R) A nb nt z c bs,
  0 <= u < 1 -> std_model u N -> ready F A nb nt -> grid_ok (a_x A) -> length c = nt -> 0 <= z -> -1 < bs ->
  exists z', Rabs (z' - ((1 + z) * (1 + bs) - 1)) <= growth u 5 * ((1 + z) * (1 + bs) + 1) /\
    (~ in_range (a_x A) z' -> @reconstruct R N F (Some (scal z)) (Some (vec c)) bs = Raise ValueError) /\
    (in_range (a_x A) z' -> exists m e,
       @reconstruct R N F (Some (scal z)) (Some (vec c)) bs = Ok (vec m) /\
       @reconstruct R Num_R F (Some (scal z')) (Some (vec c)) 0 = Ok (vec e) /\
       length m = nb /\ length e = nb /\
       forall b h, (b < nb)%nat -> bounded A nt b z' h ->
         Rabs (nth b m 0 - nth b e 0 / (1 + bs)) <= 2 * growth u (nt + 10) * dot (map Rabs c) h / (1 + bs)).
Proof. exact L_C83_reconstruct. Qed.
Print Assumptions C83_reconstruct.

Example ex_C83_reconstruct : ready r_fitter r_tab 2 1 /\ grid_ok (a_x r_tab) /\ bounded r_tab 1 1 (/ 2) [4] /\
  growth (bpow radix2 (-24)) 11 <= / 1000000 /\
  exists m, @reconstruct R Num_24 r_fitter (Some (scal (/ 2))) (Some (vec [2])) (/ 10) = Ok (vec m).
Proof. exact E_C83_reconstruct. Qed.

(** If neighbouring grid tables differ by a factor of at most kappa in every entry and the coefficients are nonnegative and
    not all 0, each flux returned has a relative error of at most 2 kappa times the growth of nt + 10 roundings. *)
Theorem C83_relative : forall u (N : Num R) (F : fitter R) A nb nt z c bs kappa,
  0 <= u < 1 -> std_model u N -> ready F A nb nt -> grid_ok (a_x A) -> length c = nt -> 0 <= z -> -1 < bs ->
  gentle kappa A nb nt -> nonneg c -> 0 < fold_right Rplus 0 c ->
  exists z', Rabs (z' - ((1 + z) * (1 + bs) - 1)) <= growth u 5 * ((1 + z) * (1 + bs) + 1) /\
    (in_range (a_x A) z' -> exists m e,
       @reconstruct R N F (Some (scal z)) (Some (vec c)) bs = Ok (vec m) /\
       @reconstruct R Num_R F (Some (scal z')) (Some (vec c)) 0 = Ok (vec e) /\
       length m = nb /\ length e = nb /\
       forall b, (b < nb)%nat -> 0 < nth b e 0 /\
         rel (2 * kappa * growth u (nt + 10)) (nth b m 0) (nth b e 0 / (1 + bs))).
Proof. exact L_C83_relative. Qed.
Print Assumptions C83_relative.

Example ex_C83_relative : ready r_fitter r_tab 2 1 /\ grid_ok (a_x r_tab) /\ gentle 3 r_tab 2 1 /\ nonneg [2] /\
  0 < fold_right Rplus 0 [2] /\ 2 * 3 * growth (bpow radix2 (-24)) (1 + 10) <= 6 / 1000000.
Proof. exact E_C83_relative. Qed.

(** kcorrect in an arithmetic that rounds: if the fluxes x, y that reconstruct and reconstruct_out compute have relative error
    at most eta (with respect to any X, Y), the K-correction is within 2.5 log10 of (1 + eta) / (1 - eta), plus the rounding of
    three operations, of -2.5 log10(X / Y). *)
Theorem C83_kcorrect : forall u (N : Num R) (K : kcor R) A Ao nb no nt z c bs x y,
  0 <= u < 1 -> std_model u N -> std_log u N -> rounding N -> @kready R N K A Ao nb no nt -> length c = nt ->
  nonneg c -> 0 < fold_right Rplus 0 c ->
  @reconstruct R N (k_fit K) (Some (scal z)) (Some (vec c)) 0 = Ok x ->
  @reconstruct_out R N K (Some (scal 0)) (Some (vec c)) bs = Ok y ->
  exists v, @kcorrect R N K (Some (scal z)) (Some (vec c)) bs = Ok (vec v) /\ length v = no /\
    forall j eta X Y, (j < no)%nat -> 0 <= eta < 1 -> 0 < X -> 0 < Y ->
      rel eta (nth (in_band K j) (dat x) 0) X -> rel eta (nth j (dat y) 0) Y ->
      Rabs (nth j v 0 - - (5 / 2) * log10 (X / Y)) <=
        5 / 2 * (log10 ((1 + eta) / (1 - eta) / (1 - u)) * (1 + growth u 2) + Rabs (log10 (X / Y)) * growth u 2).
Proof. exact L_C83_kcorrect. Qed.
Print Assumptions C83_kcorrect.

Example ex_C83_kcorrect : kready r_kcor r_tab r_tab 2 2 1 /\ nonneg [2] /\ 0 < fold_right Rplus 0 [2] /\
  rel (/ 10) 21 20 /\ rel (/ 10) 19 20.
Proof. exact E_C83_kcorrect. Qed.

(** End to end: with gentle tables, kcorrect returns -2.5 log10 of the ratio of the exact fluxes, at redshifts z1, z2 that are
    the rounded redshift and the rounded band shift, to the accuracy of the previous theorems. *)
Theorem C83_kcorrect_tables : forall u (N : Num R) (K : kcor R) A Ao nb no nt z c bs kappa,
  0 <= u < 1 -> std_model u N -> std_log u N -> rounding N -> @kready R N K A Ao nb no nt -> length c = nt ->
  grid_ok (a_x A) -> grid_ok (a_x Ao) -> gentle kappa A nb nt -> gentle kappa Ao no nt ->
  nonneg c -> 0 < fold_right Rplus 0 c -> 0 <= z -> -1 < bs ->
  let eta := 2 * kappa * growth u (nt + 10) in 0 <= eta < 1 ->
  exists z1 z2, Rabs (z1 - z) <= growth u 5 * (2 + z) /\ Rabs (z2 - bs) <= growth u 5 * (2 + bs) /\
    (in_range (a_x A) z1 -> in_range (a_x Ao) z2 -> exists v e1 e2,
       @kcorrect R N K (Some (scal z)) (Some (vec c)) bs = Ok (vec v) /\
       @reconstruct R Num_R (k_fit K) (Some (scal z1)) (Some (vec c)) 0 = Ok (vec e1) /\
       @reconstruct_out R Num_R K (Some (scal z2)) (Some (vec c)) 0 = Ok (vec e2) /\
       length v = no /\ length e1 = nb /\ length e2 = no /\
       forall j, (j < no)%nat ->
         let f1 := nth (in_band K j) e1 0 in
         let f2 := nth j e2 0 / (1 + bs) in
         0 < f1 /\ 0 < f2 /\
         Rabs (nth j v 0 - - (5 / 2) * log10 (f1 / f2)) <=
           5 / 2 * (log10 ((1 + eta) / (1 - eta) / (1 - u)) * (1 + growth u 2) + Rabs (log10 (f1 / f2)) * growth u 2)).
Proof. exact L_C83_kcorrect_tables. Qed.
Print Assumptions C83_kcorrect_tables.

Example ex_C83_kcorrect_tables : kready r_kcor r_tab r_tab 2 2 1 /\
  0 <= 2 * 3 * growth (bpow radix2 (-24)) (1 + 10) < 1 /\
  exists v, @kcorrect R Num_24 r_kcor (Some (scal (/ 2))) (Some (vec [2])) (/ 10) = Ok (vec v).
Proof. exact E_C83_kcorrect_tables. Qed.

(** absmag in an arithmetic that rounds: in a band of positive maggies and inverse variance the result is within the roundings
    of seven operations of -2.5 log10(maggies) - DM - K, DM being the distance modulus of the float32 redshift and K the
    K-correction computed. *)
Theorem C83_absmag : forall u (N : Num R) distmod (K : kcor R) A Ao nb no nt bs l k o ks,
  0 <= u < 1 -> std_model u N -> std_log u N -> rounding N -> @kready R N K A Ao nb no nt -> @no_ab R N (k_fit K) ->
  kobj_ok nb nt o ->
  @kcorrect R N K (Some (scal (ko_z o))) (Some (vec (ko_c o))) bs = Ok (vec ks) ->
  exists v a, @absmag_object R N distmod K bs false false l k o = Ok a /\ nth_error (parts a) 0 = Some (vec v) /\ length v = no /\
    forall j, (j < no)%nat ->
      let m := nth (in_band K j) (ko_m o) 0 in
      let dm := distmod (@cst R N (ko_z o)) in
      0 < m -> 0 < nth (in_band K j) (ko_iv o) 0 ->
      Rabs (nth j v 0 - (- (5 / 2) * log10 m - dm - nth j ks 0)) <=
        5 / 2 * log10 (/ (1 - u)) * (1 + growth u 6) + growth u 6 * (5 / 2 * Rabs (log10 m) + Rabs dm + Rabs (nth j ks 0)).
Proof. exact L_C83_absmag. Qed.
Print Assumptions C83_absmag.

Example ex_C83_absmag : kready r_kcor r_tab r_tab 2 2 1 /\ no_ab (k_fit r_kcor) /\
  (exists ks, @kcorrect R Num_24 r_kcor (Some (scal (/ 2))) (Some (vec [2])) (/ 10) = Ok (vec ks)) /\
  growth (bpow radix2 (-24)) 6 <= / 1000000.
Proof. exact E_C83_absmag. Qed.

(** C83.  Whatever the order in which the terms of a sum are added, the result misses the exact sum by at most
    ((1-u)^-(n-1) - 1) times the sum of the magnitudes. *)
Theorem C83_any_order : forall u (N : Num R) o, 0 <= u < 1 -> std_model u N ->
  Rabs (total N o - fold_right Rplus 0 (terms o)) <= growth u (length (terms o) - 1) * fold_right Rplus 0 (map Rabs (terms o)).
Proof. exact L_C83_any_order. Qed.
Print Assumptions C83_any_order.

Example ex_C83_any_order :
  std_model (bpow radix2 (-24)) Num_24 /\
  total Num_24 (Plus (Plus (Term 1) (Term (bpow radix2 (-30)))) (Term (-1))) = 0 /\
  total Num_24 (Plus (Plus (Term 1) (Term (-1))) (Term (bpow radix2 (-30)))) = bpow radix2 (-30).
Proof. exact E_C83_any_order. Qed.

(** C83.  The sums of the model add from the left, starting with 0.  Any other order of the same terms gives a result that
    differs by at most twice that error. *)
Theorem C83_left_fold : forall u (N : Num R) l o, 0 <= u < 1 -> std_model u N -> Permutation (terms o) l ->
  Rabs (fold_left (@nadd R N) l (@n0 R N) - total N o) <= 2 * growth u (length l) * fold_right Rplus 0 (map Rabs l).
Proof. exact L_C83_left_fold. Qed.
Print Assumptions C83_left_fold.

Example ex_C83_left_fold :
  Permutation (terms (Plus (Term 3) (Plus (Term 1) (Term 2)))) [1; 2; 3] /\
  total Num_24 (Plus (Term 3) (Plus (Term 1) (Term 2))) = 6.
Proof. exact E_C83_left_fold. Qed.
