(** Property theorems; proofs are in SteadyThms.v.  Generated by tools/gen_prop.py. *)
From Coq Require Import String List Arith Lia Bool ZArith QArith Qreals Reals Lra Sorting.Sorted.
From Flocq Require Import Core.
From Verif Require Import Base BaseLemmas Num Interp InterpReal Spec Fitter FitSpec FitterProofs FitterMC FitReal FitTable FitEx
  FitRealEx FitterThms FitRealThms Kcorrect KSpec KTable KEx KcorrectProofs KcorrectThms AbsmagProofs RoundSpec RoundProofs SteadySpec.
Import ListNotations.
Local Open Scope R_scope.
From Verif Require Import SteadyThms.

(** C92.  If between neighbouring grid redshifts every entry of the design matrix changes by at most a fraction [L] per unit redshift,
    the fluxes at two redshifts differ by at most that, too. *)
Theorem C92_reconstruct : forall (F : fitter R) A nb nt L z1 z2 c bs,
  ready F A nb nt -> grid_ok (a_x A) -> 0 <= L -> steady L A nb nt -> length c = nt -> nonneg c -> 0 < fold_right Rplus 0 c -> -1 < bs ->
  in_range (a_x A) ((1 + z1) * (1 + bs) - 1) -> in_range (a_x A) ((1 + z2) * (1 + bs) - 1) ->
  exists p1 p2, reconstruct F (Some (scal z1)) (Some (vec c)) bs = Ok (vec p1) /\ reconstruct F (Some (scal z2)) (Some (vec c)) bs = Ok (vec p2) /\
    length p1 = nb /\ length p2 = nb /\
    forall b, (b < nb)%nat -> 0 < nth b p1 0 /\ 0 < nth b p2 0 /\
      Rabs (ln (nth b p1 0 / nth b p2 0)) <= L * (1 + bs) * Rabs (z1 - z2).
Proof. exact L_C92_reconstruct. Qed.
Print Assumptions C92_reconstruct.

Example ex_C92_reconstruct : ready r_fitter r_tab 2 1 /\ grid_ok (a_x r_tab) /\ steady 2 r_tab 2 1 /\ nonneg [2] /\ 0 < fold_right Rplus 0 [2] /\
  in_range (a_x r_tab) ((1 + 1 / 5) * (1 + 1 / 10) - 1) /\ in_range (a_x r_tab) ((1 + 1 / 4) * (1 + 1 / 10) - 1).
Proof. exact E_C92_reconstruct. Qed.

(** K-corrections at two redshifts and band shifts. *)
Theorem C92_kcorrect : forall (K : kcor R) A Ao nb no nt L Lo z1 z2 c bs1 bs2,
  kready K A Ao nb no nt -> grid_ok (a_x A) -> grid_ok (a_x Ao) -> 0 <= L -> 0 <= Lo -> steady L A nb nt -> steady Lo Ao no nt ->
  length c = nt -> nonneg c -> 0 < fold_right Rplus 0 c ->
  -1 < bs1 -> -1 < bs2 -> in_range (a_x A) z1 -> in_range (a_x A) z2 -> in_range (a_x Ao) bs1 -> in_range (a_x Ao) bs2 ->
  exists v1 v2, kcorrect K (Some (scal z1)) (Some (vec c)) bs1 = Ok (vec v1) /\ kcorrect K (Some (scal z2)) (Some (vec c)) bs2 = Ok (vec v2) /\
    length v1 = no /\ length v2 = no /\
    forall j, (j < no)%nat ->
      Rabs (nth j v1 0 - nth j v2 0) <= 5 / 2 / ln 10 * (L * Rabs (z1 - z2) + Lo * Rabs (bs1 - bs2) + Rabs (ln ((1 + bs1) / (1 + bs2)))).
Proof. exact L_C92_kcorrect. Qed.
Print Assumptions C92_kcorrect.

Example ex_C92_kcorrect : kready r_kcor r_tab r_tab 2 2 1 /\ steady 2 r_tab 2 1 /\ in_range (a_x r_tab) (1 / 5) /\ in_range (a_x r_tab) (1 / 4) /\
  in_range (a_x r_tab) (1 / 10).
Proof. exact E_C92_kcorrect. Qed.

(** Absolute magnitudes from the same photometry and coefficients at two redshifts: besides the difference of the distance moduli. *)
Theorem C92_absmag : forall distmod (K : kcor R) A Ao nb no nt L Lo z1 z2 m iv c dist bs lim kc,
  kready K A Ao nb no nt -> no_ab (k_fit K) -> grid_ok (a_x A) -> grid_ok (a_x Ao) -> 0 <= L -> 0 <= Lo -> steady L A nb nt -> steady Lo Ao no nt ->
  length m = nb -> length iv = nb -> length c = nt -> nonneg c -> 0 < fold_right Rplus 0 c ->
  -1 < bs -> in_range (a_x A) z1 -> in_range (a_x A) z2 -> in_range (a_x Ao) bs ->
  let o z := {| ko_z := z; ko_m := m; ko_iv := iv; ko_c := c; ko_d := dist |} in
  exists v1 v2 a1 a2, absmag_object distmod K bs false false lim kc (o z1) = Ok a1 /\ absmag_object distmod K bs false false lim kc (o z2) = Ok a2 /\
    nth_error (parts a1) 0 = Some (vec v1) /\ nth_error (parts a2) 0 = Some (vec v2) /\ length v1 = no /\ length v2 = no /\
    forall j, (j < no)%nat -> 0 < nth (in_band K j) m 0 -> 0 < nth (in_band K j) iv 0 ->
      Rabs ((nth j v1 0 + distmod z1) - (nth j v2 0 + distmod z2)) <= 5 / 2 / ln 10 * (L * Rabs (z1 - z2)).
Proof. exact L_C92_absmag. Qed.
Print Assumptions C92_absmag.

Example ex_C92_absmag : kready r_kcor r_tab r_tab 2 2 1 /\ no_ab (k_fit r_kcor) /\ steady 2 r_tab 2 1 /\ in_range (a_x r_tab) (1 / 5) /\
  in_range (a_x r_tab) (1 / 4) /\ in_range (a_x r_tab) (1 / 10) /\ nonneg [2] /\ 0 < fold_right Rplus 0 [2].
Proof. exact E_C92_absmag. Qed.

(** In any arithmetic with relative errors of [u], kcorrect is within the bound of C83 plus the effect of rounding the redshift and
    the band shift of what it is in exact arithmetic {e at the same redshift and band shift}. *)
Theorem C92_rounded : forall u (N : Num R) (K : kcor R) A Ao nb no nt z c bs kappa L Lo,
  0 <= u < 1 -> std_model u N -> std_log u N -> rounding N -> @kready R N K A Ao nb no nt -> length c = nt ->
  grid_ok (a_x A) -> grid_ok (a_x Ao) -> gentle kappa A nb nt -> gentle kappa Ao no nt ->
  0 <= L -> 0 <= Lo -> steady L A nb nt -> steady Lo Ao no nt ->
  nonneg c -> 0 < fold_right Rplus 0 c -> 0 <= z -> -1 < bs ->
  in_range (a_x A) z -> in_range (a_x Ao) bs ->
  (forall z', Rabs (z' - z) <= growth u 5 * (2 + z) -> in_range (a_x A) z') ->
  (forall z', Rabs (z' - bs) <= growth u 5 * (2 + bs) -> in_range (a_x Ao) z') ->
  let eta := 2 * kappa * growth u (nt + 10) in 0 <= eta < 1 ->
  exists v w, @kcorrect R N K (Some (scal z)) (Some (vec c)) bs = Ok (vec v) /\
    @kcorrect R Num_R K (Some (scal z)) (Some (vec c)) bs = Ok (vec w) /\ length v = no /\ length w = no /\
    forall j, (j < no)%nat ->
      let d := 5 / 2 / ln 10 * (L * (growth u 5 * (2 + z)) + Lo * (growth u 5 * (2 + bs))) in
      Rabs (nth j v 0 - nth j w 0) <=
        d + 5 / 2 * log10 ((1 + eta) / (1 - eta) / (1 - u)) * (1 + growth u 2) + growth u 2 * (Rabs (nth j w 0) + d).
Proof. exact L_C92_rounded. Qed.
Print Assumptions C92_rounded.

Example ex_C92_rounded : 0 <= bpow radix2 (-24) < 1 /\ std_model (bpow radix2 (-24)) Num_24 /\ std_log (bpow radix2 (-24)) Num_24 /\
  kready r_kcor r_tab r_tab 2 2 1 /\ gentle 3 r_tab 2 1 /\ steady 2 r_tab 2 1 /\
  (forall z', Rabs (z' - / 2) <= growth (bpow radix2 (-24)) 5 * (2 + / 2) -> in_range (a_x r_tab) z') /\
  (forall z', Rabs (z' - / 10) <= growth (bpow radix2 (-24)) 5 * (2 + / 10) -> in_range (a_x r_tab) z').
Proof. exact E_C92_rounded. Qed.
