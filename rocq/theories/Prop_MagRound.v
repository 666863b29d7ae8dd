(** Property theorems; proofs are in MagRoundThms.v.  Generated by tools/gen_prop.py. *)
From Coq Require Import String List Arith Lia Bool ZArith QArith Qreals Reals Lra.
From Flocq Require Import Core.
From Verif Require Import Base BaseLemmas Num Spec Interp Fitter FitSpec FitRealEx Kcorrect KSpec KEx RoundSpec UtilsRoundSpec.
Import ListNotations.
Local Open Scope R_scope.
From Verif Require Import MagRoundThms.

(** C117.  The absolute magnitude limit in an arithmetic that rounds: in a band of positive inverse variance it is within the
    roundings of three operations on the flux and six on the magnitude of -2.5 log10(1/sqrt(ivar)) - DM - K, DM being the
    distance modulus of the float32 redshift and K the K-correction computed; in the other bands it is exactly the float for
    -9999. *)
Theorem C117_limit : forall u (N : Num R) distmod (K : kcor R) A Ao nb no nt bs k o ks,
  0 <= u < 1 -> std_model u N -> std_log u N -> std_fun u N -> rounding N -> @kready R N K A Ao nb no nt -> @no_ab R N (k_fit K) ->
  kobj_ok nb nt o ->
  @kcorrect R N K (Some (scal (ko_z o))) (Some (vec (ko_c o))) bs = Ok (vec ks) ->
  exists v a, @absmag_object R N distmod K bs false false true k o = Ok a /\ nth_error (parts a) 1 = Some (vec v) /\ length v = no /\
    forall j, (j < no)%nat ->
      let iv := nth (in_band K j) (ko_iv o) 0 in
      let dm := distmod (@cst R N (ko_z o)) in
      (0 < iv ->
        Rabs (nth j v 0 - (- (5 / 2) * log10 (1 / sqrt iv) - dm - nth j ks 0)) <=
          5 / 2 * (3 * log10 (/ (1 - u))) * (1 + growth u 6) +
          growth u 6 * (5 / 2 * Rabs (log10 (1 / sqrt iv)) + Rabs dm + Rabs (nth j ks 0))) /\
      (iv <= 0 -> nth j v 0 = @nlit R N (-(9999) # 1)).
Proof. exact L_C117_limit. Qed.
Print Assumptions C117_limit.

Example ex_C117_limit : kready r_kcor r_tab r_tab 2 2 1 /\ no_ab (k_fit r_kcor) /\
  (exists ks, @kcorrect R Num_24 r_kcor (Some (scal (/ 2))) (Some (vec [2])) (/ 10) = Ok (vec ks)) /\
  kobj_ok 2 1 {| ko_z := / 2; ko_m := [1; 2]; ko_iv := [4; 0]; ko_c := [2]; ko_d := 0 |} /\
  std_fun (bpow radix2 (-24)) Num_24 /\ growth (bpow radix2 (-24)) 6 <= / 1000000.
Proof. exact E_C117_limit. Qed.

(** The reconstructed absolute magnitude: if the flux that reconstruct_out computes has relative error at most eta with
    respect to Y > 0 (as L_C83_relative shows), it is within 2.5 log10(1/(1-eta)) plus six roundings of
    -2.5 log10(Y) - DM - K; where the flux computed is not positive it is exactly the float for -9999. *)
Theorem C117_reconstructed : forall u (N : Num R) distmod (K : kcor R) A Ao nb no nt bs l k o ks om,
  0 <= u < 1 -> std_model u N -> std_log u N -> rounding N -> @kready R N K A Ao nb no nt -> @no_ab R N (k_fit K) ->
  kobj_ok nb nt o ->
  @kcorrect R N K (Some (scal (ko_z o))) (Some (vec (ko_c o))) bs = Ok (vec ks) ->
  @reconstruct_out R N K (Some (scal (ko_z o))) (Some (vec (ko_c o))) bs = Ok (vec om) ->
  exists v a, @absmag_object R N distmod K bs false true l k o = Ok a /\ nth_error (parts a) 1 = Some (vec v) /\ length v = no /\
    forall j, (j < no)%nat ->
      let dm := distmod (@cst R N (ko_z o)) in
      (forall eta Y, 0 <= eta < 1 -> 0 < Y -> rel eta (nth j om 0) Y ->
        Rabs (nth j v 0 - (- (5 / 2) * log10 Y - dm - nth j ks 0)) <=
          5 / 2 * log10 (/ (1 - eta)) * (1 + growth u 6) +
          growth u 6 * (5 / 2 * Rabs (log10 Y) + Rabs dm + Rabs (nth j ks 0))) /\
      (nth j om 0 <= 0 -> nth j v 0 = @nlit R N (-(9999) # 1)).
Proof. exact L_C117_reconstructed. Qed.
Print Assumptions C117_reconstructed.

Example ex_C117_reconstructed : kready r_kcor r_tab r_tab 2 2 1 /\ no_ab (k_fit r_kcor) /\
  (exists ks, @kcorrect R Num_24 r_kcor (Some (scal (/ 2))) (Some (vec [2])) (/ 10) = Ok (vec ks)) /\
  (exists om, @reconstruct_out R Num_24 r_kcor (Some (scal (/ 2))) (Some (vec [2])) (/ 10) = Ok (vec om)) /\
  kobj_ok 2 1 {| ko_z := / 2; ko_m := [1; 2]; ko_iv := [4; 0]; ko_c := [2]; ko_d := 0 |}.
Proof. exact E_C117_reconstructed. Qed.

(** With an explicit distance of d > 0 Mpc absmag, in any arithmetic that rounds, is what a cosmology with a constant distance
    modulus D would give, for all flags; and D is within seven roundings of the distance and three of the modulus of
    5 log10(d / 10 pc). *)
Theorem C117_distance : forall u (N : Num R) distmod (K : kcor R) A Ao nb no nt bs r l k o,
  0 <= u < 1 -> std_model u N -> std_log u N -> std_fun u N -> rounding N -> @kready R N K A Ao nb no nt -> @no_ab R N (k_fit K) ->
  kobj_ok nb nt o -> 0 < ko_d o ->
  exists D, @absmag_object R N distmod K bs true r l k o = @absmag_object R N (fun _ => D) K bs false r l k o /\
    let exact := 5 * log10 (ko_d o / (1 / 100000)) in
    Rabs (D - exact) <= 5 / 2 * (7 * log10 (/ (1 - u))) * (1 + growth u 3) + growth u 3 * Rabs exact.
Proof. exact L_C117_distance. Qed.
Print Assumptions C117_distance.

Example ex_C117_distance : kready r_kcor r_tab r_tab 2 2 1 /\ no_ab (k_fit r_kcor) /\
  kobj_ok 2 1 {| ko_z := / 2; ko_m := [1; 2]; ko_iv := [4; 0]; ko_c := [2]; ko_d := 100 |} /\
  log10 (100 / (1 / 100000)) = 7.
Proof. exact E_C117_distance. Qed.

(** In a band without positive maggies or without positive inverse variance the absolute magnitude is exactly the float for
    -9999, whatever the roundings. *)
Theorem C117_missing : forall u (N : Num R) distmod (K : kcor R) A Ao nb no nt bs wd l k o ks,
  0 <= u < 1 -> std_model u N -> rounding N -> @kready R N K A Ao nb no nt -> @no_ab R N (k_fit K) -> kobj_ok nb nt o ->
  @kcorrect R N K (Some (scal (ko_z o))) (Some (vec (ko_c o))) bs = Ok (vec ks) ->
  exists v a, @absmag_object R N distmod K bs wd false l k o = Ok a /\ nth_error (parts a) 0 = Some (vec v) /\ length v = no /\
    forall j, (j < no)%nat -> nth (in_band K j) (ko_m o) 0 <= 0 \/ nth (in_band K j) (ko_iv o) 0 <= 0 ->
      nth j v 0 = @nlit R N (-(9999) # 1).
Proof. exact L_C117_missing. Qed.
Print Assumptions C117_missing.

Example ex_C117_missing : kready r_kcor r_tab r_tab 2 2 1 /\ no_ab (k_fit r_kcor) /\
  (exists ks, @kcorrect R Num_24 r_kcor (Some (scal (/ 2))) (Some (vec [2])) (/ 10) = Ok (vec ks)) /\
  kobj_ok 2 1 {| ko_z := / 2; ko_m := [1; -2]; ko_iv := [0; 4]; ko_c := [2]; ko_d := 0 |}.
Proof. exact E_C117_missing. Qed.
