(** Property theorems; proofs are in UtilsRoundThms.v.  Generated by tools/gen_prop.py. *)
From Coq Require Import List Arith Lia Bool ZArith QArith Qreals Reals Lra.
From Flocq Require Import Core.
From Verif Require Import Base BaseLemmas Num Spec Utils RoundSpec UtilsRoundSpec.
Import ListNotations.
Local Open Scope R_scope.
From Verif Require Import UtilsRoundThms.

(** C113. Rounding every operation to 24-bit significands (float32 without underflow and overflow; the functions exact) meets
    the standard model with u = 2^-24. *)
Theorem C113_model : std_model (bpow radix2 (-24)) Num_24 /\ std_fun (bpow radix2 (-24)) Num_24.
Proof. exact L_C113_model. Qed.
Print Assumptions C113_model.

Example ex_C113_model : 0 <= bpow radix2 (-24) < 1 /\ growth (bpow radix2 (-24)) 4 < / 1000000.
Proof. exact E_C113_model. Qed.

(** C113. sdss_ab_correct: every corrected flux is the documented one, maggies * 10^(-0.4 abfix), up to four roundings and the
    three roundings of the exponent; every corrected inverse variance likewise with six roundings, the factor being squared. *)
Theorem C113_ab_correct : forall u (N : Num R) (maggies ivar abfix : nd R),
  0 <= u < 1 -> std_model u N -> std_fun u N ->
  wf maggies -> wf ivar -> wf abfix -> shp abfix = [5%nat] -> shp maggies <> [] -> lastd (shp maggies) = 5%nat ->
  shp ivar = shp maggies ->
  exists am ai, @sdss_ab_correct R N maggies (Some ivar) abfix = Ok (am, Some ai) /\
    shp am = shp maggies /\ shp ai = shp maggies /\ wf am /\ wf ai /\
    forall j, (j < size (shp maggies))%nat ->
      let a := nth (j mod 5) (dat abfix) 0 in
      rel (mag_growth u 4 1 a) (nth j (dat am) 0) (nth j (dat maggies) 0 * pow10 (-0.4 * a)) /\
      rel (mag_growth u 6 2 a) (nth j (dat ai) 0) (nth j (dat ivar) 0 / pow10 (-0.4 * a) ^ 2).
Proof. exact L_C113_ab_correct. Qed.
Print Assumptions C113_ab_correct.

Example ex_C113_ab_correct : exists am ai,
  @sdss_ab_correct R Num_24 (vec [1; 2; 3; 4; 5]) (Some (vec [4; 4; 4; 4; 4])) (vec [-0.036; 0.012; 0.010; 0.028; 0.040]) = Ok (am, Some ai) /\
  rel (mag_growth (bpow radix2 (-24)) 4 1 0.010) (nth 2 (dat am) 0) (3 * pow10 (-0.4 * 0.010)) /\
  rel (mag_growth (bpow radix2 (-24)) 6 2 0.010) (nth 2 (dat ai) 0) (4 / pow10 (-0.4 * 0.010) ^ 2).
Proof. exact E_C113_ab_correct. Qed.

(** C113. maggies2flambda: the flux densities are the documented ones, maggies times the AB spectrum at the effective
    wavelength, up to nine roundings; their inverse variances up to eighteen. *)
Theorem C113_flambda : forall u (N : Num R) (leff : list R) (maggies ivar : nd R) (n : nat),
  0 <= u < 1 -> std_model u N -> std_fun u N -> Forall (fun w => w <> 0) leff ->
  shp maggies = [length leff] \/ shp maggies = [n; length leff] -> wf maggies -> wf ivar -> shp ivar = shp maggies ->
  exists wave f fi, @maggies2flambda_core R N leff maggies (Some ivar) = Ok (wave, f, Some fi) /\
    Forall2 (rel u) wave leff /\ shp f = shp maggies /\ shp fi = shp maggies /\
    forall j, (j < size (shp maggies))%nat ->
      let c := ab_flux (nth (j mod length leff) leff 0) in
      rel (growth u 9) (nth j (dat f) 0) (nth j (dat maggies) 0 * c) /\
      rel (growth u 18) (nth j (dat fi) 0) (nth j (dat ivar) 0 / c ^ 2).
Proof. exact L_C113_flambda. Qed.
Print Assumptions C113_flambda.

Example ex_C113_flambda : exists wave f fi,
  @maggies2flambda_core R Num_24 [4000; 6000] (mk [2; 2]%nat [1; 2; 3; 4]) (Some (mk [2; 2]%nat [4; 4; 4; 4])) = Ok (wave, f, Some fi) /\
  rel (growth (bpow radix2 (-24)) 9) (nth 3 (dat f) 0) (4 * ab_flux 6000).
Proof. exact E_C113_flambda. Qed.

(** C113. error_floor: whichever way the comparison with the floor is decided, every inverse variance is the documented one, the
    smaller of the given one and that of the floor, up to eleven roundings. *)
Theorem C113_floor : forall u (N : Num R) (store : R -> R) (floor maggies ivar : nd R),
  0 <= u < 1 -> std_model u N -> std_fun u N -> (forall x, rel u (store x) x) ->
  wf floor -> wf maggies -> wf ivar -> shp maggies <> [] -> (ndim maggies <= 2)%nat ->
  shp floor = [lastd (shp maggies)] -> shp ivar = shp maggies ->
  exists out, @error_floor R N store floor maggies ivar = Ok out /\ shp out = shp maggies /\
    forall j, (j < size (shp maggies))%nat ->
      let fl := nth (j mod lastd (shp maggies)) (dat floor) 0 in
      let m := nth j (dat maggies) 0 in let v := nth j (dat ivar) 0 in
      (v <= 0 -> nth j (dat out) 0 = v) /\
      (0 < v -> 0 < fl -> m <> 0 -> rel (growth u 11) (nth j (dat out) 0) (Rmin v (1 / (fl * m) ^ 2))).
Proof. exact L_C113_floor. Qed.
Print Assumptions C113_floor.

Example ex_C113_floor : exists out,
  @error_floor R Num_24 rnd24 (vec [0.02; 0.05]) (vec [1; 2]) (vec [10000; 0]) = Ok out /\
  rel (growth (bpow radix2 (-24)) 11) (nth 0 (dat out) 0) (Rmin 10000 (1 / (0.02 * 1) ^ 2)) /\ nth 1 (dat out) 0 = 0.
Proof. exact E_C113_floor. Qed.

(** C113. sdss_asinh_to_maggies: the fluxes and inverse variances are, up to ten and 29 roundings, those of magnitudes that
    differ from the given ones by at most seven roundings of the magnitude and of the magnitude of no flux. *)
Theorem C113_asinh : forall u (N : Num R) (mag err ext : nd R),
  0 <= u <= 1 / 2 -> std_model u N -> std_fun u N ->
  wf mag -> wf err -> wf ext -> shp mag <> [] -> lastd (shp mag) = 5%nat -> shp err = shp mag -> shp ext = shp mag ->
  exists f fi, @sdss_asinh_to_maggies R N mag (Some err) (Some ext) = Ok (f, Some fi) /\ shp f = shp mag /\ shp fi = shp mag /\
    forall j, (j < size (shp mag))%nat ->
      let b := soft (j mod 5) in let m := nth j (dat mag) 0 in let x := nth j (dat ext) 0 in let e := nth j (dat err) 0 in
      exists m', Rabs (m' - m) <= growth u 7 * (Rabs m + mag0 b) /\
        rel (mag_growth u 10 1 x) (nth j (dat f) 0) (asinh_flux b m' * pow10 (0.4 * x)) /\
        (e <> 0 -> rel (growth u 29) (nth j (dat fi) 0) (1 / (asinh_slope b m' * e) ^ 2)).
Proof. exact L_C113_asinh. Qed.
Print Assumptions C113_asinh.

Example ex_C113_asinh : exists f fi,
  @sdss_asinh_to_maggies R Num_24 (vec [20; 21; 22; 23; 24]) (Some (vec [0.1; 0.1; 0.1; 0.1; 0.1])) (Some (vec [0.2; 0.2; 0.2; 0.2; 0.2])) = Ok (f, Some fi) /\
  exists m', Rabs (m' - 22) <= growth (bpow radix2 (-24)) 7 * (22 + mag0 (1.2 / 10 ^ 10)) /\
    rel (mag_growth (bpow radix2 (-24)) 10 1 0.2) (nth 2 (dat f) 0) (asinh_flux (1.2 / 10 ^ 10) m' * pow10 (0.4 * 0.2)).
Proof. exact E_C113_asinh. Qed.
