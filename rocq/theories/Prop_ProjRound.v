(** Property theorems; proofs are in ProjRoundThms.v.  Generated by tools/gen_prop.py. *)
From Coq Require Import List Arith Lia Bool ZArith QArith Qreals Reals Lra Sorting.Sorted Sorting.Permutation.
From Flocq Require Import Core.
From Verif Require Import Base BaseLemmas Num Toy Interp InterpReal Spec Utils Sed Response ResponseProofs
  ResponseObj ResponseFwhm LinInterp ResponseEx RoundSpec ProjRoundSpec.
Import ListNotations.
Local Open Scope R_scope.
From Verif Require Import ProjRoundThms.

(** Arithmetic with 24-bit significands meets the condition on the literals. *)
Theorem C105_model : std_ab (bpow radix2 (-24)) Num_24.
Proof. exact L_C105_model. Qed.
Print Assumptions C105_model.

Example ex_C105_model : 0 <= bpow radix2 (-24) < 1 /\ @nlit R Num_24 (2 # 1) = 2.
Proof. exact E_C105_model. Qed.

(** C105.  Maggies computed with rounding against the maggies of exact arithmetic, for the same samples and interpolated values.
    The error of each of the two sums ([sum_error]) has a part proportional to the size of the integrand, and one proportional to its
    changes between neighbouring samples times the wavelength, the price of calling trapezoid(grid, integrand). *)
Theorem C105_project :
  forall u (N : Num R) cub (r : resp R) (s : sed R) w yy sw rows g,
    0 <= u < 1 -> std_model u N -> std_ab u N ->
    p_wave r = Some w -> p_interp r = Some {| ix := w; iys := [yy] |} ->
    s_wave s = sw -> s_interp s = Some {| ix := sw; iys := rows |} -> s_nsed s = length rows ->
    w <> [] -> Forall (fun t => 0 < t) w -> StronglySorted Rlt sw -> Forall (fun t => 0 < t) sw -> overlaps w sw -> is_grid w sw g ->
    let light row t := spline cub sw row t * spline cub w yy t * t in
    let ab t := ab_flux t * spline cub w yy t * t in
    let den := boundary_minus ab g in
    sum_error u ab g < Rabs den ->
    exists v v', @project_sed R Num_R cub r s = Ok v /\ @project_sed R N cub r s = Ok v' /\ shp v' = shp v /\
      forall k row, nth_error rows k = Some row ->
        let m := nth k (dat v) 0 in
        m = boundary_minus (light row) g / den /\
        Rabs (nth k (dat v') 0 - m) <=
          (1 + growth u 2) * (sum_error u (light row) g + Rabs m * sum_error u ab g) / (Rabs den - sum_error u ab g) + growth u 2 * Rabs m.
Proof. exact L_C105_project. Qed.
Print Assumptions C105_project.

(** For nonnegative integrands and a spectrum sampled beyond both ends of the band, [bulk] is the integral itself, so the error is
    relative: 7 roundings, and n + 3 roundings amplified by the ratio S of [swing] (and the small [spread] term) to the integral. *)
Theorem C105_relative :
  forall u (N : Num R) cub (r : resp R) (s : sed R) w yy sw rows g S,
    0 <= u < 1 -> std_model u N -> std_ab u N ->
    p_wave r = Some w -> p_interp r = Some {| ix := w; iys := [yy] |} ->
    s_wave s = sw -> s_interp s = Some {| ix := sw; iys := rows |} -> s_nsed s = length rows ->
    w <> [] -> Forall (fun t => 0 < t) w -> StronglySorted Rlt sw -> Forall (fun t => 0 < t) sw -> overlaps w sw -> brackets w sw -> is_grid w sw g ->
    let light row t := spline cub sw row t * spline cub w yy t * t in
    let ab t := ab_flux t * spline cub w yy t * t in
    let measured h := (forall t, In t g -> 0 <= h t) /\ swing h g + growth u 7 * spread h g <= S * trapezoid h g in
    let eta := growth u 7 + growth u (length g + 3) * S in
    measured ab -> 0 < trapezoid ab g -> 0 <= eta < 1 ->
    exists v v', @project_sed R Num_R cub r s = Ok v /\ @project_sed R N cub r s = Ok v' /\ shp v' = shp v /\
      forall k row, nth_error rows k = Some row -> measured (light row) ->
        nth k (dat v) 0 = trapezoid (light row) g / trapezoid ab g /\
        rel ((1 + growth u 2) * (2 * eta / (1 - eta)) + growth u 2) (nth k (dat v') 0) (nth k (dat v) 0).
Proof. exact L_C105_relative. Qed.
Print Assumptions C105_relative.

(** An integrand that rises up to a wavelength p and falls from there on changes by at most twice its maximum: [swing] is at most
    2 h(p) times the largest wavelength. *)
Theorem C105_swing :
  forall h g p, StronglySorted Rlt g -> Forall (fun t => 0 < t) g -> In p g -> (forall t, In t g -> 0 <= h t) ->
    (forall a b, In a g -> In b g -> a <= b <= p -> h a <= h b) -> (forall a b, In a g -> In b g -> p <= a <= b -> h b <= h a) ->
    swing h g <= 2 * h p * last g 0.
Proof. exact L_C105_swing. Qed.
Print Assumptions C105_swing.

Example ex_C105_project : exists r s, std_model (bpow radix2 (-24)) Num_24 /\ std_ab (bpow radix2 (-24)) Num_24 /\
  p_wave r = Some [1;2;3;4] /\ p_interp r = Some {| ix := [1;2;3;4]; iys := [[0;1;1;0]] |} /\
  s_wave s = [1/2;1;2;3;4;5] /\ s_interp s = Some {| ix := [1/2;1;2;3;4;5]; iys := [[1;1;2;2;1;1]] |} /\ s_nsed s = 1%nat /\
  overlaps [1;2;3;4] [1/2;1;2;3;4;5] /\ is_grid [1;2;3;4] [1/2;1;2;3;4;5] [1/2;1;2;3;4;5] /\
  let ab t := ab_flux t * spline lin [1;2;3;4] [0;1;1;0] t * t in
  sum_error (bpow radix2 (-24)) ab [1/2;1;2;3;4;5] < Rabs (boundary_minus ab [1/2;1;2;3;4;5]).
Proof. exact E_C105_project. Qed.

Example ex_C105_relative : exists r s, std_model (bpow radix2 (-24)) Num_24 /\ std_ab (bpow radix2 (-24)) Num_24 /\
  p_wave r = Some [1;2;3;4] /\ p_interp r = Some {| ix := [1;2;3;4]; iys := [[0;1;1;0]] |} /\
  s_wave s = [1/2;1;2;3;4;5] /\ s_interp s = Some {| ix := [1/2;1;2;3;4;5]; iys := [[1;1;2;2;1;1]] |} /\ s_nsed s = 1%nat /\
  brackets [1;2;3;4] [1/2;1;2;3;4;5] /\ is_grid [1;2;3;4] [1/2;1;2;3;4;5] [1/2;1;2;3;4;5] /\
  let u := bpow radix2 (-24) in let g := [1/2;1;2;3;4;5] in
  let ab t := ab_flux t * spline lin [1;2;3;4] [0;1;1;0] t * t in
  let light t := spline lin [1/2;1;2;3;4;5] [1;1;2;2;1;1] t * spline lin [1;2;3;4] [0;1;1;0] t * t in
  swing ab g + growth u 7 * spread ab g <= 4 * trapezoid ab g /\ swing light g + growth u 7 * spread light g <= 4 * trapezoid light g /\
  0 < trapezoid ab g /\ 0 <= growth u 7 + growth u (6 + 3) * 4 <= 5 / 1000000.
Proof. exact E_C105_relative. Qed.

Example ex_C105_swing : let h t := 3 - (t - 2) ^ 2 in let g := [1; 2; 3] in
  StronglySorted Rlt g /\ In 2 g /\ (forall t, In t g -> 0 <= h t) /\ swing h g = 4 /\ 2 * h 2 * last g 0 = 18.
Proof. exact E_C105_swing. Qed.
