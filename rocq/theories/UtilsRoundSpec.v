(** Vocabulary for the rounding errors of the photometry utilities (C113). *)
From Coq Require Import List Arith QArith Qreals Reals.
From Verif Require Import Base Num RoundSpec.
Import ListNotations.
Local Open Scope R_scope.

(** The standard model (RoundSpec.v) for what utils.py uses besides the four operations: literals, square roots, logarithms,
    powers of ten and hyperbolic functions have a relative error of at most [u]; negation and absolute values are exact. *)
Record std_fun (u : R) (N : Num R) : Prop := {
  fun_lit : forall q, rel u (@nlit R N q) (Q2R q);
  fun_opp : forall a, @nopp R N a = - a;
  fun_abs : forall a, @nabs R N a = Rabs a;
  fun_sqrt : forall a, 0 <= a -> rel u (@nsqrt R N a) (sqrt a);
  fun_ln : forall a, 0 < a -> rel u (@nln R N a) (ln a);
  fun_pow10 : forall a, rel u (@npow10 R N a) (pow10 a);
  fun_sinh : forall a, rel u (@nsinh R N a) (sinh a);
  fun_cosh : forall a, rel u (@ncosh R N a) (cosh a)
}.

(** The error of [k] roundings of a flux that is scaled by 10^(+-0.4 x) [p] times, where 0.4 x is itself the result of three
    roundings: those are amplified by the size of [x]. *)
Definition mag_growth (u : R) (k p : nat) (x : R) : R :=
  (1 + growth u k) * pow10 (INR p * (0.4 * Rabs x * growth u 3)) - 1.

(** The softening parameters of the SDSS asinh magnitudes (utils.py:293-294). *)
Definition soft (k : nat) : R :=
  nth k [1.4 / 10 ^ 10; 0.9 / 10 ^ 10; 1.2 / 10 ^ 10; 1.8 / 10 ^ 10; 7.4 / 10 ^ 10] 0.
(** The asinh magnitude of no flux. *)
Definition mag0 (b : R) : R := - 2.5 * log10 b.
(** The flux of an asinh magnitude [m]: 2 b sinh(0.4 ln 10 (mag0 - m)), and what its derivative is made of. *)
Definition asinh_flux (b m : R) : R := 2 * b * sinh (0.4 * ln 10 * (mag0 b - m)).
Definition asinh_slope (b m : R) : R := 2 * b * cosh (0.4 * ln 10 * (mag0 b - m)) * (0.4 * ln 10).
