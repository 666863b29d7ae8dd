(** Vocabulary for the rounding errors of the design-matrix arithmetic (C83). *)
From Coq Require Import List Arith ZArith QArith Qreals Reals.
From Flocq Require Import Core.
From Verif Require Import Base Num Spec Interp Fitter FitSpec.
Import ListNotations.
Local Open Scope R_scope.

(** [x] is [y] with a relative error of at most [u]. *)
Definition rel (u x y : R) : Prop := Rabs (x - y) <= u * Rabs y.

(** The standard model of floating-point arithmetic: every operation (and every conversion) returns the exact result with a
    relative error of at most [u]; 0, 1 and comparisons are exact.  This is what IEEE arithmetic does in the absence of
    underflow and overflow, with u = 2^-24 for float32 and 2^-53 for float64; code that mixes the two is covered by the
    larger u.  Operations not mentioned are unconstrained. *)
Record std_model (u : R) (N : Num R) : Prop := {
  std_0 : @n0 R N = 0;
  std_1 : @n1 R N = 1;
  std_lt : forall a b, @nltb R N a b = Rltb a b;
  std_le : forall a b, @nleb R N a b = Rleb a b;
  std_add : forall a b, rel u (@nadd R N a b) (a + b);
  std_sub : forall a b, rel u (@nsub R N a b) (a - b);
  std_mul : forall a b, rel u (@nmul R N a b) (a * b);
  std_div : forall a b, b <> 0 -> rel u (@ndiv R N a b) (a / b);
  std_cst : forall a, rel u (@cst R N a) a
}.

(** The same for the magnitudes: the float literals are exact up to rounding, -5/2 exactly, and log10 has a relative error
    of at most [u]. *)
Record std_log (u : R) (N : Num R) : Prop := {
  std_lit0 : @nlit R N (0 # 1) = 0;
  std_lit25 : @nlit R N (-(5) # 2) = - (5 / 2);
  std_log10 : forall a, 0 < a -> rel u (@nlog10 R N a) (log10 a)
}.

(** The growth of the error over [k] operations. *)
Definition growth (u : R) (k : nat) : R := (/ (1 - u)) ^ k - 1.

(** [h] bounds the flux of band [b] in every template at the grid redshifts on either side of [t]. *)
Definition bounded (A : atab R) (nt b : nat) (t : R) (h : list R) : Prop :=
  length h = nt /\
  forall k j, (S k < length (a_x A))%nat -> nth k (a_x A) 0 <= t <= nth (S k) (a_x A) 0 -> (j < nt)%nat ->
    Rabs (nth (b * nt + j) (nth k (a_rows A) []) 0) <= nth j h 0 /\
    Rabs (nth (b * nt + j) (nth (S k) (a_rows A) []) 0) <= nth j h 0.

(** Between neighbouring grid redshifts the (positive) flux of a template in a band changes by a factor of at most [kappa]. *)
Definition gentle (kappa : R) (A : atab R) (nb nt : nat) : Prop :=
  forall k i, (S k < length (a_x A))%nat -> (i < nb * nt)%nat ->
    let y := nth i (nth k (a_rows A) []) 0 in
    let y' := nth i (nth (S k) (a_rows A) []) 0 in
    0 < y /\ 0 < y' /\ y <= kappa * y' /\ y' <= kappa * y.

(** Binary arithmetic with 24-bit significands and unbounded exponents: float32 without underflow and overflow. *)
Definition rnd24 (x : R) : R := round radix2 (FLX_exp 24) ZnearestE x.
Definition Num_24 : Num R := {|
  n0 := 0; n1 := 1;
  nadd := fun a b => rnd24 (a + b); nsub := fun a b => rnd24 (a - b);
  nmul := fun a b => rnd24 (a * b); ndiv := fun a b => rnd24 (a / b);
  nopp := Ropp; nabs := Rabs; nsqrt := fun a => rnd24 (sqrt a);
  nln := @nln R _; nlog10 := fun a => rnd24 (log10 a); nexp := @nexp R _; npow10 := @npow10 R _;
  nsinh := @nsinh R _; ncosh := @ncosh R _;
  nltb := Rltb; nleb := Rleb;
  nlit := fun q => rnd24 (@nlit R _ q);
  npi := rnd24 PI;
  nfin := fun _ => true;
  cst := rnd24
|}.

(** The additions of a sum in some order: numpy and BLAS may group the terms of a dot product in any way, the model always
    adds from the left. *)
Inductive order : Type :=
| Term (a : R)
| Plus (l r : order).
Fixpoint terms (o : order) : list R :=
  match o with Term a => [a] | Plus l r => terms l ++ terms r end.
Fixpoint total (N : Num R) (o : order) : R :=
  match o with Term a => a | Plus l r => @nadd R N (total N l) (total N r) end.
