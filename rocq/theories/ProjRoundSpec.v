(** Vocabulary for the rounding errors of projections (C105). *)
From Coq Require Import List Arith QArith Qreals Reals.
From Verif Require Import Base Num Spec RoundSpec.
Import ListNotations.
Local Open Scope R_scope.

(** The literals of trapezoid and of the AB spectrum: 2 is exact, the constants of utils.sed_ab have a relative error of at most
    [u]. *)
Record std_ab (u : R) (N : Num R) : Prop := {
  std_lit2 : @nlit R N (2 # 1) = 2;
  std_jy : rel u (@nlit R N (3631 # 100000)) (Q2R (3631 # 100000));
  std_c : rel u (@nlit R N (299792 # 100000)) (Q2R (299792 # 100000))
}.

(** Three measures of the integrand [h] on the grid [g].  [bulk]: the trapezoidal sum of its size, with the boundary terms that
    response.py's exchange of the arguments of trapezoid adds.  [swing]: its changes from sample to sample, times the wavelength.
    [spread]: its size, times the wavelength. *)
Definition bulk (h : R -> R) (g : list R) : R :=
  last g 0 * Rabs (h (last g 0)) + hd 0 g * Rabs (h (hd 0 g)) + trapezoid (fun t => Rabs (h t)) g.
Fixpoint swing (h : R -> R) (g : list R) : R :=
  match g with
  | a :: r => match r with b :: _ => Rabs (h b - h a) * (a + b) / 2 + swing h r | [] => 0 end
  | [] => 0
  end.
Fixpoint spread (h : R -> R) (g : list R) : R :=
  match g with
  | a :: r => match r with b :: _ => (Rabs (h b) + Rabs (h a)) * (a + b) / 2 + spread h r | [] => 0 end
  | [] => 0
  end.

(** The error of the sum that stands for the integral of [h], on a grid of n wavelengths: 7 roundings per sample, n + 3 of the
    terms of the sum. *)
Definition sum_error (u : R) (h : R -> R) (g : list R) : R :=
  growth u 7 * bulk h g + growth u (length g + 3) * (swing h g + growth u 7 * spread h g).
