(** F32: IEEE binary32 arithmetic (np.float32) as an instance of [Num], from Flocq.

    [+ - * /], sqrt, comparisons and the conversion of literals round to nearest, ties to even, with
    infinities, NaN and two zeros, as numpy's float32 does.  NaNs have no payload.  The functions of the C
    library are a parameter ([libm]): nothing is assumed about them. *)
From Coq Require Import ZArith QArith Reals.
From Flocq Require Import Core IEEE754.BinarySingleNaN.
From Verif Require Import Num.

#[export] Instance prec24 : Prec_gt_0 24 := eq_refl.
#[export] Instance emax128 : Prec_lt_emax 24 128 := eq_refl.

Definition b32 := binary_float 24 128.
(** The value of a finite number. *)
Definition val : b32 -> R := B2R.
Definition fin32 : b32 -> bool := is_finite.
Definition nan32 : b32 := B754_nan.

Definition add32 : b32 -> b32 -> b32 := Bplus mode_NE.
Definition sub32 : b32 -> b32 -> b32 := Bminus mode_NE.
Definition mul32 : b32 -> b32 -> b32 := Bmult mode_NE.
Definition div32 : b32 -> b32 -> b32 := Bdiv mode_NE.
Definition sqrt32 : b32 -> b32 := Bsqrt mode_NE.

(** The float32 nearest to an integer, and to a fraction. *)
Definition z32 (k : Z) : b32 := binary_normalize 24 128 eq_refl eq_refl mode_NE k 0 false.
Definition q32 (q : Q) : b32 :=
  match Qnum q with
  | Z0 => B754_zero false
  | Zpos m => SF2B _ (proj1 (Bdiv_correct_aux 24 128 eq_refl eq_refl mode_NE false m 0 false (Qden q) 0))
  | Zneg m => SF2B _ (proj1 (Bdiv_correct_aux 24 128 eq_refl eq_refl mode_NE true m 0 false (Qden q) 0))
  end.

(** log, log10, exp, 10.**x, sinh, cosh of the C library. *)
Record libm := { m_ln : b32 -> b32; m_log10 : b32 -> b32; m_exp : b32 -> b32; m_pow10 : b32 -> b32;
                 m_sinh : b32 -> b32; m_cosh : b32 -> b32 }.

(** np.float32(x) of a float32 is x.  Simplification: where the code computes in float64 before storing
    (Python literals combined with numpy scalars), this instance rounds every operation to float32. *)
Definition Num_b32 (L : libm) : Num b32 := {|
  n0 := B754_zero false; n1 := z32 1;
  nadd := add32; nsub := sub32; nmul := mul32; ndiv := div32;
  nopp := @Bopp 24 128; nabs := @Babs 24 128; nsqrt := sqrt32;
  nln := m_ln L; nlog10 := m_log10 L; nexp := m_exp L; npow10 := m_pow10 L;
  nsinh := m_sinh L; ncosh := m_cosh L;
  nltb := @Bltb 24 128; nleb := @Bleb 24 128;
  nlit := q32;
  npi := q32 (884279719003555 # 281474976710656);
  nfin := fin32;
  cst := fun x => x
|}.

(** Rounding of a real to float32, ignoring overflow. *)
Definition rnd : R -> R := round radix2 (SpecFloat.fexp 24 128) ZnearestE.
(** [x] is a float32 value. *)
Definition repr (x : R) : Prop := exists b : b32, fin32 b = true /\ val b = x.
