(** Num: the arithmetic the model is written over, and its exact-real instance.

    [Num T] lists the numpy operations the code uses and assumes no law about
    them, so everything proved for every [Num T] holds for an arithmetic that
    rounds.  [xr] is the instance for the numerical theorems: the reals with the
    IEEE special values.  Simplification: finite arithmetic in [xr] is exact and
    there is one zero (1/0 = +inf). *)
From Coq Require Import Reals Lra QArith Qreals.

Class Num (T : Type) : Type := {
  n0 : T; n1 : T;
  nadd : T -> T -> T; nsub : T -> T -> T; nmul : T -> T -> T; ndiv : T -> T -> T;
  nopp : T -> T; nabs : T -> T; nsqrt : T -> T;
  nln : T -> T; nlog10 : T -> T; nexp : T -> T;
  npow10 : T -> T;                       (* 10.**x *)
  nsinh : T -> T; ncosh : T -> T;
  nltb : T -> T -> bool; nleb : T -> T -> bool;
  nlit : Q -> T;                         (* Python float literals *)
  npi : T;
  nfin : T -> bool;                      (* np.isfinite *)
  cst : T -> T                           (* np.float32(x), or a store into a float32 array *)
}.

Declare Scope num_scope.
Delimit Scope num_scope with num.
Infix "+" := nadd : num_scope.
Infix "-" := nsub : num_scope.
Infix "*" := nmul : num_scope.
Infix "/" := ndiv : num_scope.
Infix "<?" := nltb : num_scope.
Infix "<=?" := nleb : num_scope.

Section Gen.
  Context {T : Type} {N : Num T}.
  Definition ngtb (a b : T) : bool := nltb b a.
  Definition ngeb (a b : T) : bool := nleb b a.
  (** x**2 *)
  Definition nsq (a : T) : T := nmul a a.
End Gen.

(** * Reals with IEEE special values *)
Inductive xr := Fin (r : R) | PInf | NInf | NaN.

Definition Rltb (a b : R) : bool := if Rlt_dec a b then true else false.
Definition Rleb (a b : R) : bool := if Rle_dec a b then true else false.
Definition Reqb (a b : R) : bool := if Req_EM_T a b then true else false.

Definition xopp (a : xr) : xr :=
  match a with Fin r => Fin (- r) | PInf => NInf | NInf => PInf | NaN => NaN end.
Definition xadd (a b : xr) : xr :=
  match a, b with
  | NaN, _ | _, NaN => NaN
  | Fin x, Fin y => Fin (x + y)
  | PInf, NInf | NInf, PInf => NaN
  | PInf, _ | _, PInf => PInf
  | NInf, _ | _, NInf => NInf
  end.
Definition xsub (a b : xr) : xr := xadd a (xopp b).
(** The infinity with the sign of [r]; NaN for 0. *)
Definition xsign_inf (r : R) : xr :=
  if Rltb 0 r then PInf else if Rltb r 0 then NInf else NaN.
Definition xmul (a b : xr) : xr :=
  match a, b with
  | NaN, _ | _, NaN => NaN
  | Fin x, Fin y => Fin (x * y)
  | PInf, Fin y | Fin y, PInf => xsign_inf y
  | NInf, Fin y | Fin y, NInf => xopp (xsign_inf y)
  | PInf, PInf | NInf, NInf => PInf
  | PInf, NInf | NInf, PInf => NInf
  end.
Definition xdiv (a b : xr) : xr :=
  match a, b with
  | NaN, _ | _, NaN => NaN
  | Fin x, Fin y => if Reqb y 0 then xsign_inf x else Fin (x / y)
  | Fin _, (PInf | NInf) => Fin 0
  | PInf, Fin y => if Rltb y 0 then NInf else PInf
  | NInf, Fin y => if Rltb y 0 then PInf else NInf
  | (PInf | NInf), (PInf | NInf) => NaN
  end.
Definition xabs (a : xr) : xr :=
  match a with Fin r => Fin (Rabs r) | PInf | NInf => PInf | NaN => NaN end.
Definition xsqrt (a : xr) : xr :=
  match a with
  | Fin r => if Rltb r 0 then NaN else Fin (sqrt r)
  | PInf => PInf | NInf => NaN | NaN => NaN end.
Definition xlog (f : R -> R) (a : xr) : xr :=
  match a with
  | Fin r => if Rltb r 0 then NaN else if Reqb r 0 then NInf else Fin (f r)
  | PInf => PInf | NInf => NaN | NaN => NaN end.
Definition xexp (f : R -> R) (a : xr) : xr :=
  match a with Fin r => Fin (f r) | PInf => PInf | NInf => Fin 0 | NaN => NaN end.
Definition xsinh (a : xr) : xr := match a with Fin r => Fin (sinh r) | _ => a end.
Definition xcosh (a : xr) : xr :=
  match a with Fin r => Fin (cosh r) | PInf | NInf => PInf | NaN => NaN end.
Definition xltb (a b : xr) : bool :=
  match a, b with
  | NaN, _ | _, NaN => false
  | Fin x, Fin y => Rltb x y
  | PInf, _ => false
  | _, NInf => false
  | NInf, _ => true
  | _, PInf => true
  end.
Definition xleb (a b : xr) : bool :=
  match a, b with
  | NaN, _ | _, NaN => false
  | Fin x, Fin y => Rleb x y
  | NInf, _ => true
  | _, PInf => true
  | _, _ => false
  end.
Definition xfin (a : xr) : bool := match a with Fin _ => true | _ => false end.

Definition log10 (x : R) : R := (ln x / ln 10)%R.
Definition pow10 (x : R) : R := Rpower 10 x.

#[export] Instance Num_xr : Num xr := {|
  n0 := Fin 0; n1 := Fin 1;
  nadd := xadd; nsub := xsub; nmul := xmul; ndiv := xdiv;
  nopp := xopp; nabs := xabs; nsqrt := xsqrt;
  nln := xlog ln; nlog10 := xlog log10; nexp := xexp exp;
  npow10 := xexp pow10;
  nsinh := xsinh; ncosh := xcosh;
  nltb := xltb; nleb := xleb;
  nlit := fun q => Fin (Q2R q);
  npi := Fin PI;
  nfin := xfin;
  cst := fun x => x
|}.

(** The plain reals: used for statements in which every value is finite and every divisor
    nonzero (each such theorem assumes the divisors nonzero), where it agrees with [Num_xr]. *)
#[export] Instance Num_R : Num R := {|
  n0 := 0%R; n1 := 1%R;
  nadd := Rplus; nsub := Rminus; nmul := Rmult; ndiv := Rdiv;
  nopp := Ropp; nabs := Rabs; nsqrt := sqrt;
  nln := ln; nlog10 := log10; nexp := exp;
  npow10 := pow10;
  nsinh := sinh; ncosh := cosh;
  nltb := Rltb; nleb := Rleb;
  nlit := Q2R;
  npi := PI;
  nfin := fun _ => true;
  cst := fun x => x
|}.

(** * Facts about the real functions *)
Open Scope R_scope.

Lemma Rltb_true a b : a < b -> Rltb a b = true.
Proof. unfold Rltb; destruct (Rlt_dec a b); auto; lra. Qed.
Lemma Rltb_false a b : b <= a -> Rltb a b = false.
Proof. unfold Rltb; destruct (Rlt_dec a b); auto; lra. Qed.
Lemma Rleb_true a b : a <= b -> Rleb a b = true.
Proof. unfold Rleb; destruct (Rle_dec a b); auto; lra. Qed.
Lemma Rleb_false a b : b < a -> Rleb a b = false.
Proof. unfold Rleb; destruct (Rle_dec a b); auto; lra. Qed.
Lemma Reqb_true a b : a = b -> Reqb a b = true.
Proof. unfold Reqb; destruct (Req_EM_T a b); auto; lra. Qed.
Lemma Reqb_false a b : a <> b -> Reqb a b = false.
Proof. unfold Reqb; destruct (Req_EM_T a b); auto; lra. Qed.
Lemma Rltb_iff a b : Rltb a b = true <-> a < b.
Proof. unfold Rltb; destruct (Rlt_dec a b); split; intros; auto; try discriminate; lra. Qed.
Lemma Rleb_iff a b : Rleb a b = true <-> a <= b.
Proof. unfold Rleb; destruct (Rle_dec a b); split; intros; auto; try discriminate; lra. Qed.
Lemma Rltb_niff a b : Rltb a b = false <-> b <= a.
Proof. unfold Rltb; destruct (Rlt_dec a b); split; intros; auto; try discriminate; lra. Qed.

Lemma ln10_pos : 0 < ln 10.
Proof. rewrite <- ln_1. apply ln_increasing; lra. Qed.

Lemma pow10_pos x : 0 < pow10 x.
Proof. unfold pow10, Rpower. apply exp_pos. Qed.
Lemma pow10_neq0 x : pow10 x <> 0.
Proof. pose proof (pow10_pos x); lra. Qed.
Lemma pow10_0 : pow10 0 = 1.
Proof. unfold pow10. apply Rpower_O; lra. Qed.
Lemma pow10_plus x y : pow10 (x + y) = pow10 x * pow10 y.
Proof. unfold pow10. apply Rpower_plus. Qed.
Lemma pow10_opp x : pow10 (- x) = / pow10 x.
Proof. unfold pow10. apply Rpower_Ropp. Qed.
Lemma log10_pow10 x : log10 (pow10 x) = x.
Proof. unfold log10, pow10, Rpower. rewrite ln_exp. pose proof ln10_pos. field. lra. Qed.
Lemma pow10_log10 x : 0 < x -> pow10 (log10 x) = x.
Proof.
  intro H. unfold log10, pow10, Rpower. pose proof ln10_pos.
  replace (ln x / ln 10 * ln 10) with (ln x) by (field; lra). apply exp_ln; auto.
Qed.
Lemma log10_mult x y : 0 < x -> 0 < y -> log10 (x * y) = log10 x + log10 y.
Proof. intros. unfold log10. rewrite ln_mult by auto. field. pose proof ln10_pos; lra. Qed.
Lemma log10_Rinv x : 0 < x -> log10 (/ x) = - log10 x.
Proof. intros. unfold log10. rewrite ln_Rinv by auto. field. pose proof ln10_pos; lra. Qed.
Lemma log10_div x y : 0 < x -> 0 < y -> log10 (x / y) = log10 x - log10 y.
Proof.
  intros. unfold Rdiv. rewrite log10_mult, log10_Rinv; auto. apply Rinv_0_lt_compat; auto.
Qed.
Lemma log10_1 : log10 1 = 0.
Proof. unfold log10. rewrite ln_1. field. pose proof ln10_pos; lra. Qed.
Lemma log10_incr x y : 0 < x -> x < y -> log10 x < log10 y.
Proof.
  intros Hx Hxy. unfold log10, Rdiv. apply Rmult_lt_compat_r.
  - apply Rinv_0_lt_compat, ln10_pos.
  - apply ln_increasing; auto.
Qed.
Lemma log10_inj x y : 0 < x -> 0 < y -> log10 x = log10 y -> x = y.
Proof. intros Hx Hy H. rewrite <- (pow10_log10 x), <- (pow10_log10 y) by auto. congruence. Qed.

(** * Computing with finite values of [xr] *)
Lemma xdiv_fin x y : y <> 0 -> xdiv (Fin x) (Fin y) = Fin (x / y).
Proof. intro H. simpl. rewrite Reqb_false by auto. reflexivity. Qed.
Lemma xsqrt_fin x : 0 <= x -> xsqrt (Fin x) = Fin (sqrt x).
Proof. intro H. simpl. rewrite Rltb_false by auto. reflexivity. Qed.
Lemma xlog_fin f x : 0 < x -> xlog f (Fin x) = Fin (f x).
Proof. intro H. simpl. rewrite Rltb_false by lra. rewrite Reqb_false by lra. reflexivity. Qed.

(** The value of a finite number, 0 otherwise (used only to state facts about finite arrays). *)
Definition fval (a : xr) : R := match a with Fin r => r | _ => 0 end.
Definition is_fin (a : xr) : Prop := exists r, a = Fin r.

Lemma Q2R_lit (n : Z) (d : positive) : Q2R (n # d) = IZR n / IZR (Zpos d).
Proof. reflexivity. Qed.

(** Reduce [Num xr] operations on finite values, leaving literals alone. *)
Ltac xcbn := cbn [n0 n1 nadd nsub nmul ndiv nopp nabs nsqrt nln nlog10 nexp npow10 nsinh ncosh
                  nltb nleb nlit npi nfin cst Num_xr xopp xadd xsub xmul xexp xsinh xcosh xabs
                  option_map].

(** Reduce [Num R] operations. *)
Ltac rcbn := cbn [n0 n1 nadd nsub nmul ndiv nopp nabs nsqrt nln nlog10 nexp npow10 nsinh ncosh
                  nltb nleb nlit npi nfin cst Num_R option_map].
