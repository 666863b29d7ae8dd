(** The values of scipy.interpolate.interp1d(x, y, kind='cubic') inside the range of x (template.py:127-139,
    response.py:230-239, 348, 359): the cubic spline through the samples with the not-a-knot end conditions.

    Simplification: scipy solves for B-spline coefficients; here the second derivatives at the samples are found by
    eliminating the tridiagonal system, which is the same function in exact arithmetic (proved in SplineProofs.v:
    the spline is unique).  Rounding of the solver is not modelled. *)
From Coq Require Import List Arith QArith.
From Verif Require Import Base Num.
Import ListNotations.
Local Open Scope num_scope.

Section Spline.
  Context {T : Type} {N : Num T}.

  (** Rows (a, b, c, d) of the system a m(k-1) + b m(k) + c m(k+1) = d.  Elimination from the last row: the
      unknown of a row is al * (previous unknown) + be. *)
  Fixpoint elim (rows : list (T * T * T * T)) : list (T * T) :=
    match rows with
    | [] => []
    | (a, b, c, d) :: r =>
      let l := elim r in
      let (al, be) := hd (n0, n0) l in
      let den := b + c * al in
      (nopp a / den, (d - c * be) / den) :: l
    end.
  Fixpoint subst (prev : T) (l : list (T * T)) : list T :=
    match l with
    | [] => []
    | (al, be) :: r => let x := al * prev + be in x :: subst x r
    end.

  Section Fn.
    Variable x y : nat -> T.
    Variable n : nat.
    Definition step (k : nat) : T := x (S k) - x k.
    Definition slope (k : nat) : T := (y (S k) - y k) / step k.

    (** The equation at sample k+1 (continuity of the first derivative, times 6), with the first and the last unknown
        eliminated by the end conditions. *)
    Definition nak_row (k : nat) : T * T * T * T :=
      let h := step k in
      let h' := step (S k) in
      let b := nlit 2 * (h + h') in
      let d := nlit 6 * (slope (S k) - slope k) in
      let fst_ := Nat.eqb k 0 in
      let lst := Nat.eqb (S (S (S k))) n in
      (if fst_ then n0 else if lst then h - h' * (h' / h) else h,
       if fst_ then b + h * (n1 + h / h') else if lst then b + h' * (n1 + h' / h) else b,
       if fst_ then h' - h * (h / h') else if lst then n0 else h',
       d).

    Definition inner : list T := subst n0 (elim (map nak_row (seq 0 (n - 2)))).

    (** The second derivatives at the samples. *)
    Definition curv (k : nat) : T :=
      if Nat.eqb k 0 then
        let r := step 0 / step 1 in nth 0 inner n0 * (n1 + r) - r * nth 1 inner n0
      else if Nat.eqb (S k) n then
        let r := step (n - 2) / step (n - 3) in nth (n - 3) inner n0 * (n1 + r) - r * nth (n - 4) inner n0
      else nth (k - 1) inner n0.

    (** The cubic between samples i and i+1. *)
    Definition piece (i : nat) (t : T) : T :=
      let h := step i in
      let u := t - x i in
      let b := slope i - h * (nlit 2 * curv i + curv (S i)) / nlit 6 in
      let c := curv i / nlit 2 in
      let d := (curv (S i) - curv i) / (nlit 6 * h) in
      y i + u * (b + u * (c + u * d)).

    (** The interval of t: how many inner samples lie below t. *)
    Definition which (t : T) : nat := length (filter (fun k => x (S k) <? t) (seq 0 (n - 2))).
  End Fn.

  Definition notaknot (xs ys : list T) (t : T) : T :=
    let x := fun k => nth k xs n0 in
    let y := fun k => nth k ys n0 in
    let n := length xs in
    piece x y n (which x n t) t.
End Spline.
