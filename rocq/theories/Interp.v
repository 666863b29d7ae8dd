(** Library behaviour used by template.py, response.py and fitter.py: sorting, np.unique,
    scipy.integrate.trapezoid and scipy.interpolate.interp1d. *)
From Coq Require Import List Arith Bool QArith.
From Verif Require Import Base Num.
Import ListNotations.
Local Open Scope num_scope.

Section Interp.
  Context {T : Type} {N : Num T}.

  (** Stable sort by increasing key (np.argsort(kind='mergesort'), used inside interp1d; the
      default np.argsort of response.py:191,255,287 is not stable, which matters only for
      repeated wavelengths).  NaN keys are outside the model. *)
  Fixpoint insert {A} (key : A -> T) (x : A) (l : list A) : list A :=
    match l with
    | [] => [x]
    | y :: r => if key y <? key x then y :: insert key x r else x :: l
    end.
  Fixpoint isort {A} (key : A -> T) (l : list A) : list A :=
    match l with [] => [] | x :: r => insert key x (isort key r) end.

  (** np.argsort *)
  Definition argsort (l : list T) : list nat :=
    map snd (isort fst (combine l (seq 0 (length l)))).

  Definition same (a b : T) : bool := negb (a <? b) && negb (b <? a).

  (** Drop consecutive equal entries. *)
  Fixpoint dedup (l : list T) : list T :=
    match l with
    | [] => []
    | x :: r => match r with
                | y :: _ => if same x y then dedup r else x :: dedup r
                | [] => [x]
                end
    end.

  (** np.unique: the sorted distinct values. *)
  Definition unique (l : list T) : list T := dedup (isort (fun x => x) l).

  Fixpoint has_dup (l : list T) : bool :=
    match l with
    | x :: r => match r with y :: _ => same x y || has_dup r | [] => false end
    | [] => false
    end.

  Definition nsum (l : list T) : T := fold_left nadd l n0.

  (** scipy.integrate.trapezoid(y, x) = (diff(x) * (y[1:] + y[:-1]) / 2.).sum().  The order of
      summation (numpy: pairwise) is a left fold here. *)
  Fixpoint trapz_terms (y x : list T) : list T :=
    match y, x with
    | y0 :: (y1 :: _) as yr, x0 :: (x1 :: _) as xr =>
        ((x1 - x0) * (y1 + y0) / nlit 2) :: trapz_terms yr xr
    | _, _ => []
    end.
  Definition trapz (y x : list T) : T := nsum (trapz_terms y x).

  (** scipy.interpolate.interp1d(x, y, kind='cubic', bounds_error=False, fill_value=0.) with x 1-D
      and the last axis of y along x.  The constructor sorts by x and raises ValueError when the
      lengths differ, when there are fewer than 4 points, or when x has repeated values.  NaN
      values are outside the model.  [iys] has one list of ordinates per row of y. *)
  Record interp1 := { ix : list T; iys : list (list T) }.

  Definition mk_cubic (x : list T) (y : nd T) : res interp1 :=
    check negb (Nat.eqb (ndim y) 0) else ValueError;
    check Nat.eqb (lastd (shp y)) (length x) else ValueError;
    check Nat.leb 4 (length x) else ValueError;
    let p := argsort x in
    let xs := map (fun k => nth k x n0) p in
    check negb (has_dup xs) else ValueError;
    Ok {| ix := xs; iys := map (fun r => map (fun k => nth k r n0) p) (lrows y) |}.

  (** The spline itself is an oracle: [cub xs ys t] is the value at [t] of the cubic spline through
      (xs, ys).  Outside [xs[0], xs[-1]] interp1d returns the fill value 0. *)
  Variable cub : list T -> list T -> T -> T.

  Definition out_of (xs : list T) (t : T) : bool := (t <? nth 0 xs n0) || (last xs n0 <? t).

  Definition ieval1 (xs ys : list T) (t : T) : T :=
    if out_of xs t then n0 else cub xs ys t.

  (** interp(grid): one list per row of y. *)
  Definition ieval (it : interp1) (grid : list T) : list (list T) :=
    map (fun ys => map (ieval1 (ix it) ys) grid) (iys it).
End Interp.
Arguments interp1 : clear implicits.
