(** What the properties C80 and C81 say: an exact nonnegative least squares solver, and the geometry of chi^2. *)
From Coq Require Import List Arith Bool Reals.
From Verif Require Import Base FitSpec.
Import ListNotations.
Local Open Scope R_scope.

(** sum_i iv_i a_i b_i *)
Definition wdot (iv a b : list R) : R := fold_right Rplus 0 (zip Rmult iv (zip Rmult a b)).
(** The bands that were measured (inverse variance > 0) are alike. *)
Definition same_measured (iv p q : list R) : Prop :=
  length p = length q /\
  forall i w a b, nth_error iv i = Some w -> 0 < w -> nth_error p i = Some a -> nth_error q i = Some b -> a = b.
(** All the measured bands are zero. *)
Definition dark_measured (iv p : list R) : Prop :=
  forall i w a, nth_error iv i = Some w -> 0 < w -> nth_error p i = Some a -> a = 0.

(** * A solver that never fails
    scipy.optimize.nnls (called at fitter.py:211 and 223) is not modelled: the model takes any solver as an argument.  This
    one, in exact arithmetic, shows that the contract can be met by a solver that always answers.  It tries every
    set of templates, solves the unconstrained least squares problem for that set by Gram-Schmidt, and keeps
    the best of the nonnegative solutions. *)
Fixpoint lsq (u : list bool) (A : list (list R)) (b : list R) : list R :=
  match u with
  | [] => []
  | s :: u =>
    let A' := map (@tl R) A in
    let be := lsq u A' b in
    if s then
      let a := map (hd 0) A in
      let al := lsq u A' a in
      let a' := lincomb 1 (-1) a (mulmv A' al) in
      let b' := lincomb 1 (-1) b (mulmv A' be) in
      if Req_EM_T (dot a' a') 0 then 0 :: be
      else dot b' a' / dot a' a' :: lincomb 1 (- (dot b' a' / dot a' a')) be al
    else 0 :: be
  end.
Fixpoint masks (n : nat) : list (list bool) :=
  match n with
  | O => [[]]
  | S n => map (cons true) (masks n) ++ map (cons false) (masks n)
  end.
Definition nonnegb (l : list R) : bool := forallb (fun v => if Rle_dec 0 v then true else false) l.
Definition argmin (f : list R -> R) (l : list (list R)) (x0 : list R) : list R :=
  fold_right (fun x best => if Rle_dec (f x) (f best) then x else best) x0 l.
Definition nnls_exact (_ : option nat) (n : nat) (A : list (list R)) (b : list R) : option (list R) :=
  Some (argmin (fun x => sumsq (vsub (mulmv A x) b))
               (filter nonnegb (map (fun u => lsq u A b) (masks n))) (repeat 0 n)).
