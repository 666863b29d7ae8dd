(** Base: Python exceptions as values, and numpy arrays as (shape, row-major data).

    These are models of language/library behaviour, not of /repo code; the
    /repo functions that use them cite them where they do.  *)
From Coq Require Import List Arith Lia Bool.
Import ListNotations.
Set Implicit Arguments.

(** * Exceptions

    The exception classes reachable in the modelled code.  [Unmodelled] marks
    inputs on which the model deliberately says nothing (each use is documented
    at the definition that produces it); no theorem concludes from it. *)
Inductive exn :=
| ValueError | TypeError | IndexError | KeyError | UnboundLocalError
| RuntimeError | OSError | AttributeError | Unmodelled.

Definition exn_eqb (a b : exn) : bool :=
  match a, b with
  | ValueError, ValueError | TypeError, TypeError | IndexError, IndexError
  | KeyError, KeyError | UnboundLocalError, UnboundLocalError
  | RuntimeError, RuntimeError | OSError, OSError
  | AttributeError, AttributeError | Unmodelled, Unmodelled => true
  | _, _ => false
  end.

Inductive res (A : Type) : Type :=
| Ok (a : A)
| Raise (e : exn).
Arguments Ok {A} a.
Arguments Raise {A} e.

Definition bind {A B} (r : res A) (f : A -> res B) : res B :=
  match r with Ok a => f a | Raise e => Raise e end.

Definition rmap {A B} (f : A -> B) (r : res A) : res B :=
  match r with Ok a => Ok (f a) | Raise e => Raise e end.

(** [try: r  except ex: h] *)
Definition catch {A} (r : res A) (ex : exn) (h : res A) : res A :=
  match r with Ok a => Ok a | Raise e => if exn_eqb e ex then h else Raise e end.

Declare Scope res_scope.
Delimit Scope res_scope with res.
Notation "'do' x <- a ; b" := (bind a (fun x => b))
  (at level 200, x pattern, a at level 100, b at level 200) : res_scope.
Notation "'check' c 'else' e ; b" := (if c then b else Raise e)
  (at level 200, c at level 100, e at level 0, b at level 200) : res_scope.
Open Scope res_scope.

(** Left-to-right loop that stops at the first exception. *)
Fixpoint mapM {A B} (f : A -> res B) (l : list A) : res (list B) :=
  match l with
  | [] => Ok []
  | x :: r => do y <- f x; do ys <- mapM f r; Ok (y :: ys)
  end.

Fixpoint foldM {A S} (f : S -> A -> res S) (l : list A) (s : S) : res S :=
  match l with
  | [] => Ok s
  | x :: r => do s' <- f s x; foldM f r s'
  end.

(** * Lists *)

(** [zip f l1 l2] : elementwise, stops at the shorter list. *)
Fixpoint zip {A B C} (f : A -> B -> C) (l1 : list A) (l2 : list B) : list C :=
  match l1, l2 with
  | a :: r1, b :: r2 => f a b :: zip f r1 r2
  | _, _ => []
  end.

(** Replace the element at position [k]. *)
Fixpoint upd {A} (k : nat) (v : A) (l : list A) : list A :=
  match l, k with
  | [], _ => []
  | _ :: r, 0 => v :: r
  | x :: r, S k' => x :: upd k' v r
  end.

(** The first [n] consecutive blocks of length [m]. *)
Fixpoint chunks {A} (n m : nat) (l : list A) : list (list A) :=
  match n with
  | 0 => []
  | S n' => firstn m l :: chunks n' m (skipn m l)
  end.

(** [a[mask]] for a boolean mask, and the store [a[mask] = new]. *)
Fixpoint gather {A} (mask : list bool) (l : list A) : list A :=
  match mask, l with
  | b :: mr, x :: r => if b then x :: gather mr r else gather mr r
  | _, _ => []
  end.

Fixpoint scatter {A} (mask : list bool) (old new : list A) : list A :=
  match mask, old with
  | b :: mr, x :: r =>
      if b then match new with
                | y :: nr => y :: scatter mr r nr
                | [] => x :: scatter mr r []
                end
      else x :: scatter mr r new
  | _, _ => old
  end.

(** * Arrays *)
Record nd (A : Type) : Type := mk { shp : list nat; dat : list A }.
Arguments mk {A} shp dat.

Definition size (s : list nat) : nat := fold_right Nat.mul 1 s.
Definition wf {A} (a : nd A) : Prop := length (dat a) = size (shp a).
Definition ndim {A} (a : nd A) : nat := length (shp a).

Fixpoint shape_eqb (s t : list nat) : bool :=
  match s, t with
  | [], [] => true
  | a :: s', b :: t' => Nat.eqb a b && shape_eqb s' t'
  | _, _ => false
  end.

Definition scal {A} (x : A) : nd A := mk [] [x].
Definition vec {A} (l : list A) : nd A := mk [length l] l.
(** [full s x] : array of shape [s] filled with [x] (np.zeros, np.ones). *)
Definition full {A} (s : list nat) (x : A) : nd A := mk s (repeat x (size s)).

Definition map1 {A B} (f : A -> B) (a : nd A) : nd B := mk (shp a) (map f (dat a)).

(** np.squeeze: drop all axes of length 1. *)
Definition squeeze {A} (a : nd A) : nd A :=
  mk (filter (fun d => negb (Nat.eqb d 1)) (shp a)) (dat a).

(** a.reshape(s): ValueError unless the sizes agree. *)
Definition reshape {A} (s : list nat) (a : nd A) : res (nd A) :=
  if Nat.eqb (size s) (size (shp a)) then Ok (mk s (dat a)) else Raise ValueError.

(** len(a): TypeError for a 0-d array. *)
Definition len {A} (a : nd A) : res nat :=
  match shp a with [] => Raise TypeError | n :: _ => Ok n end.

(** All axes but the last / the last axis. *)
Definition lead (s : list nat) : list nat := removelast s.
Definition lastd (s : list nat) : nat := last s 0.

(** The rows along the last axis. *)
Definition lrows {A} (a : nd A) : list (list A) :=
  chunks (size (lead (shp a))) (lastd (shp a)) (dat a).

(** a[i, :] for a 2-d array. *)
Definition row {A} (i : nat) (a : nd A) : nd A :=
  mk (tl (shp a))
     (firstn (size (tl (shp a))) (skipn (i * size (tl (shp a))) (dat a))).

(** a[..., k] *)
Definition get_last {A} (k : nat) (d : A) (a : nd A) : res (nd A) :=
  match shp a with
  | [] => Raise IndexError
  | _ => if Nat.ltb k (lastd (shp a))
         then Ok (mk (lead (shp a)) (map (fun r => nth k r d) (lrows a)))
         else Raise IndexError
  end.

(** a[..., idx] for a list of indices. *)
Definition take_last {A} (idx : list nat) (d : A) (a : nd A) : res (nd A) :=
  match shp a with
  | [] => Raise IndexError
  | _ => if forallb (fun k => Nat.ltb k (lastd (shp a))) idx
         then Ok (mk (lead (shp a) ++ [length idx])
                     (concat (map (fun r => map (fun k => nth k r d) idx) (lrows a))))
         else Raise IndexError
  end.

(** Numpy broadcasting.  [bshape] aligns shapes on the right ([rev]ersed lists),
    two sizes are compatible when equal or when one of them is 1. *)
Fixpoint bshape_rev (s t : list nat) : option (list nat) :=
  match s, t with
  | [], t => Some t
  | s, [] => Some s
  | a :: s', b :: t' =>
      match bshape_rev s' t' with
      | None => None
      | Some r => if Nat.eqb a b then Some (a :: r)
                  else if Nat.eqb a 1 then Some (b :: r)
                  else if Nat.eqb b 1 then Some (a :: r) else None
      end
  end.
Definition bshape (s t : list nat) : option (list nat) :=
  option_map (@rev nat) (bshape_rev (rev s) (rev t)).

(** Position in the data of an array of (reversed) shape [s] of the element
    that broadcasting puts at flat position [j] of the result of (reversed)
    shape [o]. *)
Fixpoint bpos_rev (s o : list nat) (j : nat) : nat :=
  match s, o with
  | a :: s', b :: o' =>
      (if Nat.eqb a 1 then 0 else j mod b) + a * bpos_rev s' o' (j / b)
  | _, _ => 0
  end.
Definition bget {A} (a : nd A) (o : list nat) (j : nat) (d : A) : A :=
  nth (bpos_rev (rev (shp a)) (rev o) j) (dat a) d.

(** Elementwise binary operation with broadcasting; ValueError if the shapes
    cannot be broadcast together. *)
Definition bin {A B C} (f : A -> B -> C) (da : A) (db : B) (a : nd A) (b : nd B)
  : res (nd C) :=
  match bshape (shp a) (shp b) with
  | None => Raise ValueError
  | Some o => Ok (mk o (map (fun j => f (bget a o j da) (bget b o j db))
                            (seq 0 (size o))))
  end.

(** Broadcasting the right-hand side of an assignment to the shape [o] of the
    target: ValueError unless the broadcast shape is [o] itself (numpy also
    accepts extra leading axes of length 1 in the value; these are dropped). *)
Fixpoint strip1 (n : nat) (s : list nat) : list nat :=
  match n, s with
  | S n', 1 :: s' => strip1 n' s'
  | _, _ => s
  end.
Definition bto {A} (d : A) (o : list nat) (v : nd A) : res (list A) :=
  let v' := mk (strip1 (length (shp v) - length o) (shp v)) (dat v) in
  match bshape (shp v') o with
  | Some o' => if shape_eqb o' o
               then Ok (map (fun j => bget v' o j d) (seq 0 (size o)))
               else Raise ValueError
  | None => Raise ValueError
  end.

(** a[..., k] = v *)
Definition set_last {A} (k : nat) (d : A) (v : nd A) (a : nd A) : res (nd A) :=
  match shp a with
  | [] => Raise IndexError
  | _ => if Nat.ltb k (lastd (shp a))
         then do vs <- bto d (lead (shp a)) v;
              Ok (mk (shp a) (concat (zip (fun r x => upd k x r) (lrows a) vs)))
         else Raise IndexError
  end.

(** np.outer(a, b): both arguments are flattened. *)
Definition outer {A B C} (f : A -> B -> C) (a : nd A) (b : nd B) : nd C :=
  mk [length (dat a); length (dat b)]
     (concat (map (fun x => map (fun y => f x y) (dat b)) (dat a))).
