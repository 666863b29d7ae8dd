(** Vocabulary for the theorems about fitter.py and kcorrect.py. *)
From Coq Require Import String List Arith Bool Reals Lra Sorting.Sorted.
From Verif Require Import Base Num Interp Sed Response Fitter.
Import ListNotations.

(** * Shapes *)
(** The documented shapes: a number with 1-D arrays, or n numbers with arrays of n rows; [nb] bands, [nt]
    templates.  Absent arguments are allowed. *)
Definition is_shape {T} (o : option (nd T)) (s : list nat) : Prop := forall a, o = Some a -> shp a = s.
Definition documented {T} (nb nt : nat) (z : nd T) (m iv c : option (nd T)) : Prop :=
  (shp z = [] /\ is_shape m [nb] /\ is_shape iv [nb] /\ is_shape c [nt]) \/
  (exists n, shp z = [n] /\ is_shape m [n; nb] /\ is_shape iv [n; nb] /\ is_shape c [n; nt]).

(** The 2-D array with the given rows of length [w]. *)
Definition table {T} (w : nat) (rows : list (list T)) : nd T := mk [length rows; w] (concat rows).
Definition rect {T} (w : nat) (rows : list (list T)) : Prop := Forall (fun r => length r = w) rows.

(** Photometry is passed on unchanged (apart from rounding): no AB correction is requested. *)
Definition no_ab {T} {N : Num T} (F : fitter T) : Prop := f_abc F = false \/ f_kind F = Plain.

(** The same fitter with abcorrect=False. *)
Definition without_ab {T} (F : fitter T) : fitter T :=
  {| f_kind := f_kind F; f_abc := false; f_resp := f_resp F; f_sed := f_sed F; f_zs := f_zs F; f_A := f_A F |}.

(** A design-matrix interpolator with one table of [nb] bands by [nt] templates per grid redshift and at
    least two grid redshifts; a fitter whose design matrix has been set. *)
Definition tab_ok {T} (A : atab T) (nb nt : nat) : Prop :=
  a_shape A = [nb; nt] /\ length (a_rows A) = length (a_x A) /\ (2 <= length (a_x A))%nat /\
  rect (nb * nt) (a_rows A).
Definition ready {T} (F : fitter T) (A : atab T) (nb nt : nat) : Prop :=
  f_A F = Some A /\ length (f_resp F) = nb /\ f_nsed F = nt /\ tab_ok A nb nt.

(** * Linear algebra over the reals *)
Local Open Scope R_scope.
Definition dot (a b : list R) : R := fold_right Rplus 0 (zip Rmult a b).
Definition mulmv (M : list (list R)) (c : list R) : list R := map (fun r => dot r c) M.
Definition sumsq (l : list R) : R := fold_right Rplus 0 (map (fun x => x * x) l).
Definition vsub (a b : list R) : list R := zip Rminus a b.
Definition nonneg (l : list R) : Prop := Forall (Rle 0) l.

(** chi^2 of predicted maggies [p] for maggies [m] with inverse variances [iv]. *)
Definition chi2 (iv m p : list R) : R := fold_right Rplus 0 (zip (fun w d => w * (d * d)) iv (vsub m p)).
(** a c1 + b c2 *)
Definition lincomb (a b : R) (c1 c2 : list R) : list R := zip (fun u v => a * u + b * v) c1 c2.

(** The contract of a nonnegative least squares routine: whatever it returns minimises |A x - b|^2 over
    x >= 0.  It may fail to return anything. *)
Definition nnls_contract (nnls : option nat -> nat -> list (list R) -> list R -> option (list R)) : Prop :=
  forall mi n A b x, rect n A -> length A = length b -> nnls mi n A b = Some x ->
    length x = n /\ nonneg x /\
    forall y, length y = n -> nonneg y -> sumsq (vsub (mulmv A x) b) <= sumsq (vsub (mulmv A y) b).

(** The length of what it returns, in any arithmetic. *)
Definition nnls_shape {T} (nnls : option nat -> nat -> list (list T) -> list T -> option (list T)) : Prop :=
  forall mi n A b x, nnls mi n A b = Some x -> length x = n.

(** A strictly increasing grid, and a redshift in its range. *)
Definition grid_ok (x : list R) : Prop := StronglySorted Rlt x.
Definition in_range (x : list R) (z : R) : Prop := nth 0 x 0 <= z <= last x 0.

(** * Batches *)
(** One object: redshift, maggies, inverse variances. *)
Record obj (T : Type) := { o_z : T; o_m : list T; o_iv : list T }.
Arguments o_z {T}. Arguments o_m {T}. Arguments o_iv {T}.
Definition obj_ok {T} (nb : nat) (o : obj T) : Prop := length (o_m o) = nb /\ length (o_iv o) = nb.

(** A batch of calls made one after the other, threading the position of the random stream and stopping
    at the first exception. *)
Fixpoint run_each {A B} (call : A -> nat -> res (B * nat)) (l : list A) (cur : nat) : res (list B * nat) :=
  match l with
  | [] => Ok ([], cur)
  | a :: r => match call a cur with
              | Raise e => Raise e
              | Ok (b, cur1) => match run_each call r cur1 with
                                | Raise e => Raise e
                                | Ok (bs, cur2) => Ok (b :: bs, cur2)
                                end
              end
  end.

(** The components of what fit_coeffs returns. *)
Definition out_c {T} (o : fc_out T) : nd T := match o with Bare c | Two c _ | Three c _ _ => c end.
Definition out_cmc {T} (o : fc_out T) : nd T := match o with Bare c => c | Two _ c | Three _ c _ => c end.
Definition out_mmc {T} (o : fc_out T) : nd T := match o with Bare c | Two c _ => c | Three _ _ m => m end.

(** A batch of objects as the arrays passed to fit_coeffs. *)
Definition objs_z {T} (objs : list (obj T)) : nd T := vec (map o_z objs).
Definition objs_m {T} (nb : nat) (objs : list (obj T)) : nd T := table nb (map o_m objs).
Definition objs_iv {T} (nb : nat) (objs : list (obj T)) : nd T := table nb (map o_iv objs).

(** fit_coeffs called for one object: a number and 1-D arrays. *)
Definition fit_object {T} {N : Num T} nnls rng (F : fitter T) (mc : nat) (o : obj T) (cur : nat) :=
  fit_coeffs nnls rng F (Some (scal (o_z o))) (Some (vec (o_m o))) (Some (vec (o_iv o))) mc cur.
(** fit_coeffs called for a batch. *)
Definition fit_objects {T} {N : Num T} nnls rng (F : fitter T) (nb mc : nat) (objs : list (obj T)) (cur : nat) :=
  fit_coeffs nnls rng F (Some (objs_z objs)) (Some (objs_m nb objs)) (Some (objs_iv nb objs)) mc cur.

(** [t] is outside the range of the grid of [A]. *)
Definition outside {T} {N : Num T} (A : atab T) (t : T) : Prop :=
  nltb t (nth 0 (a_x A) n0) = true \/ nltb (last (a_x A) n0) t = true.

(** Column [i] of an array of shape [m, k]. *)
Definition column {T} {N : Num T} (m k i : nat) (a : nd T) : list T :=
  map (fun b => nth (b * k + i) (dat a) n0) (seq 0 m).

(** Photometry that agrees in every band whose inverse variance is not 0. *)
Definition agree (iv m1 m2 : list xr) : Prop :=
  forall i, nth_error iv i <> Some (Fin 0) -> nth_error m1 i = nth_error m2 i.
Definition finite (l : list xr) : Prop := Forall (fun x => xfin x = true) l.
(** A band that the solver accepts: finite maggies and a finite, nonnegative inverse variance. *)
Definition usable (m iv : xr) : Prop := is_fin m /\ exists v, iv = Fin v /\ 0 <= v.
