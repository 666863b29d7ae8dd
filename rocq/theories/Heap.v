(** The caller's arrays: which calls of fitter.py and kcorrect.py modify the arrays passed to them.

    Fitter.v and Kcorrect.v describe results as functions of the values of the arguments.  Here maggies, ivar and
    maggies_mc may be arrays in a memory shared with the caller.  np.float32(a) (fitter.py:301, 316) returns the same
    array when a is already a float32 ndarray, and a new one otherwise (numpy behaviour, not code of /repo).

    Simplifications: redshift, coeffs, coeffs_mc and distance are passed by value (they are never written to, and are
    assumed not to share memory with maggies or ivar); read-only arrays, on which the assignments of
    kcorrect.py:1150-1151 raise ValueError, are not modelled. *)
From Coq Require Import List Arith Bool.
From Verif Require Import Base Num Interp Utils Sed Response RespDict Fitter FitSpec Kcorrect.
Import ListNotations.

Section Heap.
  Context {T : Type} {N : Num T}.

  (** Memory: one number per cell. *)
  Definition heap := nat -> T.

  (** An ndarray: its shape, the cells of its elements in row-major order, and whether its dtype is float32 (native
      byte order).  Views of the same data share cells. *)
  Record view := { v_shape : list nat; v_cells : list nat; v_f32 : bool }.

  (** An argument: a list or anything else that is not an ndarray, or an ndarray. *)
  Inductive arg := Lit (a : nd T) | Ref (v : view).

  Definition read (h : heap) (v : view) : nd T := mk (v_shape v) (map h (v_cells v)).
  Definition value (h : heap) (x : arg) : nd T := match x with Lit a => a | Ref v => read h v end.

  (** The array of the caller that np.float32(x) returns, if it does not make a copy. *)
  Definition alias (x : arg) : option view :=
    match x with Ref v => if v_f32 v then Some v else None | Lit _ => None end.

  Definition poke (h : heap) (c : nat) (x : T) : heap := fun k => if Nat.eqb k c then x else h k.

  (** v[..., 2:7] = a[..., 2:7], a of the same shape; the columns that exist. *)
  Definition write_cols (h : heap) (v : view) (a : nd T) : heap :=
    let w := lastd (v_shape v) in
    fold_left (fun h (ix : nat * (nat * T)) =>
                 let k := fst ix mod w in
                 if Nat.leb 2 k && Nat.leb k 6 then poke h (fst (snd ix)) (snd (snd ix)) else h)
              (combine (seq 0 (length (v_cells v))) (combine (v_cells v) (dat a))) h.

  Definition write_if (h : heap) (o : option view) (a : nd T) : heap :=
    match o with Some v => write_cols h v a | None => h end.
  (** The content of an array after the call: of the caller's one, or the given value of a new one. *)
  Definition read_if (h : heap) (o : option view) (a : nd T) : nd T :=
    match o with Some v => read h v | None => a end.

  (** kcorrect.py:1146-1157, [KcorrectGST.to_ab] on arrays with contents [m] and [iv], of which those in [om], [oiv] belong
      to the caller.  Both corrections are computed before the first assignment (kcorrect.py:1147-1149), and the assignments
      cannot fail: the slices have the shape of the corrected values. *)
  Definition gst_to_ab_h (h : heap) (om oiv : option view) (m : nd T) (iv : option (nd T))
    : heap * res (nd T * option (nd T)) :=
    match gst_to_ab m iv with
    | Raise e => (h, Raise e)
    | Ok (m', iv') =>
      let h1 := write_if h om m' in
      let h2 := match iv' with Some i => write_if h1 oiv i | None => h1 end in
      (h2, Ok (read_if h2 om m', option_map (read_if h2 oiv) iv'))
    end.

  Definition to_ab_h (k : abkind) (h : heap) (om oiv : option view) (m : nd T) (iv : option (nd T))
    : heap * res (nd T * option (nd T)) :=
    match k with
    | GST => gst_to_ab_h h om oiv m iv
    | _ => (h, to_ab k m iv)
    end.

  Definition obind {A B} (o : option A) (f : A -> option B) : option B := match o with Some x => f x | None => None end.

  (** A direct call obj.to_ab(maggies=..., ivar=...) with ndarrays: there is no np.float32, so [KcorrectGST.to_ab] writes
      into arrays of any (floating) dtype.  A list as argument of KcorrectGST.to_ab raises TypeError, as
      it cannot be subscripted with [..., 2:7]; not modelled for the other classes. *)
  Definition to_ab_call (k : abkind) (h : heap) (vm : view) (viv : option view) : heap * res (nd T * option (nd T)) :=
    to_ab_h k h (Some vm) viv (read h vm) (option_map (read h) viv).

  (** fitter.py:234-352 [_process_inputs]: the checks, as in [process_inputs], then the AB correction. *)
  Definition process_h (F : fitter T) (h : heap) (z : option (nd T)) (xm xiv : option arg) (c : option (nd T))
    : heap * res (pin T) :=
    match process_inputs (without_ab F) z (option_map (value h) xm) (option_map (value h) xiv) c with
    | Raise e => (h, Raise e)
    | Ok p =>
      match f_abc F, q_m p with
      | true, Some m =>
        match to_ab_h (f_kind F) h (obind xm alias) (obind xiv alias) m (q_iv p) with
        | (h', Raise e) => (h', Raise e)
        | (h', Ok (m', iv')) =>
          (h', Ok {| q_array := q_array p; q_n := q_n p; q_z := q_z p; q_m := Some m';
                     q_iv := match q_iv p with Some _ => iv' | None => None end; q_c := q_c p |})
        end
      | _, _ => (h, Ok p)
      end
    end.

  Variable nnls : option nat -> nat -> list (list T) -> list T -> option (list T).
  Variable rng : nat -> T.
  Variable distmod : T -> T.

  (** fitter.py:354-454 [fit_coeffs] *)
  Definition fit_coeffs_h (F : fitter T) (h : heap) (z : option (nd T)) (xm xiv : option arg) (mc cur : nat)
    : heap * res (fc_out T * nat) :=
    match z with
    | None => (h, Raise TypeError)
    | Some _ =>
      match process_h F h z xm xiv None with
      | (h', Raise e) => (h', Raise e)
      | (h', Ok p) => (h', fit_after nnls rng F p mc cur)
      end
    end.

  (** kcorrect.py:469-619 [absmag] *)
  Definition absmag_h (K : kcor T) (h : heap) (xm xiv : option arg) (z c : option (nd T)) (bs : T) (distance : option (nd T))
             (rec lim kc : bool) : heap * res (am_out T) :=
    match process_h (k_fit K) h z xm xiv c with
    | (h', Raise e) => (h', Raise e)
    | (h', Ok p) => (h', absmag_after distmod K p bs distance rec lim kc)
    end.

  (** x[..., i]: for an ndarray, a view. *)
  Definition slice (i : nat) (x : arg) : res arg :=
    match x with
    | Lit a => do b <- get_last i n0 a; Ok (Lit b)
    | Ref v => do b <- get_last i 0 (mk (v_shape v) (v_cells v));
               Ok (Ref {| v_shape := shp b; v_cells := dat b; v_f32 := v_f32 v |})
    end.

  (** kcorrect.py:676-690, the draws. *)
  Fixpoint absmag_draws_h (K : kcor T) (h : heap) (xm : arg) (xiv : option arg) (z : option (nd T)) (cmc : nd T) (bs : T)
           (distance : option (nd T)) (rec kc : bool) (outs : list (nd T)) (draws : list nat)
    : heap * res (list (nd T)) :=
    match draws with
    | [] => (h, Ok outs)
    | i :: r =>
      match slice i xm with
      | Raise e => (h, Raise e)
      | Ok x =>
        match get_last i n0 cmc with
        | Raise e => (h, Raise e)
        | Ok c =>
          match absmag_h K h (Some x) xiv z (Some c) bs distance rec false kc with
          | (h', Raise e) => (h', Raise e)
          | (h', Ok o) =>
            let parts := match o with Bare1 a => [a] | Tuple l => l end in
            match mapM (fun ov : nd T * nd T => store_at i (snd ov) (fst ov)) (combine outs parts) with
            | Raise e => (h', Raise e)
            | Ok outs' => absmag_draws_h K h' xm xiv z cmc bs distance rec kc outs' r
            end
          end
        end
      end
    end.

  (** kcorrect.py:621-702 [absmag_mc] *)
  Definition absmag_mc_h (K : kcor T) (h : heap) (xm : arg) (xiv : option arg) (z : option (nd T)) (cmc : nd T) (bs : T)
             (distance : option (nd T)) (rec kc : bool) : heap * res (am_out T) :=
    match shp cmc with
    | [] => (h, Raise IndexError)
    | _ =>
      let n := 1 + (if rec then 1 else 0) + (if kc then 1 else 0) in
      match absmag_draws_h K h xm xiv z cmc bs distance rec kc (repeat (full (shp (value h xm)) n0) n)
                           (seq 0 (lastd (shp cmc))) with
      | (h', Raise e) => (h', Raise e)
      | (h', Ok [a]) => (h', Ok (Bare1 a))
      | (h', Ok l) => (h', Ok (Tuple l))
      end
    end.

  (** A sequence of calls by a program that keeps its photometry in the same variables. *)
  Inductive call :=
  | CallFit (z : nd T) (mc cur : nat)
  | CallAbsmag (z : nd T) (c : nd T) (bs : T) (distance : option (nd T)) (rec lim kc : bool).
  Definition call_h (K : kcor T) (xm xiv : option arg) (h : heap) (k : call) : heap :=
    match k with
    | CallFit z mc cur => fst (fit_coeffs_h (k_fit K) h (Some z) xm xiv mc cur)
    | CallAbsmag z c bs d r l k => fst (absmag_h K h xm xiv (Some z) (Some c) bs d r l k)
    end.
  Definition calls_h (K : kcor T) (xm xiv : option arg) (ks : list call) (h : heap) : heap :=
    fold_left (call_h K xm xiv) ks h.
End Heap.
Arguments heap : clear implicits.
Arguments arg : clear implicits.
Arguments call : clear implicits.
