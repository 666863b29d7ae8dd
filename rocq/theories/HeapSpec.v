(** Vocabulary for the theorems about the caller's arrays. *)
From Coq Require Import List Arith Bool Reals.
From Verif Require Import Base Num Spec Fitter FitSpec Kcorrect Heap.
Import ListNotations.

(** An ndarray in which every element has a cell of its own (no zero strides). *)
Definition view_ok (v : view) : Prop := length (v_cells v) = size (v_shape v) /\ NoDup (v_cells v).
(** Its elements are float32 numbers, if it claims so. *)
Definition holds32 {T} {N : Num T} (h : heap T) (v : view) : Prop := Forall (fun c => cst (h c) = h c) (v_cells v).

(** An argument is sound: the above for an ndarray, one number per element for a list. *)
Definition arg_ok {T} {N : Num T} (h : heap T) (x : arg T) : Prop :=
  match x with
  | Lit a => wf a
  | Ref v => view_ok v /\ (v_f32 v = true -> holds32 h v)
  end.

(** The cells of an argument. *)
Definition cells {T} (x : arg T) : list nat := match x with Lit _ => [] | Ref v => v_cells v end.
Definition apart {T} (x y : arg T) : Prop := forall c, In c (cells x) -> In c (cells y) -> False.
(** A float32 ndarray. *)
Definition is_f32 {T} (x : arg T) : Prop := match x with Lit _ => False | Ref v => v_f32 v = true end.

(** Two memories that agree on all cells, or on all cells but those of some float32 arrays. *)
Definition same_mem {T} (h h' : heap T) : Prop := forall c, h' c = h c.
Definition same_but {T} (xs : list (arg T)) (h h' : heap T) : Prop :=
  forall c, (forall x, In x xs -> is_f32 x -> ~ In c (cells x)) -> h' c = h c.

(** A call whose arguments are accepted and that has an AB correction to make in place. *)
Definition corrects {T} {N : Num T} (F : fitter T) (h : heap T) (z : nd T) (xm xiv : arg T) (c : option (nd T)) : Prop :=
  f_abc F = true /\ f_kind F = GST /\ (7 <= length (f_resp F))%nat /\
  documented (length (f_resp F)) (f_nsed F) z (Some (value h xm)) (Some (value h xiv)) c.

(** No correction, or no float32 ndarray, or maggies or ivar missing. *)
Definition harmless {T} {N : Num T} (F : fitter T) (xm xiv : option (arg T)) : Prop :=
  f_abc F = false \/ f_kind F <> GST \/ (forall x, xm = Some x \/ xiv = Some x -> ~ is_f32 x) \/ xm = None \/ xiv = None.

(** The redshifts and coefficients of a call have the shape that goes with maggies of shape [s]. *)
Definition call_ok {T} (nt : nat) (s : list nat) (k : call T) : Prop :=
  match k with
  | CallFit z _ _ => shp z = removelast s
  | CallAbsmag z c _ _ _ _ _ => shp z = removelast s /\ shp c = removelast s ++ [nt]
  end.

(** The factor of the AB correction of a band of an FNugrizJHK-like array: bands 2 to 6 are ugriz. *)
Local Open Scope R_scope.
Definition gst_factor (band : nat) : R :=
  if (Nat.leb 2 band && Nat.leb band 6)%bool then pow10 (-0.4 * nth (band - 2) abfix 0) else 1.

(** Maggies and inverse variances of shape [s] (bands last), corrected [n] times. *)
Definition gst_maggies (n : nat) (s : list nat) (m : list R) : nd xr :=
  rarr s (map (fun j => nth j m 0 * gst_factor (j mod last s 0%nat) ^ n) (seq 0 (size s))).
Definition gst_ivar (n : nat) (s : list nat) (iv : list R) : nd xr :=
  rarr s (map (fun j => nth j iv 0 / (gst_factor (j mod last s 0%nat) ^ 2) ^ n) (seq 0 (size s))).
(** Maggies with a last axis of [mc] draws after the bands; the first [n] draws corrected once. *)
Definition gst_maggies_mc (n : nat) (s : list nat) (mc : nat) (m : list R) : nd xr :=
  rarr (s ++ [mc]) (map (fun j => if Nat.ltb (j mod mc) n then nth j m 0 * gst_factor ((j / mc) mod last s 0%nat) else nth j m 0)
                        (seq 0 (size s * mc))).
