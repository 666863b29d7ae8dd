(** Vocabulary for the theorems about kcorrect.py. *)
From Coq Require Import String List Arith Bool.
From Verif Require Import Base Num Interp Sed Response RespDict Fitter FitSpec Kcorrect.
Import ListNotations.

(** A Kcorrect object with [nb] input bands, [no] output bands and [nt] templates. *)
Definition kready {T} {N : Num T} (K : kcor T) (A Ao : atab T) (nb no nt : nat) : Prop :=
  ready (k_fit K) A nb nt /\ k_Aout K = Some Ao /\ tab_ok Ao no nt /\ length (k_out K) = no /\
  length (k_imap K) = no /\ Forall (fun i => i < nb) (k_imap K).

(** The same object with abcorrect=False. *)
Definition kwithout_ab {T} (K : kcor T) : kcor T :=
  {| k_fit := without_ab (k_fit K); k_tmpl := k_tmpl K; k_out := k_out K; k_map := k_map K; k_Aout := k_Aout K;
     k_imap := k_imap K; k_rr := k_rr K |}.

(** Rounding to float32 twice is rounding once, and 0 is a float32. *)
Definition rounding {T} (N : Num T) : Prop := (forall x : T, cst (cst x) = cst x) /\ cst n0 = (n0 : T).

(** One object of a batch: redshift and coefficients. *)
Definition zc_ok {T} (nt : nat) (zc : T * list T) : Prop := length (snd zc) = nt.

(** Input band of output band [j]. *)
Definition in_band {T} (K : kcor T) (j : nat) : nat := nth j (k_imap K) 0.

(** One object of a batch for absmag: redshift, maggies, inverse variances, coefficients and distance. *)
Record kobj (T : Type) := { ko_z : T; ko_m : list T; ko_iv : list T; ko_c : list T; ko_d : T }.
Arguments ko_z {T}. Arguments ko_m {T}. Arguments ko_iv {T}. Arguments ko_c {T}. Arguments ko_d {T}.
Definition kobj_ok {T} (nb nt : nat) (o : kobj T) : Prop :=
  length (ko_m o) = nb /\ length (ko_iv o) = nb /\ length (ko_c o) = nt.
(** absmag called for one object, and for a batch; [wd]: with the distances of the objects. *)
Definition absmag_object {T} {N : Num T} distmod (K : kcor T) bs (wd r l k : bool) (o : kobj T) :=
  absmag distmod K (Some (vec (ko_m o))) (Some (vec (ko_iv o))) (Some (scal (ko_z o))) (Some (vec (ko_c o))) bs
         (if wd then Some (scal (ko_d o)) else None) r l k.
Definition absmag_objects {T} {N : Num T} distmod (K : kcor T) nb nt bs (wd r l k : bool) (objs : list (kobj T)) :=
  absmag distmod K (Some (table nb (map ko_m objs))) (Some (table nb (map ko_iv objs))) (Some (vec (map ko_z objs)))
         (Some (table nt (map ko_c objs))) bs (if wd then Some (vec (map ko_d objs)) else None) r l k.

(** The response cache has the output responses, with solar magnitudes [sols]. *)
Definition solars {T} (d : dict (resp T)) (K : kcor T) (sols : list T) : Prop :=
  Forall2 (fun name s => exists r, dget d name = Some r /\ p_solar r = Some s) (k_out K) sols.
(** The template arrays have one entry per template. *)
Definition tmpl_shape {T} (K : kcor T) (nt : nat) : Prop :=
  let t := k_tmpl K in
  Forall (fun v => length v = nt) [t_intsfh t; t_mremain t; t_mets t; t_m50 t; t_m300 t; t_m1000 t].

(** The arrays in a result of absmag or absmag_mc. *)
Definition parts {T} (o : am_out T) : list (nd T) := match o with Bare1 a => [a] | Tuple l => l end.
Definition count (b : bool) : nat := if b then 1 else 0.

(** absmag and derived called with slice i of the Monte Carlo arrays. *)
Definition absmag_slice {T} {N : Num T} distmod (K : kcor T) mm iv z cm bs d r k (i : nat) : res (am_out T) :=
  do m <- get_last i n0 mm; do c <- get_last i n0 cm;
  absmag distmod K (Some m) iv z (Some c) bs d r false k.
Definition derived_slice {T} {N : Num T} distmod dict (K : kcor T) z cm bs d (i : nat) : res (outdict T) :=
  do c <- get_last i n0 cm; derived distmod dict K z (Some c) bs d.
(** derived without distance for one object and for a batch of objects, each a redshift and coefficients. *)
Definition derived_object {T} {N : Num T} distmod dict (K : kcor T) bs (zc : T * list T) : res (outdict T) :=
  derived distmod dict K (Some (scal (fst zc))) (Some (vec (snd zc))) bs None.
Definition derived_objects {T} {N : Num T} distmod dict (K : kcor T) nt bs (objs : list (T * list T)) : res (outdict T) :=
  derived distmod dict K (Some (vec (map fst objs))) (Some (table nt (map snd objs))) bs None.
(** One object, or a batch of n. *)
Definition batch_shape (sh : list nat) : Prop := sh = [] \/ exists n, sh = [n].
(** Every value repeated [w] times along a last axis. *)
Definition replicated {T} (sh : list nat) (w : nat) (v : nd T) : nd T := mk (sh ++ [w]) (concat (map (fun x => repeat x w) (dat v))).
