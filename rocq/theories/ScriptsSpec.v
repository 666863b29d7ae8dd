(** Vocabulary for the theorems about the example programs. *)
From Coq Require Import List Arith Reals.
From Verif Require Import Base Num Spec Scripts.
Import ListNotations.
Local Open Scope R_scope.

(** The rows of the catalogues have five SDSS bands. *)
Definition five_bands {T} (r : gst_row T) : Prop := length (g_model r) = 5%nat /\ length (g_model_ivar r) = 5%nat.
Definition five_bands_im {T} (r : im_row T) : Prop := length (i_flux r) = 5%nat /\ length (i_ivar r) = 5%nat /\ length (i_ext r) = 5%nat.

(** Rows whose columns are finite numbers. *)
Definition fin_row (r : gst_row R) : gst_row xr :=
  {| g_fuv := Fin (g_fuv r); g_fuverr := Fin (g_fuverr r); g_nuv := Fin (g_nuv r); g_nuverr := Fin (g_nuverr r);
     g_model := map Fin (g_model r); g_model_ivar := map Fin (g_model_ivar r);
     g_j := Fin (g_j r); g_jsig := Fin (g_jsig r); g_h := Fin (g_h r); g_hsig := Fin (g_hsig r); g_k := Fin (g_k r); g_ksig := Fin (g_ksig r);
     g_ext := Fin (g_ext r); g_z := Fin (g_z r) |}.
Definition fin_im (r : im_row R) : im_row xr :=
  {| i_flux := map Fin (i_flux r); i_ivar := map Fin (i_ivar r); i_ext := map Fin (i_ext r) |}.

(** What a catalogue says about a band: nothing, or a magnitude on the AB system with a relative error of the flux. *)
Definition galex_measured (flux err : R) : Prop := flux <> -99 /\ flux <> 0 /\ err <> -99 /\ err <> 0.
Definition tmass_measured (mag sig : R) : Prop := mag <> 0 /\ 0 < sig.
(** Bands 0 and 1: FUV and NUV. *)
Definition galex_col (r : gst_row R) (k : nat) : R * R * R :=
  match k with O => (18.82, g_fuv r, g_fuverr r) | _ => (20.08, g_nuv r, g_nuverr r) end.
(** Bands 7, 8 and 9: J, H and Ks. *)
Definition tmass_col (vj vh vk : R) (r : gst_row R) (k : nat) : R * R * R :=
  match k with 7%nat => (vj, g_j r, g_jsig r) | 8%nat => (vh, g_h r, g_hsig r) | _ => (vk, g_k r, g_ksig r) end.

(** The extinction in band [k] relative to that in the SDSS r band. *)
Definition ext_coeff : list R := [8.29; 8.18; 5.155; 3.793; 2.751; 2.086; 1.479; 0.902; 0.576; 0.367].
Definition ext_mag (r : gst_row R) (k : nat) : R := g_ext r * (nth k ext_coeff 0 / 2.751).
Definition floors10 : list R := [0.03; 0.03; 0.02; 0.02; 0.02; 0.02; 0.02; 0.04; 0.04; 0.04].
Definition floors5 : list R := [0.05; 0.02; 0.02; 0.02; 0.03].

(** The relative error of a flux. *)
Definition rel_error (m iv : R) : R := 1 / (Rabs m * sqrt iv).
(** Entries [m], [iv] stand for a flux [f] with relative error [e]. *)
Definition stands_for (m iv : xr) (f e : R) : Prop := m = Fin f /\ exists v, iv = Fin v /\ 0 < v /\ rel_error f v = e.

(** Entry [k] of row [i]. *)
Definition entry {T} (rows : list (list T)) (i k : nat) (x : T) : Prop := exists r, nth_error rows i = Some r /\ nth_error r k = Some x.

(** A row full of values that cannot be used. *)
Definition nan_row : gst_row xr :=
  {| g_fuv := NaN; g_fuverr := Fin 1; g_nuv := Fin (-99); g_nuverr := Fin 0; g_model := [Fin 1; PInf; NInf; NaN; Fin 2]; g_model_ivar := [Fin (-1); Fin 1; NaN; Fin 1; Fin 3];
     g_j := NaN; g_jsig := Fin 1; g_h := Fin 0; g_hsig := Fin 1; g_k := Fin 12; g_ksig := PInf; g_ext := NaN; g_z := Fin 0 |}.
