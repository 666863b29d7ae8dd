(** Vocabulary for the theorems about files. *)
From Coq Require Import Ascii String List Arith Bool ZArith QArith Reals.
From Verif Require Import Base Num Interp Sed Response RespDict Fitter FitSpec Kcorrect KSpec Persist.
Import ListNotations.

(** The two objects give the same result in every call of these methods. *)
Definition same_results {T} {N : Num T} (K K' : kcor T) : Prop :=
  (forall z c bs, reconstruct (k_fit K) z c bs = reconstruct (k_fit K') z c bs) /\
  (forall z c bs, reconstruct_out K z c bs = reconstruct_out K' z c bs) /\
  (forall z c bs, kcorrect K z c bs = kcorrect K' z c bs) /\
  (forall nnls rng z m iv mc cur, fit_coeffs nnls rng (k_fit K) z m iv mc cur = fit_coeffs nnls rng (k_fit K') z m iv mc cur) /\
  (forall distmod m iv z c bs d r l k, absmag distmod K m iv z c bs d r l k = absmag distmod K' m iv z c bs d r l k) /\
  (forall distmod m iv z c bs d r k, absmag_mc distmod K m iv z c bs d r k = absmag_mc distmod K' m iv z c bs d r k) /\
  (forall distmod dict z c bs d, derived distmod dict K z c bs d = derived distmod dict K' z c bs d) /\
  (forall distmod dict z c bs d, derived_mc distmod dict K z c bs d = derived_mc distmod dict K' z c bs d).

(** The ASCII white space of Python, by code, and a name that is stored in a file unchanged. *)
Definition white (c : ascii) : Prop := In (Ascii.nat_of_ascii c) [9; 10; 11; 12; 13; 28; 29; 30; 31; 32]%nat.
Definition storable (s : string) : Prop := (String.length s <= 200)%nat /\ forall p c, s = (p ++ String c "")%string -> ~ white c.

(** Truncation towards zero. *)
Definition Rtrunc (x : R) : Z := if Rlt_dec x 0 then (- Int_part (- x))%Z else Int_part x.

(** The spectra in the file of [s], at redshift 0 and without interpolator.  Table files are float32. *)
Definition reloaded {T} {N : Num T} (s : sed T) : sed T :=
  let r := if s_bin s then (fun x => x) else cst in
  {| s_rwave := map r (s_rwave s); s_rflux := map1 r (s_rflux s); s_wave := map r (s_rwave s); s_flux := map1 r (s_rflux s);
     s_z := n0; s_flag := false; s_interp := None; s_bin := s_bin s |}.
(** At least two wavelengths, [nsed] spectra. *)
Definition sed_shape {T} (s : sed T) (nsed : nat) : Prop :=
  (2 <= length (s_rwave s))%nat /\ shp (s_rflux s) = [nsed; length (s_rwave s)] /\
  length (dat (s_rflux s)) = (nsed * length (s_rwave s))%nat.
Definition tmpl_full {T} (t : tmpl T) : Prop :=
  Forall (fun v => v <> []) [t_intsfh t; t_mremain t; t_mets t; t_m50 t; t_m300 t; t_m1000 t].

(** An object as the constructor leaves it: both tables are on its redshift grid, imap gives for each name of
    responses_map its first position in responses. *)
Definition consistent {T} {N : Num T} (K : kcor T) (A Ao : atab T) (nb no nt : nat) : Prop :=
  kready K A Ao nb no nt /\ a_x A = f_zs (k_fit K) /\ a_x Ao = f_zs (k_fit K) /\ sed_shape (f_sed (k_fit K)) nt /\
  length (k_imap K) = length (k_map K) /\
  forall j name, nth_error (k_map K) j = Some name ->
    exists i, nth_error (k_imap K) j = Some i /\ nth_error (f_resp (k_fit K)) i = Some name /\
              forall i', (i' < i)%nat -> nth_error (f_resp (k_fit K)) i' <> Some name.

(** Loading the file with the constructor, or into any existing object, raises. *)
Definition unloadable {T} {N : Num T} (f : option (kfits T)) : Prop :=
  forall cub bq sun vega fs d,
    (exists e, snd (Kcorrect_file cub bq sun vega fs d f) = Raise e) /\
    forall K, exists e, snd (kcor_fromfits cub bq sun vega fs d K f) = Some e.

(** The file without the HDU of this name. *)
Definition without {T} (name : string) (f : kfits T) : kfits T :=
  filter (fun h => match h with HNum h => negb (String.eqb (h_name h) name) | _ => true end) f.
