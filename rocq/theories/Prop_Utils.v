(** Property theorems; proofs are in UtilsThms.v.  Generated by tools/gen_prop.py. *)
From Coq Require Import List Arith Lia Bool ZArith QArith Qreals Reals Lra.
From Verif Require Import Base BaseLemmas Num Toy Spec Utils UtilsProofs UtilsReal.
Import ListNotations.
Local Open Scope R_scope.
From Verif Require Import UtilsThms.

(** C01. sdss_ab_correct on any array whose last axis has 5 bands (1-D or N-D alike):
    band i is multiplied by 10^(-0.4 abfix_i), its ivar divided by the square. *)
Theorem C01_sdss_ab_correct :
  forall (s : list nat) (m iv ab : list R),
    last s 0%nat = 5%nat -> length m = size s -> length iv = size s -> length ab = 5%nat ->
    exists m' iv' : list R,
      sdss_ab_correct (rarr s m) (Some (rarr s iv)) (vec (map Fin ab))
        = Ok (rarr s m', Some (rarr s iv')) /\
      sdss_ab_correct (rarr s m) None (vec (map Fin ab)) = Ok (rarr s m', None) /\
      length m' = size s /\ length iv' = size s /\
      forall j, (j < size s)%nat ->
        let a := nth (j mod 5) ab 0 in
        nth j m' 0 = nth j m 0 * pow10 (-0.4 * a) /\
        nth j iv' 0 = nth j iv 0 / (pow10 (-0.4 * a)) ^ 2 /\
        (0 < nth j m 0 -> magnitude (nth j m' 0) = magnitude (nth j m 0) + a) /\
        (nth j m' 0) ^ 2 * nth j iv' 0 = (nth j m 0) ^ 2 * nth j iv 0 /\
        (0 < nth j m' 0 <-> 0 < nth j m 0) /\ (nth j m' 0 = 0 <-> nth j m 0 = 0) /\
        (0 < nth j iv' 0 <-> 0 < nth j iv 0) /\ (nth j iv' 0 = 0 <-> nth j iv 0 = 0).
Proof. exact L_C01_sdss_ab_correct. Qed.
Print Assumptions C01_sdss_ab_correct.

(** The hypotheses of C01 hold for a 2-object batch, and for the documented offsets. *)
Example ex_C01_sdss_ab_correct :
  last [2; 5]%nat 0%nat = 5%nat /\ length [1;2;3;4;5;6;7;8;9;10] = size [2;5]%nat /\
  @default_abfix xr _ = vec (map Fin [-0.036; 0.012; 0.010; 0.028; 0.040]).
Proof. exact E_C01_sdss_ab_correct. Qed.

(** C01. The offsets used when none are given: -0.036, 0.012, 0.010, 0.028, 0.040 magnitudes in u, g, r, i, z. *)
Theorem C01_default_offsets :
  forall (m : nd xr) (iv : option (nd xr)),
    sdss_ab_correct m iv default_abfix =
    sdss_ab_correct m iv (vec [Fin (-0.036); Fin 0.012; Fin 0.010; Fin 0.028; Fin 0.040]).
Proof. exact L_C01_default_offsets. Qed.
Print Assumptions C01_default_offsets.

(** C02. Correcting with abfix and then with the negated abfix gives the input back. *)
Theorem C02_sdss_ab_correct_invertible :
  forall (s : list nat) (m iv ab : list R),
    last s 0%nat = 5%nat -> length m = size s -> length iv = size s -> length ab = 5%nat ->
    exists am ai,
      sdss_ab_correct (rarr s m) (Some (rarr s iv)) (vec (map Fin ab)) = Ok (am, Some ai) /\
      sdss_ab_correct am (Some ai) (vec (map Fin (map Ropp ab)))
        = Ok (rarr s m, Some (rarr s iv)).
Proof. exact L_C02_sdss_ab_correct_invertible. Qed.
Print Assumptions C02_sdss_ab_correct_invertible.

Example ex_C02_sdss_ab_correct_invertible :
  last [5]%nat 0%nat = 5%nat /\ length [1;2;3;4;5] = size [5]%nat /\ length [0.1;0.2;0;0;-1] = 5%nat.
Proof. exact E_C02_sdss_ab_correct_invertible. Qed.

(** C03. What happens for other numbers of bands, in any arithmetic.
    1-D input: TypeError.  N-D input: too few columns raises IndexError; with more than five
    columns the extra columns of maggies and ivar come back as zero. *)
Theorem C03_sdss_ab_correct_1d_rejects :
  forall (T : Type) (N : Num T) (maggies abfix : nd T) (ivar : option (nd T)),
    length (shp maggies) = 1%nat -> last (shp maggies) 0%nat <> 5%nat ->
    sdss_ab_correct maggies ivar abfix = Raise TypeError.
Proof. exact L_C03_sdss_ab_correct_1d_rejects. Qed.
Print Assumptions C03_sdss_ab_correct_1d_rejects.

Example ex_C03_sdss_ab_correct_1d_rejects :
  sdss_ab_correct (vec [1;2;3;4]%Z) None (vec [0;0;0;0;0]%Z) = Raise TypeError.
Proof. exact E_C03_sdss_ab_correct_1d_rejects. Qed.

Theorem C03_sdss_ab_correct_nd_short :
  forall (T : Type) (N : Num T) (maggies abfix : nd T) (ivar : option (nd T)),
    wf maggies -> wf abfix -> shp abfix = [5%nat] ->
    (2 <= length (shp maggies))%nat -> (last (shp maggies) 0 < 5)%nat ->
    (forall iv, ivar = Some iv -> shp iv = shp maggies) ->
    sdss_ab_correct maggies ivar abfix = Raise IndexError.
Proof. exact L_C03_sdss_ab_correct_nd_short. Qed.
Print Assumptions C03_sdss_ab_correct_nd_short.

Example ex_C03_sdss_ab_correct_nd_short :
  sdss_ab_correct (mk [1;4]%nat [1;2;3;4]%Z) (Some (mk [1;4]%nat [1;1;1;1]%Z)) (vec [0;0;0;0;0]%Z) = Raise IndexError.
Proof. exact E_C03_sdss_ab_correct_nd_short. Qed.

Theorem C03_sdss_ab_correct_nd_wide :
  forall (s : list nat) (m iv ab : list R),
    (2 <= length s)%nat -> (5 < last s 0)%nat ->
    length m = size s -> length iv = size s -> length ab = 5%nat ->
    exists m' iv' : list R,
      sdss_ab_correct (rarr s m) (Some (rarr s iv)) (vec (map Fin ab))
        = Ok (rarr s m', Some (rarr s iv')) /\
      length m' = size s /\ length iv' = size s /\
      forall j, (j < size s)%nat ->
        let k := (j mod last s 0)%nat in
        ((k < 5)%nat -> nth j m' 0 = nth j m 0 * pow10 (-0.4 * nth k ab 0) /\
                        nth j iv' 0 = nth j iv 0 / (pow10 (-0.4 * nth k ab 0)) ^ 2) /\
        ((5 <= k)%nat -> nth j m' 0 = 0 /\ nth j iv' 0 = 0).
Proof. exact L_C03_sdss_ab_correct_nd_wide. Qed.
Print Assumptions C03_sdss_ab_correct_nd_wide.

(** A 6-band row: the sixth band (flux 7, ivar 9) is silently replaced by zero. *)
Example ex_C03_sdss_ab_correct_nd_wide :
  sdss_ab_correct (mk [1;6]%nat [1;1;1;1;1;7]%Z) (Some (mk [1;6]%nat [4;4;4;4;4;9]%Z)) (vec [0;0;0;0;0]%Z)
  = Ok (mk [1;6]%nat [1;1;1;1;1;0]%Z, Some (mk [1;6]%nat [4;4;4;4;4;0]%Z)).
Proof. exact E_C03_sdss_ab_correct_nd_wide. Qed.

(** The claim "every input band is corrected, or the call fails" is false. *)
Theorem C03_every_band_corrected_refuted :
  exists (s : list nat) (m iv ab m' iv' : list R) (j : nat),
    sdss_ab_correct (rarr s m) (Some (rarr s iv)) (vec (map Fin ab)) = Ok (rarr s m', Some (rarr s iv')) /\
    (j < size s)%nat /\ 0 < nth j m 0 /\ 0 < nth j iv 0 /\ nth j m' 0 = 0 /\ nth j iv' 0 = 0.
Proof. exact L_C03_every_band_corrected_refuted. Qed.
Print Assumptions C03_every_band_corrected_refuted.

(** C04. asinh magnitudes to maggies, zero extinction: the flux is the one whose asinh
    magnitude (SDSS definition) is the input, uniquely; closed form; sign. *)
Theorem C04_asinh_inverse :
  forall (s : list nat) (mag : list R),
    s <> [] -> last s 0%nat = 5%nat -> length mag = size s ->
    exists f : list R,
      sdss_asinh_to_maggies (rarr s mag) None None = Ok (rarr s f, None) /\
      length f = size s /\
      forall j, (j < size s)%nat ->
        let b := nth (j mod 5) softening 0 in
        luptitude b (nth j f 0) = nth j mag 0 /\
        (forall f', luptitude b f' = nth j mag 0 -> f' = nth j f 0) /\
        nth j f 0 = pow10 (-0.4 * nth j mag 0) - b ^ 2 * pow10 (0.4 * nth j mag 0) /\
        (0 < nth j f 0 <-> nth j mag 0 < magnitude b).
Proof. exact L_C04_asinh_inverse. Qed.
Print Assumptions C04_asinh_inverse.

(** ... and it is strictly decreasing in the magnitude, band by band. *)
Theorem C04_asinh_decreasing :
  forall (s : list nat) (mag1 mag2 f1 f2 : list R) (j : nat),
    s <> [] -> last s 0%nat = 5%nat -> length mag1 = size s -> length mag2 = size s ->
    sdss_asinh_to_maggies (rarr s mag1) None None = Ok (rarr s f1, None) ->
    sdss_asinh_to_maggies (rarr s mag2) None None = Ok (rarr s f2, None) ->
    (j < size s)%nat -> nth j mag1 0 < nth j mag2 0 -> nth j f2 0 < nth j f1 0.
Proof. exact L_C04_asinh_decreasing. Qed.
Print Assumptions C04_asinh_decreasing.

Example ex_C04_asinh_decreasing :
  exists f1 f2, sdss_asinh_to_maggies (rarr [5]%nat [20; 19; 18; 25; 22]) None None = Ok (rarr [5]%nat f1, None) /\
    sdss_asinh_to_maggies (rarr [5]%nat [20; 19; 18; 26; 22]) None None = Ok (rarr [5]%nat f2, None) /\
    (3 < size [5])%nat /\ nth 3 [20; 19; 18; 25; 22] 0 < nth 3 [20; 19; 18; 26; 22] 0.
Proof. exact E_C04_asinh_decreasing. Qed.

Example ex_C04_asinh_inverse :
  [1;5]%nat <> [] /\ last [1;5]%nat 0%nat = 5%nat /\ length [20.1; 19; 18.5; 24.9; 22] = size [1;5]%nat.
Proof. exact E_C04_asinh_inverse. Qed.

(** C05. The returned ivar is first-order propagation of the magnitude error through the
    asinh-magnitude definition: ivar = (d/err)^2, with d the derivative of the asinh
    magnitude with respect to flux at the returned flux. *)
Theorem C05_asinh_error :
  forall (s : list nat) (mag err : list R),
    s <> [] -> last s 0%nat = 5%nat -> length mag = size s -> length err = size s ->
    Forall (fun e => e <> 0) err ->
    exists f iv : list R,
      sdss_asinh_to_maggies (rarr s mag) (Some (rarr s err)) None = Ok (rarr s f, Some (rarr s iv)) /\
      forall j, (j < size s)%nat ->
        let b := nth (j mod 5) softening 0 in
        exists d, derivable_pt_lim (luptitude b) (nth j f 0) d /\ d <> 0 /\
                  nth j iv 0 = (d / nth j err 0) ^ 2.
Proof. exact L_C05_asinh_error. Qed.
Print Assumptions C05_asinh_error.

Example ex_C05_asinh_error :
  Forall (fun e => e <> 0) [0.1; 0.2; 0.05; 0.1; 0.3] /\ length [0.1; 0.2; 0.05; 0.1; 0.3] = size [5]%nat.
Proof. exact E_C05_asinh_error. Qed.

(** C06. Extinction multiplies the flux by 10^(0.4 A) and leaves the ivar exactly as it is
    without extinction, so the squared signal-to-noise is multiplied by 10^(0.8 A). *)
Theorem C06_extinction_flux_only :
  forall (s : list nat) (mag err ext : list R),
    s <> [] -> last s 0%nat = 5%nat -> length mag = size s -> length err = size s -> length ext = size s ->
    Forall (fun e => e <> 0) err ->
    exists f f' iv : list R,
      sdss_asinh_to_maggies (rarr s mag) (Some (rarr s err)) None = Ok (rarr s f, Some (rarr s iv)) /\
      sdss_asinh_to_maggies (rarr s mag) (Some (rarr s err)) (Some (rarr s ext))
        = Ok (rarr s f', Some (rarr s iv)) /\
      forall j, (j < size s)%nat ->
        nth j f' 0 = nth j f 0 * pow10 (0.4 * nth j ext 0) /\
        0 < nth j iv 0 /\
        ((nth j f' 0) ^ 2 * nth j iv 0 = (nth j f 0) ^ 2 * nth j iv 0 <->
         nth j f 0 = 0 \/ nth j ext 0 = 0).
Proof. exact L_C06_extinction_flux_only. Qed.
Print Assumptions C06_extinction_flux_only.

Example ex_C06_extinction_flux_only :
  length [0.1; 0.2; 0.05; 0.1; 0.3] = size [5]%nat /\ nth 0 [0.1; 0.2; 0.05; 0.1; 0.3] 0 <> 0.
Proof. exact E_C06_extinction_flux_only. Qed.

(** C07. error_floor, float arrays, 1-D or 2-D: entry by entry specification. *)
Theorem C07_error_floor :
  forall (s : list nat) (fl m iv : list R),
    s <> [] -> (length s <= 2)%nat -> length fl = last s 0%nat ->
    length m = size s -> length iv = size s ->
    exists out : list R,
      error_floor (fun x => x) (vec (map Fin fl)) (rarr s m) (rarr s iv) = Ok (rarr s out) /\
      length out = size s /\
      forall j, (j < size s)%nat ->
        let f := nth (j mod last s 0%nat) fl 0 in
        (0 < nth j iv 0 -> nth j m 0 <> 0 -> 0 < f ->
           nth j out 0 = floored_ivar f (nth j m 0) (nth j iv 0) /\
           0 < nth j out 0 /\ f <= 1 / (Rabs (nth j m 0) * sqrt (nth j out 0))) /\
        (nth j iv 0 <= 0 \/ nth j m 0 = 0 \/ f <= 0 -> nth j out 0 = nth j iv 0) /\
        nth j out 0 <= nth j iv 0.
Proof. exact L_C07_error_floor. Qed.
Print Assumptions C07_error_floor.

Example ex_C07_error_floor :
  [2;2]%nat <> [] /\ (length [2;2]%nat <= 2)%nat /\ length [0.05; 0.1] = last [2;2]%nat 0%nat /\
  0 < nth 0 [400; 1; 1; 1] 0 /\ floored_ivar 0.1 1 400 = 100.
Proof. exact E_C07_error_floor. Qed.

(** C07, rows: in any arithmetic, the 2-D result is the 1-D result of each row. *)
Theorem C07_error_floor_rows :
  forall (T : Type) (N : Num T) (store : T -> T) (floor : nd T) (n nb : nat) (m iv : list T),
    wf floor -> shp floor = [nb] -> length m = (n * nb)%nat -> length iv = (n * nb)%nat ->
    exists out, error_floor store floor (mk [n; nb] m) (mk [n; nb] iv) = Ok (mk [n; nb] out) /\
      forall i, (i < n)%nat ->
        error_floor store floor (vec (firstn nb (skipn (i * nb) m))) (vec (firstn nb (skipn (i * nb) iv)))
        = Ok (vec (firstn nb (skipn (i * nb) out))).
Proof. exact L_C07_error_floor_rows. Qed.
Print Assumptions C07_error_floor_rows.

Example ex_C07_error_floor_rows :
  wf (vec [1; 2]%Z) /\ shp (vec [1; 2]%Z) = [2%nat] /\ length [1;2;3;4;5;6]%Z = (3 * 2)%nat.
Proof. exact E_C07_error_floor_rows. Qed.

(** C08. error_floor applied twice is error_floor applied once (float arrays). *)
Theorem C08_error_floor_idempotent :
  forall (s : list nat) (fl m iv : list R),
    s <> [] -> (length s <= 2)%nat -> length fl = last s 0%nat ->
    length m = size s -> length iv = size s ->
    exists out,
      error_floor (fun x => x) (vec (map Fin fl)) (rarr s m) (rarr s iv) = Ok (rarr s out) /\
      error_floor (fun x => x) (vec (map Fin fl)) (rarr s m) (rarr s out) = Ok (rarr s out).
Proof. exact L_C08_error_floor_idempotent. Qed.
Print Assumptions C08_error_floor_idempotent.

Example ex_C08_error_floor_idempotent :
  [2;2]%nat <> [] /\ (length [2;2]%nat <= 2)%nat /\ length [0.05; 0.1] = last [2;2]%nat 0%nat /\
  length [1; 2; 3; 4] = size [2;2]%nat /\ length [400; 1; 0; 9] = size [2;2]%nat.
Proof. exact E_C08_error_floor_idempotent. Qed.

(** C08, integer ivar arrays: a lowered value is truncated when it is stored.  Whenever the
    error implied by the floor exceeds one flux unit the stored ivar is 0: the band is lost. *)
Theorem C08_error_floor_integer_truncates :
  forall (fl m : R) (iv : Z),
    (0 < iv)%Z -> 1 < Rabs m * fl -> 0 < fl ->
    error_floor trunc_store (vec [Fin fl]) (vec [Fin m]) (vec [Fin (IZR iv)]) = Ok (vec [Fin 0]).
Proof. exact L_C08_error_floor_integer_truncates. Qed.
Print Assumptions C08_error_floor_integer_truncates.

Example ex_C08_error_floor_integer_truncates : (0 < 1)%Z /\ 1 < Rabs 100 * 0.1 /\ 0 < 0.1.
Proof. exact E_C08_error_floor_integer_truncates. Qed.

(** C09. maggies2flambda for 1-D and 2-D input (effective wavelengths nonzero): unit
    conversion by the AB flux density at the effective wavelength, S/N preserved, invertible. *)
Theorem C09_maggies2flambda :
  forall (s : list nat) (n : nat) (lam m iv : list R),
    s = [length lam] \/ s = [n; length lam] -> Forall (fun w => w <> 0) lam ->
    length m = size s -> length iv = size s ->
    exists f fi : list R,
      maggies2flambda_core (map Fin lam) (rarr s m) (Some (rarr s iv))
        = Ok (map Fin lam, rarr s f, Some (rarr s fi)) /\
      maggies2flambda_core (map Fin lam) (rarr s m) None = Ok (map Fin lam, rarr s f, None) /\
      length f = size s /\ length fi = size s /\
      forall j, (j < size s)%nat ->
        let c := ab_flux (nth (j mod length lam) lam 0) in
        0 < c /\ nth j f 0 = nth j m 0 * c /\ nth j fi 0 = nth j iv 0 / c ^ 2 /\
        (nth j f 0) ^ 2 * nth j fi 0 = (nth j m 0) ^ 2 * nth j iv 0 /\
        nth j m 0 = nth j f 0 / c.
Proof. exact L_C09_maggies2flambda. Qed.
Print Assumptions C09_maggies2flambda.

Example ex_C09_maggies2flambda :
  [2; 2]%nat = [length [3551; 4686]] \/ [2; 2]%nat = [2%nat; length [3551; 4686]].
Proof. exact E_C09_maggies2flambda. Qed.

(** C10. read_basel returns what was laid out, for any number of models; [rf], [ri] print a
    number as a word and [pf], [pint] read it back.  [b_flux] etc. are the fields of a model. *)
Theorem C10_read_basel_round_trip :
  forall (T : Type) (N : Num T) (W : Type) (pf : W -> res T) (pint : W -> res Z)
         (rf : T -> W) (ri : Z -> W) (dw : W),
    (forall x, pf (rf x) = Ok x) -> (forall z, pint (ri z) = Ok z) ->
    forall (wave : list T) (models : list (basel_unit T)) (trailing : list W),
      length wave = 1221%nat -> (forall u, In u models -> length (b_flux _ u) = 1221%nat) ->
      (length trailing < 1227)%nat ->
      let words :=
        map rf wave ++
        concat (map (fun u => [ri (b_modelno _ u); rf (b_teff _ u); rf (b_logg _ u); rf (b_mh _ u);
                               rf (b_vturb _ u); rf (b_xh _ u)] ++ map rf (b_flux _ u)) models)
        ++ trailing in
      read_basel pf pint dw words = Ok (wave, models).
Proof. exact L_C10_read_basel_round_trip. Qed.
Print Assumptions C10_read_basel_round_trip.

(** Words as optional numbers: printing and parsing are inverse, and a file of two models exists. *)
Example ex_C10_read_basel_round_trip :
  let w := repeat 5%Z 1221 in
  let u := {| b_modelno := 7; b_teff := 1; b_logg := 2; b_mh := 3; b_vturb := 4; b_xh := 5; b_flux := w |}%Z in
  length w = 1221%nat /\ (forall v, In v [u; u] -> length (b_flux _ v) = 1221%nat).
Proof. exact E_C10_read_basel_round_trip. Qed.

(** C10, short files: fewer than 1221 words never give a result. *)
Theorem C10_read_basel_short :
  forall (T : Type) (N : Num T) (W : Type) (pf : W -> res T) (pint : W -> res Z) (dw : W) (words : list W),
    (length words < 1221)%nat -> forall r, read_basel pf pint dw words <> Ok r.
Proof. exact L_C10_read_basel_short. Qed.
Print Assumptions C10_read_basel_short.

Example ex_C10_read_basel_short :
  read_basel (T:=Z) (fun x => Ok x) (fun x => Ok x) 0%Z [1;2;3]%Z = Raise ValueError.
Proof. exact E_C10_read_basel_short. Qed.
