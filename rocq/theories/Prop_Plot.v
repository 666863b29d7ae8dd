(** Property theorems; proofs are in PlotThms.v.  Generated by tools/gen_prop.py. *)
From Coq Require Import String List Arith Lia Bool ZArith QArith Qreals Reals Lra.
From Verif Require Import Base BaseLemmas Num Toy Interp Sed FitSpec FitterProofs Plot PlotSpec.
Import ListNotations.
Local Open Scope R_scope.
From Verif Require Import PlotThms.

(** C82.  plot draws, for each requested spectrum in turn, the points (log lambda, log lambda f_lambda) of the samples
    with positive flux, and labels the axes. *)
Theorem C82_curves :
  forall (T : Type) (N : Num T) (s : sed T) w rows l chosen,
    spectra s w rows -> Forall2 (fun k r => pick rows k = Some r) l chosen ->
    exists cs, plot s (Many l) None = (cs ++ [Labels], None) /\ Forall2 (shows w) cs chosen.
Proof. exact L_C82_curves. Qed.
Print Assumptions C82_curves.

Example ex_C82_curves :
  exists s, SED [1; 2; 3]%Z (mk [2; 3]%nat [4; 0; 5; 6; 7; 8]%Z) false = Ok s /\
  spectra s [1; 2; 3]%Z [[4; 0; 5]; [6; 7; 8]]%Z /\
  Forall2 (fun k r => pick [[4; 0; 5]; [6; 7; 8]]%Z k = Some r) [-1; 0]%Z [[6; 7; 8]; [4; 0; 5]]%Z /\
  plot s (Many [-1; 0]%Z) None =
  ([Curve (map nlog10 [1; 2; 3]%Z) (map nlog10 [6; 14; 24]%Z); Curve (map nlog10 [1; 3]%Z) (map nlog10 [4; 15]%Z); Labels], None).
Proof. exact E_C82_curves. Qed.

(** Without [indx] all spectra are drawn, and an integer stands for a list of one. *)
Theorem C82_default :
  forall (T : Type) (N : Num T) (s : sed T) w rows lim,
    spectra s w rows -> s_nsed s = length rows ->
    (exists cs, plot s AllSeds None = (cs ++ [Labels], None) /\ Forall2 (shows w) cs rows) /\
    plot s AllSeds lim = plot s (Many (map Z.of_nat (seq 0 (length rows)))) lim /\
    forall i, plot s (One i) lim = plot s (Many [i]) lim.
Proof. exact L_C82_default. Qed.
Print Assumptions C82_default.

Example ex_C82_default :
  exists s, SED [1; 2; 3]%Z (vec [4; 0; 5]%Z) false = Ok s /\ spectra s [1; 2; 3]%Z [[4; 0; 5]]%Z /\ s_nsed s = 1%nat.
Proof. exact E_C82_default. Qed.

(** An index out of range raises IndexError after the spectra before it have been drawn. *)
Theorem C82_bad_index :
  forall (T : Type) (N : Num T) (s : sed T) w rows l chosen k more lim,
    spectra s w rows -> Forall2 (fun k r => pick rows k = Some r) l chosen -> pick rows k = None ->
    exists cs, plot s (Many (l ++ k :: more)) lim = (cs, Some IndexError) /\ Forall2 (shows w) cs chosen.
Proof. exact L_C82_bad_index. Qed.
Print Assumptions C82_bad_index.

Example ex_C82_bad_index :
  pick [[4; 0; 5]; [6; 7; 8]]%Z 2 = None /\ pick [[4; 0; 5]; [6; 7; 8]]%Z (-3) = None /\
  pick [[4; 0; 5]; [6; 7; 8]]%Z (-2) = Some [4; 0; 5]%Z.
Proof. exact E_C82_bad_index. Qed.

(** With wavelength limits that contain a sample with positive flux, every such sample is within the limits of the plot,
    which leave a margin of 0.1 above the brightest and below the faintest. *)
Theorem C82_limits :
  forall (s : sed R) w rows l chosen a b,
    spectra s w rows -> Forall (Rlt 0) w -> Forall2 (fun k r => pick rows k = Some r) l chosen ->
    (exists lam f, visible w chosen a b lam f) ->
    exists cs y0 y1,
      plot s (Many l) (Some [a; b]) = (cs ++ [XLim (log10 a) (log10 b); YLim y0 y1; Labels], None) /\
      Forall2 (shows w) cs chosen /\
      (forall lam f, visible w chosen a b lam f -> y0 + 1 / 10 <= log10 (lam * f) <= y1 - 1 / 10) /\
      (exists lam f, visible w chosen a b lam f /\ log10 (lam * f) = y0 + 1 / 10) /\
      (exists lam f, visible w chosen a b lam f /\ log10 (lam * f) = y1 - 1 / 10).
Proof. exact L_C82_limits. Qed.
Print Assumptions C82_limits.

Example ex_C82_limits :
  exists s, SED [1; 10; 100] (vec [4; 5; 6]) false = Ok s /\ spectra s [1; 10; 100] [[4; 5; 6]] /\
  pick [[4; 5; 6]] 0%Z = Some [4; 5; 6] /\ visible [1; 10; 100] [[4; 5; 6]] 5 50 10 5.
Proof. exact E_C82_limits. Qed.

(** If no spectrum has a positive flux between the limits, plot raises ValueError, after having drawn the spectra and set
    the wavelength limits. *)
Theorem C82_nothing_visible :
  forall (s : sed R) w rows l chosen a b,
    spectra s w rows -> Forall (Rlt 0) w -> Forall2 (fun k r => pick rows k = Some r) l chosen ->
    (forall lam f, ~ visible w chosen a b lam f) ->
    exists cs, plot s (Many l) (Some [a; b]) = (cs ++ [XLim (log10 a) (log10 b)], Some ValueError) /\
      Forall2 (shows w) cs chosen.
Proof. exact L_C82_nothing_visible. Qed.
Print Assumptions C82_nothing_visible.

Example ex_C82_nothing_visible :
  forall lam f, ~ visible [1; 10; 100] [[4; 0; 6]] 5 50 lam f.
Proof. exact E_C82_nothing_visible. Qed.

(** Limits that are not two positive numbers. *)
Theorem C82_bad_limits :
  forall (T : Type) (N : Num T) (s : sed T) w rows l chosen lim,
    spectra s w rows -> Forall2 (fun k r => pick rows k = Some r) l chosen -> length lim <> 2%nat ->
    exists cs, plot s (Many l) (Some lim) = (cs, Some (if (length lim <? 2)%nat then IndexError else ValueError)) /\
      Forall2 (shows w) cs chosen.
Proof. exact L_C82_bad_limits. Qed.
Print Assumptions C82_bad_limits.

Example ex_C82_bad_limits : length [1; 2; 3]%Z <> 2%nat /\ length [1]%Z <> 2%nat.
Proof. exact E_C82_bad_limits. Qed.

(** Whatever the arithmetic: limits that are finite after rounding and taking the logarithm are set as such, others raise
    ValueError; afterwards either finite limits of the fluxes are set too, or ValueError is raised. *)
Theorem C82_finite_limits :
  forall (T : Type) (N : Num T) (s : sed T) w rows l chosen a b,
    spectra s w rows -> Forall2 (fun k r => pick rows k = Some r) l chosen ->
    let x0 := nlog10 (cst a) in let x1 := nlog10 (cst b) in
    exists cs, Forall2 (shows w) cs chosen /\
      (nfin x0 && nfin x1 = false -> plot s (Many l) (Some [a; b]) = (cs, Some ValueError)) /\
      (nfin x0 && nfin x1 = true ->
        plot s (Many l) (Some [a; b]) = (cs ++ [XLim x0 x1], Some ValueError) \/
        exists y0 y1, nfin y0 = true /\ nfin y1 = true /\ plot s (Many l) (Some [a; b]) = (cs ++ [XLim x0 x1; YLim y0 y1; Labels], None)).
Proof. exact L_C82_finite_limits. Qed.
Print Assumptions C82_finite_limits.

Example ex_C82_finite_limits :
  exists s : sed xr, SED [Fin 1; Fin 10] (vec [Fin 4; PInf]) false = Ok s /\ spectra s [Fin 1; Fin 10] [[Fin 4; PInf]] /\
    pick [[Fin 4; PInf]] 0%Z = Some [Fin 4; PInf] /\ nfin (nlog10 (cst (Fin 2))) && nfin (nlog10 (cst (Fin 20))) = true /\
    nfin (nlog10 (cst (Fin 0))) && nfin (nlog10 (cst (Fin 20))) = false.
Proof. exact E_C82_finite_limits. Qed.

(** Fluxes that are not an array of spectra on the wavelengths cannot be drawn. *)
Theorem C82_shapes :
  forall (T : Type) (N : Num T) (s : sed T) k l lim,
    (ndim (s_flux s) <> 2%nat -> plot s (Many (k :: l)) lim = ([], Some IndexError)) /\
    (forall w rows, s_flux s = table w rows -> rect w rows -> w <> length (s_wave s) -> plot s (Many (k :: l)) lim = ([], Some IndexError)).
Proof. exact L_C82_shapes. Qed.
Print Assumptions C82_shapes.

Example ex_C82_shapes : ndim (mk [1; 2; 2]%nat [1; 2; 3; 4]%Z) <> 2%nat /\ rect 2 [[1; 2]; [3; 4]]%Z.
Proof. exact E_C82_shapes. Qed.

(** The plot of a spectrum at redshift z, with limits redshifted likewise, is the plot of the rest-frame spectrum shifted by
    log(1+z) in wavelength: lambda f_lambda does not change. *)
Theorem C82_redshift :
  forall wave flux interpolate (s : sed R) z i lim,
    SED wave flux interpolate = Ok s -> Forall (Rlt 0) wave -> 0 < 1 + z -> (forall l, lim = Some l -> Forall (Rlt 0) l) ->
    let s' := fst (set_redshift s z) in
    let '(drawn, e) := plot s i lim in
    plot s' i (option_map (map (fun a => a * (1 + z))) lim) = (map (shift_draw (log10 (1 + z))) drawn, e).
Proof. exact L_C82_redshift. Qed.
Print Assumptions C82_redshift.

Example ex_C82_redshift :
  exists s, SED [1; 10; 100] (vec [4; 5; 6]) false = Ok s /\ Forall (Rlt 0) [1; 10; 100] /\
  (forall l, Some [5; 50] = Some l -> Forall (Rlt 0) l).
Proof. exact E_C82_redshift. Qed.
