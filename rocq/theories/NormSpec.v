(** Vocabulary for C91: response curves in other units. *)
From Coq Require Import String List Arith Reals.
From Verif Require Import Base Num Interp Sed Response RespDict.
Import ListNotations.
Local Open Scope R_scope.

(** The parsed table of a response file with the throughput column multiplied by [k]. *)
Definition in_units (k : R) (t : option (res (list R * list R))) : option (res (list R * list R)) :=
  match t with Some (Ok wy) => Some (Ok (fst wy, map (fun v => k * v) (snd wy))) | _ => t end.

(** Two Response objects that differ at most in the normalisation: the same wavelengths, effective wavelength, solar magnitude, Vega
    offset and width, and the same result (or exception) of [project] for every SED object and all arrays. *)
Record same_band (cub : list R -> list R -> R -> R) (r r' : resp R) : Prop := {
  sb_wave : p_wave r = p_wave r'; sb_leff : p_leff r = p_leff r'; sb_solar : p_solar r = p_solar r';
  sb_vega : p_vega2ab r = p_vega2ab r'; sb_fwhm : p_fwhm r = p_fwhm r';
  sb_sed : forall s, project_sed cub r s = project_sed cub r' s;
  sb_arr : forall wave flux, project_arr cub r wave flux = project_arr cub r' wave flux }.

(** Caches with the same names for such responses. *)
Definition same_bands (cub : list R -> list R -> R -> R) (d d' : dict (resp R)) : Prop :=
  Forall2 (fun e e' => fst e = fst e' /\ same_band cub (snd e) (snd e')) d d'.
