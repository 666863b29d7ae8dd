(** Property theorems; proofs are in AuditThms.v.  Generated by tools/gen_prop.py. *)
From Coq Require Import String List Arith Lia Bool ZArith QArith Qreals Reals Lra Sorting.Sorted Permutation.
From Verif Require Import Base BaseLemmas Num Toy Interp InterpReal Spec Utils UtilsProofs UtilsReal UtilsThms Sed Response RespDict ResponseObj
  LinInterp ResponseEx ResponseThms RespDictThms FitterProofs Persist Spline SplineSpec SplineProofs SplineThms.
Import ListNotations.
Local Open Scope R_scope.
From Verif Require Import AuditThms.

(** C05.  The same in terms of the flux: with [F] the flux as a function of the asinh magnitude (its inverse), the returned
    inverse variance is 1/(F'(mag) err)^2. *)
Theorem C05_flux_derivative :
  forall (s : list nat) (mag err : list R),
    s <> [] -> last s 0%nat = 5%nat -> length mag = size s -> length err = size s ->
    Forall (fun e => e <> 0) err ->
    exists f iv : list R,
      sdss_asinh_to_maggies (rarr s mag) (Some (rarr s err)) None = Ok (rarr s f, Some (rarr s iv)) /\
      forall j, (j < size s)%nat ->
        exists (F : R -> R) (D : R),
          (forall m, luptitude (nth (j mod 5) softening 0) (F m) = m) /\ F (nth j mag 0) = nth j f 0 /\
          derivable_pt_lim F (nth j mag 0) D /\ D < 0 /\ nth j iv 0 = 1 / (D * nth j err 0) ^ 2.
Proof. exact L_C05_flux_derivative. Qed.
Print Assumptions C05_flux_derivative.

Example ex_C05_flux_derivative :
  Forall (fun e => e <> 0) [0.1; 0.2; 0.05; 0.1; 0.3] /\ length [0.1; 0.2; 0.05; 0.1; 0.3] = size [5]%nat.
Proof. exact E_C05_flux_derivative. Qed.

(** C57.  No sample of the solar (Vega) spectrum, in Angstrom, inside the band: no solar magnitude (no vega2ab). *)
Theorem C57_no_sample :
  forall cub bq (wave1 wave2 : list R) (u1 u2 : basel_unit R) wave y r w yy,
    length (b_flux _ u1) = length wave1 -> Forall (fun w => 0 < w) wave1 ->
    length (b_flux _ u2) = length wave2 -> Forall (fun w => 0 < w) wave2 ->
    band cub bq (Ok (wave1, [u1])) (Ok (wave2, [u2])) wave y r w yy ->
    (~ overlaps w (map (fun w => w * 10) wave1) -> p_solar r = None) /\
    (~ overlaps w (map (fun w => w * 10) wave2) -> p_vega2ab r = None).
Proof. exact L_C57_no_sample. Qed.
Print Assumptions C57_no_sample.

Example ex_C57_no_sample :
  let u := {| b_modelno := 1; b_teff := 1; b_logg := 1; b_mh := 1; b_vturb := 1; b_xh := 1; b_flux := [1;1;1;1] |} in
  (exists r, band lin bq0 (Ok ([100;200;300;400], [u])) (Ok ([100;200;300;400], [u])) [1;2;3;4] [0;1;1;0] r [1;2;3;4] [0;1;1;0]) /\
  ~ overlaps [1;2;3;4] (map (fun w => w * 10) [100;200;300;400]).
Proof. exact E_C57_no_sample. Qed.

(** C58.  maggies2flambda on a list of responses one of which cannot be read, the others being loaded: the first call raises;
    the second returns NaN for that response, and the right wavelengths and fluxes for the others. *)
Theorem C58_list :
  forall cub bq sun vega fs (d : dict (resp xr)) names bad (m : list R),
    In bad names -> dget d bad = None -> fs (bad ++ ".dat")%string = None -> length m = length names ->
    (forall n, In n names -> n <> bad -> exists r le, dget d n = Some r /\ p_leff r = Some (Fin le) /\ le <> 0) ->
    let (d1, r1) := maggies2flambda cub bq sun vega fs d names (vec (map Fin m)) None in
    let (d2, r2) := maggies2flambda cub bq sun vega fs d1 names (vec (map Fin m)) None in
    r1 = Raise ValueError /\
    exists wave f, r2 = Ok (wave, vec f, None) /\ length wave = length names /\ length f = length names /\
      forall j n, nth_error names j = Some n ->
        (n = bad -> nth_error wave j = Some NaN /\ nth_error f j = Some NaN) /\
        (forall r le, n <> bad -> dget d n = Some r -> p_leff r = Some (Fin le) ->
           nth_error wave j = Some (Fin le) /\ nth_error f j = Some (Fin (ab_flux le * nth j m 0))).
Proof. exact L_C58_list. Qed.
Print Assumptions C58_list.

Example ex_C58_list : exists (fs : @fsys xr) (d : dict (resp xr)) r,
  dget d "nope" = None /\ fs "nope.dat"%string = None /\ dget d "u" = Some r /\ p_leff r = Some (Fin 3500) /\ 3500 <> 0.
Proof. exact E_C58_list. Qed.

(** C78.  The curve is linear in the sampled values. *)
Theorem C78_linear :
  forall cub xs ys zs a b t,
    splines cub -> StronglySorted Rlt xs -> (4 <= length xs)%nat -> length ys = length xs -> length zs = length xs ->
    spline cub xs (zip (fun u v => a * u + b * v) ys zs) t = a * spline cub xs ys t + b * spline cub xs zs t.
Proof. exact L_C78_linear. Qed.
Print Assumptions C78_linear.

Example ex_C78_linear : splines notaknot /\ StronglySorted Rlt [1;2;3;4] /\ zip (fun u v => 2 * u + 3 * v) [0;1;1;0] [1;0;0;1] = [2*0+3*1; 2*1+3*0; 2*1+3*0; 2*0+3*1].
Proof. exact E_C78_linear. Qed.

(** C14.  SED.fromfits of a file that does not have both images FLUX and WAVE.  Without the extension asked for, or with a
    table there that lacks the column wave or flux: KeyError.  With an image there: IndexError. *)
Theorem C14_missing :
  forall (T : Type) (N : Num T) (f : fits T) ext interpolate,
    (forall h, In h f -> h_name h <> "FLUX"%string) \/ (forall h, In h f -> h_name h <> "WAVE"%string) ->
    ((forall h, In h f -> h_name h <> ext) -> sed_fromfits f ext interpolate = Raise KeyError) /\
    (forall before h after, f = before ++ h :: after -> h_name h = ext -> (forall h', In h' before -> h_name h' <> ext) ->
       ((forall a, ~ In (""%string, a) (h_cols h)) ->
        (forall a, ~ In ("wave"%string, a) (h_cols h)) \/ (forall a, ~ In ("flux"%string, a) (h_cols h)) ->
        sed_fromfits f ext interpolate = Raise KeyError) /\
       (forall a, h_cols h = [(""%string, a)] -> sed_fromfits f ext interpolate = Raise IndexError)).
Proof. exact L_C14_missing. Qed.
Print Assumptions C14_missing.

Example ex_C14_missing :
  let h := {| h_name := "FLUX"%string; h_cols := [("wave"%string, vec [1; 2]%Z)] |} in
  (forall h', In h' [h] -> h_name h' <> "WAVE"%string) /\ h_name h = "FLUX"%string /\
  (forall a, ~ In (""%string, a) (h_cols h)) /\ (forall a, ~ In ("flux"%string, a) (h_cols h)).
Proof. exact E_C14_missing. Qed.

(** C67.  Response.fromfits of a file whose first table lacks the wavelengths, or whose first extension is not a table of
    numbers: KeyError, and the response object keeps what it had. *)
Theorem C67_missing :
  forall (T : Type) (N : Num T) cub bq sun vega (r : resp T) h rest,
    (forall a, ~ In (""%string, a) (h_cols h)) -> (forall a, ~ In ("wave"%string, a) (h_cols h)) ->
    resp_fromfits cub bq sun vega r (Some (HNum h :: rest)) = (r, Some KeyError) /\
    (forall name l, resp_fromfits cub bq sun vega r (Some (HNames name l :: rest)) = (r, Some KeyError)) /\
    (forall nz rr abc, resp_fromfits cub bq sun vega r (Some (HData nz rr abc :: rest)) = (r, Some KeyError)).
Proof. exact L_C67_missing. Qed.
Print Assumptions C67_missing.

Example ex_C67_missing :
  let h := {| h_name := ""%string; h_cols := [("response"%string, vec [1; 2]%Z)] |} in
  (forall a, ~ In (""%string, a) (h_cols h)) /\ (forall a, ~ In ("wave"%string, a) (h_cols h)).
Proof. exact E_C67_missing. Qed.

(** C67.  Response.fromfits of a file whose first table has wavelengths but no response: KeyError, and the object is left with
    the wavelengths of the file, sorted, beside the response curve and the derived attributes it had. *)
Theorem C67_mixed :
  forall cub bq sun vega (r : resp R) h w rest,
    (forall a, ~ In (""%string, a) (h_cols h)) -> (forall a, ~ In ("response"%string, a) (h_cols h)) ->
    find (fun c => String.eqb (fst c) "wave") (h_cols h) = Some ("wave"%string, mk [1; length w]%nat w) ->
    exists r' w', resp_fromfits cub bq sun vega r (Some (HNum h :: rest)) = (r', Some KeyError) /\
      p_wave r' = Some w' /\ Permutation w' w /\ StronglySorted Rle w' /\
      p_resp r' = p_resp r /\ p_interp r' = p_interp r /\ p_leff r' = p_leff r /\ p_solar r' = p_solar r /\
      p_vega2ab r' = p_vega2ab r /\ p_fwhm r' = p_fwhm r.
Proof. exact L_C67_mixed. Qed.
Print Assumptions C67_mixed.

Example ex_C67_mixed : exists r,
  Response lin bq0 sun0 sun0 [1;2;3;4] [0;1;1;0] = Ok r /\
  let h := {| h_name := ""%string; h_cols := [("wave"%string, mk [1; 2]%nat [9; 7])] |} in
  (forall a, ~ In (""%string, a) (h_cols h)) /\ (forall a, ~ In ("response"%string, a) (h_cols h)) /\
  find (fun c => String.eqb (fst c) "wave") (h_cols h) = Some ("wave"%string, mk [1; length [9; 7]]%nat [9; 7]) /\
  p_wave r <> Some [7; 9].
Proof. exact E_C67_mixed. Qed.
