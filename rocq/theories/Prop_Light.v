(** Property theorems; proofs are in LightThms.v.  Generated by tools/gen_prop.py. *)
From Coq Require Import String List Arith Lia Bool ZArith QArith Qreals Reals Lra.
From Verif Require Import Base BaseLemmas Num Interp InterpReal Spec Fitter FitSpec FitterProofs FitterMC FitReal FitTable FitEx
  FitRealEx Kcorrect KSpec KEx KcorrectProofs.
Import ListNotations.
Local Open Scope R_scope.
From Verif Require Import LightThms.

(** C93.  Only the masses depend on the distance: for two redshifts and two cosmologies, derived raises the same exception or the
    masses have the ratio 10^(0.4 (DM1 - DM2)) and the mass-to-light ratios, the star-formation ratios and the metallicity are the same. *)
Theorem C93_distance : forall distmod1 distmod2 dict (K : kcor R) A Ao nb no nt bs sols z1 z2 c,
  kready K A Ao nb no nt -> tmpl_shape K nt -> solars dict K sols -> length c = nt ->
  match derived_object distmod1 dict K bs (z1, c), derived_object distmod2 dict K bs (z2, c) with
  | Ok o1, Ok o2 =>
      o1 = map (fun kv => if in_dec string_dec (fst kv) ["mremain"; "intsfh"]%string
                          then (fst kv, map1 (fun x => x * pow10 (2 / 5 * (distmod1 z1 - distmod2 z2))) (snd kv)) else kv) o2
  | Raise e1, Raise e2 => e1 = e2
  | _, _ => False
  end.
Proof. exact L_C93_distance. Qed.
Print Assumptions C93_distance.

Example ex_C93_distance : kready r_kcor r_tab r_tab 2 2 1 /\ tmpl_shape r_kcor 1 /\ solars r_solar r_kcor [5; 4] /\
  exists o M, derived_object (fun z => z) r_solar r_kcor 0 (1, [3]) = Ok o /\ In ("mremain"%string, scal M) o /\ 0 < M.
Proof. exact E_C93_distance. Qed.

(** The luminosity that the mass-to-light ratio refers to is that of the absolute magnitude: if the measured flux in the band that
    responses_map assigns to output band j is the reconstructed one, then mremain / mtol is 10^(-0.4 (M - Msun)), M the absolute
    magnitude from absmag and Msun the solar magnitude of the band. *)
Theorem C93_luminosity : forall distmod dict (K : kcor R) A Ao nb no nt bs sols z m iv c dist lim kc mi mo a v o ml M j,
  kready K A Ao nb no nt -> no_ab (k_fit K) -> tmpl_shape K nt -> solars dict K sols ->
  length m = nb -> length iv = nb -> length c = nt -> 0 < fold_right Rplus 0 c ->
  reconstruct (k_fit K) (Some (scal z)) (Some (vec c)) 0 = Ok (vec mi) ->
  reconstruct_out K (Some (scal 0)) (Some (vec c)) bs = Ok (vec mo) ->
  absmag_object distmod K bs false false lim kc {| ko_z := z; ko_m := m; ko_iv := iv; ko_c := c; ko_d := dist |} = Ok a ->
  nth_error (parts a) 0 = Some (vec v) ->
  derived_object distmod dict K bs (z, c) = Ok o -> In ("mremain"%string, scal M) o -> In ("mtol"%string, vec ml) o ->
  (j < no)%nat -> 0 < nth (in_band K j) m 0 -> nth (in_band K j) mi 0 = nth (in_band K j) m 0 -> 0 < nth (in_band K j) iv 0 -> 0 < nth j mo 0 ->
  nth j ml 0 = M / pow10 (- (2 / 5) * (nth j v 0 - nth j sols 0)).
Proof. exact L_C93_luminosity. Qed.
Print Assumptions C93_luminosity.

Example ex_C93_luminosity : exists mi mo a v o ml M, 
  reconstruct (k_fit r_kcor) (Some (scal (1 / 4))) (Some (vec [1])) 0 = Ok (vec mi) /\
  reconstruct_out r_kcor (Some (scal 0)) (Some (vec [1])) 0 = Ok (vec mo) /\
  absmag_object (fun z => z) r_kcor 0 false false false false {| ko_z := 1 / 4; ko_m := mi; ko_iv := [1; 1]; ko_c := [1]; ko_d := 0 |} = Ok a /\
  nth_error (parts a) 0 = Some (vec v) /\
  derived_object (fun z => z) r_solar r_kcor 0 (1 / 4, [1]) = Ok o /\ In ("mremain"%string, scal M) o /\ In ("mtol"%string, vec ml) o /\
  0 < nth 0 mi 0 /\ 0 < nth 0 mo 0.
Proof. exact E_C93_luminosity. Qed.
