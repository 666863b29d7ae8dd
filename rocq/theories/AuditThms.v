(** More about utils.py and response.py: C05 in terms of the flux, C57 without samples in the band, C58 for lists of responses,
    C78: linear in the samples.  C14, C67: files without the columns needed. *)
From Coq Require Import String List Arith Lia Bool ZArith QArith Qreals Reals Lra Sorting.Sorted Permutation.
From Verif Require Import Base BaseLemmas Num Toy Interp InterpReal Spec Utils UtilsProofs UtilsReal UtilsThms Sed Response RespDict ResponseObj
  LinInterp ResponseEx ResponseThms RespDictThms FitterProofs Persist Spline SplineSpec SplineProofs SplineThms.
Import ListNotations.
Local Open Scope R_scope.
(* STATEMENTS *)

(** C05.  The same in terms of the flux: with [F] the flux as a function of the asinh magnitude (its inverse), the returned
    inverse variance is 1/(F'(mag) err)^2. *)
Lemma L_C05_flux_derivative :
  forall (s : list nat) (mag err : list R),
    s <> [] -> last s 0%nat = 5%nat -> length mag = size s -> length err = size s ->
    Forall (fun e => e <> 0) err ->
    exists f iv : list R,
      sdss_asinh_to_maggies (rarr s mag) (Some (rarr s err)) None = Ok (rarr s f, Some (rarr s iv)) /\
      forall j, (j < size s)%nat ->
        exists (F : R -> R) (D : R),
          (forall m, luptitude (nth (j mod 5) softening 0) (F m) = m) /\ F (nth j mag 0) = nth j f 0 /\
          derivable_pt_lim F (nth j mag 0) D /\ D < 0 /\ nth j iv 0 = 1 / (D * nth j err 0) ^ 2.
Proof.
  intros s mag err Hne H5 Hm He Hz.
  pose proof (asinh_real s mag (Some err) None Hne H5 Hm) as E. cbn [option_map] in E.
  do 2 eexists. split; [apply E; [intros e Ee; injection Ee as <-; auto|intros; discriminate]|].
  intros j Hj. rewrite !nth_map_seq by exact Hj.
  destruct (b0_real (j mod 5)) as [_ Hb]; [apply Nat.mod_upper_bound; lia|].
  set (b := nth (j mod 5) softening 0) in *. set (m := nth j mag 0).
  replace (0.4 * 0) with 0 by lra. rewrite pow10_0, Rmult_1_r.
  pose proof ln10_pos as Hl. pose proof (cosh_pos (lam b m)) as Hc.
  exists (fun m => 2 * b * sinh (lam b m)), (2 * b * (cosh (lam b m) * (- (0.4 * ln 10)))).
  split; [intro; apply luptitude_of_flux; auto|]. split; [reflexivity|]. split.
  - apply (derivable_pt_lim_scal (fun m => sinh (lam b m)) (2 * b)).
    apply (derivable_pt_lim_comp (lam b) sinh); [|apply derivable_pt_lim_sinh].
    unfold lam. replace (- (0.4 * ln 10)) with (0 - (0.4 * ln 10) * 1) by ring.
    apply (derivable_pt_lim_minus (fun _ => - ln b) (fun m => 0.4 * ln 10 * m)); [apply derivable_pt_lim_const|].
    apply (derivable_pt_lim_scal id (0.4 * ln 10)). apply derivable_pt_lim_id.
  - assert (Hej : nth j err 0 <> 0).
    { rewrite Forall_forall in Hz. apply Hz. apply nth_In. lia. }
    split.
    + assert (0 < b * cosh (lam b m)) by (apply Rmult_lt_0_compat; auto).
      assert (0 < b * cosh (lam b m) * ln 10) by (apply Rmult_lt_0_compat; auto). lra.
    + replace 0.4 with (2 / 5) by lra. field. repeat split; lra.
Qed.
Lemma E_C05_flux_derivative :
  Forall (fun e => e <> 0) [0.1; 0.2; 0.05; 0.1; 0.3] /\ length [0.1; 0.2; 0.05; 0.1; 0.3] = size [5]%nat.
Proof. split; [|reflexivity]. repeat constructor; lra. Qed.

(** C57.  No sample of the solar (Vega) spectrum, in Angstrom, inside the band: no solar magnitude (no vega2ab). *)
Lemma L_C57_no_sample :
  forall cub bq (wave1 wave2 : list R) (u1 u2 : basel_unit R) wave y r w yy,
    length (b_flux _ u1) = length wave1 -> Forall (fun w => 0 < w) wave1 ->
    length (b_flux _ u2) = length wave2 -> Forall (fun w => 0 < w) wave2 ->
    band cub bq (Ok (wave1, [u1])) (Ok (wave2, [u2])) wave y r w yy ->
    (~ overlaps w (map (fun w => w * 10) wave1) -> p_solar r = None) /\
    (~ overlaps w (map (fun w => w * 10) wave2) -> p_vega2ab r = None).
Proof.
  intros cub bq wave1 wave2 u1 u2 wave y r w yy L1 P1 L2 P2 HB.
  destruct (L_C57_solar_and_vega cub bq wave1 wave2 u1 u2 wave y r (proj1 HB) L1 P1 L2 P2 (proj1 (proj2 HB)))
    as (sn & vg & m1 & m2 & S1 & S2 & E1 & E2 & _ & N1 & _ & N2).
  split; intro H.
  - apply N1. destruct (SED_inv _ _ _ S1) as (_ & _ & _ & _ & Hw & _).
    rewrite (L_C21_zero_without_sample _ _ _ _ _ _ _ _ _ sn HB) in E1 by (rewrite Hw; exact H). injection E1 as <-. lra.
  - apply N2. destruct (SED_inv _ _ _ S2) as (_ & _ & _ & _ & Hw & _).
    rewrite (L_C21_zero_without_sample _ _ _ _ _ _ _ _ _ vg HB) in E2 by (rewrite Hw; exact H). injection E2 as <-. lra.
Qed.
Lemma E_C57_no_sample :
  let u := {| b_modelno := 1; b_teff := 1; b_logg := 1; b_mh := 1; b_vturb := 1; b_xh := 1; b_flux := [1;1;1;1] |} in
  (exists r, band lin bq0 (Ok ([100;200;300;400], [u])) (Ok ([100;200;300;400], [u])) [1;2;3;4] [0;1;1;0] r [1;2;3;4] [0;1;1;0]) /\
  ~ overlaps [1;2;3;4] (map (fun w => w * 10) [100;200;300;400]).
Proof.
  split; [exact trapezium_band|]. intros (t & Ht & Hb). cbn [nth last] in Hb. cbn in Ht. intuition lra.
Qed.

Lemma load_missing_cached {T} {N : Num T} cub bq sun vega fs (d : dict (resp T)) names :
  (forall n, In n names -> dmem d n = true) -> load_missing cub bq sun vega fs names d = (d, None).
Proof.
  induction names as [|n names IH]; intro H; [reflexivity|]. cbn [load_missing].
  rewrite H by (left; auto). apply IH. intros; apply H; right; auto.
Qed.
Lemma load_missing_bad {T} {N : Num T} cub bq sun vega fs (d : dict (resp T)) bad names :
  In bad names -> dget d bad = None -> fs (bad ++ ".dat")%string = None ->
  (forall n, In n names -> n <> bad -> dmem d n = true) ->
  load_missing cub bq sun vega fs names d = (dset d bad blank, Some ValueError).
Proof.
  intros Hin Hd Hf. induction names as [|n names IH]; intro H; [destruct Hin|]. cbn [load_missing].
  destruct (String.eqb_spec n bad) as [->|Hn].
  - unfold dmem. rewrite Hd. unfold load_response, dmem. rewrite Hd. unfold fromdat. rewrite Hf. reflexivity.
  - rewrite H by (auto; left; auto). apply IH; [destruct Hin; [congruence|auto]|]. intros; apply H; auto; right; auto.
Qed.

(** C58.  maggies2flambda on a list of responses one of which cannot be read, the others being loaded: the first call raises;
    the second returns NaN for that response, and the right wavelengths and fluxes for the others. *)
Lemma L_C58_list :
  forall cub bq sun vega fs (d : dict (resp xr)) names bad (m : list R),
    In bad names -> dget d bad = None -> fs (bad ++ ".dat")%string = None -> length m = length names ->
    (forall n, In n names -> n <> bad -> exists r le, dget d n = Some r /\ p_leff r = Some (Fin le) /\ le <> 0) ->
    let (d1, r1) := maggies2flambda cub bq sun vega fs d names (vec (map Fin m)) None in
    let (d2, r2) := maggies2flambda cub bq sun vega fs d1 names (vec (map Fin m)) None in
    r1 = Raise ValueError /\
    exists wave f, r2 = Ok (wave, vec f, None) /\ length wave = length names /\ length f = length names /\
      forall j n, nth_error names j = Some n ->
        (n = bad -> nth_error wave j = Some NaN /\ nth_error f j = Some NaN) /\
        (forall r le, n <> bad -> dget d n = Some r -> p_leff r = Some (Fin le) ->
           nth_error wave j = Some (Fin le) /\ nth_error f j = Some (Fin (ab_flux le * nth j m 0))).
Proof.
  intros cub bq sun vega fs d names bad m Hin Hd Hf Hm Hother.
  set (d1 := dset d bad blank).
  assert (Hg : forall n, dget d1 n = if String.eqb bad n then Some blank else dget d n) by (intro; apply dget_dset).
  assert (M1 : maggies2flambda cub bq sun vega fs d names (vec (map Fin m)) None = (d1, Raise ValueError)).
  { unfold maggies2flambda. rewrite (load_missing_bad cub bq sun vega fs d bad names); auto.
    intros n Hn Hb. destruct (Hother n Hn Hb) as (r & _ & E & _). unfold dmem. rewrite E. auto. }
  rewrite M1.
  set (le := map (fun n => match dget d1 n with Some r => f32_or_nan (p_leff r) | None => NaN end) names).
  assert (M2 : maggies2flambda cub bq sun vega fs d1 names (vec (map Fin m)) None =
               (d1, Ok (le, vec (zip nmul (map sed_ab1 le) (map Fin m)), None))).
  { unfold maggies2flambda. rewrite load_missing_cached.
    2:{ intros n Hn. unfold dmem. rewrite Hg. destruct (String.eqb_spec bad n) as [|Hb]; auto.
        destruct (Hother n Hn (fun e => Hb (eq_sym e))) as (r & _ & E & _). rewrite E. auto. }
    f_equal. rewrite mapM_all_ok with (g := fun n => match dget d1 n with Some r => f32_or_nan (p_leff r) | None => NaN end).
    2:{ intros n Hn. rewrite Hg. destruct (String.eqb_spec bad n) as [|Hb]; auto.
        destruct (Hother n Hn (fun e => Hb (eq_sym e))) as (r & _ & E & _). rewrite E. auto. }
    cbn [bind]. fold le. unfold maggies2flambda_core. unfold sed_ab.
    assert (Hcst : map cst le = le) by (xcbn; apply map_id). rewrite Hcst.
    change (Nat.eqb (ndim (vec (map Fin m))) 1) with true. cbv iota.
    rewrite bin_vec by (rewrite !map_length; unfold le; rewrite map_length; auto). reflexivity. }
  rewrite M2. split; [reflexivity|].
  exists le, (zip nmul (map sed_ab1 le) (map Fin m)). split; [reflexivity|].
  assert (Ll : length le = length names) by (unfold le; apply map_length).
  split; [exact Ll|]. split; [rewrite length_zip, !map_length, Ll, Hm; apply Nat.min_id|].
  assert (Hnan : @ndiv xr Num_xr n0 n0 = NaN).
  { cbn. rewrite Reqb_true by auto. unfold xsign_inf. rewrite Rltb_false by lra. try rewrite Rltb_false by lra. reflexivity. }
  intros j n Hj.
  assert (Hmj : nth_error m j = Some (nth j m 0)).
  { apply nth_error_nth'. rewrite Hm. apply nth_error_Some. rewrite Hj. discriminate. }
  assert (Hle : nth_error le j = Some (match dget d1 n with Some r => f32_or_nan (p_leff r) | None => NaN end))
    by (unfold le; rewrite nth_error_map, Hj; reflexivity).
  assert (Hfl : forall x, nth_error le j = Some x -> nth_error (zip nmul (map sed_ab1 le) (map Fin m)) j = Some (nmul (sed_ab1 x) (Fin (nth j m 0)))).
  { intros x Hx. rewrite nth_error_zip, !nth_error_map, Hx, Hmj. reflexivity. }
  rewrite Hg in Hle. split.
  - intros ->. rewrite String.eqb_refl in Hle. cbn [blank p_leff f32_or_nan] in Hle. rewrite Hnan in Hle.
    split; auto. rewrite (Hfl _ Hle). reflexivity.
  - intros r l Hnb Er El. destruct (String.eqb_spec bad n) as [->|_]; [congruence|]. rewrite Er, El in Hle. cbn [f32_or_nan] in Hle.
    split; auto. rewrite (Hfl _ Hle). f_equal.
    destruct (Hother n (nth_error_In _ _ Hj) Hnb) as (r' & l' & E1 & E2 & Hz). rewrite Er in E1. injection E1 as <-.
    rewrite El in E2. injection E2 as <-.
    assert (Hll : l * l <> 0) by (apply Rmult_integral_contrapositive_currified; auto).
    unfold sed_ab1, nsq. xcbn. rewrite xdiv_fin by auto. cbn [xmul]. f_equal. unfold ab_flux.
    rewrite !Q2R_lit. field. auto.
Qed.
Lemma E_C58_list : exists (fs : @fsys xr) (d : dict (resp xr)) r,
  dget d "nope" = None /\ fs "nope.dat"%string = None /\ dget d "u" = Some r /\ p_leff r = Some (Fin 3500) /\ 3500 <> 0.
Proof.
  set (b := @blank xr). exists (fun _ => None), [("u"%string, {| p_wave := p_wave b; p_resp := p_resp b; p_interp := p_interp b; p_leff := Some (Fin 3500);
    p_solar := None; p_vega2ab := None; p_fwhm := None |})].
  eexists. repeat split. lra.
Qed.

(** C78.  The curve is linear in the sampled values. *)
Lemma L_C78_linear :
  forall cub xs ys zs a b t,
    splines cub -> StronglySorted Rlt xs -> (4 <= length xs)%nat -> length ys = length xs -> length zs = length xs ->
    spline cub xs (zip (fun u v => a * u + b * v) ys zs) t = a * spline cub xs ys t + b * spline cub xs zs t.
Proof. intros. apply linear_curve; auto. Qed.
Lemma E_C78_linear : splines notaknot /\ StronglySorted Rlt [1;2;3;4] /\ zip (fun u v => 2 * u + 3 * v) [0;1;1;0] [1;0;0;1] = [2*0+3*1; 2*1+3*0; 2*1+3*0; 2*0+3*1].
Proof. split; [exact L_C78_exists|]. split; [repeat constructor; lra|reflexivity]. Qed.

(** C14.  SED.fromfits of a file that does not have both images FLUX and WAVE.  Without the extension asked for, or with a
    table there that lacks the column wave or flux: KeyError.  With an image there: IndexError. *)
Lemma L_C14_missing :
  forall (T : Type) (N : Num T) (f : fits T) ext interpolate,
    (forall h, In h f -> h_name h <> "FLUX"%string) \/ (forall h, In h f -> h_name h <> "WAVE"%string) ->
    ((forall h, In h f -> h_name h <> ext) -> sed_fromfits f ext interpolate = Raise KeyError) /\
    (forall before h after, f = before ++ h :: after -> h_name h = ext -> (forall h', In h' before -> h_name h' <> ext) ->
       ((forall a, ~ In (""%string, a) (h_cols h)) ->
        (forall a, ~ In ("wave"%string, a) (h_cols h)) \/ (forall a, ~ In ("flux"%string, a) (h_cols h)) ->
        sed_fromfits f ext interpolate = Raise KeyError) /\
       (forall a, h_cols h = [(""%string, a)] -> sed_fromfits f ext interpolate = Raise IndexError)).
Proof.
  intros T N f ext i HB.
  assert (FN : forall (l : fits T) name, (forall h, In h l -> h_name h <> name) -> find_hdu l name = None).
  { intros l name H. unfold find_hdu. destruct (find _ l) eqn:E; auto. apply find_some in E as [E1 E2].
    apply String.eqb_eq in E2. elim (H _ E1 E2). }
  assert (HB' : has_hdu f "FLUX"%string && has_hdu f "WAVE"%string = false).
  { unfold has_hdu. destruct HB as [H|H]; rewrite (FN f _ H); auto. apply andb_false_r. }
  assert (CN : forall (h : hdu T) name, (forall a, ~ In (name, a) (h_cols h)) -> find (fun c => String.eqb (fst c) name) (h_cols h) = None).
  { intros h name H. destruct (find _ _) as [[n a]|] eqn:E; auto. apply find_some in E as [E1 E2]. cbn [fst] in E2.
    apply String.eqb_eq in E2. subst n. elim (H _ E1). }
  unfold sed_fromfits. rewrite HB'. split.
  - intro H. unfold get_hdu. rewrite (FN f _ H). reflexivity.
  - intros before h after -> Hh Hb. unfold get_hdu.
    assert (EF : find_hdu (before ++ h :: after) ext = Some h).
    { pose proof (FN before ext Hb) as X. unfold find_hdu in *. clear -X Hh. induction before as [|b before IH]; cbn [app find] in *.
      - rewrite Hh, String.eqb_refl. reflexivity.
      - destruct (String.eqb (h_name b) ext); [discriminate|auto]. }
    rewrite EF. cbn [bind]. split.
    + intros H0 H1. unfold col. assert (EX : existsb (fun c : string * nd T => String.eqb (fst c) "") (h_cols h) = false).
      { destruct (existsb _ _) eqn:E; auto. apply existsb_exists in E as ([n a] & E1 & E2). cbn [fst] in E2. apply String.eqb_eq in E2.
        subst n. elim (H0 _ E1). }
      rewrite EX. cbn [String.eqb]. destruct H1 as [H1|H1]; rewrite (CN h _ H1); cbn [bind]; [reflexivity|].
      destruct (find _ _); reflexivity.
    + intros a Ha. unfold col. rewrite Ha. reflexivity.
Qed.
Lemma E_C14_missing :
  let h := {| h_name := "FLUX"%string; h_cols := [("wave"%string, vec [1; 2]%Z)] |} in
  (forall h', In h' [h] -> h_name h' <> "WAVE"%string) /\ h_name h = "FLUX"%string /\
  (forall a, ~ In (""%string, a) (h_cols h)) /\ (forall a, ~ In ("flux"%string, a) (h_cols h)).
Proof.
  cbn. repeat split; [intros h' [<-|[]]; discriminate| |]; intros a [H|[]]; discriminate.
Qed.

Lemma no_col (T : Type) (h : hdu T) name : (forall a, ~ In (name, a) (h_cols h)) -> find (fun c => String.eqb (fst c) name) (h_cols h) = None.
Proof.
  intro H. destruct (find _ _) as [[n a]|] eqn:E; auto. apply find_some in E as [E1 E2]. cbn [fst] in E2.
  apply String.eqb_eq in E2. subst n. elim (H _ E1).
Qed.
Lemma no_image (T : Type) (h : hdu T) : (forall a, ~ In (""%string, a) (h_cols h)) ->
  existsb (fun c : string * nd T => String.eqb (fst c) "") (h_cols h) = false.
Proof.
  intro H. destruct (existsb _ _) eqn:E; auto. apply existsb_exists in E as ([n a] & E1 & E2). cbn [fst] in E2.
  apply String.eqb_eq in E2. subst n. elim (H _ E1).
Qed.
(** C67.  Response.fromfits of a file whose first table lacks the wavelengths, or whose first extension is not a table of
    numbers: KeyError, and the response object keeps what it had. *)
Lemma L_C67_missing :
  forall (T : Type) (N : Num T) cub bq sun vega (r : resp T) h rest,
    (forall a, ~ In (""%string, a) (h_cols h)) -> (forall a, ~ In ("wave"%string, a) (h_cols h)) ->
    resp_fromfits cub bq sun vega r (Some (HNum h :: rest)) = (r, Some KeyError) /\
    (forall name l, resp_fromfits cub bq sun vega r (Some (HNames name l :: rest)) = (r, Some KeyError)) /\
    (forall nz rr abc, resp_fromfits cub bq sun vega r (Some (HData nz rr abc :: rest)) = (r, Some KeyError)).
Proof.
  intros T N cub bq sun vega r h rest H0 H1. split; [|auto].
  unfold resp_fromfits, col. rewrite (no_image _ _ H0). cbn [String.eqb]. rewrite (no_col _ _ _ H1). reflexivity.
Qed.
Lemma E_C67_missing :
  let h := {| h_name := ""%string; h_cols := [("response"%string, vec [1; 2]%Z)] |} in
  (forall a, ~ In (""%string, a) (h_cols h)) /\ (forall a, ~ In ("wave"%string, a) (h_cols h)).
Proof. cbn. split; intros a [H|[]]; discriminate. Qed.

(** C67.  Response.fromfits of a file whose first table has wavelengths but no response: KeyError, and the object is left with
    the wavelengths of the file, sorted, beside the response curve and the derived attributes it had. *)
Lemma L_C67_mixed :
  forall cub bq sun vega (r : resp R) h w rest,
    (forall a, ~ In (""%string, a) (h_cols h)) -> (forall a, ~ In ("response"%string, a) (h_cols h)) ->
    find (fun c => String.eqb (fst c) "wave") (h_cols h) = Some ("wave"%string, mk [1; length w]%nat w) ->
    exists r' w', resp_fromfits cub bq sun vega r (Some (HNum h :: rest)) = (r', Some KeyError) /\
      p_wave r' = Some w' /\ Permutation w' w /\ StronglySorted Rle w' /\
      p_resp r' = p_resp r /\ p_interp r' = p_interp r /\ p_leff r' = p_leff r /\ p_solar r' = p_solar r /\
      p_vega2ab r' = p_vega2ab r /\ p_fwhm r' = p_fwhm r.
Proof.
  intros cub bq sun vega r h w rest H0 H1 H2. set (w' := map (fun k => nth k w n0) (argsort w)).
  exists (with_wave r w'), w'. split; [|split; [reflexivity|]].
  - unfold resp_fromfits, col. rewrite (no_image _ _ H0). cbn [String.eqb]. rewrite H2. cbn [snd].
    assert (X : dat (row 0 (mk [1; length w]%nat w)) = w). { unfold row. cbn. rewrite ?Nat.mul_1_r. apply firstn_all. }
    rewrite X, (no_col _ _ _ H1). reflexivity.
  - split; [|split; [apply argsort_sorted|repeat split]].
    unfold w'. rewrite (Permutation_map _ (argsort_perm w)), map_nth_seq. apply Permutation_refl.
Qed.
Lemma E_C67_mixed : exists r,
  Response lin bq0 sun0 sun0 [1;2;3;4] [0;1;1;0] = Ok r /\
  let h := {| h_name := ""%string; h_cols := [("wave"%string, mk [1; 2]%nat [9; 7])] |} in
  (forall a, ~ In (""%string, a) (h_cols h)) /\ (forall a, ~ In ("response"%string, a) (h_cols h)) /\
  find (fun c => String.eqb (fst c) "wave") (h_cols h) = Some ("wave"%string, mk [1; length [9; 7]]%nat [9; 7]) /\
  p_wave r <> Some [7; 9].
Proof.
  destruct trapezium_band as [r Hr]. exists r. split; [apply Hr|]. cbn. split; [intros a [H|[]]; discriminate|].
  split; [intros a [H|[]]; discriminate|]. split; [reflexivity|].
  destruct Hr as (_ & _ & -> & _). intro H. injection H. lra.
Qed.

