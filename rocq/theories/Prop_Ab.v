(** Property theorems; proofs are in AbThms.v.  Generated by tools/gen_prop.py. *)
From Coq Require Import String List Arith Lia Bool ZArith QArith Qreals Reals Lra.
From Verif Require Import Base BaseLemmas Num Toy Spec Interp Utils UtilsProofs UtilsReal Sed Response RespDict Fitter FitSpec
  FitterProofs FitterMC FitEx Kcorrect KSpec KEx KcorrectProofs DerivedProofs McProofs AbsmagProofs AbProofs UtilsThms.
Import ListNotations.
Local Open Scope R_scope.

Section X.
  Context {T : Type} {N : Num T}.
  Lemma map1_id (Hc : forall x : T, cst x = x) (a : nd T) : map1 cst a = a.
  Proof. destruct a as [s d]. unfold map1. cbn. f_equal. rewrite (map_ext _ (fun x => x)); auto. apply map_id. Qed.
  Lemma opt1_id (Hc : forall x : T, cst x = x) (a : option (nd T)) : option_map (map1 cst) a = a.
  Proof. destruct a; cbn; auto. rewrite map1_id; auto. Qed.

  Lemma proc_none (F : fitter T) z c : process_inputs (without_ab F) z None None c = process_inputs F z None None c.
  Proof. unfold process_inputs. cbn. destruct z; auto. destruct (f_abc F); auto. Qed.

  Lemma proc_ab (Hc : forall x : T, cst x = x) (F : fitter T) z m iv c : f_abc F = true ->
    documented (length (f_resp F)) (f_nsed F) z (Some m) iv c ->
    process_inputs F (Some z) (Some m) iv c =
    match to_ab (f_kind F) m iv with
    | Raise e => Raise e
    | Ok (m', iv') => process_inputs (without_ab F) (Some z) (Some m') iv' c
    end.
  Proof.
    intros Ha Hd.
    assert (HS : forall z m iv c, documented (length (f_resp F)) (f_nsed F) z m iv c ->
      process_inputs (without_ab F) (Some z) m iv c =
      Ok {| q_array := Nat.eqb (ndim z) 1; q_n := if Nat.eqb (ndim z) 1 then size (shp z) else 1%nat; q_z := z; q_m := m; q_iv := iv; q_c := c |}).
    { intros z0 m0 iv0 c0 H. rewrite process_inputs_ok; [|left; auto|exact H].
      unfold plain_pin. rewrite map1_id, !opt1_id; auto. }
    assert (EI : forall m' iv', to_ab (f_kind F) m iv = Ok (m', iv') -> match iv with Some _ => iv' | None => None end = iv').
    { intros m' iv' Eab. destruct iv as [i|]; auto. destruct (f_kind F); cbn [to_ab] in Eab.
      - injection Eab; auto.
      - unfold sdss_ab_correct in Eab. cbn [option_map] in Eab.
        repeat match type of Eab with (if ?x then _ else _) = _ => destruct x; try discriminate Eab end;
          apply bind_ok in Eab as (x & _ & Eab); injection Eab; auto.
      - unfold gst_to_ab in Eab. apply bind_ok in Eab as (x & _ & Eab). discriminate. }
    transitivity (match to_ab (f_kind F) m iv with
      | Raise e => Raise e
      | Ok (m', iv') => Ok {| q_array := Nat.eqb (ndim z) 1; q_n := if Nat.eqb (ndim z) 1 then size (shp z) else 1%nat;
                              q_z := z; q_m := Some m'; q_iv := iv'; q_c := c |} end).
    - pose proof (HS z (Some m) iv c Hd) as E0. unfold process_inputs in E0 |- *. rewrite Ha. cbn [f_abc without_ab] in E0.
      unfold f_nsed in *. cbn [without_ab f_resp f_sed f_kind] in E0. rewrite map1_id, !opt1_id in * by auto.
      destruct (Nat.leb (ndim z) 1); [|discriminate].
      repeat match type of E0 with (if ?b then _ else _) = _ => destruct b; [|discriminate] end.
      destruct (to_ab (f_kind F) m iv) as [[m' iv']|e] eqn:Eab; auto. cbn [bind fst snd]. rewrite (EI m' iv' eq_refl). auto.
    - destruct (to_ab (f_kind F) m iv) as [[m' iv']|e] eqn:Eab; auto.
      destruct (to_ab_shp _ _ _ _ _ Eab) as [S1 S2]. pose proof (EI m' iv' eq_refl) as Ei.
    assert (Hd' : documented (length (f_resp F)) (f_nsed F) z (Some m') iv' c).
    { assert (I1 : forall s, is_shape (Some m) s -> is_shape (Some m') s).
      { intros s H a E. injection E as <-. rewrite S1. apply H; auto. }
      assert (I2 : forall s, is_shape iv s -> is_shape iv' s).
      { intros s H a E. destruct iv as [i|].
        - destruct (S2 i eq_refl) as (i' & E' & S'). rewrite E' in E. injection E as <-. rewrite S'. apply H; auto.
        - rewrite <- Ei in E. discriminate. }
      destruct Hd as [(H0 & H1 & H2 & H3)|(n & H0 & H1 & H2 & H3)]; [left|right; exists n]; repeat split; auto. }
      rewrite HS; auto.
  Qed.
End X.

Lemma fit_after_ab T (N : Num T) nnls rng (F : fitter T) p mc cur :
  fit_after nnls rng (without_ab F) p mc cur = fit_after nnls rng F p mc cur.
Proof.
  assert (E1 : forall z m iv mc cur, fit1 nnls rng (without_ab F) z m iv mc cur = fit1 nnls rng F z m iv mc cur) by reflexivity.
  assert (E2 : forall m iv mc zs cur i, fit_rows nnls rng (without_ab F) m iv mc cur i zs = fit_rows nnls rng F m iv mc cur i zs).
  { intros m iv mc0 zs. induction zs as [|z zs IH]; intros; auto. cbn [fit_rows].
    change (fit_row nnls rng (without_ab F)) with (fit_row nnls rng F).
    destruct (fit_row nnls rng F m iv mc0 cur0 i z) as [[[[a b] c] d]|]; auto. cbn [bind]. rewrite IH. auto. }
  unfold fit_after. rewrite E1, E2. reflexivity.
Qed.
Lemma recon_ab T (N : Num T) (F : fitter T) A z c bs : reconstruct_ (without_ab F) A z c bs = reconstruct_ F A z c bs.
Proof. unfold reconstruct_. rewrite proc_none. reflexivity. Qed.
Lemma kcorrect_ab T (N : Num T) (K : kcor T) z c bs : kcorrect (kwithout_ab K) z c bs = kcorrect K z c bs.
Proof.
  unfold kcorrect. cbn [k_fit kwithout_ab]. rewrite proc_none. destruct (process_inputs _ _ _ _ _) as [p|]; auto. cbn [bind].
  unfold reconstruct, reconstruct_out. cbn [k_fit kwithout_ab k_Aout f_A without_ab]. rewrite !recon_ab. reflexivity.
Qed.
Lemma after_ab T (N : Num T) distmod (K : kcor T) p bs d r l k :
  absmag_after distmod (kwithout_ab K) p bs d r l k = absmag_after distmod K p bs d r l k.
Proof.
  unfold absmag_after. rewrite kcorrect_ab. cbn [k_fit kwithout_ab k_imap k_out]. 
  assert (E : forall x, process_inputs (without_ab (k_fit K)) x None None (q_c p) = process_inputs (k_fit K) x None None (q_c p))
    by (intro; apply proc_none).
  destruct d as [x|]; [rewrite E|]; unfold reconstruct_out; cbn [k_fit kwithout_ab k_Aout]; rewrite recon_ab; reflexivity.
Qed.
Lemma zip_abfix (m : list R) (f : R -> R -> R) : length m = 5%nat ->
  map (fun j => f (nth j m 0) (nth (j mod 5) abfix 0)) (seq 0 5) = zip f m abfix.
Proof. destruct m as [|a [|b [|c [|d [|e [|x m]]]]]]; try discriminate. reflexivity. Qed.
Lemma sdss_object (m iv : list R) : length m = 5%nat -> length iv = 5%nat ->
  to_ab SDSS (vec (map Fin m)) (Some (vec (map Fin iv))) =
  Ok (vec (map Fin (zip (fun x a => x * pow10 (-0.4 * a)) m abfix)),
      Some (vec (map Fin (zip (fun v a => v / (pow10 (-0.4 * a)) ^ 2) iv abfix)))).
Proof.
  intros Hm Hi. assert (EV : forall l : list R, length l = 5%nat -> vec (map Fin l) = rarr [5%nat] l).
  { intros l Hl. unfold vec, rarr. rewrite map_length, Hl. auto. }
  rewrite !EV by (auto; rewrite length_zip, ?Hm, ?Hi; reflexivity). cbn [to_ab].
  change (@default_abfix xr _) with (vec (map Fin abfix)). rewrite sdss_ab_correct_real by auto.
  change (size [5%nat]) with 5%nat.
  rewrite (zip_abfix m (fun x a => x * pow10 (-0.4 * a))), (zip_abfix iv (fun v a => v / (pow10 (-0.4 * a)) ^ 2)) by auto. reflexivity.
Qed.
From Verif Require Import AbThms.

(** C61.  In exact arithmetic, fitting and computing absolute magnitudes with abcorrect=True is the same as applying to_ab
    to the photometry first and using abcorrect=False, for each class; an exception of to_ab is passed on. *)
Theorem C61_fit :
  forall (T : Type) (N : Num T) nnls rng (F : fitter T) z m iv mc cur,
    (forall x : T, cst x = x) -> f_abc F = true -> documented (length (f_resp F)) (f_nsed F) z (Some m) iv None ->
    fit_coeffs nnls rng F (Some z) (Some m) iv mc cur =
    match to_ab (f_kind F) m iv with
    | Raise e => Raise e
    | Ok (m', iv') => fit_coeffs nnls rng (without_ab F) (Some z) (Some m') iv' mc cur
    end.
Proof. exact L_C61_fit. Qed.
Print Assumptions C61_fit.

Example ex_C61_fit : exists (F : fitter Q) (z m iv : nd Q),
  (forall x : Q, cst x = x) /\ f_abc F = true /\ documented (length (f_resp F)) (f_nsed F) z (Some m) (Some iv) None /\
  exists m' iv', to_ab (f_kind F) m (Some iv) = Ok (m', iv').
Proof. exact E_C61_fit. Qed.

Theorem C61_absmag :
  forall (T : Type) (N : Num T) distmod (K : kcor T) m iv z c bs d r l k,
    (forall x : T, cst x = x) -> f_abc (k_fit K) = true ->
    documented (length (f_resp (k_fit K))) (f_nsed (k_fit K)) z (Some m) iv c ->
    absmag distmod K (Some m) iv (Some z) c bs d r l k =
    match to_ab (f_kind (k_fit K)) m iv with
    | Raise e => Raise e
    | Ok (m', iv') => absmag distmod (kwithout_ab K) (Some m') iv' (Some z) c bs d r l k
    end.
Proof. exact L_C61_absmag. Qed.
Print Assumptions C61_absmag.

Example ex_C61_absmag : exists (K : kcor xr) (z m iv c : nd xr),
  (forall x : xr, cst x = x) /\ f_abc (k_fit K) = true /\ documented (length (f_resp (k_fit K))) (f_nsed (k_fit K)) z (Some m) (Some iv) (Some c) /\
  f_kind (k_fit K) = SDSS /\ kready K x_tab5 x_tab5 5 5 1.
Proof. exact E_C61_absmag. Qed.

(** The other methods do not depend on abcorrect. *)
Theorem C61_other :
  forall (T : Type) (N : Num T) distmod dict (K : kcor T) z c bs d,
    reconstruct (k_fit (kwithout_ab K)) z c bs = reconstruct (k_fit K) z c bs /\
    reconstruct_out (kwithout_ab K) z c bs = reconstruct_out K z c bs /\
    kcorrect (kwithout_ab K) z c bs = kcorrect K z c bs /\
    derived distmod dict (kwithout_ab K) z c bs d = derived distmod dict K z c bs d.
Proof. exact L_C61_other. Qed.
Print Assumptions C61_other.

Example ex_C61_other : exists o, reconstruct_out q_kcor (Some (scal 1%Q)) (Some (vec [1; 0; 2]%Q)) 0%Q = Ok o.
Proof. exact E_C61_other. Qed.

(** C62.  fit_coeffs_asinh fits the fluxes whose asinh magnitudes are the given ones, brightened by the extinction, with
    inverse variances propagated from the magnitude errors to the flux before the extinction correction. *)
Theorem C62_fit :
  forall nnls rng (F : fitter xr) (s : list nat) (z : nd xr) (mag err ext : list R) cur,
    s <> [] -> last s 0%nat = 5%nat -> length mag = size s -> length err = size s -> length ext = size s ->
    Forall (fun e => e <> 0) err ->
    exists f iv : list R, length f = size s /\ length iv = size s /\
      (forall j, (j < size s)%nat ->
         let b := nth (j mod 5) softening 0 in
         let f0 := nth j f 0 / pow10 (0.4 * nth j ext 0) in
         luptitude b f0 = nth j mag 0 /\
         exists d, derivable_pt_lim (luptitude b) f0 d /\ nth j iv 0 = (d / nth j err 0) ^ 2) /\
      fit_coeffs_asinh nnls rng F (Some z) (rarr s mag) (Some (rarr s err)) (Some (rarr s ext)) cur =
      fit_coeffs nnls rng F (Some z) (Some (rarr s f)) (Some (rarr s iv)) 0 cur.
Proof. exact L_C62_fit. Qed.
Print Assumptions C62_fit.

Example ex_C62_fit :
  [5]%nat <> [] /\ length [20; 19; 18; 17.5; 17] = size [5%nat] /\ Forall (fun e => e <> 0) [0.1; 0.05; 0.02; 0.02; 0.1].
Proof. exact E_C62_fit. Qed.

(** Without redshift it raises TypeError; whatever the conversion raises is passed on. *)
Theorem C62_errors :
  forall (T : Type) (N : Num T) nnls rng (F : fitter T) z mag err ext cur,
    fit_coeffs_asinh nnls rng F None mag err ext cur = Raise TypeError /\
    (forall e, sdss_asinh_to_maggies mag err ext = Raise e -> fit_coeffs_asinh nnls rng F (Some z) mag err ext cur = Raise e).
Proof. exact L_C62_errors. Qed.
Print Assumptions C62_errors.

Example ex_C62_errors : sdss_asinh_to_maggies (vec [1; 2]%Q) (Some (vec [1; 1]%Q)) None = Raise TypeError.
Proof. exact E_C62_errors. Qed.

(** C55.  KcorrectGST.to_ab, for arrays with at least seven bands: bands 2 to 6 are corrected as SDSS ugriz, the others are
    unchanged. *)
Theorem C55_columns :
  forall (s : list nat) (m iv : list R),
    s <> [] -> (7 <= last s 0)%nat -> length m = size s -> length iv = size s ->
    exists m' iv' : list R, length m' = size s /\ length iv' = size s /\
      to_ab GST (rarr s m) (Some (rarr s iv)) = Ok (rarr s m', Some (rarr s iv')) /\
      forall j, (j < size s)%nat ->
        let band := (j mod last s 0)%nat in
        if (Nat.leb 2 band && Nat.leb band 6)%bool
        then nth j m' 0 = nth j m 0 * pow10 (-0.4 * nth (band - 2) abfix 0) /\
             nth j iv' 0 = nth j iv 0 / (pow10 (-0.4 * nth (band - 2) abfix 0)) ^ 2
        else nth j m' 0 = nth j m 0 /\ nth j iv' 0 = nth j iv 0.
Proof. exact L_C55_columns. Qed.
Print Assumptions C55_columns.

Example ex_C55_columns : [2; 10]%nat <> [] /\ (7 <= last [2; 10] 0)%nat /\ length (repeat 1 20) = size [2; 10]%nat.
Proof. exact E_C55_columns. Qed.

(** Without ivar it always raises. *)
Theorem C55_no_ivar :
  forall (T : Type) (N : Num T) (m : nd T), shp m <> [] -> to_ab GST m None = Raise TypeError.
Proof. exact L_C55_no_ivar. Qed.
Print Assumptions C55_no_ivar.

Example ex_C55_no_ivar : shp (vec [1; 2; 3; 4; 5; 6; 7; 8; 9; 10]%Q) <> [].
Proof. exact E_C55_no_ivar. Qed.

(** C56.  For KcorrectSDSS with abcorrect=True the Monte Carlo maggies of fit_coeffs are those of the corrected photometry. *)
Theorem C56_draws :
  forall nnls rng (F : fitter xr) z (m iv : list R) mc cur,
    f_kind F = SDSS -> f_abc F = true -> length (f_resp F) = 5%nat -> length m = 5%nat -> length iv = 5%nat ->
    fit_coeffs nnls rng F (Some (scal z)) (Some (vec (map Fin m))) (Some (vec (map Fin iv))) mc cur =
    fit_coeffs nnls rng (without_ab F) (Some (scal z)) (Some (vec (map Fin (zip (fun x a => x * pow10 (-0.4 * a)) m abfix))))
      (Some (vec (map Fin (zip (fun v a => v / (pow10 (-0.4 * a)) ^ 2) iv abfix)))) mc cur.
Proof. exact L_C56_draws. Qed.
Print Assumptions C56_draws.

Example ex_C56_draws : f_kind (k_fit x_kcor5) = SDSS /\ f_abc (k_fit x_kcor5) = true /\ length (f_resp (k_fit x_kcor5)) = 5%nat /\
  length abfix = 5%nat /\ length [1; 2; 3; 4; 5] = 5%nat.
Proof. exact E_C56_draws. Qed.

(** Passing photometry that is already corrected to absmag (as absmag_mc does with these maggies) adds the AB offset of the
    input band to every measured magnitude. *)
Theorem C56_offset :
  forall distmod (K : kcor xr) A Ao no nt bs wd z (m iv : list R) c d,
    kready K A Ao 5 no nt -> f_kind (k_fit K) = SDSS -> f_abc (k_fit K) = true ->
    length m = 5%nat -> length iv = 5%nat -> length c = nt ->
    let call := fun m => absmag_object distmod K bs wd false false false
                           {| ko_z := z; ko_m := map Fin m; ko_iv := map Fin iv; ko_c := c; ko_d := d |} in
    match call m, call (zip (fun x a => x * pow10 (-0.4 * a)) m abfix) with
    | Ok (Bare1 x), Ok (Bare1 y) =>
        shp x = [no] /\ shp y = [no] /\
        forall j, (j < no)%nat ->
          let b := in_band K j in
          (0 < nth b m 0 -> 0 < nth b iv 0 -> nth j (dat y) NaN = nadd (nth j (dat x) NaN) (Fin (nth b abfix 0))) /\
          (nth b m 0 <= 0 \/ nth b iv 0 <= 0 -> nth j (dat x) NaN = Fin (-9999) /\ nth j (dat y) NaN = Fin (-9999))
    | Raise e, Raise e' => e = e'
    | _, _ => False
    end.
Proof. exact L_C56_offset. Qed.
Print Assumptions C56_offset.

Example ex_C56_offset :
  kready x_kcor5 x_tab5 x_tab5 5 5 1 /\ f_kind (k_fit x_kcor5) = SDSS /\ f_abc (k_fit x_kcor5) = true /\
  length [1; 2; -3; 4; 5] = 5%nat.
Proof. exact E_C56_offset. Qed.

(** C66.  Without the correction (as after reloading such an object with [Kcorrect(filename=)], L_C53_round_trip) every measured
    magnitude is smaller by the AB offset of the input band. *)
Theorem C66_offset :
  forall distmod (K : kcor xr) A Ao no nt bs wd z (m iv : list R) c d,
    kready K A Ao 5 no nt -> f_kind (k_fit K) = SDSS -> f_abc (k_fit K) = true ->
    length m = 5%nat -> length iv = 5%nat -> length c = nt ->
    let call := fun K => absmag_object distmod K bs wd false false false
                           {| ko_z := z; ko_m := map Fin m; ko_iv := map Fin iv; ko_c := c; ko_d := d |} in
    match call (kwithout_ab K), call K with
    | Ok (Bare1 x), Ok (Bare1 y) =>
        shp x = [no] /\ shp y = [no] /\
        forall j, (j < no)%nat ->
          let b := in_band K j in
          (0 < nth b m 0 -> 0 < nth b iv 0 -> nth j (dat y) NaN = nadd (nth j (dat x) NaN) (Fin (nth b abfix 0))) /\
          (nth b m 0 <= 0 \/ nth b iv 0 <= 0 -> nth j (dat x) NaN = Fin (-9999) /\ nth j (dat y) NaN = Fin (-9999))
    | Raise e, Raise e' => e = e'
    | _, _ => False
    end.
Proof. exact L_C66_offset. Qed.
Print Assumptions C66_offset.

Example ex_C66_offset :
  kready x_kcor5 x_tab5 x_tab5 5 5 1 /\ f_kind (k_fit x_kcor5) = SDSS /\ f_abc (k_fit x_kcor5) = true /\
  length [1; 2; -3; 4; 5] = 5%nat.
Proof. exact E_C66_offset. Qed.
