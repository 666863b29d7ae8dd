(** The example programs on catalogues of finite numbers: supporting lemmas. *)
From Coq Require Import String List Arith Lia Bool ZArith QArith Qreals Reals Lra.
From Verif Require Import Base BaseLemmas Num Interp Spec Utils UtilsProofs UtilsReal Sed Response Fitter FitSpec FitterProofs FitterThms FitRealThms AbThms Scripts ScriptsProofs ScriptsSpec.
Import ListNotations.
Local Open Scope R_scope.

Lemma Reqb_false' a b : a <> b -> Rleb a b && Rleb b a = false.
Proof. intro H. unfold Rleb. destruct (Rle_dec a b), (Rle_dec b a); auto. exfalso. apply H. lra. Qed.
Lemma nneb_fin a b : nneb (Fin a) (Fin b) = true <-> a <> b.
Proof.
  unfold nneb. xcbn. unfold xleb. split; intro H.
  - intros ->. rewrite Rleb_true in H by lra. discriminate.
  - rewrite Reqb_false' by auto. reflexivity.
Qed.
Lemma Q2R_99 : Q2R (-(99) # 1) = -99.
Proof. unfold Q2R; cbn. lra. Qed.
Lemma galex_ok_fin f e : galex_ok (Fin f) (Fin e) = true <-> galex_measured f e.
Proof.
  unfold galex_ok, galex_measured. rewrite !andb_true_iff. change (@nlit xr _ (-(99) # 1)) with (Fin (Q2R (-(99) # 1))).
  change (@n0 xr _) with (Fin 0). rewrite !nneb_fin, Q2R_99. tauto.
Qed.
Lemma tmass_ok_fin m s : tmass_ok (Fin m) (Fin s) = true <-> tmass_measured m s.
Proof.
  unfold tmass_ok, tmass_measured. rewrite andb_true_iff. change (@n0 xr _) with (Fin 0). rewrite nneb_fin. xcbn. cbn [xltb].
  split; intros [H1 H2]; split; auto; [|apply Rltb_true; auto]. unfold Rltb in H2. destruct (Rlt_dec 0 s); auto; discriminate.
Qed.

(** * Real versions of the steps *)
Definition rgalex_m (zp f e : R) : R := if galex_ok (Fin f) (Fin e) then f * pow10 (-0.4 * zp) else 0.
Definition rgalex_iv (zp f e : R) : R := if galex_ok (Fin f) (Fin e) then 1 / (e * pow10 (-0.4 * zp)) ^ 2 else 0.
Definition rtmass_m (v m s : R) : R := if tmass_ok (Fin m) (Fin s) then pow10 (-0.4 * (m + v)) else 0.
Definition rtmass_iv (v m s : R) : R := if tmass_ok (Fin m) (Fin s) then 1 / (pow10 (-0.4 * (m + v)) * ln 10 / 2.5 * s) ^ 2 else 0.
Definition rab_m (l : list R) : list R := zip (fun a x => x * pow10 (-0.4 * a)) abfix l.
Definition rab_iv (l : list R) : list R := zip (fun a x => x / (pow10 (-0.4 * a)) ^ 2) abfix l.

Lemma lit25 : Q2R (5 # 2) = 2.5. Proof. unfold Q2R; cbn. lra. Qed.
Lemma litm04 : Q2R (-(2) # 5) = -0.4. Proof. unfold Q2R; cbn. lra. Qed.
Lemma litm08 : Q2R (-(4) # 5) = -0.8. Proof. unfold Q2R; cbn. lra. Qed.
Lemma lit04 : Q2R (2 # 5) = 0.4. Proof. unfold Q2R; cbn. lra. Qed.

Lemma galex_m_fin q zp f e : Q2R q = zp -> galex_m q (Fin f) (Fin e) = Fin (rgalex_m zp f e).
Proof.
  intro E. unfold galex_m, rgalex_m. destruct (galex_ok _ _); auto. unfold galex_scale. xcbn. rewrite E, litm04. reflexivity.
Qed.
Lemma galex_iv_fin q zp f e : Q2R q = zp -> galex_iv q (Fin f) (Fin e) = Fin (rgalex_iv zp f e).
Proof.
  intro E. unfold galex_iv, rgalex_iv. destruct (galex_ok _ _) eqn:G; auto. apply galex_ok_fin in G as (_ & _ & _ & He).
  unfold galex_scale, nsq. xcbn. rewrite E, litm04. rewrite xdiv_fin.
  - f_equal. f_equal. ring.
  - pose proof (pow10_neq0 (-0.4 * zp)). repeat apply Rmult_integral_contrapositive_currified; auto.
Qed.
Lemma tmass_m_fin v m s : tmass_m (Fin v) (Fin m) (Fin s) = Fin (rtmass_m v m s).
Proof. unfold tmass_m, rtmass_m. destruct (tmass_ok _ _); auto. xcbn. rewrite litm04. reflexivity. Qed.
Lemma ln10_pos' : 0 < ln 10.
Proof. rewrite <- ln_1. apply ln_increasing; lra. Qed.
Lemma tmass_iv_fin v m s : tmass_iv (Fin v) (Fin m) (Fin s) = Fin (rtmass_iv v m s).
Proof.
  unfold tmass_iv, rtmass_iv. rewrite tmass_m_fin. unfold rtmass_m. destruct (tmass_ok _ _) eqn:G; auto. apply tmass_ok_fin in G as [_ Hs].
  unfold nsq. xcbn. unfold xlog. rewrite Q2R_lit. replace (10 / 1) with 10 by lra. rewrite Rltb_false by lra. unfold Reqb. destruct (Req_EM_T 10 0); [lra|].
  rewrite lit25. rewrite xdiv_fin by lra. cbn [xmul].
  pose proof (pow10_neq0 (-0.4 * (m + v))). pose proof ln10_pos'.
  assert (NZ : pow10 (-0.4 * (m + v)) * ln 10 / 2.5 * s <> 0).
  { repeat apply Rmult_integral_contrapositive_currified; auto; try lra. }
  rewrite xdiv_fin.
  - f_equal. f_equal. ring.
  - apply Rmult_integral_contrapositive_currified; auto.
Qed.

Lemma zip_seq_abfix {A} (f : R -> R -> A) (l : list R) : zip (fun k x => f (nth k abfix 0) x) (seq 0 5) l = zip f abfix l.
Proof. unfold abfix. destruct l as [|a [|b [|c [|d [|e l]]]]]; reflexivity. Qed.
Lemma abfac_real k : code_abfac default_abfix k = Fin (pow10 (-0.4 * nth k abfix 0)).
Proof.
  unfold code_abfac. change (@default_abfix xr _) with (vec (map Fin abfix)). cbn [dat vec]. change (@n0 xr _) with (Fin 0). rewrite map_nth. xcbn. rewrite litm04. reflexivity.
Qed.
Lemma ab_m_fin l : ab_m (map Fin l) = map Fin (rab_m l).
Proof.
  unfold ab_m, rab_m. rewrite zip_map_r, <- (zip_seq_abfix (fun a x => x * pow10 (-0.4 * a))), map_zip. apply zip_ext. intros k x _ _. rewrite abfac_real. reflexivity.
Qed.
Lemma ab_iv_fin l : ab_iv (map Fin l) = map Fin (rab_iv l).
Proof.
  unfold ab_iv, rab_iv. rewrite zip_map_r, <- (zip_seq_abfix (fun a x => x / (pow10 (-0.4 * a)) ^ 2)), map_zip. apply zip_ext. intros k x _ _. rewrite abfac_real. unfold nsq. xcbn.
  pose proof (pow10_neq0 (-0.4 * nth k abfix 0)). rewrite xdiv_fin by (apply Rmult_integral_contrapositive_currified; auto). cbn [pow].
  rewrite Rmult_1_r. reflexivity.
Qed.

Definition rex (E f : R) : R := pow10 (0.4 * E * f).
Lemma rex_pos E f : 0 < rex E f. Proof. apply pow10_pos. Qed.
Definition coeffs10 : list R := map (fun x => x / 2.751) ext_coeff.
Lemma red_fac_fin : red_fac = map Fin coeffs10.
Proof.
  unfold red_fac, coeffs10, ext_coeff. cbn [map nth]. xcbn.
  repeat (rewrite xdiv_fin by (unfold Q2R; cbn; lra)). unfold Q2R. cbn [Qnum Qden].
  repeat (apply f_equal2; [f_equal; lra|]). reflexivity.
Qed.
Lemma deredden_m_fin E l : deredden_m (Fin E) (map Fin l) = map Fin (zip (fun f x => x * rex E f) coeffs10 l).
Proof. unfold deredden_m. rewrite red_fac_fin, zip_maps, map_zip. apply zip_ext. intros f x _ _. xcbn. rewrite lit04. reflexivity. Qed.
Lemma deredden_iv_fin E l : deredden_iv (Fin E) (map Fin l) = map Fin (zip (fun f x => x / (rex E f) ^ 2) coeffs10 l).
Proof.
  unfold deredden_iv. rewrite red_fac_fin, zip_maps, map_zip. apply zip_ext. intros f x _ _. xcbn. rewrite litm08. f_equal.
  unfold Rdiv. f_equal. unfold rex. cbn [pow]. rewrite Rmult_1_r, <- pow10_plus, <- pow10_opp. f_equal. lra.
Qed.
Lemma floor_row_fin fl m iv : floor_row (map Fin fl) (map Fin m) (map Fin iv) = map Fin (zip (fun f p => floored f (fst p) (snd p)) fl (zip pair m iv)).
Proof.
  unfold floor_row. rewrite zip_maps. revert m iv. induction fl as [|f fl IH]; intros [|a m] [|b iv]; cbn [zip map]; auto. f_equal; auto.
  cbn [fst snd]. apply floor_entry_real.
Qed.
Lemma gst_floors_fin : gst_floors = map Fin floors10.
Proof. unfold gst_floors, gst_floor, floors10. cbn [dat vec map]. xcbn. unfold Q2R. cbn [Qnum Qden]. repeat (apply f_equal2; [f_equal; lra|]). reflexivity. Qed.
Lemma mtol_floors_fin : mtol_floors = map Fin floors5.
Proof. unfold mtol_floors, mtol_floor, floors5. cbn [dat vec map]. xcbn. unfold Q2R. cbn [Qnum Qden]. repeat (apply f_equal2; [f_equal; lra|]). reflexivity. Qed.

(** One entry through extinction, floor and clean-up. *)
Definition out_iv (fl p a b : R) : R := floored fl (a * p) (b / p ^ 2).
Lemma rel_error_scale a b p : 0 < p -> 0 < b -> rel_error (a * p) (b / p ^ 2) = rel_error a b.
Proof.
  intros Hp Hb. unfold rel_error. rewrite Rabs_mult, (Rabs_pos_eq p) by lra. rewrite sqrt_div by (try apply pow_lt; lra). rewrite sqrt_pow2 by lra.
  f_equal. field. lra.
Qed.
Lemma rel_error_floor fl m v : 0 < fl -> m <> 0 -> 0 < v -> 0 < floored fl m v /\ rel_error m (floored fl m v) = Rmax fl (rel_error m v).
Proof.
  intros Hf Hm Hv. unfold floored, floored_ivar. rewrite !Rltb_true by auto. rewrite Reqb_false by auto.
  assert (Ha : 0 < Rabs m) by (apply Rabs_pos_lt; auto). assert (Hs : 0 < sqrt v) by (apply sqrt_lt_R0; auto).
  assert (Haf : 0 < Rabs m * fl) by nra.
  assert (HI : 0 < 1 / (Rabs m * fl) ^ 2) by (apply Rdiv_lt_0_compat; [lra|apply pow_lt; auto]).
  split; [apply Rmin_glb_lt; auto|].
  assert (SI : sqrt (1 / (Rabs m * fl) ^ 2) = 1 / (Rabs m * fl)).
  { rewrite sqrt_div by (try apply pow_lt; lra). rewrite sqrt_1, sqrt_pow2 by lra. reflexivity. }
  unfold rel_error. unfold Rmin. destruct (Rle_dec v (1 / (Rabs m * fl) ^ 2)) as [L|L].
  - rewrite Rmax_right; auto. assert (S : sqrt v <= 1 / (Rabs m * fl)) by (rewrite <- SI; apply sqrt_le_1_alt; auto).
    apply (Rmult_le_reg_r (Rabs m * sqrt v)); [nra|]. replace (1 / (Rabs m * sqrt v) * (Rabs m * sqrt v)) with 1 by (field; lra).
    apply (Rmult_le_compat_r (Rabs m * fl)) in S; [|lra]. replace (1 / (Rabs m * fl) * (Rabs m * fl)) with 1 in S by (field; lra). nra.
  - rewrite SI. rewrite Rmax_left; [field; lra|]. assert (S : 1 / (Rabs m * fl) <= sqrt v) by (rewrite <- SI; apply sqrt_le_1_alt; lra).
    apply (Rmult_le_reg_r (Rabs m * sqrt v)); [nra|]. replace (1 / (Rabs m * sqrt v) * (Rabs m * sqrt v)) with 1 by (field; lra).
    apply (Rmult_le_compat_r (Rabs m * fl)) in S; [|lra]. replace (1 / (Rabs m * fl) * (Rabs m * fl)) with 1 in S by (field; lra). nra.
Qed.
Lemma out_measured fl p a b : 0 < fl -> 0 < p -> a <> 0 -> 0 < b -> 0 < out_iv fl p a b /\ rel_error (a * p) (out_iv fl p a b) = Rmax fl (rel_error a b).
Proof.
  intros Hf Hp Ha Hb. unfold out_iv. assert (HP : 0 < b / p ^ 2) by (apply Rdiv_lt_0_compat; [lra|apply pow_lt; auto]).
  rewrite <- (rel_error_scale a b p) by auto. apply rel_error_floor; auto. intro Q. apply Rmult_integral in Q. lra.
Qed.
Lemma out_zero fl p a : out_iv fl p a 0 = 0.
Proof. unfold out_iv, floored. unfold Rdiv. rewrite Rmult_0_l, Rltb_false by lra. reflexivity. Qed.
Lemma out_neg fl p a b : 0 < p -> b < 0 -> out_iv fl p a b < 0.
Proof.
  intros Hp Hb. unfold out_iv, floored. assert (Q : b / p ^ 2 < 0). { assert (0 < / p ^ 2) by (apply Rinv_0_lt_compat, pow_lt; auto). unfold Rdiv. nra. }
  rewrite Rltb_false by lra. auto.
Qed.
Lemma out_nonneg fl p a b : 0 < fl -> 0 < p -> 0 <= b -> 0 <= out_iv fl p a b.
Proof.
  intros Hf Hp [Hb| <-]; [|rewrite out_zero; lra]. destruct (Req_dec a 0) as [->|Ha].
  - unfold out_iv, floored. rewrite Rmult_0_l. assert (0 < b / p ^ 2) by (apply Rdiv_lt_0_compat; [lra|apply pow_lt; auto]).
    rewrite Rltb_true by auto. rewrite Reqb_true by auto. lra.
  - left. apply out_measured; auto.
Qed.
Lemma bad_fin m v : bad (Fin m) (Fin v) = Rltb v 0.
Proof. reflexivity. Qed.

Section Row.
  Variables vj vh vk : R.
  Definition rraw_m (r : gst_row R) : list R :=
    [rgalex_m 18.82 (g_fuv r) (g_fuverr r); rgalex_m 20.08 (g_nuv r) (g_nuverr r)] ++ map (fun x => x * 1e-9) (rab_m (g_model r)) ++
    [rtmass_m vj (g_j r) (g_jsig r); rtmass_m vh (g_h r) (g_hsig r); rtmass_m vk (g_k r) (g_ksig r)].
  Definition rraw_iv (r : gst_row R) : list R :=
    [rgalex_iv 18.82 (g_fuv r) (g_fuverr r); rgalex_iv 20.08 (g_nuv r) (g_nuverr r)] ++ map (fun x => x * 1e18) (rab_iv (g_model_ivar r)) ++
    [rtmass_iv vj (g_j r) (g_jsig r); rtmass_iv vh (g_h r) (g_hsig r); rtmass_iv vk (g_k r) (g_ksig r)].
  Lemma raw_m_fin r : gst_raw_m (Fin vj) (Fin vh) (Fin vk) (fin_row r) (ab_m (g_model (fin_row r))) = map Fin (rraw_m r).
  Proof.
    unfold gst_raw_m, rraw_m. cbn [fin_row g_fuv g_fuverr g_nuv g_nuverr g_model g_j g_jsig g_h g_hsig g_k g_ksig].
    rewrite !tmass_m_fin, (galex_m_fin _ 18.82), (galex_m_fin _ 20.08) by (unfold Q2R; cbn; lra). rewrite ab_m_fin, !map_app, !map_map.
    f_equal.
  Qed.
  Lemma raw_iv_fin r : gst_raw_iv (Fin vj) (Fin vh) (Fin vk) (fin_row r) (ab_iv (g_model_ivar (fin_row r))) = map Fin (rraw_iv r).
  Proof.
    unfold gst_raw_iv, rraw_iv. cbn [fin_row g_fuv g_fuverr g_nuv g_nuverr g_model_ivar g_j g_jsig g_h g_hsig g_k g_ksig].
    rewrite !tmass_iv_fin, (galex_iv_fin _ 18.82), (galex_iv_fin _ 20.08) by (unfold Q2R; cbn; lra). rewrite ab_iv_fin, !map_app, !map_map.
    f_equal. f_equal. apply map_ext. intro x. xcbn. f_equal. unfold Q2R; cbn. lra.
  Qed.

  (** Entry [k] of the prepared row, from entry [k] of the raw row. *)
  Lemma gst_entry r k a b : nth_error (rraw_m r) k = Some a -> nth_error (rraw_iv r) k = Some b -> (k < 10)%nat ->
    let p := rex (g_ext r) (nth k ext_coeff 0 / 2.751) in
    let v := out_iv (nth k floors10 0) p a b in
    nth_error (gst_m (Fin vj) (Fin vh) (Fin vk) (fin_row r)) k = Some (Fin (a * p)) /\
    nth_error (gst_iv (Fin vj) (Fin vh) (Fin vk) (fin_row r)) k = Some (Fin v).
  Proof.
    intros Ha Hb Hk p v.
    assert (EC : nth_error coeffs10 k = Some (nth k ext_coeff 0 / 2.751)).
    { unfold coeffs10. rewrite nth_error_map, (nth_error_nth' ext_coeff 0) by (exact Hk). reflexivity. }
    assert (E1 : gst_m (Fin vj) (Fin vh) (Fin vk) (fin_row r) = map Fin (zip (fun f x => x * rex (g_ext r) f) coeffs10 (rraw_m r))).
    { unfold gst_m. rewrite raw_m_fin. change (g_ext (fin_row r)) with (Fin (g_ext r)). apply deredden_m_fin. }
    assert (N1 : nth_error (zip (fun f x => x * rex (g_ext r) f) coeffs10 (rraw_m r)) k = Some (a * p)) by (rewrite nth_error_zip, EC, Ha; reflexivity).
    split; [rewrite E1, nth_error_map, N1; reflexivity|].
    unfold gst_iv. rewrite raw_iv_fin. change (g_ext (fin_row r)) with (Fin (g_ext r)).
    rewrite deredden_iv_fin, E1, gst_floors_fin, floor_row_fin, nth_error_map, !nth_error_zip, EC, Ha, Hb.
    rewrite (nth_error_nth' floors10 0) by exact Hk. reflexivity.
  Qed.
End Row.

(** The same for the other program. *)
Definition ri_m (r : im_row R) : list R := zip (fun x e => x * 1e-9 * pow10 (0.4 * e)) (rab_m (i_flux r)) (i_ext r).
Lemma mtol_entry r k a b e : nth_error (rab_m (i_flux r)) k = Some a -> nth_error (rab_iv (i_ivar r)) k = Some b -> nth_error (i_ext r) k = Some e -> (k < 5)%nat ->
  let p := pow10 (0.4 * e) in
  nth_error (mt_m (fin_im r)) k = Some (Fin (a * 1e-9 * p)) /\
  nth_error (mt_iv (fin_im r)) k = Some (Fin (out_iv (nth k floors5 0) p (a * 1e-9) (b * 1e18))).
Proof.
  intros Ha Hb He Hk p.
  assert (E1 : nth_error (mt_m (fin_im r)) k = Some (Fin (a * 1e-9 * p))).
  { unfold mt_m. cbn [fin_im i_flux i_ext]. rewrite ab_m_fin, nth_error_zip, !nth_error_map, Ha, He. cbn [option_map]. xcbn. rewrite lit04.
    reflexivity. }
  split; auto. unfold mt_iv, floor_row. rewrite !nth_error_zip, E1, mtol_floors_fin, nth_error_map, (nth_error_nth' floors5 0) by exact Hk. cbn [option_map].
  unfold mt_iv0. cbn [fin_im i_ivar i_ext]. rewrite ab_iv_fin, nth_error_zip, !nth_error_map, Hb, He. cbn [option_map fst snd].
  f_equal. xcbn. rewrite litm08. unfold out_iv. rewrite <- floor_entry_real. f_equal. f_equal.
  unfold Rdiv. f_equal; [f_equal; unfold Q2R; cbn; lra|]. unfold p. cbn [pow]. rewrite Rmult_1_r, <- pow10_plus, <- pow10_opp. f_equal. lra.
Qed.

(** * Entries *)
Lemma entry_map {A T} (f : A -> list T) l i k x : entry (map f l) i k x <-> exists a, nth_error l i = Some a /\ nth_error (f a) k = Some x.
Proof.
  unfold entry. split.
  - intros (r & H1 & H2). rewrite nth_error_map in H1. destruct (nth_error l i) as [a|]; [|discriminate]. injection H1 as <-. exists a. auto.
  - intros (a & H1 & H2). exists (f a). rewrite nth_error_map, H1. auto.
Qed.
Lemma nth_map_list {A B} (f : A -> B) l k a : nth_error l k = Some a -> nth_error (map f l) k = Some (f a).
Proof. intro H. rewrite nth_error_map, H. reflexivity. Qed.
Lemma map_nth_seq_all {A} (l : list A) d : map (fun j => nth j l d) (seq 0 (length l)) = l.
Proof. apply (nth_ext _ _ d d); rewrite map_length, seq_length; auto. intros n Hn. rewrite (nth_indep _ d (nth 0 l d)) by (rewrite map_length, seq_length; auto).
  rewrite (map_nth (fun j => nth j l d)), seq_nth by auto. reflexivity. Qed.
Lemma good_rows {A} w (z : A -> xr) (m iv : A -> list xr) l :
  (forall a, In a l -> length (m a) = w /\ length (iv a) = w /\ z a <> NaN) ->
  Forall (good_obj w) (map (fun a => {| o_z := z a; o_m := clean_m (m a) (iv a); o_iv := clean_iv (m a) (iv a) |}) l).
Proof.
  intro H. rewrite Forall_map, Forall_forall. intros a Ha. destruct (H a Ha) as (H1 & H2 & H3).
  split; [|split; auto; cbn [o_m o_iv]; apply clean_usable].
  unfold obj_ok. cbn [o_m o_iv]. unfold clean_m, clean_iv. rewrite !length_zip. lia.
Qed.

Lemma pow2_gt_0 x : x <> 0 -> 0 < x ^ 2.
Proof. intro H. replace (x ^ 2) with (Rsqr x) by (unfold Rsqr; ring). apply Rsqr_pos_lt; auto. Qed.
Lemma clean_entry m iv k x y : nth_error m k = Some x -> nth_error iv k = Some y ->
  nth_error (clean_m m iv) k = Some (if bad x y then Fin 0 else x) /\ nth_error (clean_iv m iv) k = Some (if bad x y then Fin 0 else y).
Proof. intros H1 H2. unfold clean_m, clean_iv. rewrite !nth_error_zip, H1, H2. auto. Qed.

Lemma kept fl p a b : 0 < fl -> 0 < p -> 0 <= b -> bad (Fin (a * p)) (Fin (out_iv fl p a b)) = false.
Proof. intros. rewrite bad_fin. apply Rltb_false. apply out_nonneg; auto. Qed.
Lemma floors10_pos k : (k < 10)%nat -> 0 < nth k floors10 0.
Proof. intro H. unfold floors10. do 10 (destruct k as [|k]; [cbn; lra|]). lia. Qed.
Lemma floors5_pos k : (k < 5)%nat -> 0 < nth k floors5 0.
Proof. intro H. unfold floors5. do 5 (destruct k as [|k]; [cbn; lra|]). lia. Qed.
Lemma rel_error_galex f e s : f <> 0 -> e <> 0 -> 0 < s -> rel_error (f * s) (1 / (e * s) ^ 2) = Rabs (e / f).
Proof.
  intros Hf He Hs. unfold rel_error. assert (0 < Rabs f) by (apply Rabs_pos_lt; auto). assert (0 < Rabs e) by (apply Rabs_pos_lt; auto).
  assert (E : sqrt (1 / (e * s) ^ 2) = 1 / (Rabs e * s)).
  { replace ((e * s) ^ 2) with ((Rabs e * s) ^ 2). 2:{ cbn [pow]. rewrite !Rmult_1_r. replace (Rabs e * s * (Rabs e * s)) with ((Rabs e * Rabs e) * (s * s)) by ring.
      change (Rabs e * Rabs e) with (Rsqr (Rabs e)). rewrite <- Rsqr_abs. unfold Rsqr. ring. }
    rewrite sqrt_div by (try apply pow_lt; nra). rewrite sqrt_1, sqrt_pow2 by nra. reflexivity. }
  rewrite E. unfold Rdiv at 3. rewrite !Rabs_mult, (Rabs_pos_eq s), Rabs_inv by lra. field. repeat split; lra.
Qed.
Lemma rel_error_pow f u : 0 < f -> 0 < u -> rel_error f (1 / (f * u) ^ 2) = u.
Proof.
  intros Hf Hu. unfold rel_error. rewrite Rabs_pos_eq by lra. rewrite sqrt_div by (try apply pow_lt; nra). rewrite sqrt_1, sqrt_pow2 by nra. field. split; lra.
Qed.
Lemma rel_error_units f w g s : 0 < w -> 0 < g -> 0 < s -> rel_error (f * g * s) (w / g ^ 2 * (/ s) ^ 2) = rel_error f w.
Proof.
  intros Hw Hg Hs. unfold rel_error. rewrite !Rabs_mult, (Rabs_pos_eq g), (Rabs_pos_eq s) by lra.
  assert (E : sqrt (w / g ^ 2 * (/ s) ^ 2) = sqrt w / (g * s)).
  { replace (w / g ^ 2 * (/ s) ^ 2) with (w / (g * s) ^ 2) by (field; split; lra). rewrite sqrt_div by (try apply pow_lt; nra). rewrite sqrt_pow2 by nra. reflexivity. }
  rewrite E. f_equal. field. split; lra.
Qed.
(** The SDSS bands of both programs. *)
Lemma sdss_band fl p f w a : 0 < fl -> 0 < p ->
  let g := pow10 (-0.4 * a) in
  let A := f * g * 1e-9 in let B := w / g ^ 2 * 1e18 in
  let x := if bad (Fin (A * p)) (Fin (out_iv fl p A B)) then Fin 0 else Fin (A * p) in
  let y := if bad (Fin (A * p)) (Fin (out_iv fl p A B)) then Fin 0 else Fin (out_iv fl p A B) in
  (w < 0 -> x = Fin 0 /\ y = Fin 0) /\ (0 <= w -> x = Fin (A * p)) /\ (w = 0 -> y = Fin 0) /\
  (0 < w -> f <> 0 -> stands_for x y (A * p) (Rmax fl (rel_error f w))).
Proof.
  intros Hf Hp g A B x y. assert (Hg : 0 < g) by apply pow10_pos.
  assert (Hi : 0 < / g ^ 2) by (apply Rinv_0_lt_compat, pow_lt; auto).
  assert (B0 : 0 <= w -> 0 <= B) by (intro; unfold B, Rdiv; nra).
  assert (KE : 0 <= w -> bad (Fin (A * p)) (Fin (out_iv fl p A B)) = false) by (intro; apply kept; auto).
  split; [|split; [|split]].
  - intro Hw. assert (B < 0) by (unfold B, Rdiv; nra). assert (Q := out_neg fl p A B Hp H). unfold x, y. rewrite bad_fin, Rltb_true by auto. auto.
  - intro Hw. unfold x. rewrite KE by auto. reflexivity.
  - intros ->. unfold y. rewrite KE by lra. unfold B. unfold Rdiv. rewrite !Rmult_0_l, out_zero. reflexivity.
  - intros Hw Hfn. unfold x, y. rewrite KE by lra. assert (BP : 0 < B) by (unfold B, Rdiv; nra).
    assert (AN : A <> 0) by (unfold A; repeat apply Rmult_integral_contrapositive_currified; auto; lra).
    destruct (out_measured fl p A B Hf Hp AN BP) as [O1 O2]. split; auto. exists (out_iv fl p A B). split; [reflexivity|]. split; auto. rewrite O2.
    f_equal. unfold A, B. replace 1e18 with ((/ 1e-9) ^ 2) by lra. apply rel_error_units; auto. lra.
Qed.

(** * k_plot_test_sdss *)
Definition sd_m (rows : list (im_row xr)) := map (fun r => zip (fun x e => nmul x (npow10 (nmul (nlit (2 # 5)) e))) (i_flux r) (i_ext r)) rows.
Definition sd_iv (rows : list (im_row xr)) := map (fun r => zip (fun x e => nmul x (npow10 (nmul (nlit (-(4) # 5)) e))) (i_ivar r) (i_ext r)) rows.
Lemma sdss_explicit nnls rng (F : fitter xr) (zs : list xr) (rows : list (im_row xr)) cur :
    f_kind F = SDSS -> f_abc F = true -> length (f_resp F) = 5%nat -> length zs = length rows -> Forall five_bands_im rows ->
    sdss_ab_correct (fst (sdss_photometry rows)) None default_abfix = Ok (table 5 (map ab_m (sd_m rows)), None) /\
      rect 5 (map ab_m (sd_m rows)) /\ rect 5 (map ab_iv (sd_iv rows)) /\
      sdss_ab_correct (fst (sdss_photometry rows)) (Some (snd (sdss_photometry rows))) default_abfix =
        Ok (table 5 (map ab_m (sd_m rows)), Some (table 5 (map ab_iv (sd_iv rows)))) /\
      sdss_coeffs nnls rng F zs rows cur =
      fit_coeffs nnls rng (without_ab F) (Some (vec zs)) (Some (table 5 (map ab_m (sd_m rows)))) (Some (table 5 (map ab_iv (sd_iv rows)))) 0 cur.
Proof.
  intros Hk Ha Hr Hz H. rewrite Forall_forall in H.
  set (M := sd_m rows). set (V := sd_iv rows).
  assert (RM : rect 5 M) by (apply rect_mapf; intros r Q; destruct (H r Q) as (L1 & L2 & L3); rewrite length_zip; lia).
  assert (RV : rect 5 V) by (apply rect_mapf; intros r Q; destruct (H r Q) as (L1 & L2 & L3); rewrite length_zip; lia).
  assert (LM : length M = length rows) by apply map_length. assert (LV : length V = length rows) by apply map_length.
  assert (E1 : fst (sdss_photometry rows) = table 5 M) by (unfold sdss_photometry, table; cbn [fst]; rewrite LM; reflexivity).
  assert (E2 : snd (sdss_photometry rows) = table 5 V) by (unfold sdss_photometry, table; cbn [snd]; rewrite LV; reflexivity).
  pose proof (sdss_table M V RM RV ltac:(congruence)) as ES.
  split; [|split; [|split; [|split; [rewrite E1, E2; exact ES|]]]].
  - rewrite E1. apply (sdss_table_none M RM).
  - apply rect_mapf. intros r Q. apply ab_len. exact (rect_In _ _ RM _ Q).
  - apply rect_mapf. intros r Q. apply ab_len. exact (rect_In _ _ RV _ Q).
  - unfold sdss_coeffs. rewrite E1, E2, L_C61_fit; auto.
    + rewrite Hk. cbn [to_ab]. rewrite ES. reflexivity.
    + right. exists (length rows). rewrite Hr. unfold vec. cbn [shp]. rewrite Hz. split; auto.
      repeat split; intros a Q; try discriminate; injection Q as <-; unfold table; cbn [shp]; congruence.
Qed.

Lemma sdss_pair (rows : list (im_row xr)) : Forall five_bands_im rows ->
  sdss_ab_correct (fst (sdss_photometry rows)) (Some (snd (sdss_photometry rows))) default_abfix =
    Ok (table 5 (map ab_m (sd_m rows)), Some (table 5 (map ab_iv (sd_iv rows)))).
Proof.
  intros H. rewrite Forall_forall in H.
  assert (RM : rect 5 (sd_m rows)) by (apply rect_mapf; intros r Q; destruct (H r Q) as (L1 & L2 & L3); rewrite length_zip; lia).
  assert (RV : rect 5 (sd_iv rows)) by (apply rect_mapf; intros r Q; destruct (H r Q) as (L1 & L2 & L3); rewrite length_zip; lia).
  assert (LM : length (sd_m rows) = length rows) by apply map_length. assert (LV : length (sd_iv rows) = length rows) by apply map_length.
  assert (E1 : fst (sdss_photometry rows) = table 5 (sd_m rows)) by (unfold sdss_photometry, table; cbn [fst]; rewrite LM; reflexivity).
  assert (E2 : snd (sdss_photometry rows) = table 5 (sd_iv rows)) by (unfold sdss_photometry, table; cbn [snd]; rewrite LV; reflexivity).
  rewrite E1, E2. apply sdss_table; auto. congruence.
Qed.
