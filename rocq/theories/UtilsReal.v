(** Numerical facts about the utils.py model over exact reals, and read_basel. *)
From Coq Require Import List Arith Lia Bool ZArith QArith Qreals Reals Lra.
From Verif Require Import Base BaseLemmas Num Spec Utils UtilsProofs.
Import ListNotations.
Local Open Scope R_scope.

(** * Lists of finite values *)
Lemma fin_list (l : list xr) n g :
  length l = n -> (forall j, (j < n)%nat -> nth_error l j = Some (Fin (g j))) ->
  l = map Fin (map g (seq 0 n)).
Proof.
  intros Hl H. apply nth_error_ext; intro i.
  rewrite map_map, nth_error_map, nth_error_seq.
  destruct (Nat.ltb_spec i n) as [Hi|Hi].
  - rewrite H by exact Hi. reflexivity.
  - apply nth_error_None. lia.
Qed.

Lemma nth_map_seq (g : nat -> R) n j d : (j < n)%nat -> nth j (map g (seq 0 n)) d = g j.
Proof.
  intro H. assert (E : nth_error (map g (seq 0 n)) j = Some (g j)).
  { rewrite nth_error_map, nth_error_seq. apply Nat.ltb_lt in H. rewrite H. reflexivity. }
  apply nth_error_nth with (d := d) in E. exact E.
Qed.

Lemma nth_error_map_Fin (l : list R) j : (j < length l)%nat -> nth_error (map Fin l) j = Some (Fin (nth j l 0)).
Proof.
  intro H. rewrite nth_error_map, (nth_error_nth' l 0) by exact H. reflexivity.
Qed.

Lemma nth_map_Fin (l : list R) j d : (j < length l)%nat -> nth j (map Fin l) d = Fin (nth j l 0).
Proof. intro H. apply nth_error_nth with (d := d). apply nth_error_map_Fin; auto. Qed.


Lemma wf_rarr s l : length l = size s -> wf (rarr s l).
Proof. intro H. unfold wf, rarr; cbn [dat shp]. rewrite map_length. exact H. Qed.

Lemma rarr_of (a : nd xr) s g : shp a = s -> wf a ->
  (forall j, (j < size s)%nat -> nth_error (dat a) j = Some (Fin (g j))) ->
  a = rarr s (map g (seq 0 (size s))).
Proof.
  intros Hs Hw H. destruct a as [sa da]; cbn [shp dat] in *. subst sa. unfold rarr. f_equal.
  apply fin_list; auto.
Qed.

(** * sdss_ab_correct *)
(** 10^(-0.4 a), squared etc. *)
Lemma lit_m04 : Q2R (-(2) # 5) = -0.4.
Proof. unfold Q2R; simpl. lra. Qed.
Lemma lit_04 : Q2R (2 # 5) = 0.4.
Proof. unfold Q2R; simpl. lra. Qed.

Lemma sq_sqr x : x * x = x ^ 2. Proof. ring. Qed.

Lemma sdss_ab_correct_real s (m iv ab : list R) :
  lastd s = 5%nat -> length m = size s -> length iv = size s -> length ab = 5%nat ->
  sdss_ab_correct (rarr s m) (Some (rarr s iv)) (vec (map Fin ab)) =
  Ok (rarr s (map (fun j => nth j m 0 * pow10 (-0.4 * nth (j mod 5) ab 0)) (seq 0 (size s))),
      Some (rarr s (map (fun j => nth j iv 0 / (pow10 (-0.4 * nth (j mod 5) ab 0))^2) (seq 0 (size s))))).
Proof.
  intros H5 Hm Hi Ha.
  assert (Hsa : shp (vec (map Fin ab)) = [5%nat]) by (unfold vec; cbn [shp]; rewrite map_length, Ha; reflexivity).
  destruct (@sdss_ab_correct_spec xr _ (rarr s m) (vec (map Fin ab)) (Some (rarr s iv)))
    as (am & ai & E & Sm & Wm & Nm & Hai); auto using wf_rarr, wf_vec.
  { unfold rarr; cbn [shp]. lia. }
  { intros v Ev. injection Ev as <-. split; [apply wf_rarr; auto|reflexivity]. }
  destruct Hai as (a & -> & Sa & Wa & Na). rewrite E.
  cbn [rarr shp] in Sm, Nm, Sa, Na. rewrite H5 in Nm, Na.
  assert (Hab : forall j, code_abfac (vec (map Fin ab)) (j mod 5) = Fin (pow10 (-0.4 * nth (j mod 5) ab 0))).
  { intro j. unfold code_abfac, vec; cbn [dat]. rewrite nth_map_Fin.
    - xcbn. rewrite lit_m04. reflexivity.
    - rewrite Ha. apply Nat.mod_upper_bound; lia. }
  assert (Hlt : forall j, Nat.ltb (j mod 5) 5 = true) by (intro; apply Nat.ltb_lt, Nat.mod_upper_bound; lia).
  f_equal. f_equal; [|f_equal].
  - apply rarr_of; auto. intros j Hj. rewrite Nm by exact Hj. rewrite Hlt, Hab.
    unfold rarr; cbn [dat]. rewrite nth_error_map_Fin by lia. unfold store_if. xcbn.
    destruct (Nat.eqb _ 1); reflexivity.
  - apply rarr_of; auto. intros j Hj. rewrite Na by exact Hj. rewrite Hlt, Hab.
    unfold rarr; cbn [dat]. rewrite nth_error_map_Fin by lia. unfold store_if, nsq. cbn [option_map cst Num_xr nmul ndiv xmul].
    rewrite xdiv_fin, sq_sqr by (pose proof (pow10_pos (-0.4 * nth (j mod 5) ab 0)); nra).
    destruct (Nat.eqb _ 1); reflexivity.
Qed.

(** * asinh magnitudes *)
Definition lam (b m : R) : R := - ln b - 0.4 * ln 10 * m.

Lemma asinh_arg_real b m : 0 < b -> asinh_arg (Fin b) (Fin m) = Fin (lam b m).
Proof.
  intro Hb. unfold asinh_arg, lam. cbn [nln nsub nopp nmul nlit Num_xr].
  rewrite !xlog_fin by (try (unfold Q2R; simpl; lra); auto). cbn [xopp xmul xsub xadd].
  rewrite lit_04. replace (Q2R (10 # 1)) with 10 by (unfold Q2R; simpl; lra). f_equal.
Qed.

Lemma asinh_maggies1_real b m : 0 < b -> asinh_maggies1 (Fin b) (Fin m) = Fin (2 * b * sinh (lam b m)).
Proof.
  intro Hb. unfold asinh_maggies1. rewrite asinh_arg_real by auto.
  cbn [nln nsub nopp nmul nlit nsinh Num_xr xmul xsinh]. replace (Q2R (2 # 1)) with 2 by (unfold Q2R; simpl; lra). reflexivity.
Qed.

Lemma cosh_pos x : 0 < cosh x.
Proof. unfold cosh. pose proof (exp_pos x). pose proof (exp_pos (-x)). lra. Qed.

Lemma cosh_sinh_sq x : cosh x ^ 2 = sinh x ^ 2 + 1.
Proof.
  unfold cosh, sinh. assert (H : exp x * exp (- x) = 1).
  { rewrite <- exp_plus. replace (x + - x) with 0 by ring. apply exp_0. }
  nra.
Qed.

Lemma asinh_ivar1_real b m e : 0 < b -> e <> 0 ->
  asinh_ivar1 (Fin b) (Fin m) (Fin e) = Fin (1 / (2 * b * cosh (lam b m) * (0.4 * ln 10) * e) ^ 2).
Proof.
  intros Hb He. unfold asinh_ivar1. rewrite asinh_arg_real by auto.
  cbn [nln nsub nopp nmul nlit ncosh Num_xr xcosh n1 ndiv]. unfold nsq. cbn [nmul Num_xr].
  rewrite !xlog_fin by (unfold Q2R; simpl; lra). cbn [xmul].
  replace (Q2R (10 # 1)) with 10 by (unfold Q2R; simpl; lra).
  rewrite lit_04. replace (Q2R (2 # 1)) with 2 by (unfold Q2R; simpl; lra).
  pose proof (cosh_pos (lam b m)) as Hc. pose proof ln10_pos as Hl.
  assert (Hn : 2 * b * cosh (lam b m) * 0.4 * ln 10 * e <> 0).
  { assert (0 < 2 * b * cosh (lam b m) * 0.4 * ln 10)
      by (apply Rmult_lt_0_compat; auto; apply Rmult_lt_0_compat; [apply Rmult_lt_0_compat; lra|lra]).
    apply Rmult_integral_contrapositive_currified; [lra|auto]. }
  rewrite xdiv_fin by (apply Rmult_integral_contrapositive_currified; exact Hn).
  f_equal. unfold Rdiv. do 2 f_equal. ring.
Qed.


Lemma b0_real k : (k < 5)%nat -> nth k b0 n0 = Fin (nth k softening 0) /\ 0 < nth k softening 0.
Proof.
  intro Hk. do 5 (destruct k as [|k]; [cbn; unfold Q2R; simpl; split; [f_equal; lra|lra]|]). lia.
Qed.


Lemma luptitude_of_flux b m : 0 < b -> luptitude b (2 * b * sinh (lam b m)) = m.
Proof.
  intro Hb. unfold luptitude. replace (2 * b * sinh (lam b m) / (2 * b)) with (sinh (lam b m)) by (field; lra).
  rewrite arcsinh_sinh. unfold lam. pose proof ln10_pos.
  replace 0.4 with (2 / 5) by lra. replace 2.5 with (5 / 2) by lra. field. lra.
Qed.

Lemma luptitude_inj b f1 f2 : 0 < b -> luptitude b f1 = luptitude b f2 -> f1 = f2.
Proof.
  intros Hb H. unfold luptitude in H. pose proof ln10_pos as Hl.
  assert (E : arcsinh (f1 / (2 * b)) = arcsinh (f2 / (2 * b))).
  { apply Rplus_eq_reg_r with (ln b). apply Rmult_eq_reg_l with (- (2.5 / ln 10)); auto.
    assert (0 < 2.5 / ln 10) by (apply Rdiv_lt_0_compat; lra). lra. }
  apply (f_equal sinh) in E. rewrite !sinh_arcsinh in E.
  apply (f_equal (fun x => x * (2 * b))) in E. unfold Rdiv in E.
  rewrite !Rmult_assoc, !Rinv_l, !Rmult_1_r in E by lra. exact E.
Qed.

Lemma flux_identity b m : 0 < b ->
  2 * b * sinh (lam b m) = pow10 (-0.4 * m) - b ^ 2 * pow10 (0.4 * m).
Proof.
  intro Hb. unfold sinh, lam, pow10, Rpower.
  replace (- ln b - 0.4 * ln 10 * m) with (- ln b + -0.4 * m * ln 10) by lra.
  replace (- (- ln b + -0.4 * m * ln 10)) with (ln b + 0.4 * m * ln 10) by lra.
  rewrite !exp_plus, exp_Ropp, exp_ln by auto. field. lra.
Qed.

Lemma flux_decreasing b m1 m2 : 0 < b -> m1 < m2 -> 2 * b * sinh (lam b m2) < 2 * b * sinh (lam b m1).
Proof.
  intros Hb H. apply Rmult_lt_compat_l; [lra|]. apply sinh_lt. unfold lam. pose proof ln10_pos. nra.
Qed.

Lemma flux_pos_iff b m : 0 < b -> (0 < 2 * b * sinh (lam b m) <-> m < -2.5 * log10 b).
Proof.
  intro Hb. pose proof ln10_pos as Hl.
  assert (E : 2 * b * sinh (lam b (-2.5 * log10 b)) = 0).
  { unfold lam, log10. replace (- ln b - 0.4 * ln 10 * (-2.5 * (ln b / ln 10))) with 0
      by (replace 0.4 with (2 / 5) by lra; replace (-2.5) with (- (5 / 2)) by lra; field; lra).
    rewrite sinh_0. ring. }
  split; intro H.
  - destruct (Rlt_le_dec m (-2.5 * log10 b)) as [|Hle]; auto. exfalso.
    destruct Hle as [Hlt|<-]; [|lra]. pose proof (flux_decreasing b _ _ Hb Hlt). lra.
  - pose proof (flux_decreasing b _ _ Hb H). lra.
Qed.

(** Derivative of the asinh-magnitude definition at the returned flux. *)
Lemma luptitude_derive b m : 0 < b ->
  derivable_pt_lim (luptitude b) (2 * b * sinh (lam b m))
    (- (2.5 / ln 10) * (/ cosh (lam b m) * / (2 * b))).
Proof.
  intro Hb. unfold luptitude.
  set (f := 2 * b * sinh (lam b m)).
  assert (H1 : derivable_pt_lim (fun f => f / (2 * b)) f (/ (2 * b))).
  { replace (/ (2 * b)) with (1 * / (2 * b) + id f * 0) by ring.
    apply (derivable_pt_lim_mult id (fun _ => / (2 * b)) f 1 0).
    - apply derivable_pt_lim_id. - apply derivable_pt_lim_const. }
  assert (H2 : derivable_pt_lim (comp arcsinh (fun f => f / (2 * b))) f (/ cosh (lam b m) * / (2 * b))).
  { apply derivable_pt_lim_comp; auto.
    replace (f / (2 * b)) with (sinh (lam b m)) by (unfold f; field; lra).
    replace (cosh (lam b m)) with (sqrt (sinh (lam b m) ^ 2 + 1)).
    - apply derivable_pt_lim_arcsinh.
    - rewrite <- cosh_sinh_sq. apply sqrt_pow2. pose proof (cosh_pos (lam b m)); lra. }
  assert (H3 : derivable_pt_lim (fun f => arcsinh (f / (2 * b)) + ln b) f (/ cosh (lam b m) * / (2 * b) + 0)).
  { apply (derivable_pt_lim_plus (comp arcsinh (fun f => f / (2 * b))) (fun _ => ln b)); auto.
    apply derivable_pt_lim_const. }
  rewrite Rplus_0_r in H3.
  apply (derivable_pt_lim_scal (fun f => arcsinh (f / (2 * b)) + ln b)). exact H3.
Qed.

Lemma asinh_real s (mag : list R) (err : option (list R)) (ext : option (list R)) :
  s <> [] -> lastd s = 5%nat -> length mag = size s ->
  (forall e, err = Some e -> length e = size s /\ Forall (fun x => x <> 0) e) ->
  (forall e, ext = Some e -> length e = size s) ->
  sdss_asinh_to_maggies (rarr s mag) (option_map (rarr s) err) (option_map (rarr s) ext) =
  Ok (rarr s (map (fun j => 2 * nth (j mod 5) softening 0
                            * sinh (lam (nth (j mod 5) softening 0) (nth j mag 0))
                            * pow10 (0.4 * match ext with Some e => nth j e 0 | None => 0 end))
                  (seq 0 (size s))),
      match err with
      | None => None
      | Some er => Some (rarr s (map (fun j =>
           1 / (2 * nth (j mod 5) softening 0 * cosh (lam (nth (j mod 5) softening 0) (nth j mag 0))
                * (0.4 * ln 10) * nth j er 0) ^ 2) (seq 0 (size s))))
      end).
Proof.
  intros Hne H5 Hm Herr Hext.
  destruct (@asinh_spec xr _ (rarr s mag) (option_map (rarr s) err) (option_map (rarr s) ext))
    as (f & iv & E & Sf & Wf & Nf & Hiv); auto using wf_rarr.
  { intros e He. destruct err as [er|]; [|discriminate]. injection He as <-.
    split; [apply wf_rarr; apply Herr; auto|reflexivity]. }
  { intros e He. destruct ext as [er|]; [|discriminate]. injection He as <-.
    split; [apply wf_rarr; apply Hext; auto|reflexivity]. }
  rewrite E. cbn [rarr shp] in *. f_equal. f_equal.
  - apply rarr_of; auto. intros j Hj. rewrite Nf by exact Hj. f_equal.
    destruct (b0_real (j mod 5)) as [Hb Hbpos]; [apply Nat.mod_upper_bound; lia|].
    unfold asinh_flux_entry. rewrite Hb. cbn [rarr dat]. rewrite nth_map_Fin by lia.
    cbn [cst Num_xr]. rewrite asinh_maggies1_real by auto.
    destruct ext as [e|]; cbn [option_map]; cbn [rarr dat].
    + rewrite nth_map_Fin by (rewrite (Hext e eq_refl); exact Hj). xcbn. rewrite lit_04. reflexivity.
    + xcbn. rewrite lit_04. reflexivity.
  - destruct err as [er|]; cbn [option_map] in Hiv; auto.
    destruct Hiv as (v & -> & Sv & Wv & Nv). f_equal. apply rarr_of; auto.
    intros j Hj. rewrite Nv by exact Hj. f_equal.
    destruct (b0_real (j mod 5)) as [Hb Hbpos]; [apply Nat.mod_upper_bound; lia|].
    rewrite Hb. cbn [rarr dat]. destruct (Herr er eq_refl) as [Hle Hnz].
    rewrite !nth_map_Fin by lia. cbn [cst Num_xr]. apply asinh_ivar1_real; auto.
    rewrite Forall_forall in Hnz. apply Hnz. apply nth_In. lia.
Qed.

(** * error_floor *)
Definition floored (fl m iv : R) : R :=
  if Rltb 0 iv then if Reqb m 0 then iv else if Rltb 0 fl
  then floored_ivar fl m iv else iv else iv.

Lemma floor_entry_real fl m iv :
  floor_entry (fun x => x) (Fin fl) (Fin m) (Fin iv) = Fin (floored fl m iv).
Proof.
  unfold floor_entry, floored, floored_ivar, ngtb. cbn [nltb Num_xr n0 xltb].
  unfold Rltb at 1 2. destruct (Rlt_dec 0 iv) as [Hi|Hi]; auto.
  cbn [nabs nsqrt nmul n1 ndiv nltb Num_xr xabs]. rewrite xsqrt_fin by lra. cbn [xmul].
  assert (Hs : 0 < sqrt iv) by (apply sqrt_lt_R0; auto).
  unfold Reqb at 1. destruct (Req_EM_T m 0) as [->|Hm].
  - rewrite Rabs_R0, Rmult_0_l. cbn [xdiv]. rewrite Reqb_true by reflexivity.
    unfold xsign_inf. rewrite Rltb_true by lra. reflexivity.
  - assert (Ha : 0 < Rabs m) by (apply Rabs_pos_lt; auto).
    rewrite xdiv_fin by nra. cbn [xltb].
    unfold nsq; cbn [nmul Num_xr xmul].
    assert (Hsq : sqrt iv * sqrt iv = iv) by (apply sqrt_sqrt; lra).
    assert (Hms : 0 < Rabs m * sqrt iv) by nra.
    destruct (Rlt_dec 0 fl) as [Hf|Hf].
    + rewrite (Rltb_true 0 fl) by auto.
      assert (Hmf : 0 < Rabs m * fl) by nra.
      assert (Hx : iv * (Rabs m * fl) ^ 2 = (fl * (Rabs m * sqrt iv)) * (fl * (Rabs m * sqrt iv)))
        by (rewrite <- Hsq at 1; ring).
      assert (Hxp : 0 < fl * (Rabs m * sqrt iv)) by nra.
      assert (Hmf2 : 0 < (Rabs m * fl) ^ 2) by nra.
      assert (Hiff : 1 / (Rabs m * sqrt iv) < fl <-> 1 / (Rabs m * fl) ^ 2 < iv).
      { replace (1 / (Rabs m * sqrt iv) < fl) with (1 / (Rabs m * sqrt iv) < fl * 1) by (f_equal; ring).
        split; intro H.
        - assert (H1 : 1 < fl * (Rabs m * sqrt iv)).
          { apply Rmult_lt_compat_r with (r := Rabs m * sqrt iv) in H; auto.
            replace (1 / (Rabs m * sqrt iv) * (Rabs m * sqrt iv)) with 1 in H by (field; split; lra). lra. }
          apply Rmult_lt_reg_r with ((Rabs m * fl) ^ 2); [auto|].
          replace (1 / (Rabs m * fl) ^ 2 * (Rabs m * fl) ^ 2) with 1 by (field; split; lra).
          rewrite Hx. nra.
        - apply Rmult_lt_compat_r with (r := (Rabs m * fl) ^ 2) in H; [|nra].
          replace (1 / (Rabs m * fl) ^ 2 * (Rabs m * fl) ^ 2) with 1 in H by (field; split; lra).
          rewrite Hx in H.
          apply Rmult_lt_reg_r with (Rabs m * sqrt iv); auto.
          replace (1 / (Rabs m * sqrt iv) * (Rabs m * sqrt iv)) with 1 by (field; split; lra).
          rewrite Rmult_1_r. destruct (Rlt_le_dec 1 (fl * (Rabs m * sqrt iv))); [auto|nra]. }
      unfold Rltb. destruct (Rlt_dec (1 / (Rabs m * sqrt iv)) fl) as [H|H].
      * rewrite xdiv_fin by nra. f_equal. rewrite Rmin_right; [f_equal; ring|].
        apply Hiff in H. lra.
      * f_equal. rewrite Rmin_left; auto. destruct (Rle_lt_dec iv (1 / (Rabs m * fl) ^ 2)); auto.
        apply Hiff in r. contradiction.
    + rewrite (Rltb_false 0 fl) by lra. rewrite Rltb_false; auto.
      apply Rle_trans with 0; [lra|]. apply Rlt_le, Rdiv_lt_0_compat; lra.
Qed.

Lemma error_floor_real s (fl m iv : list R) :
  s <> [] -> (length s <= 2)%nat -> length fl = lastd s -> length m = size s -> length iv = size s ->
  error_floor (fun x => x) (vec (map Fin fl)) (rarr s m) (rarr s iv) =
  Ok (rarr s (map (fun j => floored (nth (j mod lastd s) fl 0) (nth j m 0) (nth j iv 0)) (seq 0 (size s)))).
Proof.
  intros Hne Hd Hf Hm Hi.
  destruct (@error_floor_spec xr _ (fun x => x) (vec (map Fin fl)) (rarr s m) (rarr s iv))
    as (o & E & So & Wo & No); auto using wf_rarr, wf_vec.
  { unfold vec, rarr; cbn [shp]. rewrite map_length. congruence. }
  rewrite E. f_equal. apply rarr_of; auto. cbn [rarr shp] in *. intros j Hj. rewrite No by exact Hj. f_equal.
  unfold rarr, vec; cbn [dat]. destruct (col_size Hne Hj) as [Hq Hpos].
  rewrite !nth_map_Fin; try lia; [apply floor_entry_real|].
  rewrite Hf. apply Nat.mod_upper_bound. lia.
Qed.

(** * read_basel *)
Section Basel.
  Context {T : Type} {N : Num T} {W : Type}.
  Variables (pf : W -> res T) (pint : W -> res Z) (rf : T -> W) (ri : Z -> W) (dw : W).
  Hypothesis pf_rf : forall x, pf (rf x) = Ok x.
  Hypothesis pint_ri : forall z, pint (ri z) = Ok z.

  (** One model as it is laid out in the file: 6 words and the fluxes. *)
  Definition unit_words (u : basel_unit T) : list W :=
    [ri (b_modelno _ u); rf (b_teff _ u); rf (b_logg _ u); rf (b_mh _ u); rf (b_vturb _ u); rf (b_xh _ u)]
    ++ map rf (b_flux _ u).
  Definition file_words (wave : list T) (us : list (basel_unit T)) : list W :=
    map rf wave ++ concat (map unit_words us).

  Lemma mapM_pf l : mapM pf (map rf l) = Ok l.
  Proof. induction l as [|x l IH]; simpl; auto. rewrite pf_rf; simpl. rewrite IH. reflexivity. Qed.

  Lemma nth_skipn {A} (l : list A) n k d : nth (n + k) l d = nth k (skipn n l) d.
  Proof. revert l; induction n as [|n IH]; intros [|x l]; simpl; auto. destruct k; reflexivity. Qed.

  Lemma map_nth_seq {A} (l : list A) d : map (fun i => nth i l d) (seq 0 (length l)) = l.
  Proof.
    apply nth_error_ext; intro i. rewrite nth_error_map, nth_error_seq.
    destruct (Nat.ltb_spec i (length l)) as [Hi|Hi]; simpl.
    - symmetry. apply nth_error_nth'. auto.
    - symmetry. apply nth_error_None. auto.
  Qed.

  Lemma skipn_concat_const {A} m (ls : list (list A)) i r rest :
    (forall x, In x ls -> length x = m) -> nth_error ls i = Some r ->
    exists tail, skipn (i * m) (concat ls ++ rest) = r ++ tail.
  Proof.
    revert i; induction ls as [|x ls IH]; intros i Hl Hi; [destruct i; discriminate|].
    assert (Hx : length x = m) by (apply Hl; simpl; auto).
    destruct i; simpl in *.
    - injection Hi as <-. exists (concat ls ++ rest). rewrite app_assoc. reflexivity.
    - rewrite <- app_assoc. rewrite Nat.add_comm, skipn_app.
      rewrite (skipn_all2 x) by lia. replace (i * m + m - length x)%nat with (i * m)%nat by lia.
      simpl. apply IH; auto.
  Qed.

  Lemma read_basel_n_ok nwave wave us trail :
    length wave = nwave -> (forall u, In u us -> length (b_flux _ u) = nwave) ->
    (length trail < nwave + 6)%nat ->
    read_basel_n pf pint dw nwave (file_words wave us ++ trail) = Ok (wave, us).
  Proof.
    intros Hw Hu Ht. unfold read_basel_n.
    assert (Hul : forall x, In x (map unit_words us) -> length x = (nwave + 6)%nat).
    { intros x Hx. apply in_map_iff in Hx as (u & <- & Hu'). unfold unit_words.
      rewrite app_length, map_length, (Hu u Hu'). simpl. lia. }
    assert (Hlen : length (file_words wave us ++ trail) = (nwave + length us * (nwave + 6) + length trail)%nat).
    { unfold file_words. rewrite !app_length, map_length, Hw, (length_concat_const _ Hul), map_length. lia. }
    assert (Hfirst : firstn nwave (file_words wave us ++ trail) = map rf wave).
    { unfold file_words. rewrite <- app_assoc, firstn_app, map_length, Hw, Nat.sub_diag, firstn_O, app_nil_r.
      rewrite <- Hw, <- (map_length rf wave). apply firstn_all. }
    rewrite Hfirst, mapM_pf. cbn [bind]. rewrite Hlen.
    destruct (Nat.leb_spec nwave (nwave + length us * (nwave + 6) + length trail)); [|lia].
    replace ((nwave + length us * (nwave + 6) + length trail - nwave) / (nwave + 6))%nat with (length us).
    2:{ replace (nwave + length us * (nwave + 6) + length trail - nwave)%nat
          with (length trail + length us * (nwave + 6))%nat by lia.
        rewrite Nat.div_add by lia. rewrite Nat.div_small by lia. reflexivity. }
    destruct us as [|u0 us'] eqn:Eus; [reflexivity|]. rewrite <- Eus in *.
    rewrite (mapM_all_ok _ (fun i => nth i us u0)).
    - cbn [bind]. rewrite map_nth_seq. reflexivity.
    - intros i Hi. apply in_seq in Hi. cbv zeta.
      assert (Hn : nth_error (map unit_words us) i = Some (unit_words (nth i us u0))).
      { rewrite nth_error_map, (nth_error_nth' us u0) by lia. reflexivity. }
      destruct (skipn_concat_const (nwave + 6)%nat (map unit_words us) i _ trail Hul Hn) as [tl Htl].
      assert (Hsk : skipn (nwave + i * (nwave + 6)) (file_words wave us ++ trail) = unit_words (nth i us u0) ++ tl).
      { unfold file_words. rewrite <- app_assoc, skipn_app, map_length, Hw.
        rewrite skipn_all2 by (rewrite map_length; lia).
        replace (nwave + i * (nwave + 6) - nwave)%nat with (i * (nwave + 6))%nat by lia. exact Htl. }
      assert (Hnth : forall k, nth (nwave + i * (nwave + 6) + k) (file_words wave us ++ trail) dw =
                               nth k (unit_words (nth i us u0) ++ tl) dw)
        by (intro k; rewrite nth_skipn, Hsk; reflexivity).
      pose proof (Hnth 0%nat) as Hnth0. rewrite Nat.add_0_r in Hnth0.
      rewrite !Hnth, Hnth0.
      assert (Hsk6 : skipn (nwave + i * (nwave + 6) + 6) (file_words wave us ++ trail) =
                     map rf (b_flux _ (nth i us u0)) ++ tl).
      { transitivity (skipn 6 (skipn (nwave + i * (nwave + 6)) (file_words wave us ++ trail))).
        - apply nth_error_ext; intro k. rewrite !nth_error_skipn. f_equal. lia.
        - rewrite Hsk. reflexivity. }
      rewrite Hsk6. unfold unit_words. cbn [app nth].
      rewrite pint_ri, !pf_rf. cbn [bind]. 
      assert (Hfl : length (b_flux _ (nth i us u0)) = nwave) by (apply Hu, nth_In; lia).
      rewrite firstn_app, map_length, Hfl, Nat.sub_diag, firstn_O, app_nil_r.
      rewrite <- Hfl at 1. rewrite <- (map_length rf (b_flux _ _)), firstn_all, mapM_pf. cbn [bind].
      destruct (nth i us u0); reflexivity.
  Qed.

  Lemma read_basel_n_short nwave ws : (length ws < nwave)%nat ->
    forall r, read_basel_n pf pint dw nwave ws <> Ok r.
  Proof.
    intros H r. unfold read_basel_n. destruct (mapM _ _); cbn [bind]; [|discriminate].
    destruct (Nat.leb_spec nwave (length ws)); [lia|discriminate].
  Qed.
End Basel.
