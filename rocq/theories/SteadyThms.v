(** C92: errors of the redshift. *)
From Coq Require Import String List Arith Lia Bool ZArith QArith Qreals Reals Lra Sorting.Sorted.
From Flocq Require Import Core.
From Verif Require Import Base BaseLemmas Num Interp InterpReal Spec Fitter FitSpec FitterProofs FitterMC FitReal FitTable FitEx
  FitRealEx FitterThms FitRealThms Kcorrect KSpec KTable KEx KcorrectProofs KcorrectThms AbsmagProofs RoundSpec RoundProofs SteadySpec.
Import ListNotations.
Local Open Scope R_scope.
(* STATEMENTS *)
From Verif Require Import RoundThms SteadyProofs.

Lemma std_exact : std_model 0 Num_R /\ std_log 0 Num_R.
Proof.
  assert (R0 : forall x, rel 0 x x) by (intro; unfold rel; rewrite Rminus_diag_eq, Rabs_R0 by auto; lra).
  split; constructor; intros; rcbn; auto; try apply R0.
  - lra.
  - unfold Q2R. cbn. lra.
Qed.
Lemma growth_0 k : growth 0 k = 0.
Proof. unfold growth. rewrite Rminus_0_r, Rinv_1, pow1. lra. Qed.
Lemma rounding_R : rounding Num_R.
Proof. split; auto. Qed.
Lemma recon_value (F : fitter R) (A : atab R) nb nt z c bs : f_nsed F = nt -> tab_ok A nb nt -> length c = nt ->
  in_range (a_x A) ((1 + z) * (1 + bs) - 1) ->
  reconstruct_ F (Some A) (Some (scal z)) (Some (vec c)) bs = Ok (vec (map (fun x => x / (1 + bs)) (mulmv (chunks nb nt (arow A ((1 + z) * (1 + bs) - 1))) c))).
Proof.
  intros Hn Ht Hc Hr. rewrite (reconstruct_scal F z c bs Hn Ht Hc). rcbn.
  assert (E : shifted bs z = (1 + z) * (1 + bs) - 1) by (unfold shifted; rcbn; ring). rewrite E.
  apply out_of_range in Hr. rewrite Hr, map_id, recon1_shift, E.
  unfold vec. do 2 f_equal. rewrite map_length. unfold mulmv. rewrite map_length, length_chunks. auto.
Qed.
Lemma log10_ln x : log10 x = ln x / ln 10.
Proof. reflexivity. Qed.

(** C92.  If between neighbouring grid redshifts every entry of the design matrix changes by at most a fraction [L] per unit redshift,
    the fluxes at two redshifts differ by at most that, too. *)
Lemma L_C92_reconstruct : forall (F : fitter R) A nb nt L z1 z2 c bs,
  ready F A nb nt -> grid_ok (a_x A) -> 0 <= L -> steady L A nb nt -> length c = nt -> nonneg c -> 0 < fold_right Rplus 0 c -> -1 < bs ->
  in_range (a_x A) ((1 + z1) * (1 + bs) - 1) -> in_range (a_x A) ((1 + z2) * (1 + bs) - 1) ->
  exists p1 p2, reconstruct F (Some (scal z1)) (Some (vec c)) bs = Ok (vec p1) /\ reconstruct F (Some (scal z2)) (Some (vec c)) bs = Ok (vec p2) /\
    length p1 = nb /\ length p2 = nb /\
    forall b, (b < nb)%nat -> 0 < nth b p1 0 /\ 0 < nth b p2 0 /\
      Rabs (ln (nth b p1 0 / nth b p2 0)) <= L * (1 + bs) * Rabs (z1 - z2).
Proof.
  intros F A nb nt L z1 z2 c bs (HA & Hb & Hn & Ht) Hg HL Hs Lc Hc Hp Hbs I1 I2.
  do 2 eexists. unfold reconstruct. rewrite HA. split; [apply (recon_value F A nb nt); auto|]. split; [apply (recon_value F A nb nt); auto|].
  rewrite !map_length. unfold mulmv at 1 2. rewrite !map_length, !length_chunks. split; auto. split; auto.
  intros b Hb'. destruct (steady_flux L A nb nt c _ _ b Ht Hg HL Hs Lc Hc Hp I1 I2 Hb') as (P1 & P2 & B).
  assert (E : forall t, nth b (map (fun x => x / (1 + bs)) (mulmv (chunks nb nt (arow A t)) c)) 0 = nth b (mulmv (chunks nb nt (arow A t)) c) 0 / (1 + bs)).
  { intro t. rewrite (nth_indep _ 0 (0 / (1 + bs))) by (rewrite map_length; unfold mulmv; rewrite map_length, length_chunks; auto).
    apply (map_nth (fun x => x / (1 + bs))). }
  rewrite !E. split; [apply Rdiv_lt_0_compat; lra|]. split; [apply Rdiv_lt_0_compat; lra|].
  match goal with |- Rabs (ln (?a / ?k / (?b / ?k))) <= _ => replace (a / k / (b / k)) with (a / b) by (field; lra) end.
  eapply Rle_trans; [exact B|]. replace ((1 + z1) * (1 + bs) - 1 - ((1 + z2) * (1 + bs) - 1)) with ((1 + bs) * (z1 - z2)) by ring.
  rewrite Rabs_mult, (Rabs_right (1 + bs)) by lra. lra.
Qed.
Lemma E_C92_reconstruct : ready r_fitter r_tab 2 1 /\ grid_ok (a_x r_tab) /\ steady 2 r_tab 2 1 /\ nonneg [2] /\ 0 < fold_right Rplus 0 [2] /\
  in_range (a_x r_tab) ((1 + 1 / 5) * (1 + 1 / 10) - 1) /\ in_range (a_x r_tab) ((1 + 1 / 4) * (1 + 1 / 10) - 1).
Proof.
  split; [apply r_kready|]. split; [exact r_grid|]. split; [|split; [repeat constructor; lra|]; split; [cbn; lra|]; unfold in_range; cbn; lra].
  intros k i Hk Hi y y'. cbn in Hk. assert (k = 0)%nat by lia. subst k.
  destruct i as [|[|i]]; [| |cbn in Hi; lia]; unfold y, y'; cbn; (split; [lra|]; split; [lra|]); rewrite Rmin_left by lra; rewrite Rabs_right by lra; lra.
Qed.

Lemma kcorrect_values (K : kcor R) A Ao nb no nt z c bs : kready K A Ao nb no nt -> length c = nt ->
  0 < fold_right Rplus 0 c -> -1 < bs -> in_range (a_x A) z -> in_range (a_x Ao) bs ->
  exists v, kcorrect K (Some (scal z)) (Some (vec c)) bs = Ok (vec v) /\ length v = no /\
    forall j, (j < no)%nat -> (in_band K j < nb)%nat /\
      nth j v 0 = - (5 / 2) * log10 (nth (in_band K j) (mulmv (chunks nb nt (arow A z)) c) 0 / (nth j (mulmv (chunks no nt (arow Ao bs)) c) 0 / (1 + bs))).
Proof.
  intros HK Lc Hp Hbs I1 I2. pose proof HK as ((HA & Hb & Hn & Ht) & HAo & Hto & Lo & Li & Hi).
  destruct (L_C41_definition R Num_R K A Ao nb no nt z c bs rounding_R HK Lc) as (_ & _ & H); [rcbn; unfold Q2R; cbn; lra|].
  destruct (H (vec (mulmv (chunks nb nt (arow A z)) c)) (vec (map (fun x => x / (1 + bs)) (mulmv (chunks no nt (arow Ao bs)) c)))) as (v & Ev & Lv & Hv).
  { apply (model_eq (k_fit K) A nb nt); auto. split; auto. }
  { unfold reconstruct_out. rewrite HAo. assert (E : bs = (1 + 0) * (1 + bs) - 1) by ring. rcbn.
    rewrite (recon_value (k_fit K) Ao no nt 0 c bs) by (auto; rewrite <- E; auto). rewrite <- E. reflexivity. }
  exists v. split; auto. split; auto. intros j Hj. destruct (Hv j Hj) as (xj & yj & X & Y & V). cbn [dat vec] in X, Y.
  split. { unfold in_band. rewrite Forall_forall in Hi. apply Hi, nth_In. lia. }
  apply nth_error_nth with (d := 0) in X, V. rewrite X, V. rcbn.
  replace (Rltb 0 (nsum (map (fun x => x) c))) with true.
  2:{ symmetry. apply Rltb_iff. rewrite map_id, nsum_R. exact Hp. }
  replace (Q2R (-(5) # 2)) with (- (5 / 2)) by (unfold Q2R; cbn; lra). do 3 f_equal.
  rewrite nth_error_map in Y. destruct (nth_error (mulmv _ c) j) as [q|] eqn:Q; [|discriminate]. injection Y as <-.
  apply nth_error_nth with (d := 0) in Q. rewrite Q. reflexivity.
Qed.
Lemma ln_quot a b : 0 < a -> 0 < b -> ln (a / b) = ln a - ln b.
Proof. intros. unfold Rdiv. rewrite ln_mult, ln_Rinv by (auto; apply Rinv_0_lt_compat; auto). ring. Qed.
Lemma log_ratio a b a' b' k k' : 0 < a -> 0 < b -> 0 < a' -> 0 < b' -> 0 < k -> 0 < k' ->
  - (5 / 2) * log10 (a / (b / k)) - - (5 / 2) * log10 (a' / (b' / k')) = - (5 / 2) / ln 10 * (ln (a / a') - ln (b / b') + ln (k / k')).
Proof.
  intros. pose proof ln10_pos. unfold log10. rewrite !(ln_quot _ (_ / _)) by (auto; apply Rdiv_lt_0_compat; auto). rewrite !ln_quot by auto. field. lra.
Qed.
Lemma log_bound a b a' b' k k' p q : 0 < a -> 0 < b -> 0 < a' -> 0 < b' -> 0 < k -> 0 < k' ->
  Rabs (ln (a / a')) <= p -> Rabs (ln (b / b')) <= q ->
  Rabs (- (5 / 2) * log10 (a / (b / k)) - - (5 / 2) * log10 (a' / (b' / k'))) <= 5 / 2 / ln 10 * (p + q + Rabs (ln (k / k'))).
Proof.
  intros. rewrite log_ratio by auto. pose proof ln10_pos. rewrite Rabs_mult. replace (Rabs (- (5 / 2) / ln 10)) with (5 / 2 / ln 10).
  2:{ replace (- (5 / 2) / ln 10) with (- (5 / 2 / ln 10)) by (field; lra). rewrite Rabs_Ropp, Rabs_right; auto. apply Rle_ge, Rlt_le, Rdiv_lt_0_compat; lra. }
  apply Rmult_le_compat_l; [apply Rlt_le, Rdiv_lt_0_compat; lra|].
  eapply Rle_trans; [apply Rabs_triang|]. apply Rplus_le_compat_r. eapply Rle_trans; [apply Rabs_triang|]. rewrite Rabs_Ropp. lra.
Qed.

(** K-corrections at two redshifts and band shifts. *)
Lemma L_C92_kcorrect : forall (K : kcor R) A Ao nb no nt L Lo z1 z2 c bs1 bs2,
  kready K A Ao nb no nt -> grid_ok (a_x A) -> grid_ok (a_x Ao) -> 0 <= L -> 0 <= Lo -> steady L A nb nt -> steady Lo Ao no nt ->
  length c = nt -> nonneg c -> 0 < fold_right Rplus 0 c ->
  -1 < bs1 -> -1 < bs2 -> in_range (a_x A) z1 -> in_range (a_x A) z2 -> in_range (a_x Ao) bs1 -> in_range (a_x Ao) bs2 ->
  exists v1 v2, kcorrect K (Some (scal z1)) (Some (vec c)) bs1 = Ok (vec v1) /\ kcorrect K (Some (scal z2)) (Some (vec c)) bs2 = Ok (vec v2) /\
    length v1 = no /\ length v2 = no /\
    forall j, (j < no)%nat ->
      Rabs (nth j v1 0 - nth j v2 0) <= 5 / 2 / ln 10 * (L * Rabs (z1 - z2) + Lo * Rabs (bs1 - bs2) + Rabs (ln ((1 + bs1) / (1 + bs2)))).
Proof.
  intros K A Ao nb no nt L Lo z1 z2 c bs1 bs2 HK Hg Hgo HL HLo Hs Hso Lc Hc Hp B1 B2 I1 I2 J1 J2.
  destruct (kcorrect_values K A Ao nb no nt z1 c bs1 HK Lc Hp B1 I1 J1) as (v1 & E1 & L1 & V1).
  destruct (kcorrect_values K A Ao nb no nt z2 c bs2 HK Lc Hp B2 I2 J2) as (v2 & E2 & L2 & V2).
  exists v1, v2. split; auto. split; auto. split; auto. split; auto. intros j Hj. destruct (V1 j Hj) as [Hb ->]. destruct (V2 j Hj) as [_ ->].
  pose proof HK as ((HA & Hnb & Hn & Ht) & HAo & Hto & _).
  destruct (steady_flux L A nb nt c z1 z2 _ Ht Hg HL Hs Lc Hc Hp I1 I2 Hb) as (P1 & P2 & Q).
  destruct (steady_flux Lo Ao no nt c bs1 bs2 j Hto Hgo HLo Hso Lc Hc Hp J1 J2 Hj) as (P1' & P2' & Q').
  apply log_bound; auto; lra.
Qed.

Lemma E_C92_kcorrect : kready r_kcor r_tab r_tab 2 2 1 /\ steady 2 r_tab 2 1 /\ in_range (a_x r_tab) (1 / 5) /\ in_range (a_x r_tab) (1 / 4) /\
  in_range (a_x r_tab) (1 / 10).
Proof. split; [exact r_kready|]. split; [apply E_C92_reconstruct|]. unfold in_range; cbn; lra. Qed.

(** Absolute magnitudes from the same photometry and coefficients at two redshifts: besides the difference of the distance moduli. *)
Lemma L_C92_absmag : forall distmod (K : kcor R) A Ao nb no nt L Lo z1 z2 m iv c dist bs lim kc,
  kready K A Ao nb no nt -> no_ab (k_fit K) -> grid_ok (a_x A) -> grid_ok (a_x Ao) -> 0 <= L -> 0 <= Lo -> steady L A nb nt -> steady Lo Ao no nt ->
  length m = nb -> length iv = nb -> length c = nt -> nonneg c -> 0 < fold_right Rplus 0 c ->
  -1 < bs -> in_range (a_x A) z1 -> in_range (a_x A) z2 -> in_range (a_x Ao) bs ->
  let o z := {| ko_z := z; ko_m := m; ko_iv := iv; ko_c := c; ko_d := dist |} in
  exists v1 v2 a1 a2, absmag_object distmod K bs false false lim kc (o z1) = Ok a1 /\ absmag_object distmod K bs false false lim kc (o z2) = Ok a2 /\
    nth_error (parts a1) 0 = Some (vec v1) /\ nth_error (parts a2) 0 = Some (vec v2) /\ length v1 = no /\ length v2 = no /\
    forall j, (j < no)%nat -> 0 < nth (in_band K j) m 0 -> 0 < nth (in_band K j) iv 0 ->
      Rabs ((nth j v1 0 + distmod z1) - (nth j v2 0 + distmod z2)) <= 5 / 2 / ln 10 * (L * Rabs (z1 - z2)).
Proof.
  intros distmod K A Ao nb no nt L Lo z1 z2 m iv c dist bs lim kc HK Hab Hg Hgo HL HLo Hs Hso Lm Li Lc Hc Hp B I1 I2 J o.
  destruct (L_C92_kcorrect K A Ao nb no nt L Lo z1 z2 c bs bs HK Hg Hgo HL HLo Hs Hso Lc Hc Hp B B I1 I2 J J) as (k1 & k2 & E1 & E2 & L1 & L2 & Hk).
  destruct std_exact as [S1 S2]. assert (U : 0 <= 0 < 1) by lra.
  destruct (L_C83_absmag 0 Num_R distmod K A Ao nb no nt bs lim kc (o z1) k1 U S1 S2 rounding_R HK Hab (conj Lm (conj Li Lc)) E1) as (v1 & a1 & X1 & N1 & V1 & H1).
  destruct (L_C83_absmag 0 Num_R distmod K A Ao nb no nt bs lim kc (o z2) k2 U S1 S2 rounding_R HK Hab (conj Lm (conj Li Lc)) E2) as (v2 & a2 & X2 & N2 & V2 & H2).
  exists v1, v2, a1, a2. do 6 (split; [assumption|]). intros j Hj Pm Pi. specialize (H1 j Hj Pm Pi). specialize (H2 j Hj Pm Pi). specialize (Hk j Hj).
  rewrite growth_0 in H1, H2. assert (E0 : log10 (/ (1 - 0)) = 0) by (rewrite Rminus_0_r, Rinv_1; unfold log10; rewrite ln_1; unfold Rdiv; ring).
  rewrite E0 in H1, H2. cbn [ko_z ko_m o] in H1, H2.
  change (@cst R Num_R z1) with z1 in H1. change (@cst R Num_R z2) with z2 in H2.
  replace (Rabs (ln ((1 + bs) / (1 + bs)))) with 0 in Hk by (replace ((1 + bs) / (1 + bs)) with 1 by (field; lra); rewrite ln_1, Rabs_R0; auto).
  replace (Rabs (bs - bs)) with 0 in Hk by (rewrite Rminus_diag_eq, Rabs_R0; auto).
  set (q := - (5 / 2) * log10 (nth (in_band K j) m 0)) in *.
  match goal with |- Rabs ?x <= _ => assert (T : x = - (nth j k1 0 - nth j k2 0)) end.
  { apply Rabs_le_inv in H1, H2. lra. }
  rewrite T, Rabs_Ropp. eapply Rle_trans; [exact Hk|]. apply Req_le. ring.
Qed.
Lemma E_C92_absmag : kready r_kcor r_tab r_tab 2 2 1 /\ no_ab (k_fit r_kcor) /\ steady 2 r_tab 2 1 /\ in_range (a_x r_tab) (1 / 5) /\
  in_range (a_x r_tab) (1 / 4) /\ in_range (a_x r_tab) (1 / 10) /\ nonneg [2] /\ 0 < fold_right Rplus 0 [2].
Proof. split; [exact r_kready|]. split; [apply E_C83_absmag|]. split; [apply E_C92_reconstruct|]. unfold in_range; cbn; repeat split; try lra. constructor; [lra|constructor]. Qed.

(** In any arithmetic with relative errors of [u], kcorrect is within the bound of C83 plus the effect of rounding the redshift and
    the band shift of what it is in exact arithmetic {e at the same redshift and band shift}. *)
Lemma L_C92_rounded : forall u (N : Num R) (K : kcor R) A Ao nb no nt z c bs kappa L Lo,
  0 <= u < 1 -> std_model u N -> std_log u N -> rounding N -> @kready R N K A Ao nb no nt -> length c = nt ->
  grid_ok (a_x A) -> grid_ok (a_x Ao) -> gentle kappa A nb nt -> gentle kappa Ao no nt ->
  0 <= L -> 0 <= Lo -> steady L A nb nt -> steady Lo Ao no nt ->
  nonneg c -> 0 < fold_right Rplus 0 c -> 0 <= z -> -1 < bs ->
  in_range (a_x A) z -> in_range (a_x Ao) bs ->
  (forall z', Rabs (z' - z) <= growth u 5 * (2 + z) -> in_range (a_x A) z') ->
  (forall z', Rabs (z' - bs) <= growth u 5 * (2 + bs) -> in_range (a_x Ao) z') ->
  let eta := 2 * kappa * growth u (nt + 10) in 0 <= eta < 1 ->
  exists v w, @kcorrect R N K (Some (scal z)) (Some (vec c)) bs = Ok (vec v) /\
    @kcorrect R Num_R K (Some (scal z)) (Some (vec c)) bs = Ok (vec w) /\ length v = no /\ length w = no /\
    forall j, (j < no)%nat ->
      let d := 5 / 2 / ln 10 * (L * (growth u 5 * (2 + z)) + Lo * (growth u 5 * (2 + bs))) in
      Rabs (nth j v 0 - nth j w 0) <=
        d + 5 / 2 * log10 ((1 + eta) / (1 - eta) / (1 - u)) * (1 + growth u 2) + growth u 2 * (Rabs (nth j w 0) + d).
Proof.
  intros u N K A Ao nb no nt z c bs kappa L Lo Hu HN HL HR HK Lc Hg Hgo Hk Hko PL PLo Hs Hso Hc Hp Hz Hbs I J I' J' eta He.
  destruct (L_C83_kcorrect_tables u N K A Ao nb no nt z c bs kappa Hu HN HL HR HK Lc Hg Hgo Hk Hko Hc Hp Hz Hbs He) as (z1 & z2 & Z1 & Z2 & T).
  destruct (T (I' _ Z1) (J' _ Z2)) as (v & e1 & e2 & Ev & R1 & R2 & Lv & L1 & L2 & B).
  destruct (kcorrect_values K A Ao nb no nt z c bs HK Lc Hp Hbs I J) as (w & Ew & Lw & W).
  exists v, w. do 4 (split; [assumption|]). intros j Hj d. destruct (W j Hj) as [Hb Wj].
  destruct (B j Hj) as (F1 & F2 & Bj). clear B T.
  pose proof HK as ((HA & Hnb & Hn & Ht) & HAo & Hto & Lo' & _).
  unfold reconstruct in R1. rewrite HA in R1. rewrite (recon_value (k_fit K) A nb nt z1 c 0 Hn Ht Lc) in R1 by (replace ((1 + z1) * (1 + 0) - 1) with z1 by ring; apply I'; auto).
  unfold reconstruct_out in R2. rewrite HAo in R2. rewrite (recon_value (k_fit K) Ao no nt z2 c 0 Hn Hto Lc) in R2 by (replace ((1 + z2) * (1 + 0) - 1) with z2 by ring; apply J'; auto).
  injection R1 as _ R1. injection R2 as _ R2. 
  replace ((1 + z1) * (1 + 0) - 1) with z1 in R1 by ring. replace ((1 + z2) * (1 + 0) - 1) with z2 in R2 by ring.
  assert (ID : forall l : list R, map (fun x => x / (1 + 0)) l = l) by (intro l; rewrite <- (map_id l) at 2; apply map_ext; intro; field).
  rewrite ID in R1, R2. subst e1 e2.
  destruct (steady_flux L A nb nt c z1 z _ Ht Hg PL Hs Lc Hc Hp (I' _ Z1) I Hb) as (P1 & P2 & Q).
  destruct (steady_flux Lo Ao no nt c z2 bs j Hto Hgo PLo Hso Lc Hc Hp (J' _ Z2) J Hj) as (P1' & P2' & Q').
  assert (D : Rabs (- (5 / 2) * log10 (nth (in_band K j) (mulmv (chunks nb nt (@arow R Num_R A z1)) c) 0 / (nth j (mulmv (chunks no nt (@arow R Num_R Ao z2)) c) 0 / (1 + bs))) - nth j w 0) <= d).
  { rewrite Wj. eapply Rle_trans; [apply log_bound; [| | | | | |exact Q|exact Q']; auto; lra|].
    replace ((1 + bs) / (1 + bs)) with 1 by (field; lra). rewrite ln_1, Rabs_R0, Rplus_0_r. unfold d. pose proof ln10_pos.
    apply Rmult_le_compat_l; [apply Rlt_le, Rdiv_lt_0_compat; lra|]. apply Rplus_le_compat; apply Rmult_le_compat_l; auto. }
  clear Wj. set (lg := log10 (nth (in_band K j) _ 0 / _)) in *.
  pose proof (growth_pos u Hu 2) as G.
  assert (Dm : 5 / 2 * Rabs lg <= Rabs (nth j w 0) + d).
  { replace (5 / 2 * Rabs lg) with (Rabs (- (5 / 2) * lg)) by (rewrite Rabs_mult, Rabs_Ropp, (Rabs_right (5 / 2)) by lra; ring).
    replace (- (5 / 2) * lg) with ((- (5 / 2) * lg - nth j w 0) + nth j w 0) by ring. eapply Rle_trans; [apply Rabs_triang|]. lra. }
  replace (nth j v 0 - nth j w 0) with ((nth j v 0 - - (5 / 2) * lg) + (- (5 / 2) * lg - nth j w 0)) by ring.
  eapply Rle_trans; [apply Rabs_triang|].
  assert (Dg : growth u 2 * (5 / 2 * Rabs lg) <= growth u 2 * (Rabs (nth j w 0) + d)) by (apply Rmult_le_compat_l; auto).
  fold eta in Bj. cbv zeta in Bj. lra.
Qed.
Lemma E_C92_rounded : 0 <= bpow radix2 (-24) < 1 /\ std_model (bpow radix2 (-24)) Num_24 /\ std_log (bpow radix2 (-24)) Num_24 /\
  kready r_kcor r_tab r_tab 2 2 1 /\ gentle 3 r_tab 2 1 /\ steady 2 r_tab 2 1 /\
  (forall z', Rabs (z' - / 2) <= growth (bpow radix2 (-24)) 5 * (2 + / 2) -> in_range (a_x r_tab) z') /\
  (forall z', Rabs (z' - / 10) <= growth (bpow radix2 (-24)) 5 * (2 + / 10) -> in_range (a_x r_tab) z').
Proof.
  destruct L_C83_model as (HN & HL & HR). split; [apply E_C83_model|]. split; [exact HN|]. split; [exact HL|]. split; [exact r_kready|]. split; [exact r_gentle|].
  split; [apply E_C92_reconstruct|]. pose proof (growth24 5 ltac:(lia)) as G.
  split; intros z' H; apply Rabs_le_inv in H; unfold in_range; cbn; lra.
Qed.
