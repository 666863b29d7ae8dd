(** C93: masses, luminosities and absolute magnitudes. *)
From Coq Require Import String List Arith Lia Bool ZArith QArith Qreals Reals Lra.
From Verif Require Import Base BaseLemmas Num Interp InterpReal Spec Fitter FitSpec FitterProofs FitterMC FitReal FitTable FitEx
  FitRealEx Kcorrect KSpec KEx KcorrectProofs.
Import ListNotations.
Local Open Scope R_scope.
(* STATEMENTS *)
From Verif Require Import KcorrectThms AbsmagProofs AbsmagThms DerivedProofs DerivedThms RoundSpec RoundProofs RoundThms SteadyThms.

Lemma lit25 : Q2R (2 # 5) = 2 / 5.
Proof. unfold Q2R; cbn; lra. Qed.
Lemma litm25 : Q2R (-(2) # 5) = - (2 / 5).
Proof. unfold Q2R; cbn; lra. Qed.
Lemma cancel a b p : p <> 0 -> a * p / (b * p) = a / b.
Proof.
  intro Hp. destruct (Req_dec b 0) as [->|Hb]; [|field; auto].
  rewrite Rmult_0_l. unfold Rdiv. rewrite Rinv_0. ring.
Qed.
Lemma pos_scale a p : 0 < p -> Rltb 0 (a * p) = Rltb 0 a.
Proof.
  intro Hp. destruct (Rltb 0 a) eqn:E; [apply Rltb_iff in E; apply Rltb_true; nra|apply Rltb_niff in E; apply Rltb_false; nra].
Qed.

(** C93.  Only the masses depend on the distance: for two redshifts and two cosmologies, derived raises the same exception or the
    masses have the ratio 10^(0.4 (DM1 - DM2)) and the mass-to-light ratios, the star-formation ratios and the metallicity are the same. *)
Lemma L_C93_distance : forall distmod1 distmod2 dict (K : kcor R) A Ao nb no nt bs sols z1 z2 c,
  kready K A Ao nb no nt -> tmpl_shape K nt -> solars dict K sols -> length c = nt ->
  match derived_object distmod1 dict K bs (z1, c), derived_object distmod2 dict K bs (z2, c) with
  | Ok o1, Ok o2 =>
      o1 = map (fun kv => if in_dec string_dec (fst kv) ["mremain"; "intsfh"]%string
                          then (fst kv, map1 (fun x => x * pow10 (2 / 5 * (distmod1 z1 - distmod2 z2))) (snd kv)) else kv) o2
  | Raise e1, Raise e2 => e1 = e2
  | _, _ => False
  end.
Proof.
  intros dm1 dm2 dict K A Ao nb no nt bs sols z1 z2 c HK Ht Hs Hc.
  pose proof (L_C50_law R Num_R dm1 dict K A Ao nb no nt bs sols z1 c rounding_R HK Ht Hs Hc) as H1.
  pose proof (L_C50_law R Num_R dm2 dict K A Ao nb no nt bs sols z2 c rounding_R HK Ht Hs Hc) as H2.
  cbv zeta in H1, H2. change (@n0 R Num_R) with 0 in *.
  destruct (reconstruct_out K (Some (scal 0)) (Some (vec c)) bs) as [fl|e]; rewrite H1, H2; auto.
  change (@cst R Num_R z1) with z1. change (@cst R Num_R z2) with z2. change (@nlit R Num_R) with Q2R. change (@npow10 R Num_R) with pow10.
  change (@nmul R Num_R) with Rmult. change (@ndiv R Num_R) with Rdiv. change (@nadd R Num_R) with Rplus. change (@nltb R Num_R) with Rltb.
  rewrite lit25, litm25. set (t := k_tmpl K).
  set (p1 := pow10 (2 / 5 * dm1 z1)). set (p2 := pow10 (2 / 5 * dm2 z2)).
  assert (P1 : 0 < p1) by apply pow10_pos. assert (P2 : 0 < p2) by apply pow10_pos.
  assert (EQ : pow10 (2 / 5 * (dm1 z1 - dm2 z2)) = p1 / p2).
  { replace (2 / 5 * (dm1 z1 - dm2 z2)) with (2 / 5 * dm1 z1 + - (2 / 5 * dm2 z2)) by ring. rewrite pow10_plus, pow10_opp. reflexivity. }
  assert (RT : forall a b m, (if Rltb 0 (m * p1) then a * p1 / (b * p1) else 0) = (if Rltb 0 (m * p2) then a * p2 / (b * p2) else 0)).
  { intros. rewrite !pos_scale, !cancel by (auto; lra). reflexivity. }
  cbn [map fst snd].
  repeat match goal with |- context [in_dec string_dec ?k ?l] => destruct (in_dec string_dec k l) as [I|I];
    [try (exfalso; cbn in I; intuition discriminate)|try (exfalso; apply I; cbn; tauto)]; clear I end.
  rewrite EQ. unfold map1, scal; cbn [shp dat map].
  assert (ML : forall a b : R, a * p1 = a * p2 * (p1 / p2)) by (intros; field; lra).
  rewrite !(RT _ _ _).
  do 2 (apply (f_equal2 (@cons _)); [rewrite (ML _ 0); reflexivity|]). apply (f_equal2 (@cons _)); [|reflexivity].
  apply (f_equal (fun l => ("mtol"%string, vec l))).
  generalize (dat fl) as l. generalize sols as ss.
  induction ss as [|s ss IH]; intros [|f l]; cbn [zip]; auto. apply (f_equal2 (@cons R)); [|apply IH].
  change (@cst R Num_R) with (fun x : R => x). cbv beta.
  assert (Q : forall dm, pow10 (- (2 / 5) * (s + dm)) = pow10 (- (2 / 5) * s) / pow10 (2 / 5 * dm)).
  { intro dm. replace (- (2 / 5) * (s + dm)) with (- (2 / 5) * s + - (2 / 5 * dm)) by ring. rewrite pow10_plus, pow10_opp. reflexivity. }
  rewrite !Q. fold p1 p2. pose proof (pow10_pos (- (2 / 5) * s)) as S. set (q := pow10 (- (2 / 5) * s)) in *.
  replace (f / (q / p1)) with (f / q * p1) by (field; lra). replace (f / (q / p2)) with (f / q * p2) by (field; lra).
  rewrite !pos_scale, !cancel by (auto; lra). reflexivity.
Qed.
Lemma E_C93_distance : kready r_kcor r_tab r_tab 2 2 1 /\ tmpl_shape r_kcor 1 /\ solars r_solar r_kcor [5; 4] /\
  exists o M, derived_object (fun z => z) r_solar r_kcor 0 (1, [3]) = Ok o /\ In ("mremain"%string, scal M) o /\ 0 < M.
Proof. destruct E_C50_metallicity as (H1 & H2 & H3 & _ & _ & _ & o & M & Z & H). repeat (split; [assumption|]). exists o, M. tauto. Qed.

(** The luminosity that the mass-to-light ratio refers to is that of the absolute magnitude: if the measured flux in the band that
    responses_map assigns to output band j is the reconstructed one, then mremain / mtol is 10^(-0.4 (M - Msun)), M the absolute
    magnitude from absmag and Msun the solar magnitude of the band. *)
Lemma L_C93_luminosity : forall distmod dict (K : kcor R) A Ao nb no nt bs sols z m iv c dist lim kc mi mo a v o ml M j,
  kready K A Ao nb no nt -> no_ab (k_fit K) -> tmpl_shape K nt -> solars dict K sols ->
  length m = nb -> length iv = nb -> length c = nt -> 0 < fold_right Rplus 0 c ->
  reconstruct (k_fit K) (Some (scal z)) (Some (vec c)) 0 = Ok (vec mi) ->
  reconstruct_out K (Some (scal 0)) (Some (vec c)) bs = Ok (vec mo) ->
  absmag_object distmod K bs false false lim kc {| ko_z := z; ko_m := m; ko_iv := iv; ko_c := c; ko_d := dist |} = Ok a ->
  nth_error (parts a) 0 = Some (vec v) ->
  derived_object distmod dict K bs (z, c) = Ok o -> In ("mremain"%string, scal M) o -> In ("mtol"%string, vec ml) o ->
  (j < no)%nat -> 0 < nth (in_band K j) m 0 -> nth (in_band K j) mi 0 = nth (in_band K j) m 0 -> 0 < nth (in_band K j) iv 0 -> 0 < nth j mo 0 ->
  nth j ml 0 = M / pow10 (- (2 / 5) * (nth j v 0 - nth j sols 0)).
Proof.
  intros distmod dict K A Ao nb no nt bs sols z m iv c dist lim kc mi mo a v o ml M j HK Hab Ht Hs Lm Li Lc Hp Emi Emo Ea Ev Ed HM Hml Hj Pm Em Pi Po.
  pose proof (L_C41_definition R Num_R K A Ao nb no nt z c bs rounding_R HK Lc) as [_ [_ HKC]].
  { rcbn. unfold Q2R; cbn. ring. }
  destruct (HKC _ _ Emi Emo) as (ks & Eks & Lks & Hks). destruct (Hks j Hj) as (xj & yj & X & Y & Hk).
  destruct std_exact as [S1 S2]. assert (U : 0 <= 0 < 1) by lra.
  destruct (L_C83_absmag 0 Num_R distmod K A Ao nb no nt bs lim kc {| ko_z := z; ko_m := m; ko_iv := iv; ko_c := c; ko_d := dist |} ks U S1 S2 rounding_R HK Hab
     (conj Lm (conj Li Lc)) Eks) as (v' & a' & Ea' & Ev' & Lv & Hv).
  rewrite Ea in Ea'. injection Ea' as <-. rewrite Ev in Ev'. injection Ev' as _ <-. specialize (Hv j Hj Pm Pi).
  rewrite growth_0 in Hv. assert (E0 : log10 (/ (1 - 0)) = 0) by (rewrite Rminus_0_r, Rinv_1; apply log10_1). rewrite E0 in Hv.
  cbn [ko_z ko_m] in Hv. change (@cst R Num_R z) with z in Hv.
  assert (V : nth j v 0 = - (5 / 2) * log10 (nth (in_band K j) m 0) - distmod z - nth j ks 0).
  { match type of Hv with Rabs ?x <= ?y => assert (x = 0); [|lra]; assert (y = 0) as Y0 by ring; rewrite Y0 in Hv end.
    destruct (Req_dec (nth j v 0 - (- (5 / 2) * log10 (nth (in_band K j) m 0) - distmod z - nth j ks 0)) 0) as [E|E]; auto.
    apply Rabs_pos_lt in E. lra. }
  assert (PS : nltb n0 (nsum (map cst c)) = true).
  { change (@cst R Num_R) with (fun x : R => x). rewrite map_id. change (@nltb R Num_R) with Rltb. apply Rltb_true. rewrite nsum_R. exact Hp. }
  rewrite PS in Hk.
  assert (Xj : xj = nth (in_band K j) m 0). { rewrite <- Em. cbn [dat vec] in X. apply nth_error_nth with (d := 0) in X. auto. }
  assert (Yj : yj = nth j mo 0). { cbn [dat vec] in Y. apply nth_error_nth with (d := 0) in Y. auto. }
  apply nth_error_nth with (d := 0) in Hk. rewrite Xj, Yj in Hk. clear Hks HKC X.
  pose proof (L_C50_law R Num_R distmod dict K A Ao nb no nt bs sols z c rounding_R HK Ht Hs Lc) as HD. cbv zeta in HD.
  change (@n0 R Num_R) with 0 in *. rewrite Emo in HD. rewrite Ed in HD. injection HD as HD. 
  change (@cst R Num_R z) with z in HD.
  subst o.
  cbn [In] in HM, Hml.
  destruct HM as [HM|HM]; [|exfalso; repeat (destruct HM as [HM|HM]; [discriminate|]); exact HM]. injection HM as HM.
  destruct Hml as [Hml|[Hml|[Hml|Hml]]]; [discriminate|discriminate| |exfalso; repeat (destruct Hml as [Hml|Hml]; [discriminate|]); exact Hml].
  injection Hml as _ Hml. rewrite HM in Hml.
  assert (Ls : length sols = no). { transitivity (length (k_out K)); [|apply HK]. unfold solars in Hs. clear -Hs. induction Hs; cbn; auto. }
  assert (Sj : nth_error sols j = Some (nth j sols 0)) by (apply nth_error_nth'; lia).
  apply (f_equal (fun l => nth_error l j)) in Hml. rewrite nth_error_zip, Sj in Hml. cbn [dat vec] in Y. rewrite Y in Hml.
  symmetry in Hml. apply nth_error_nth with (d := 0) in Hml. rewrite Hml, Yj. clear Hml HM Y Sj.
  set (s := nth j sols 0). set (f := nth j mo 0) in *. set (x := nth (in_band K j) m 0) in *.
  cbv beta zeta. change (@nlit R Num_R) with Q2R. change (@npow10 R Num_R) with pow10. change (@nmul R Num_R) with Rmult. change (@ndiv R Num_R) with Rdiv.
  change (@nadd R Num_R) with Rplus. change (@nltb R Num_R) with Rltb. change (@cst R Num_R) with (fun x : R => x). cbv beta.
  change (-2 # 5)%Q with (-(2) # 5)%Q. rewrite litm25. pose proof (pow10_pos (- (2 / 5) * (s + distmod z))) as Q.
  rewrite Rltb_true by (apply Rdiv_lt_0_compat; auto).
  f_equal. rewrite V, Hk. change (@nmul R Num_R) with Rmult. change (@nlog10 R Num_R) with log10. change (@ndiv R Num_R) with Rdiv. change (@nlit R Num_R) with Q2R.
  rewrite log10_div by auto. change (-5 # 2)%Q with (-(5) # 2)%Q; replace (Q2R (-(5) # 2)) with (- (5 / 2)) by (unfold Q2R; cbn; lra).
  replace (- (2 / 5) * (- (5 / 2) * log10 x - distmod z - - (5 / 2) * (log10 x - log10 f) - s)) with (log10 f + - (- (2 / 5) * (s + distmod z))) by field.
  rewrite pow10_plus, pow10_log10, pow10_opp by auto. reflexivity.
Qed.
Lemma E_C93_luminosity : exists mi mo a v o ml M, 
  reconstruct (k_fit r_kcor) (Some (scal (1 / 4))) (Some (vec [1])) 0 = Ok (vec mi) /\
  reconstruct_out r_kcor (Some (scal 0)) (Some (vec [1])) 0 = Ok (vec mo) /\
  absmag_object (fun z => z) r_kcor 0 false false false false {| ko_z := 1 / 4; ko_m := mi; ko_iv := [1; 1]; ko_c := [1]; ko_d := 0 |} = Ok a /\
  nth_error (parts a) 0 = Some (vec v) /\
  derived_object (fun z => z) r_solar r_kcor 0 (1 / 4, [1]) = Ok o /\ In ("mremain"%string, scal M) o /\ In ("mtol"%string, vec ml) o /\
  0 < nth 0 mi 0 /\ 0 < nth 0 mo 0.
Proof.
  pose proof r_kready as HK. pose proof HK as ((HA & Hb & Hn & Ht) & HAo & Hto & _).
  assert (E1 : exists mi, reconstruct (k_fit r_kcor) (Some (scal (1 / 4))) (Some (vec [1])) 0 = Ok (vec mi) /\ length mi = 2%nat /\ 0 < nth 0 mi 0).
  { eexists. unfold reconstruct. rewrite HA. split; [apply (recon_value (k_fit r_kcor) r_tab 2 1); auto; unfold in_range; cbn; lra|].
    split; [reflexivity|]. replace ((1 + 1 / 4) * (1 + 0) - 1) with (1 / 4) by ring.
    rewrite (arow_between r_tab 2 1 0 (1 / 4) Ht r_grid) by (cbn; lia || lra). cbn. lra. }
  assert (E2 : exists mo, reconstruct_out r_kcor (Some (scal 0)) (Some (vec [1])) 0 = Ok (vec mo) /\ 0 < nth 0 mo 0).
  { eexists. unfold reconstruct_out. rewrite HAo. split; [apply (recon_value (k_fit r_kcor) r_tab 2 1); auto; unfold in_range; cbn; lra|].
    replace ((1 + 0) * (1 + 0) - 1) with 0 by ring.
    rewrite (arow_between r_tab 2 1 0 0 Ht r_grid) by (cbn; lia || lra). cbn. lra. }
  destruct E1 as (mi & E1 & L1 & P1), E2 as (mo & E2 & P2).
  pose proof (L_C41_definition R Num_R r_kcor r_tab r_tab 2 2 1 (1 / 4) [1] 0 rounding_R HK eq_refl) as [_ [_ HKC]].
  { rcbn. unfold Q2R; cbn. ring. }
  destruct (HKC _ _ E1 E2) as (ks & Eks & _). destruct std_exact as [S1 S2]. assert (U : 0 <= 0 < 1) by lra.
  destruct (L_C83_absmag 0 Num_R (fun z => z) r_kcor r_tab r_tab 2 2 1 0 false false {| ko_z := 1 / 4; ko_m := mi; ko_iv := [1; 1]; ko_c := [1]; ko_d := 0 |} ks U S1 S2 rounding_R HK
    (proj1 (proj2 E_C83_absmag)) (conj L1 (conj eq_refl eq_refl)) Eks) as (v & a & Ea & Ev & _).
  pose proof (L_C50_law R Num_R (fun z => z) r_solar r_kcor r_tab r_tab 2 2 1 0 [5; 4] (1 / 4) [1] rounding_R HK) as HD. cbv zeta in HD.
  change (@n0 R Num_R) with 0 in HD. rewrite E2 in HD.
  exists mi, mo, a, v. do 3 eexists. do 4 (split; [eassumption|]).
  split; [apply HD; [repeat constructor|repeat constructor; eexists; split; reflexivity|reflexivity]|].
  split; [left; reflexivity|]. split; [do 2 right; left; reflexivity|]. auto.
Qed.
