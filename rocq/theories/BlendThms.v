(** C90: fits, K-corrections and absolute magnitudes depend on the templates only through the spectra they combine to. *)
From Coq Require Import String List Arith Lia Bool ZArith QArith Qreals Reals Lra Sorting.Sorted Sorting.Permutation.
From Verif Require Import Base BaseLemmas Num Toy Interp InterpReal Spec Utils UtilsReal Sed Response RespDict ResponseObj LinInterp ResponseEx
  Fitter FitSpec FitterProofs FitterMC FitReal FitTable FitEx FitRealEx FitRealThms Kcorrect KSpec KTable KEx KcorrectProofs XrAlg KcorrectThms AbsmagProofs AbsmagThms
  AbThms UtilsThms RespDictThms PersistThms BuildSpec BuildProofs BuildTable BuildEx BuildThms NnlsSpec NnlsExact NnlsThms
  Spline SplineSpec SplineProofs SplineThms ShiftSpec ShiftThms PipeSpec PipeProofs BlendSpec BlendProofs BlendEx.
Import ListNotations.
Local Open Scope R_scope.

(* STATEMENTS *)

Section Two.
  Variables (cub : list R -> list R -> R -> R) (bq : (R -> R) -> R -> R -> res R) (sun vega : res (list R * list (basel_unit R))).
  Variables (fs : @fsys R) (d : dict (resp R)) (k1 k2 : abkind) (abc : bool) (responses : list string) (s1 s2 : sed R) (t1 t2 : tmpl R).
  Variables (out map_ : option (list string)) (r0 r1 : R) (nz : nat) (d1 d2 : dict (resp R)) (s1' s2' : sed R) (K1 K2 : kcor R).
  Variables (rows1 rows2 : list (list R)) (wave : list R).
  Hypothesis B1 : Kcorrect cub bq sun vega fs d k1 abc responses s1 t1 out map_ r0 r1 nz = (d1, s1', Ok K1).
  Hypothesis B2 : Kcorrect cub bq sun vega fs d1 k2 abc responses s2 t2 out map_ r0 r1 nz = (d2, s2', Ok K2).
  Hypothesis W1 : s_rwave s1 = wave.
  Hypothesis W2 : s_rwave s2 = wave.
  Hypothesis F1 : s_rflux s1 = table (length wave) rows1.
  Hypothesis F2 : s_rflux s2 = table (length wave) rows2.
  Hypothesis R1 : rect (length wave) rows1.
  Hypothesis R2 : rect (length wave) rows2.
  Hypothesis E1 : rows1 <> [].
  Hypothesis E2 : rows2 <> [].
  Hypothesis Hc : splines cub.
  Hypothesis Hs : StronglySorted Rlt wave.
  Hypothesis H4 : (4 <= length wave)%nat.
  Hypothesis Hr : -1 < r0 < r1.
  Hypothesis Hnz : (2 <= nz)%nat.
  Notation flux1 := (model_flux cub d2 wave (length wave) rows1 (redshift_grid r0 r1 nz)).
  Notation flux2 := (model_flux cub d2 wave (length wave) rows2 (redshift_grid r0 r1 nz)).

  Lemma two_ext n c z x : model_flux cub d1 wave (length wave) rows1 (redshift_grid r0 r1 nz) n c z x -> flux1 n c z x.
  Proof. apply flux_ext. apply (built_after _ _ _ _ _ _ _ _ _ _ _ _ _ _ _ _ _ _ _ B2). Qed.
  Lemma two_combined n c1 c2 z x x' : length c1 = length rows1 -> length c2 = length rows2 ->
    combined (length wave) rows1 c1 = combined (length wave) rows2 c2 ->
    model_flux cub d1 (s_rwave s1) (length wave) rows1 (redshift_grid r0 r1 nz) n c1 z x ->
    model_flux cub d2 (s_rwave s2) (length wave) rows2 (redshift_grid r0 r1 nz) n c2 z x' -> x = x'.
  Proof.
    intros L1 L2 HC X1 X2. rewrite W1 in X1. rewrite W2 in X2. apply two_ext in X1.
    assert (X1' : flux2 n c2 z x) by (apply (flux_combined cub d2 wave rows1 rows2 r0 r1 nz n c1 c2); auto; apply Hr).
    exact (L_C72_flux_determined _ _ _ _ _ _ _ _ _ _ _ _ _ (proj2 Hr) Hnz X2 X1').
  Qed.
  Lemma two_names : k_out K1 = k_out K2 /\ k_map K1 = k_map K2.
  Proof.
    destruct (L_C40_mapping R Num_R _ _ _ _ _ _ _ _ _ _ _ _ _ _ _ _ _ _ _ B1) as (-> & -> & _).
    destruct (L_C40_mapping R Num_R _ _ _ _ _ _ _ _ _ _ _ _ _ _ _ _ _ _ _ B2) as (-> & -> & _). auto.
  Qed.
End Two.

Lemma vec_same (names : list string) (p q : list R) : length p = length names -> length q = length names ->
  (forall j n, nth_error names j = Some n -> nth_error p j = nth_error q j) -> p = q.
Proof.
  intros Lp Lq H. apply nth_error_ext. intro j. destruct (nth_error names j) as [n|] eqn:E; [eauto|].
  apply nth_error_None in E. rewrite !(proj2 (nth_error_None _ _)) by lia. reflexivity.
Qed.

(** C90.  Two objects whose templates have the same wavelengths, the same responses and redshift grid.  Coefficients that
    combine the templates of each to the same spectrum give the same fluxes and K-corrections, and the same absolute magnitudes. *)
Lemma L_C90_same_spectrum :
  forall cub bq sun vega fs d k1 k2 abc responses (s1 s2 : sed R) t1 t2 out map_ r0 r1 nz d1 s1' K1 d2 s2' K2 rows1 rows2 wave c1 c2 z bs,
    Kcorrect cub bq sun vega fs d k1 abc responses s1 t1 out map_ r0 r1 nz = (d1, s1', Ok K1) ->
    Kcorrect cub bq sun vega fs d1 k2 abc responses s2 t2 out map_ r0 r1 nz = (d2, s2', Ok K2) ->
    s_rwave s1 = wave -> s_rwave s2 = wave -> s_rflux s1 = table (length wave) rows1 -> s_rflux s2 = table (length wave) rows2 ->
    rect (length wave) rows1 -> rect (length wave) rows2 -> rows1 <> [] -> rows2 <> [] ->
    splines cub -> StronglySorted Rlt wave -> (4 <= length wave)%nat -> -1 < r0 < r1 -> (2 <= nz)%nat ->
    length c1 = length rows1 -> length c2 = length rows2 -> combined (length wave) rows1 c1 = combined (length wave) rows2 c2 ->
    (r0 <= (1 + z) * (1 + bs) - 1 <= r1 ->
      (exists p, reconstruct (k_fit K1) (Some (scal z)) (Some (vec c1)) bs = Ok p /\ reconstruct (k_fit K2) (Some (scal z)) (Some (vec c2)) bs = Ok p) /\
      (exists p, reconstruct_out K1 (Some (scal z)) (Some (vec c1)) bs = Ok p /\ reconstruct_out K2 (Some (scal z)) (Some (vec c2)) bs = Ok p)) /\
    (r0 <= z <= r1 -> r0 <= bs <= r1 -> 0 < fold_right Rplus 0 c1 -> 0 < fold_right Rplus 0 c2 ->
      (exists v, kcorrect K1 (Some (scal z)) (Some (vec c1)) bs = Ok v /\ kcorrect K2 (Some (scal z)) (Some (vec c2)) bs = Ok v) /\
      forall distmod lim kc m iv dist, abc = false -> length m = length responses -> length iv = length responses ->
        exists a1 a2 v,
          absmag_object distmod K1 bs false false lim kc {| ko_z := z; ko_m := m; ko_iv := iv; ko_c := c1; ko_d := dist |} = Ok a1 /\
          absmag_object distmod K2 bs false false lim kc {| ko_z := z; ko_m := m; ko_iv := iv; ko_c := c2; ko_d := dist |} = Ok a2 /\
          nth_error (parts a1) 0 = Some (vec v) /\ nth_error (parts a2) 0 = Some (vec v) /\ length v = length (k_out K1)).
Proof.
  intros cub bq sun vega fs d k1 k2 abc responses s1 s2 t1 t2 out map_ r0 r1 nz d1 s1' K1 d2 s2' K2 rows1 rows2 wave c1 c2 z bs
    B1 B2 W1 W2 F1 F2 R1 R2 E1 E2 Hc Hs H4 Hr Hnz L1 L2 HC.
  pose proof (two_combined cub bq sun vega fs k2 abc responses s1 s2 t2 out map_ r0 r1 nz d1 d2 s2' K2 rows1 rows2 wave B2 W1 W2 R1 R2 Hc Hs H4 Hr Hnz) as TC.
  assert (TC' := fun n z x x' => TC n c1 c2 z x x' L1 L2 HC). clear TC.
  destruct (two_names cub bq sun vega fs d k1 k2 abc responses s1 s2 t1 t2 out map_ r0 r1 nz d1 d2 s1' s2' K1 K2 B1 B2) as [No Nm].
  split.
  - intro Hz.
    destruct (L_C72_reconstruct _ _ _ _ _ _ _ _ _ _ _ _ _ _ _ _ _ _ _ _ _ z c1 bs B1 F1 R1 E1 (proj2 Hr) Hnz Hz L1) as [(p & Ep & Lp & Hp) (q & Eq & Lq & Hq)].
    destruct (L_C72_reconstruct _ _ _ _ _ _ _ _ _ _ _ _ _ _ _ _ _ _ _ _ _ z c2 bs B2 F2 R2 E2 (proj2 Hr) Hnz Hz L2) as [(p' & Ep' & Lp' & Hp') (q' & Eq' & Lq' & Hq')].
    split.
    + exists (vec p). split; auto. rewrite Ep'. do 2 f_equal. apply (vec_same responses); auto. intros j n Hj.
      destruct (Hp j n Hj) as (x & X & ->). destruct (Hp' j n Hj) as (x' & X' & ->). rewrite (TC' _ _ _ _ X X'). reflexivity.
    + exists (vec q). split; auto. rewrite Eq'. do 2 f_equal. apply (vec_same (k_out K1)); auto; [congruence|]. intros j n Hj.
      destruct (Hq j n Hj) as (x & X & ->). destruct (Hq' j n ltac:(rewrite <- No; auto)) as (x' & X' & ->). rewrite (TC' _ _ _ _ X X'). reflexivity.
  - intros Hz Hbs P1 P2. split.
    + destruct (L_C72_kcorrect _ _ _ _ _ _ _ _ _ _ _ _ _ _ _ _ _ _ _ _ _ z c1 bs B1 F1 R1 E1 (proj2 Hr) Hnz Hz Hbs L1 P1) as (v & Ev & Lv & Hv).
      destruct (L_C72_kcorrect _ _ _ _ _ _ _ _ _ _ _ _ _ _ _ _ _ _ _ _ _ z c2 bs B2 F2 R2 E2 (proj2 Hr) Hnz Hz Hbs L2 P2) as (v' & Ev' & Lv' & Hv').
      exists (vec v). split; auto. rewrite Ev'. do 2 f_equal. apply (vec_same (k_out K1)); auto; [congruence|]. intros j n Hj.
      destruct (L_C40_mapping R Num_R _ _ _ _ _ _ _ _ _ _ _ _ _ _ _ _ _ _ _ B1) as (O1 & M1 & Lm & _).
      destruct (nth_error (k_map K1) j) as [ni|] eqn:Ei.
      2:{ apply nth_error_None in Ei. assert (j < length (k_out K1))%nat by (apply nth_error_Some; congruence). rewrite O1, M1 in *. lia. }
      destruct (Hv j n ni Hj Ei) as (x & y & X & Y & ->). destruct (Hv' j n ni ltac:(rewrite <- No; auto) ltac:(rewrite <- Nm; auto)) as (x' & y' & X' & Y' & ->).
      rewrite (TC' _ _ _ _ X X'), (TC' _ _ _ _ Y Y'). reflexivity.
    + intros distmod lim kc m iv dist Ha Lm Li.
      destruct (built_absmag _ _ _ _ _ _ _ _ _ _ _ _ _ _ _ _ _ _ _ _ _ B1 F1 R1 E1 (proj2 Hr) Hnz distmod lim kc z c1 m iv dist bs Ha Lm Li L1 Hz Hbs P1) as (ks & v & a1 & _ & A1 & N1 & Lv & Hv).
      destruct (built_absmag _ _ _ _ _ _ _ _ _ _ _ _ _ _ _ _ _ _ _ _ _ B2 F2 R2 E2 (proj2 Hr) Hnz distmod lim kc z c2 m iv dist bs Ha Lm Li L2 Hz Hbs P2) as (ks' & v' & a2 & _ & A2 & N2 & Lv' & Hv').
      exists a1, a2, v. split; auto. split; auto. split; auto. split; [|auto]. rewrite N2. do 2 f_equal.
      apply (vec_same (k_out K1)); auto; [congruence|]. intros j n Hj.
      destruct (L_C40_mapping R Num_R _ _ _ _ _ _ _ _ _ _ _ _ _ _ _ _ _ _ _ B1) as (O1 & M1 & Lmo & _ & _ & _ & _ & _ & _ & _ & _ & Q1).
      destruct (L_C40_mapping R Num_R _ _ _ _ _ _ _ _ _ _ _ _ _ _ _ _ _ _ _ B2) as (O2 & M2 & _ & _ & _ & _ & _ & _ & _ & _ & _ & Q2).
      destruct (nth_error (k_map K1) j) as [ni|] eqn:Ei.
      2:{ apply nth_error_None in Ei. assert (j < length (k_out K1))%nat by (apply nth_error_Some; congruence). rewrite O1, M1 in *. lia. }
      destruct (Hv j n ni Hj Ei) as (i & x & y & kj & I & In_ & X & Y & _ & Ek & Hx).
      destruct (Hv' j n ni ltac:(rewrite <- No; auto) ltac:(rewrite <- Nm; auto)) as (i' & x' & y' & kj' & I' & In' & X' & Y' & _ & Ek' & Hx').
      assert (i' = i).
      { rewrite M1 in Ei. destruct (Q1 j ni Ei) as (i1 & J1 & _ & S1). destruct (Q2 j ni Ei) as (i2 & J2 & _ & S2).
        assert (i1 = i) by congruence. assert (i2 = i') by congruence. subst i1 i2.
        destruct (lt_eq_lt_dec i i') as [[Q|Q]|Q]; auto; exfalso; [apply (S2 i Q); auto|apply (S1 i' Q); auto]. }
      subst i'. assert (kj' = kj) by (rewrite Ek, Ek', (TC' _ _ _ _ X X'), (TC' _ _ _ _ Y Y'); reflexivity). rename H into Hkk. rewrite Hkk in *. clear Hkk.
      assert (Hi : (i < length responses)%nat) by (apply nth_error_Some; congruence).
      destruct (nth_error m i) as [mi|] eqn:Em; [|apply nth_error_None in Em; lia].
      destruct (nth_error iv i) as [vi|] eqn:Ev; [|apply nth_error_None in Ev; lia].
      destruct (Hx mi vi eq_refl eq_refl) as [G1 G2]. destruct (Hx' mi vi eq_refl eq_refl) as [G1' G2'].
      destruct (Rlt_dec 0 mi) as [Pm|Pm]; [destruct (Rlt_dec 0 vi) as [Pv|Pv]|].
      * rewrite G1, G1' by auto. reflexivity.
      * rewrite G2, G2' by (right; lra). reflexivity.
      * rewrite G2, G2' by (left; lra). reflexivity.
Qed.

Lemma E_C90_same_spectrum : exists bq d d1 s1 K1 d2 s2 K2, let rows1 := [[1;1;2;2;1;1]; [1;2;3;4;5;6]] in let rows2 := [[4;6;10;12;12;14]] in
  Kcorrect notaknot bq sun0 sun0 (fun _ => None) d Plain false ["u"; "u"]%string (b_sed rows1) r_tmpl None None 0 1 2 = (d1, s1, Ok K1) /\
  Kcorrect notaknot bq sun0 sun0 (fun _ => None) d1 Plain false ["u"; "u"]%string (b_sed rows2) r_tmpl None None 0 1 2 = (d2, s2, Ok K2) /\
  splines notaknot /\ StronglySorted Rlt b_wave /\ combined 6 rows1 [2; 2] = combined 6 rows2 [1] /\ 0 < fold_right Rplus 0 [2; 2] /\ 0 < fold_right Rplus 0 [1].
Proof.
  destruct (b_pair [[1;1;2;2;1;1]; [1;2;3;4;5;6]] [[4;6;10;12;12;14]]) as (d & d1 & s1 & K1 & d2 & s2 & K2 & H1 & H2); try discriminate; try (repeat constructor).
  exists (bisect (1/1000)), d, d1, s1, K1, d2, s2, K2. split; [exact H1|]. split; [exact H2|]. split; [exact L_C78_exists|]. split; [apply sorted_wide|].
  split; [|cbn; lra]. unfold combined, dot. cbn. repeat (apply (f_equal2 (@cons R)); [lra|]). reflexivity.
Qed.

(** Template sets that can combine to the same spectra give fits with the same fluxes in the measured bands; and the same
    spectrum, if these bands tell the templates of the first set apart. *)
Lemma L_C90_fit :
  forall cub bq sun vega fs d k1 k2 (s1 s2 : sed R) t1 t2 out map_ r0 r1 nz d1 s1' K1 d2 s2' K2 rows1 rows2 wave
    nnls1 nnls2 rng1 rng2 z l cur1 c1 cur1' cur2 c2 cur2',
    Kcorrect cub bq sun vega fs d k1 false (map o_name l) s1 t1 out map_ r0 r1 nz = (d1, s1', Ok K1) ->
    Kcorrect cub bq sun vega fs d1 k2 false (map o_name l) s2 t2 out map_ r0 r1 nz = (d2, s2', Ok K2) ->
    s_rwave s1 = wave -> s_rwave s2 = wave -> s_rflux s1 = table (length wave) rows1 -> s_rflux s2 = table (length wave) rows2 ->
    rect (length wave) rows1 -> rect (length wave) rows2 -> rows1 <> [] -> rows2 <> [] ->
    splines cub -> StronglySorted Rlt wave -> (4 <= length wave)%nat -> -1 < r0 < r1 -> (2 <= nz)%nat ->
    r0 <= z <= r1 -> length l <> 1%nat -> nnls_contract nnls1 -> nnls_contract nnls2 -> Forall (fun b => 0 <= o_ivar b) l ->
    same_spectra (length wave) rows1 rows2 ->
    fit_object nnls1 rng1 (k_fit K1) 0 (observed z l) cur1 = Ok (Bare (vec c1), cur1') ->
    fit_object nnls2 rng2 (k_fit K2) 0 (observed z l) cur2 = Ok (Bare (vec c2), cur2') ->
    let flux rows := model_flux cub d2 wave (length wave) rows (redshift_grid r0 r1 nz) in
    (forall b, In b l -> 0 < o_ivar b -> exists x, flux rows1 (o_name b) c1 z x /\ flux rows2 (o_name b) c2 z x) /\
    (told_apart (flux rows1) (length rows1) z l -> combined (length wave) rows1 c1 = combined (length wave) rows2 c2).
Proof.
  intros cub bq sun vega fs d k1 k2 s1 s2 t1 t2 out map_ r0 r1 nz d1 s1' K1 d2 s2' K2 rows1 rows2 wave
    nnls1 nnls2 rng1 rng2 z l cur1 c1 cur1' cur2 c2 cur2'
    B1 B2 W1 W2 F1 F2 R1 R2 E1 E2 Hc Hs H4 Hr Hnz Hz N1 C1 C2 V HS Q1 Q2 flux.
  pose proof (built_fit _ _ _ _ _ _ _ _ _ _ _ _ _ _ _ _ _ _ _ _ _ B1 F1 R1 E1 (proj2 Hr) Hnz nnls1 rng1 z l cur1 c1 cur1' eq_refl eq_refl N1 C1 V Hz Q1) as (L1 & P1 & M1).
  pose proof (built_fit _ _ _ _ _ _ _ _ _ _ _ _ _ _ _ _ _ _ _ _ _ B2 F2 R2 E2 (proj2 Hr) Hnz nnls2 rng2 z l cur2 c2 cur2' eq_refl eq_refl N1 C2 V Hz Q2) as (L2 & P2 & M2).
  rewrite W1 in M1. rewrite W2 in M2.
  destruct HS as [S12 S21]. destruct (S21 c2 L2 P2) as (c2' & L2' & P2' & HC).
  assert (Hx : extends d1 d2) by apply (built_after _ _ _ _ _ _ _ _ _ _ _ _ _ _ _ _ _ _ _ B2).
  assert (Ex : forall n c, In n (map o_name l) -> length c = length rows1 -> exists x,
    model_flux cub d1 wave (length wave) rows1 (redshift_grid r0 r1 nz) n c z x).
  { intros n c Hn Lc. pose proof (built_flux _ _ _ _ _ _ _ _ _ _ _ _ _ _ _ _ _ _ _ _ _ B1 F1 R1 E1 (proj2 Hr) Hnz n c z Hn Lc Hz) as X. rewrite W1 in X. exact X. }
  assert (Dn : forall n c x, In n (map o_name l) -> length c = length rows1 -> flux rows1 n c z x ->
      model_flux cub d1 wave (length wave) rows1 (redshift_grid r0 r1 nz) n c z x).
  { intros n c x Hn Lc X. destruct (Ex n c Hn Lc) as [x' X']. pose proof (flux_ext _ _ _ _ _ _ _ _ _ _ _ _ _ Hx X') as X''.
    unfold flux in X. rewrite <- (L_C72_flux_determined _ _ _ _ _ _ _ _ _ _ _ _ _ (proj2 Hr) Hnz X X''). exact X'. }
  assert (T12 : forall n c c' x, length c = length rows1 -> length c' = length rows2 -> combined (length wave) rows1 c = combined (length wave) rows2 c' ->
    flux rows1 n c z x -> flux rows2 n c' z x).
  { intros n c c' x Lc Lc' E X. apply (flux_combined cub d2 wave rows1 rows2 r0 r1 nz n c c'); auto; apply Hr. }
  assert (T21 : forall n c c' x, length c = length rows1 -> length c' = length rows2 -> combined (length wave) rows1 c = combined (length wave) rows2 c' ->
    flux rows2 n c' z x -> flux rows1 n c z x).
  { intros n c c' x Lc Lc' E X. apply (flux_combined cub d2 wave rows2 rows1 r0 r1 nz n c' c); auto; apply Hr. }
  assert (HA : forall b, In b l -> 0 < o_ivar b -> exists x, flux rows1 (o_name b) c1 z x /\ flux rows1 (o_name b) c2' z x).
  { intros b Hb Hp. refine (mins_agree cub d2 wave (length wave) rows1 r0 r1 nz z l l c1 c2' (proj2 Hr) Hnz _ V _ _ _ b Hb Hp).
    - intros n c Hn Lc. rewrite map_app in Hn. assert (Hn' : In n (map o_name l)) by (apply in_app_or in Hn as [|]; auto).
      destruct (Ex n c Hn' Lc) as [x X]. exists x. eapply flux_ext; eauto.
    - exists 0. intro f. lra.
    - split; auto. split; auto. intros y f g Ly Ny Fc Fy. apply (M1 y f g Ly Ny); intros b' Hb'; apply Dn; [apply in_map; exact Hb'|assumption| |apply in_map; exact Hb'|assumption|]; [apply Fc|apply Fy]; exact Hb'.
    - split; auto. split; auto. intros y f g Ly Ny Fc Fy. destruct (S12 y Ly Ny) as (y2 & Ly2 & Ny2 & HCy).
      apply (M2 y2 f g Ly2 Ny2); intros b' Hb'.
      + apply (T12 _ c2' c2); [assumption|assumption|assumption|]. apply Fc; exact Hb'.
      + apply (T12 _ y y2); [assumption|assumption|symmetry; assumption|]. apply Fy; exact Hb'. }
  split.
  - intros b Hb Hp. destruct (HA b Hb Hp) as (x & X1 & X2). exists x. split; auto. apply (T12 _ c2' c2); auto.
  - intro HT. rewrite <- HC. f_equal. eapply told_apart_eq with (r0 := r0) (r1 := r1) (nz := nz); eauto. apply Hr.
Qed.

Lemma E_C90_fit : exists bq d d1 s1 K1 d2 s2 K2 c1 c2, let l := [("u", (2, 1)); ("u", (6, 4))]%string in
  let rows1 := [[1;1;2;2;1;1]; [1;2;3;4;5;6]] in let rows2 := [[1;2;3;4;5;6]; [1;1;2;2;1;1]] in
  Kcorrect notaknot bq sun0 sun0 (fun _ => None) d Plain false (map o_name l) (b_sed rows1) r_tmpl None None 0 1 2 = (d1, s1, Ok K1) /\
  Kcorrect notaknot bq sun0 sun0 (fun _ => None) d1 Plain false (map o_name l) (b_sed rows2) r_tmpl None None 0 1 2 = (d2, s2, Ok K2) /\
  splines notaknot /\ StronglySorted Rlt b_wave /\ Permutation rows1 rows2 /\ nnls_contract nnls_exact /\
  fit_object nnls_exact (fun _ => 0) (k_fit K1) 0 (observed 0 l) 0 = Ok (Bare (vec c1), 0%nat) /\
  fit_object nnls_exact (fun _ => 0) (k_fit K2) 0 (observed 0 l) 0 = Ok (Bare (vec c2), 0%nat).
Proof.
  destruct (b_pair [[1;1;2;2;1;1]; [1;2;3;4;5;6]] [[1;2;3;4;5;6]; [1;1;2;2;1;1]]) as (d & d1 & s1 & K1 & d2 & s2 & K2 & H1 & H2); try discriminate; try (repeat constructor).
  destruct (b_fits d [[1;1;2;2;1;1]; [1;2;3;4;5;6]] d1 s1 K1 [("u", (2, 1)); ("u", (6, 4))]%string) as [c1 Q1]; auto; try discriminate; try (repeat constructor).
  destruct (b_fits d1 [[1;2;3;4;5;6]; [1;1;2;2;1;1]] d2 s2 K2 [("u", (2, 1)); ("u", (6, 4))]%string) as [c2 Q2]; auto; try discriminate; try (repeat constructor).
  exists (bisect (1/1000)), d, d1, s1, K1, d2, s2, K2, c1, c2. split; [exact H1|]. split; [exact H2|]. split; [exact L_C78_exists|]. split; [apply sorted_wide|].
  split; [apply perm_swap|]. split; [apply nnls_exact_contract|]. split; [exact Q1|exact Q2].
Qed.

Lemma combined_ext w rows1 c1 rows2 c2 :
  (forall i, (i < w)%nat -> dot c1 (map (fun f => nth i f 0) rows1) = dot c2 (map (fun f => nth i f 0) rows2)) ->
  combined w rows1 c1 = combined w rows2 c2.
Proof. intro H. unfold combined. apply map_ext_in. intros i Hi. apply in_seq in Hi. apply H. lia. Qed.
Lemma combined_at w rows1 c1 rows2 c2 i : combined w rows1 c1 = combined w rows2 c2 -> (i < w)%nat ->
  dot c1 (map (fun f => nth i f 0) rows1) = dot c2 (map (fun f => nth i f 0) rows2).
Proof.
  intros H Hi. apply (f_equal (fun l => nth i l 0)) in H. unfold combined in H. rewrite !nth_map_seq in H by auto. auto.
Qed.
Lemma dot_cons a c x l : dot (a :: c) (x :: l) = a * x + dot c l.
Proof. reflexivity. Qed.
Lemma spans_refl w rows : spans w rows rows.
Proof. intros c L N. exists c. auto. Qed.
Lemma spans_trans w r1 r2 r3 : spans w r1 r2 -> spans w r2 r3 -> spans w r1 r3.
Proof.
  intros H1 H2 c L N. destruct (H1 c L N) as (c2 & L2 & N2 & E2). destruct (H2 c2 L2 N2) as (c3 & L3 & N3 & E3).
  exists c3. split; auto. split; auto. congruence.
Qed.
Lemma spans_perm w r1 r2 : Permutation r1 r2 -> spans w r1 r2.
Proof.
  intro H. induction H as [|f r1 r2 H IH|f g r|r1 r2 r3 H1 IH1 H2 IH2].
  - apply spans_refl.
  - intros [|a c] L N; [discriminate|]. inversion N; subst. destruct (IH c) as (c2 & L2 & N2 & E2); auto.
    exists (a :: c2). split; [cbn; congruence|]. split; [constructor; auto|]. apply combined_ext. intros i Hi. cbn [map]. rewrite !dot_cons.
    rewrite (combined_at _ _ _ _ _ i E2 Hi). reflexivity.
  - intros [|a [|b c]] L N; try discriminate. inversion N as [|? ? Pa N']; subst. inversion N' as [|? ? Pb N'']; subst.
    exists (b :: a :: c). split; [cbn in *; lia|]. split; [constructor; [exact Pb|constructor; [exact Pa|exact N'']]|]. apply combined_ext. intros i Hi. cbn [map]. rewrite !dot_cons. lra.
  - eapply spans_trans; eauto.
Qed.

(** Reordering the templates does not change the spectra they combine to ... *)
Lemma L_C90_reordered : forall w rows1 rows2, Permutation rows1 rows2 -> same_spectra w rows1 rows2.
Proof. intros w rows1 rows2 H. split; apply spans_perm; auto. apply Permutation_sym; auto. Qed.
Lemma E_C90_reordered : Permutation [[1;2;3;4]; [4;3;2;1]] [[4;3;2;1]; [1;2;3;4]].
Proof. apply perm_swap. Qed.

(** ... nor does the normalisation of each ... *)
Lemma L_C90_rescaled : forall w a rows, length a = length rows -> Forall (fun x => 0 < x) a ->
  same_spectra w rows (zip (fun x f => map (Rmult x) f) a rows).
Proof.
  intros w a rows L P. assert (Lz : length (zip (fun x f => map (Rmult x) f) a rows) = length rows) by (rewrite length_zip; lia).
  assert (Nm : forall x f i, nth i (map (Rmult x) f) 0 = x * nth i f 0).
  { intros x f. induction f as [|y f IH]; intros [|i]; cbn; auto; lra. }
  split; intros c Lc Nc.
  - exists (zip (fun y x => y / x) c a). split; [rewrite length_zip; lia|]. split.
    + clear - P Nc. revert c Nc. induction P as [|x a Px P IH]; intros [|y c] Nc; cbn [zip]; constructor.
      * inversion Nc; subst. apply Rmult_le_pos; auto. left. apply Rinv_0_lt_compat; auto.
      * apply IH. inversion Nc; auto.
    + apply combined_ext. intros i _. clear - L P Lc Nm. revert c rows L Lc. induction P as [|x a Px P IH]; intros [|y c] [|f rows] L Lc; try discriminate; auto.
      cbn [zip map]. rewrite !dot_cons. rewrite Nm, IH by (cbn in *; lia). field. lra.
  - rewrite Lz in Lc. exists (zip Rmult c a). split; [rewrite length_zip; lia|]. split.
    + clear - P Nc. revert c Nc. induction P as [|x a Px P IH]; intros [|y c] Nc; cbn [zip]; constructor.
      * inversion Nc; subst. apply Rmult_le_pos; lra.
      * apply IH. inversion Nc; auto.
    + apply combined_ext. intros i _. clear - L P Lc Nm. revert c rows L Lc. induction P as [|x a Px P IH]; intros [|y c] [|f rows] L Lc; try discriminate; auto.
      cbn [zip map]. rewrite !dot_cons. rewrite Nm, IH by (cbn in *; lia). ring.
Qed.
Lemma E_C90_rescaled : Forall (fun x => 0 < x) [2; 1/3] /\ length [2; 1/3] = length [[1;2;3;4]; [4;3;2;1]].
Proof. split; [repeat constructor; lra|reflexivity]. Qed.

(** ... nor a template that is itself a nonnegative combination of others. *)
Lemma L_C90_redundant : forall w rows c0, length c0 = length rows -> nonneg c0 -> same_spectra w rows (combined w rows c0 :: rows).
Proof.
  intros w rows c0 L0 N0. split.
  - intros c L N. exists (0 :: c). split; [cbn; congruence|]. split; [constructor; [lra|auto]|]. apply combined_ext. intros i Hi. cbn [map]. rewrite dot_cons. lra.
  - intros [|a c] L N; [discriminate|]. inversion N as [|? ? Pa N']; subst. injection L as L. exists (lincomb a 1 c0 c).
    split; [rewrite lincomb_length; congruence|]. split.
    + clear - N0 N' Pa. revert c N'. induction N0 as [|x c0 Px N0 IH]; intros [|y c] N'; cbn [zip lincomb]; unfold lincomb; cbn [zip]; constructor.
      * inversion N'; subst. pose proof (Rmult_le_pos _ _ Pa Px). lra.
      * apply IH. inversion N'; auto.
    + apply combined_ext. intros i Hi. cbn [map]. rewrite dot_cons. rewrite dot_lin_l by congruence.
      unfold combined. rewrite nth_map_seq by auto. lra.
Qed.
Lemma E_C90_redundant : nonneg [2; 1/3] /\ combined 4 [[1;2;3;4]; [3;3;0;3]] [2; 1/3] = [3; 5; 6; 9].
Proof. split; [repeat constructor; lra|]. unfold combined, dot. cbn. repeat (apply (f_equal2 (@cons R)); [lra|]). reflexivity. Qed.
