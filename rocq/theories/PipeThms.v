(** C87-C90: what the fit and the K-corrections and absolute magnitudes computed from it depend on. *)
From Coq Require Import String List Arith Lia Bool ZArith QArith Qreals Reals Lra Sorting.Sorted Sorting.Permutation.
From Verif Require Import Base BaseLemmas Num Toy Interp InterpReal Spec Utils Sed Response RespDict ResponseObj LinInterp ResponseEx
  Fitter FitSpec FitterProofs FitterMC FitReal FitTable FitEx FitRealEx FitRealThms Kcorrect KSpec KTable KEx KcorrectProofs XrAlg KcorrectThms AbsmagProofs AbsmagThms
  AbThms UtilsThms RespDictThms PersistThms BuildSpec BuildProofs BuildTable BuildEx BuildThms NnlsSpec NnlsExact NnlsThms PipeSpec PipeProofs PipeEx.
Import ListNotations.
Local Open Scope R_scope.

(* STATEMENTS *)

(** C87.  Two objects are constructed one after the other from the same templates and redshift grid.  The photometry of
    an object in the bands of the first and its photometry in the bands of the second tell the same about the fluxes:
    the two chi^2 differ by a constant.  Then the two fits agree in the flux of every measured band, and if the measured
    bands tell the templates apart, the coefficients are the same. *)
Lemma L_C87_information :
  forall cub bq sun vega fs d k1 k2 (s : sed R) t out1 map1 out2 map2 r0 r1 nz d1 s1 K1 d2 s2 K2 w rows
    nnls1 nnls2 rng1 rng2 z l1 l2 cur1 c1 cur1' cur2 c2 cur2',
    Kcorrect cub bq sun vega fs d k1 false (map o_name l1) s t out1 map1 r0 r1 nz = (d1, s1, Ok K1) ->
    Kcorrect cub bq sun vega fs d1 k2 false (map o_name l2) s1 t out2 map2 r0 r1 nz = (d2, s2, Ok K2) ->
    s_rflux s = table w rows -> rect w rows -> rows <> [] -> r0 < r1 -> (2 <= nz)%nat -> r0 <= z <= r1 ->
    length l1 <> 1%nat -> length l2 <> 1%nat -> nnls_contract nnls1 -> nnls_contract nnls2 ->
    Forall (fun b => 0 <= o_ivar b) l1 -> Forall (fun b => 0 <= o_ivar b) l2 -> same_information l1 l2 ->
    fit_object nnls1 rng1 (k_fit K1) 0 (observed z l1) cur1 = Ok (Bare (vec c1), cur1') ->
    fit_object nnls2 rng2 (k_fit K2) 0 (observed z l2) cur2 = Ok (Bare (vec c2), cur2') ->
    let flux := model_flux cub d2 (s_rwave s) w rows (redshift_grid r0 r1 nz) in
    (forall b, In b (l1 ++ l2) -> 0 < o_ivar b -> exists x, flux (o_name b) c1 z x /\ flux (o_name b) c2 z x) /\
    (told_apart flux (length rows) z (l1 ++ l2) -> c1 = c2).
Proof.
  intros cub bq sun vega fs d k1 k2 s t out1 map1 out2 map2 r0 r1 nz d1 s1 K1 d2 s2 K2 w rows
    nnls1 nnls2 rng1 rng2 z l1 l2 cur1 c1 cur1' cur2 c2 cur2' B1 B2 Hf Hr Hne Hrr Hnz Hz N1 N2 C1 C2 V1 V2 HI E1 E2 flux.
  destruct (built_after _ _ _ _ _ _ _ _ _ _ _ _ _ _ _ _ _ _ _ B1) as [_ (W1 & F1 & _)].
  destruct (built_after _ _ _ _ _ _ _ _ _ _ _ _ _ _ _ _ _ _ _ B2) as [X2 _].
  pose proof F1 as F1'. rewrite Hf in F1'.
  pose proof (built_fit _ _ _ _ _ _ _ _ _ _ _ _ _ _ _ _ _ _ _ _ _ B1 Hf Hr Hne Hrr Hnz nnls1 rng1 z l1 cur1 c1 cur1' eq_refl eq_refl N1 C1 V1 Hz E1) as (L1 & P1 & M1).
  pose proof (built_fit _ _ _ _ _ _ _ _ _ _ _ _ _ _ _ _ _ _ _ _ _ B2 F1' Hr Hne Hrr Hnz nnls2 rng2 z l2 cur2 c2 cur2' eq_refl eq_refl N2 C2 V2 Hz E2) as (L2 & P2 & M2).
  rewrite W1 in M2.
  assert (Xd : forall n c, In n (map o_name l1) -> length c = length rows -> exists x,
    model_flux cub d1 (s_rwave s) w rows (redshift_grid r0 r1 nz) n c z x).
  { intros n c Hn Lc. eapply (built_flux _ _ _ _ _ _ _ _ _ _ _ _ _ _ _ _ _ _ _ _ _ B1); eauto. }
  assert (Ex : forall n c, In n (map o_name (l1 ++ l2)) -> length c = length rows -> exists x, flux n c z x).
  { intros n c Hn Lc. rewrite map_app in Hn. apply in_app_or in Hn as [Hn|Hn].
    - destruct (Xd n c Hn Lc) as [x Hx]. exists x. eapply flux_ext; eauto.
    - unfold flux. rewrite <- W1. eapply (built_flux _ _ _ _ _ _ _ _ _ _ _ _ _ _ _ _ _ _ _ _ _ B2); eauto. }
  assert (M1' : forall y f g, length y = length rows -> nonneg y -> (forall b, In b l1 -> flux (o_name b) c1 z (f (o_name b))) ->
      (forall b, In b l1 -> flux (o_name b) y z (g (o_name b))) -> misfit f l1 <= misfit g l1).
  { assert (Y : forall n c x, In n (map o_name l1) -> length c = length rows -> flux n c z x ->
      model_flux cub d1 (s_rwave s) w rows (redshift_grid r0 r1 nz) n c z x).
    { intros n c x Hn Lc Hx. destruct (Xd n c Hn Lc) as [x' Hx']. pose proof (flux_ext _ _ _ _ _ _ _ _ _ _ _ _ _ X2 Hx') as Hx''.
      unfold flux in Hx. rewrite <- (L_C72_flux_determined _ _ _ _ _ _ _ _ _ _ _ _ _ Hrr Hnz Hx Hx''). exact Hx'. }
    intros y f g Ly Ny Hc Hy. apply (M1 y); auto; intros b Hb; apply Y; auto; apply in_map; auto. }
  assert (HA : forall b, In b (l1 ++ l2) -> 0 < o_ivar b -> exists x, flux (o_name b) c1 z x /\ flux (o_name b) c2 z x).
  { intros b Hb Hp. apply in_app_or in Hb as [Hb|Hb].
    - refine (mins_agree cub d2 (s_rwave s) w rows r0 r1 nz z l1 l2 c1 c2 Hrr Hnz Ex V1 HI _ _ b Hb Hp); repeat split; auto.
    - destruct (mins_agree cub d2 (s_rwave s) w rows r0 r1 nz z l2 l1 c2 c1 Hrr Hnz) with (b := b) as (x & Q1 & Q2); repeat split; auto.
      + intros n c Hn. apply Ex. rewrite map_app in *. apply in_app_or in Hn. apply in_or_app. tauto.
      + apply same_info_sym; auto.
      + exists x. auto. }
  split; auto. intro HT. eapply told_apart_eq; eauto.
Qed.

Lemma E_C87_information : exists r d1 s1 K1 d2 s2 K2 c1 c2,
  let l1 := [("u", (2, 1)); ("u", (6, 4))]%string in let l2 := [("u", (6, 4)); ("u", (2, 1))]%string in
  Kcorrect lin bq0 sun0 sun0 r_files (r_cache r) Plain false (map o_name l1) r_sed1 r_tmpl None None 0 1 2 = (d1, s1, Ok K1) /\
  Kcorrect lin bq0 sun0 sun0 r_files d1 Plain false (map o_name l2) s1 r_tmpl None None 0 1 2 = (d2, s2, Ok K2) /\
  nnls_contract nnls_exact /\ same_information l1 l2 /\
  fit_object nnls_exact (fun _ => 0) (k_fit K1) 0 (observed 0 l1) 0 = Ok (Bare (vec c1), 0%nat) /\
  fit_object nnls_exact (fun _ => 0) (k_fit K2) 0 (observed 0 l2) 0 = Ok (Bare (vec c2), 0%nat) /\
  told_apart (model_flux lin d2 (s_rwave r_sed1) 6 [[1;1;2;2;1;1]] (redshift_grid 0 1 2)) 1 0 (l1 ++ l2).
Proof.
  destruct r_object as (r & d1 & s1 & K1 & x & Hr & H1 & He & Hs & Hx & Fx).
  destruct (r_pair r s1 d1 Hr He Hs) as (d2 & s2 & K2 & H2).
  destruct (built_after _ _ _ _ _ _ _ _ _ _ _ _ _ _ _ _ _ _ _ H2) as [He2 _].
  destruct (r_fits r _ _ _ _ K1 [("u", (2, 1)); ("u", (6, 4))]%string Hr (same_rest_refl _) H1 eq_refl) as (c1 & _ & E1).
  destruct (r_fits r _ _ _ _ K2 [("u", (6, 4)); ("u", (2, 1))]%string Hr Hs H2 eq_refl) as (c2 & _ & E2).
  exists r, d1, s1, K1, d2, s2, K2, c1, c2. cbv zeta. split; [exact H1|]. split; [exact H2|]. split; [apply nnls_exact_contract|].
  split. { exists 0. intro f. unfold misfit, o_mag, o_ivar, o_name. cbn [map fold_right fst snd]. lra. }
  split; [exact E1|]. split; [exact E2|].
  apply r_told with (x := x); auto; [eapply flux_ext; eauto|]. eexists. split; [left; reflexivity|]. split; [reflexivity|]. unfold o_ivar. cbn. lra.
Qed.

(** Reordering the bands, with their photometry, does not change what is told. *)
Lemma L_C87_reordered : forall l1 l2, Permutation l1 l2 -> same_information l1 l2.
Proof.
  intros l1 l2 H. exists 0. intro f. rewrite Rplus_0_r. unfold misfit. induction H; cbn [map fold_right] in *; try lra.
Qed.
Lemma E_C87_reordered : Permutation [("u", (1, 2)); ("g", (3, 4))]%string [("g", (3, 4)); ("u", (1, 2))]%string.
Proof. apply perm_swap. Qed.

(** Leaving out the bands without a measurement (inverse variance 0) does not. *)
Lemma L_C87_unmeasured : forall l, Forall (fun b => 0 <= o_ivar b) l ->
  same_information l (filter (fun b => if Rlt_dec 0 (o_ivar b) then true else false) l).
Proof.
  intros l H. exists 0. intro f. rewrite Rplus_0_r. unfold misfit. induction H as [|b l Hb H IH]; [reflexivity|].
  cbn [map filter fold_right]. destruct (Rlt_dec 0 (o_ivar b)); cbn [map fold_right]; rewrite IH; auto.
  replace (o_ivar b) with 0 by lra. lra.
Qed.
Lemma E_C87_unmeasured : Forall (fun b => 0 <= o_ivar b) [("u", (1, 2)); ("g", (3, 0)); ("r", (5, 1))]%string /\
  map o_name (filter (fun b => if Rlt_dec 0 (o_ivar b) then true else false) [("u", (1, 2)); ("g", (3, 0)); ("r", (5, 1))]%string) = ["u"; "r"]%string.
Proof.
  split; [repeat constructor; unfold o_ivar; cbn; lra|]. unfold o_ivar. cbn [filter fst snd].
  repeat (match goal with |- context[Rlt_dec ?a ?b] => destruct (Rlt_dec a b) end); try lra. reflexivity.
Qed.

(** Nor does replacing two measurements in the same band by their mean weighted with the inverse variances, with the sum
    of the inverse variances. *)
Lemma L_C87_repeated : forall n m1 v1 m2 v2 l, 0 < v1 + v2 ->
  same_information ((n, (m1, v1)) :: (n, (m2, v2)) :: l) ((n, ((v1 * m1 + v2 * m2) / (v1 + v2), v1 + v2)) :: l).
Proof.
  intros n m1 v1 m2 v2 l H. exists (v1 * v2 / (v1 + v2) * (m1 - m2) ^ 2). intro f. unfold misfit, o_mag, o_ivar, o_name.
  cbn [map fold_right fst snd]. set (S := fold_right _ _ _). field. lra.
Qed.
Lemma E_C87_repeated : 0 < 1 + 3 /\ (1 * 2 + 3 * 6) / (1 + 3) = 5.
Proof. split; lra. Qed.

(** C88.  If the photometry of an object is exactly that of a nonnegative combination [c0] of the templates in every
    measured band, the fit reproduces it, and if the measured bands tell the templates apart, it returns [c0]. *)
Lemma L_C88_recovered :
  forall cub bq sun vega fs d k (s : sed R) t out map_ r0 r1 nz d' s' K w rows nnls rng z l c0 cur c cur',
    Kcorrect cub bq sun vega fs d k false (map o_name l) s t out map_ r0 r1 nz = (d', s', Ok K) ->
    s_rflux s = table w rows -> rect w rows -> rows <> [] -> r0 < r1 -> (2 <= nz)%nat -> r0 <= z <= r1 ->
    length l <> 1%nat -> nnls_contract nnls -> Forall (fun b => 0 <= o_ivar b) l ->
    let flux := model_flux cub d' (s_rwave s) w rows (redshift_grid r0 r1 nz) in
    length c0 = length rows -> nonneg c0 -> (forall b, In b l -> 0 < o_ivar b -> flux (o_name b) c0 z (o_mag b)) ->
    fit_object nnls rng (k_fit K) 0 (observed z l) cur = Ok (Bare (vec c), cur') ->
    (forall b, In b l -> 0 < o_ivar b -> flux (o_name b) c z (o_mag b)) /\
    (told_apart flux (length rows) z l -> c = c0).
Proof.
  intros cub bq sun vega fs d k s t out map_ r0 r1 nz d' s' K w rows nnls rng z l c0 cur c cur' B Hf Hr Hne Hrr Hnz Hz N1 C1 V1 flux L0 N0 HE E1.
  pose proof (built_fit _ _ _ _ _ _ _ _ _ _ _ _ _ _ _ _ _ _ _ _ _ B Hf Hr Hne Hrr Hnz nnls rng z l cur c cur' eq_refl eq_refl N1 C1 V1 Hz E1) as (L1 & P1 & M1).
  fold flux in M1.
  assert (Ex : forall c, length c = length rows -> exists f, forall b, In b l -> flux (o_name b) c z (f (o_name b))).
  { intros c' Lc. destruct (finite_choice (fun n x => flux n c' z x) 0 (map o_name l)) as [f Hfc].
    - intros n Hn. eapply (built_flux _ _ _ _ _ _ _ _ _ _ _ _ _ _ _ _ _ _ _ _ _ B); eauto.
    - exists f. intros b Hb. apply Hfc. apply in_map. auto. }
  destruct (Ex c L1) as [f Hfc]. destruct (Ex c0 L0) as [g Hg].
  pose proof (M1 c0 f g L0 N0 Hfc Hg) as Q.
  assert (Z : misfit g l = 0).
  { unfold misfit. clear - HE Hg V1 Hrr Hnz. induction V1 as [|b l Hb V1 IH]; [reflexivity|]. cbn [map fold_right].
    rewrite IH by (intros; first [apply HE; cbn; tauto|apply Hg; cbn; tauto]).
    destruct (Rle_lt_or_eq_dec _ _ Hb) as [Hp|<-]; [|lra].
    rewrite (L_C72_flux_determined _ _ _ _ _ _ _ _ _ _ _ _ _ Hrr Hnz (HE b (or_introl eq_refl) Hp) (Hg b (or_introl eq_refl))). lra. }
  assert (HA : forall b, In b l -> 0 < o_ivar b -> flux (o_name b) c z (o_mag b)).
  { intros b Hb Hp. assert (D : o_mag b - f (o_name b) = 0).
    { apply (sum_null l (fun b => o_mag b - f (o_name b)) V1); auto. fold (misfit f l). lra. }
    replace (o_mag b) with (f (o_name b)) by lra. auto. }
  split; auto. intro HT. eapply (told_apart_eq cub d'); eauto. intros b Hb Hp. exists (o_mag b). split; [apply HA|apply HE]; auto.
Qed.

Lemma E_C88_recovered : exists r d s K x c,
  let l := [("u", (2 * x, 1)); ("u", (2 * x, 4))]%string in
  let flux := model_flux lin d (s_rwave r_sed1) 6 [[1;1;2;2;1;1]] (redshift_grid 0 1 2) in
  Kcorrect lin bq0 sun0 sun0 r_files (r_cache r) Plain false (map o_name l) r_sed1 r_tmpl None None 0 1 2 = (d, s, Ok K) /\
  nnls_contract nnls_exact /\ Forall (fun b => 0 < o_mag b /\ 0 < o_ivar b) l /\ nonneg [2] /\
  (forall b, In b l -> flux (o_name b) [2] 0 (o_mag b)) /\ told_apart flux 1 0 l /\
  fit_object nnls_exact (fun _ => 0) (k_fit K) 0 (observed 0 l) 0 = Ok (Bare (vec c), 0%nat).
Proof.
  destruct r_object as (r & d1 & s1 & K1 & x & Hr & H1 & He & Hs & Hx & Fx).
  destruct (r_fits r _ _ _ _ K1 [("u", (2 * x, 1)); ("u", (2 * x, 4))]%string Hr (same_rest_refl _) H1 eq_refl) as (c1 & _ & E1).
  exists r, d1, s1, K1, x, c1. cbv zeta. split; [exact H1|]. split; [apply nnls_exact_contract|].
  split; [repeat constructor; unfold o_mag, o_ivar; cbn; lra|]. split; [repeat constructor; lra|].
  split. { intros b Hb. apply (flux_scale _ _ _ _ _ _ _ _ _ 2) in Fx. cbn [map] in Fx. rewrite Rmult_1_r in Fx. destruct Hb as [<-|[<-|[]]]; exact Fx. }
  split; auto. apply r_told with (x := x); auto. eexists. split; [left; reflexivity|]. split; [reflexivity|]. unfold o_ivar. cbn. lra.
Qed.

(** ... and the absolute magnitudes are then the true ones: -2.5 log10 of the flux of [c0] in the output band at redshift
    band_shift over 1+band_shift, minus the distance modulus. *)
Lemma L_C88_absmag :
  forall cub bq sun vega fs d k (s : sed R) t out map_ r0 r1 nz d' s' K w rows nnls rng z l c0 cur c cur' distmod lim kc dist bs,
    Kcorrect cub bq sun vega fs d k false (map o_name l) s t out map_ r0 r1 nz = (d', s', Ok K) ->
    s_rflux s = table w rows -> rect w rows -> rows <> [] -> r0 < r1 -> (2 <= nz)%nat -> r0 <= z <= r1 ->
    length l <> 1%nat -> nnls_contract nnls -> Forall (fun b => 0 < o_mag b /\ 0 < o_ivar b) l ->
    let flux := model_flux cub d' (s_rwave s) w rows (redshift_grid r0 r1 nz) in
    length c0 = length rows -> nonneg c0 -> (forall b, In b l -> flux (o_name b) c0 z (o_mag b)) ->
    told_apart flux (length rows) z l -> 0 < fold_right Rplus 0 c0 -> r0 <= bs <= r1 -> -1 < bs ->
    fit_object nnls rng (k_fit K) 0 (observed z l) cur = Ok (Bare (vec c), cur') ->
    exists v a,
      absmag_object distmod K bs false false lim kc
        {| ko_z := z; ko_m := map o_mag l; ko_iv := map o_ivar l; ko_c := c; ko_d := dist |} = Ok a /\
      nth_error (parts a) 0 = Some (vec v) /\ length v = length (k_out K) /\
      forall j n, nth_error (k_out K) j = Some n -> exists y, flux n c0 bs y /\
        (0 < y -> nth_error v j = Some (-5/2 * log10 (y / (1 + bs)) - distmod z)).
Proof.
  intros cub bq sun vega fs d k s t out map_ r0 r1 nz d' s' K w rows nnls rng z l c0 cur c cur' distmod lim kc dist bs
    B Hf Hr Hne Hrr Hnz Hz N1 C1 V1 flux L0 N0 HE HT HS Hbs Hb1 E1.
  assert (V : Forall (fun b => 0 <= o_ivar b) l) by (eapply Forall_impl; [|exact V1]; cbn; intros; lra).
  destruct (L_C88_recovered _ _ _ _ _ _ _ _ _ _ _ _ _ _ _ _ _ _ _ _ _ _ _ c0 _ _ _ B Hf Hr Hne Hrr Hnz Hz N1 C1 V L0 N0 ltac:(intros; apply HE; auto) E1) as [_ Hc].
  rewrite (Hc HT). clear Hc E1.
  destruct (built_absmag _ _ _ _ _ _ _ _ _ _ _ _ _ _ _ _ _ _ _ _ _ B Hf Hr Hne Hrr Hnz distmod lim kc z c0 (map o_mag l) (map o_ivar l) dist bs)
    as (ks & v & a & _ & Ea & Ev & Lv & Hv); auto; try (rewrite !map_length; auto).
  exists v, a. split; auto. split; auto. split; auto. intros j n Hn.
  pose proof (L_C40_mapping R Num_R _ _ _ _ _ _ _ _ _ _ _ _ _ _ _ _ _ _ _ B) as (Hoo & Hm & HL & _).
  destruct (nth_error (k_map K) j) as [ni|] eqn:Eni.
  2: { exfalso. apply nth_error_None in Eni. assert (j < length (k_out K))%nat by (apply nth_error_Some; congruence). rewrite Hm in Eni. rewrite Hoo in *. lia. }
  destruct (Hv j n ni Hn Eni) as (i & x & y & kj & _ & I1 & Fx & Fy & _ & -> & Hj). exists y. split; auto. intro Py.
  rewrite nth_error_map in I1. destruct (nth_error l i) as [b|] eqn:Eb; [|discriminate]. injection I1 as I1. subst ni.
  destruct (Hj (o_mag b) (o_ivar b)) as [Hj1 _]; try (rewrite nth_error_map, Eb; reflexivity).
  rewrite Forall_forall in V1. pose proof (nth_error_In _ _ Eb) as Hb. destruct (V1 b Hb) as [Pm Pv]. rewrite (Hj1 Pm Pv).
  rewrite (L_C72_flux_determined _ _ _ _ _ _ _ _ _ _ _ _ _ Hrr Hnz (HE b Hb) Fx).
  assert (0 < y / (1 + bs)) by (apply Rdiv_lt_0_compat; lra).
  rewrite log10_div by auto. f_equal. lra.
Qed.

Lemma E_C88_absmag : 0 < fold_right Rplus 0 [2] /\ exists r d s K x c,
  let l := [("u", (2 * x, 1)); ("u", (2 * x, 4))]%string in
  let flux := model_flux lin d (s_rwave r_sed1) 6 [[1;1;2;2;1;1]] (redshift_grid 0 1 2) in
  Kcorrect lin bq0 sun0 sun0 r_files (r_cache r) Plain false (map o_name l) r_sed1 r_tmpl None None 0 1 2 = (d, s, Ok K) /\
  nnls_contract nnls_exact /\ Forall (fun b => 0 < o_mag b /\ 0 < o_ivar b) l /\ nonneg [2] /\
  (forall b, In b l -> flux (o_name b) [2] 0 (o_mag b)) /\ told_apart flux 1 0 l /\
  fit_object nnls_exact (fun _ => 0) (k_fit K) 0 (observed 0 l) 0 = Ok (Bare (vec c), 0%nat).
Proof. split; [cbn; lra|]. exact E_C88_recovered. Qed.

(** C89.  Making an object brighter by a factor, with the same relative errors: the fitted fluxes of the measured bands
    are multiplied by the factor, and if the measured bands tell the templates apart, so are the coefficients. *)
Lemma L_C89_coefficients :
  forall cub bq sun vega fs d k (s : sed R) t out map_ r0 r1 nz d' s' K w rows nnls1 nnls2 rng1 rng2 z l a cur1 c1 cur1' cur2 c2 cur2',
    Kcorrect cub bq sun vega fs d k false (map o_name l) s t out map_ r0 r1 nz = (d', s', Ok K) ->
    s_rflux s = table w rows -> rect w rows -> rows <> [] -> r0 < r1 -> (2 <= nz)%nat -> r0 <= z <= r1 ->
    length l <> 1%nat -> nnls_contract nnls1 -> nnls_contract nnls2 -> Forall (fun b => 0 <= o_ivar b) l -> 0 < a ->
    let flux := model_flux cub d' (s_rwave s) w rows (redshift_grid r0 r1 nz) in
    fit_object nnls1 rng1 (k_fit K) 0 (observed z l) cur1 = Ok (Bare (vec c1), cur1') ->
    fit_object nnls2 rng2 (k_fit K) 0 (observed z (brighter a l)) cur2 = Ok (Bare (vec c2), cur2') ->
    (forall b, In b l -> 0 < o_ivar b -> exists x, flux (o_name b) c1 z x /\ flux (o_name b) c2 z (a * x)) /\
    (told_apart flux (length rows) z l -> c2 = map (Rmult a) c1).
Proof.
  intros cub bq sun vega fs d k s t out map_ r0 r1 nz d' s' K w rows nnls1 nnls2 rng1 rng2 z l a cur1 c1 cur1' cur2 c2 cur2'
    B Hf Hr Hne Hrr Hnz Hz N1 C1 C2 V Ha flux E1 E2.
  assert (Haa : 0 < a * a) by (apply Rmult_lt_0_compat; auto).
  pose proof (built_fit _ _ _ _ _ _ _ _ _ _ _ _ _ _ _ _ _ _ _ _ _ B Hf Hr Hne Hrr Hnz nnls1 rng1 z l cur1 c1 cur1' eq_refl eq_refl N1 C1 V Hz E1) as (L1 & P1 & M1).
  assert (En : map o_name l = map o_name (brighter a l)) by (unfold brighter; rewrite map_map; reflexivity).
  assert (V2 : Forall (fun b => 0 <= o_ivar b) (brighter a l)).
  { unfold brighter. apply Forall_map. eapply Forall_impl; [|exact V]. cbn. intros b Hb. unfold o_ivar at 1. cbn [snd]. apply Rmult_le_pos; auto. left. apply Rinv_0_lt_compat; auto. }
  pose proof (built_fit _ _ _ _ _ _ _ _ _ _ _ _ _ _ _ _ _ _ _ _ _ B Hf Hr Hne Hrr Hnz nnls2 rng2 z (brighter a l) cur2 c2 cur2' eq_refl En
    ltac:(unfold brighter; rewrite map_length; auto) C2 V2 Hz E2) as (L2 & P2 & M2).
  fold flux in M1, M2.
  assert (Ex : forall n c, In n (map o_name (l ++ l)) -> length c = length rows -> exists x, flux n c z x).
  { intros n c Hn Lc. eapply (built_flux _ _ _ _ _ _ _ _ _ _ _ _ _ _ _ _ _ _ _ _ _ B); eauto. rewrite map_app in Hn. apply in_app_or in Hn. tauto. }
  set (c3 := map (Rmult (/ a)) c2).
  assert (L3 : length c3 = length rows) by (unfold c3; rewrite map_length; auto).
  assert (C23 : c2 = map (Rmult a) c3).
  { unfold c3. rewrite map_map. rewrite <- (map_id c2) at 1. apply map_ext. intro x. field. lra. }
  assert (Hia : 0 < / a) by (apply Rinv_0_lt_compat; auto).
  assert (N3 : nonneg c3). { unfold c3, nonneg. apply Forall_map. eapply Forall_impl; [|exact P2]. cbn. intros x Hx. apply Rmult_le_pos; lra. }
  assert (Mb : forall f, misfit (fun n => a * f n) (brighter a l) = misfit f l).
  { intro f. unfold misfit, brighter. rewrite map_map. f_equal. apply map_ext. intro b. unfold o_mag, o_ivar, o_name. cbn [fst snd]. field. lra. }
  assert (M3 : forall y f g, length y = length rows -> nonneg y -> (forall b, In b l -> flux (o_name b) c3 z (f (o_name b))) ->
      (forall b, In b l -> flux (o_name b) y z (g (o_name b))) -> misfit f l <= misfit g l).
  { intros y f g Ly Ny F1 F2. rewrite <- !Mb. apply (M2 (map (Rmult a) y)).
    - rewrite map_length; auto.
    - unfold nonneg. apply Forall_map. eapply Forall_impl; [|exact Ny]. cbn. intros x Hx. apply Rmult_le_pos; lra.
    - intros b Hb. apply in_map_iff in Hb as (b0 & <- & Hb). rewrite C23. apply flux_scale. exact (F1 b0 Hb).
    - intros b Hb. apply in_map_iff in Hb as (b0 & <- & Hb). apply flux_scale. exact (F2 b0 Hb). }
  assert (HI : same_information l l) by (exists 0; intro; lra).
  assert (HA : forall b, In b l -> 0 < o_ivar b -> exists x, flux (o_name b) c1 z x /\ flux (o_name b) c3 z x).
  { intros b Hb Hp. refine (mins_agree cub d' (s_rwave s) w rows r0 r1 nz z l l c1 c3 Hrr Hnz Ex V HI _ _ b Hb Hp); repeat split; auto. }
  split.
  - intros b Hb Hp. destruct (HA b Hb Hp) as (x & F1 & F3). exists x. split; auto. rewrite C23. apply flux_scale; auto.
  - intro HT. rewrite C23. f_equal. symmetry. apply (told_apart_eq cub d' (s_rwave s) w rows r0 r1 nz z l c1 c3); auto.
Qed.
Lemma E_C89_coefficients : exists r d s K x c1 c2,
  let l := [("u", (2 * x, 1)); ("u", (2 * x, 4))]%string in
  let flux := model_flux lin d (s_rwave r_sed1) 6 [[1;1;2;2;1;1]] (redshift_grid 0 1 2) in
  Kcorrect lin bq0 sun0 sun0 r_files (r_cache r) Plain false (map o_name l) r_sed1 r_tmpl None None 0 1 2 = (d, s, Ok K) /\
  nnls_contract nnls_exact /\ told_apart flux 1 0 l /\ 0 < fold_right Rplus 0 c1 /\
  fit_object nnls_exact (fun _ => 0) (k_fit K) 0 (observed 0 l) 0 = Ok (Bare (vec c1), 0%nat) /\
  fit_object nnls_exact (fun _ => 0) (k_fit K) 0 (observed 0 (brighter 3 l)) 0 = Ok (Bare (vec c2), 0%nat).
Proof.
  destruct r_object as (r & d1 & s1 & K1 & x & Hr & H1 & He & Hs & Hx & Fx).
  set (l := [("u", (2 * x, 1)); ("u", (2 * x, 4))]%string).
  destruct (r_fits r _ _ _ _ K1 l Hr (same_rest_refl _) H1 eq_refl) as (c1 & _ & E1).
  destruct (r_fits r _ _ _ _ K1 (brighter 3 l) Hr (same_rest_refl _) H1 eq_refl) as (c2 & _ & E2).
  assert (HT : told_apart (model_flux lin d1 (s_rwave r_sed1) 6 [[1;1;2;2;1;1]] (redshift_grid 0 1 2)) (length [[1;1;2;2;1;1]]) 0 l).
  { apply r_told with (x := x); auto. eexists. split; [left; reflexivity|]. split; [reflexivity|]. unfold o_ivar. cbn. lra. }
  exists r, d1, s1, K1, x, c1, c2. cbv zeta. split; [exact H1|]. split; [apply nnls_exact_contract|]. split; [exact HT|].
  split; [|split; [exact E1|exact E2]].
  destruct (L_C88_recovered _ _ _ _ _ _ _ _ _ _ _ _ _ _ _ _ _ 6%nat [[1;1;2;2;1;1]] nnls_exact (fun _ => 0) 0 l [2] 0%nat c1 0%nat H1) as [_ Hc]; auto; try lra; try discriminate.
  - repeat constructor.
  - apply nnls_exact_contract.
  - repeat constructor; unfold o_ivar; cbn; lra.
  - repeat constructor; lra.
  - intros b Hb _. apply (flux_scale _ _ _ _ _ _ _ _ _ 2) in Fx. cbn [map] in Fx. rewrite Rmult_1_r in Fx. destruct Hb as [<-|[<-|[]]]; exact Fx.
  - rewrite (Hc HT). cbn. lra.
Qed.

(** ... and then the K-corrections are the same, and the absolute magnitudes brighter by 2.5 log10 of the factor: those of
    the measured positive fluxes; the other ones are -9999 for both. *)
Lemma L_C89_absmag :
  forall cub bq sun vega fs d k (s : sed R) t out map_ r0 r1 nz d' s' K w rows nnls1 nnls2 rng1 rng2 z l a cur1 c1 cur1' cur2 c2 cur2'
    distmod lim kc dist bs,
    Kcorrect cub bq sun vega fs d k false (map o_name l) s t out map_ r0 r1 nz = (d', s', Ok K) ->
    s_rflux s = table w rows -> rect w rows -> rows <> [] -> r0 < r1 -> (2 <= nz)%nat -> r0 <= z <= r1 ->
    length l <> 1%nat -> nnls_contract nnls1 -> nnls_contract nnls2 -> Forall (fun b => 0 <= o_ivar b) l -> 0 < a ->
    told_apart (model_flux cub d' (s_rwave s) w rows (redshift_grid r0 r1 nz)) (length rows) z l ->
    0 < fold_right Rplus 0 c1 -> r0 <= bs <= r1 ->
    fit_object nnls1 rng1 (k_fit K) 0 (observed z l) cur1 = Ok (Bare (vec c1), cur1') ->
    fit_object nnls2 rng2 (k_fit K) 0 (observed z (brighter a l)) cur2 = Ok (Bare (vec c2), cur2') ->
    kcorrect K (Some (scal z)) (Some (vec c2)) bs = kcorrect K (Some (scal z)) (Some (vec c1)) bs /\
    exists v1 v2 a1 a2,
      absmag_object distmod K bs false false lim kc
        {| ko_z := z; ko_m := map o_mag l; ko_iv := map o_ivar l; ko_c := c1; ko_d := dist |} = Ok a1 /\
      absmag_object distmod K bs false false lim kc
        {| ko_z := z; ko_m := map o_mag (brighter a l); ko_iv := map o_ivar (brighter a l); ko_c := c2; ko_d := dist |} = Ok a2 /\
      nth_error (parts a1) 0 = Some (vec v1) /\ nth_error (parts a2) 0 = Some (vec v2) /\
      length v1 = length (k_out K) /\ length v2 = length (k_out K) /\
      forall j n, nth_error (k_map K) j = Some n -> exists i b m1 m2,
        nth_error l i = Some b /\ o_name b = n /\ nth_error v1 j = Some m1 /\ nth_error v2 j = Some m2 /\
        (0 < o_mag b -> 0 < o_ivar b -> m2 = m1 - 5/2 * log10 a) /\
        (o_mag b <= 0 \/ o_ivar b <= 0 -> m1 = -9999 /\ m2 = -9999).
Proof.
  intros cub bq sun vega fs d k s t out map_ r0 r1 nz d' s' K w rows nnls1 nnls2 rng1 rng2 z l a cur1 c1 cur1' cur2 c2 cur2'
    distmod lim kc dist bs B Hf Hr Hne Hrr Hnz Hz N1 C1 C2 V Ha HT HS Hbs E1 E2.
  destruct (L_C89_coefficients _ _ _ _ _ _ _ _ _ _ _ _ _ _ _ _ _ _ _ _ _ _ _ _ _ a _ _ _ _ _ _ B Hf Hr Hne Hrr Hnz Hz N1 C1 C2 V Ha E1 E2) as [_ HC].
  specialize (HC HT).
  destruct (built_fit _ _ _ _ _ _ _ _ _ _ _ _ _ _ _ _ _ _ _ _ _ B Hf Hr Hne Hrr Hnz nnls1 rng1 z l cur1 c1 cur1' eq_refl eq_refl N1 C1 V Hz E1) as (L1 & _ & _).
  clear E1 E2. subst c2.
  assert (HS2 : 0 < fold_right Rplus 0 (map (Rmult a) c1)).
  { replace (fold_right Rplus 0 (map (Rmult a) c1)) with (a * fold_right Rplus 0 c1); [apply Rmult_lt_0_compat; auto|].
    clear. induction c1 as [|x c IH]; cbn; [lra|]. rewrite <- IH. lra. }
  destruct (built_absmag _ _ _ _ _ _ _ _ _ _ _ _ _ _ _ _ _ _ _ _ _ B Hf Hr Hne Hrr Hnz distmod lim kc z c1 (map o_mag l) (map o_ivar l) dist bs)
    as (k1 & v1 & a1 & Ek1 & Ea1 & Ev1 & Lv1 & Hv1); auto; try (rewrite !map_length; auto).
  destruct (built_absmag _ _ _ _ _ _ _ _ _ _ _ _ _ _ _ _ _ _ _ _ _ B Hf Hr Hne Hrr Hnz distmod lim kc z (map (Rmult a) c1)
     (map o_mag (brighter a l)) (map o_ivar (brighter a l)) dist bs)
    as (k2 & v2 & a2 & Ek2 & Ea2 & Ev2 & Lv2 & Hv2); auto; try (unfold brighter; rewrite !map_length; auto).
  pose proof (L_C40_mapping R Num_R _ _ _ _ _ _ _ _ _ _ _ _ _ _ _ _ _ _ _ B) as (Hoo & Hm & HL & _).
  assert (KK : forall x y, a * x / (a * y / (1 + bs)) = x / (y / (1 + bs))).
  { intros x y. unfold Rdiv. rewrite !Rinv_mult. replace (a * x * (/ a * / y * / / (1 + bs))) with (a * / a * (x * (/ y * / / (1 + bs)))) by ring. rewrite Rinv_r by lra. ring. }
  assert (J : forall j n, nth_error (k_map K) j = Some n -> exists i b kj, nth_error l i = Some b /\ o_name b = n /\
    nth_error k1 j = Some kj /\ nth_error k2 j = Some kj /\
    ((0 < o_mag b -> 0 < o_ivar b -> nth_error v1 j = Some (-5/2 * log10 (o_mag b) - distmod z - kj) /\
                                     nth_error v2 j = Some (-5/2 * log10 (a * o_mag b) - distmod z - kj)) /\
     (o_mag b <= 0 \/ o_ivar b <= 0 -> nth_error v1 j = Some (-9999) /\ nth_error v2 j = Some (-9999)))).
  { intros j n Hn. destruct (nth_error (k_out K) j) as [no|] eqn:Eno.
    2: { exfalso. apply nth_error_None in Eno. assert (j < length (k_map K))%nat by (apply nth_error_Some; congruence). rewrite Hm in *. rewrite Hoo in *. lia. }
    destruct (Hv1 j no n Eno Hn) as (i & x1 & y1 & kj1 & J1 & I1 & Fx1 & Fy1 & K1 & Q1 & R1).
    destruct (Hv2 j no n Eno Hn) as (i2 & x2 & y2 & kj2 & J2 & I2 & Fx2 & Fy2 & K2 & Q2 & R2).
    rewrite J1 in J2. injection J2 as <-.
    assert (K12 : kj2 = kj1).
    { rewrite Q1, Q2. f_equal. f_equal.
      rewrite (L_C72_flux_determined _ _ _ _ _ _ _ _ _ _ _ _ _ Hrr Hnz (flux_scale _ _ _ _ _ _ _ _ _ a _ _ _ Fx1) Fx2),
              (L_C72_flux_determined _ _ _ _ _ _ _ _ _ _ _ _ _ Hrr Hnz (flux_scale _ _ _ _ _ _ _ _ _ a _ _ _ Fy1) Fy2). apply KK. }
    subst kj2. rewrite nth_error_map in I1. destruct (nth_error l i) as [b|] eqn:Eb; [|discriminate]. injection I1 as I1.
    exists i, b, kj1. split; auto. split; auto. split; auto. split; [congruence|].
    destruct (R1 (o_mag b) (o_ivar b)) as [P1 P2]; try (rewrite nth_error_map, Eb; reflexivity).
    destruct (R2 (a * o_mag b) (o_ivar b / (a * a))) as [P3 P4]; try (unfold brighter; rewrite !nth_error_map, Eb; reflexivity).
    assert (Haa : 0 < / (a * a)) by (apply Rinv_0_lt_compat, Rmult_lt_0_compat; auto). split.
    - intros G1 G2. split; [auto|]. rewrite <- K12. apply P3; [apply Rmult_lt_0_compat|unfold Rdiv; apply Rmult_lt_0_compat]; auto.
    - intros G. split; auto. apply P4. destruct G as [G|G]; [left|right].
      + rewrite <- (Rmult_0_r a). apply Rmult_le_compat_l; lra.
      + unfold Rdiv. rewrite <- (Rmult_0_l (/ (a * a))). apply Rmult_le_compat_r; lra. }
  split.
  - rewrite Ek1, Ek2. do 2 f_equal.
    destruct (L_C72_kcorrect _ _ _ _ _ _ _ _ _ _ _ _ _ _ _ _ _ _ _ _ _ z c1 bs B Hf Hr Hne Hrr Hnz) as (w1 & Ew1 & Lw1 & _); auto.
    destruct (L_C72_kcorrect _ _ _ _ _ _ _ _ _ _ _ _ _ _ _ _ _ _ _ _ _ z (map (Rmult a) c1) bs B Hf Hr Hne Hrr Hnz) as (w2 & Ew2 & Lw2 & _); auto; [rewrite map_length; auto|].
    assert (w1 = k1) by (rewrite Ek1 in Ew1; injection Ew1; auto). assert (w2 = k2) by (rewrite Ek2 in Ew2; injection Ew2; auto). subst w1 w2.
    apply nth_ext with (d := 0) (d' := 0); [congruence|]. intros j Hj.
    destruct (nth_error (k_map K) j) as [n|] eqn:En.
    + destruct (J j n En) as (_ & _ & kj & _ & _ & G1 & G2 & _). rewrite (nth_error_nth _ _ _ G1), (nth_error_nth _ _ _ G2). auto.
    + apply nth_error_None in En. rewrite Hm in En. rewrite Hoo in *. lia.
  - exists v1, v2, a1, a2. split; auto. split; auto. split; auto. split; auto. split; auto. split; auto. intros j n Hn.
    destruct (J j n Hn) as (i & b & kj & G1 & G2 & _ & _ & G3 & G4).
    destruct (Rlt_dec 0 (o_mag b)) as [X|X]; [destruct (Rlt_dec 0 (o_ivar b)) as [Y|Y]|].
    + destruct (G3 X Y) as [U1 U2]. exists i, b. do 2 eexists. split; [eauto|]. split; [eauto|]. split; [eauto|]. split; [eauto|]. split; [|intros; lra].
      intros _ _. rewrite log10_mult by auto. lra.
    + destruct G4 as [U1 U2]; [lra|]. exists i, b. do 2 eexists. split; [eauto|]. split; [eauto|]. split; [eauto|]. split; [eauto|]. split; [intros; lra|auto].
    + destruct G4 as [U1 U2]; [lra|]. exists i, b. do 2 eexists. split; [eauto|]. split; [eauto|]. split; [eauto|]. split; [eauto|]. split; [intros; lra|auto].
Qed.
Lemma E_C89_absmag : exists r d s K x c1 c2,
  let l := [("u", (2 * x, 1)); ("u", (2 * x, 4))]%string in
  let flux := model_flux lin d (s_rwave r_sed1) 6 [[1;1;2;2;1;1]] (redshift_grid 0 1 2) in
  Kcorrect lin bq0 sun0 sun0 r_files (r_cache r) Plain false (map o_name l) r_sed1 r_tmpl None None 0 1 2 = (d, s, Ok K) /\
  nnls_contract nnls_exact /\ told_apart flux 1 0 l /\ 0 < fold_right Rplus 0 c1 /\
  fit_object nnls_exact (fun _ => 0) (k_fit K) 0 (observed 0 l) 0 = Ok (Bare (vec c1), 0%nat) /\
  fit_object nnls_exact (fun _ => 0) (k_fit K) 0 (observed 0 (brighter 3 l)) 0 = Ok (Bare (vec c2), 0%nat).
Proof. exact E_C89_coefficients. Qed.

(** C43 for constructed objects: whenever responses_out and responses_map name the same bands in the same order (the
    default; or any selection of the input bands), the K-correction with band_shift equal to the redshift is
    -2.5 log10(1+z) in every output band with positive flux. *)
Lemma L_C43_constructed :
  forall cub bq sun vega fs d k abc responses (s : sed R) t out map_ r0 r1 nz d' s' K w rows z c,
    Kcorrect cub bq sun vega fs d k abc responses s t out map_ r0 r1 nz = (d', s', Ok K) -> k_out K = k_map K ->
    s_rflux s = table w rows -> rect w rows -> rows <> [] -> r0 < r1 -> (2 <= nz)%nat ->
    r0 <= z <= r1 -> -1 < z -> length c = length rows -> 0 < fold_right Rplus 0 c ->
    exists v, kcorrect K (Some (scal z)) (Some (vec c)) z = Ok (vec v) /\ length v = length (k_out K) /\
      forall j n, nth_error (k_out K) j = Some n ->
        exists x, model_flux cub d' (s_rwave s) w rows (redshift_grid r0 r1 nz) n c z x /\
          (0 < x -> nth_error v j = Some (-5/2 * log10 (1 + z))).
Proof.
  intros cub bq sun vega fs d k abc responses s t out map_ r0 r1 nz d' s' K w rows z c B HO Hf Hr Hne Hrr Hnz Hz H1 Lc HS.
  destruct (L_C72_kcorrect _ _ _ _ _ _ _ _ _ _ _ _ _ _ _ _ _ _ _ _ _ z c z B Hf Hr Hne Hrr Hnz) as (v & Ev & Lv & Hv); auto.
  exists v. split; auto. split; auto. intros j n Hn. destruct (Hv j n n Hn) as (x & y & Fx & Fy & E); [congruence|].
  exists x. split; auto. intro Px. rewrite E. rewrite (L_C72_flux_determined _ _ _ _ _ _ _ _ _ _ _ _ _ Hrr Hnz Fx Fy).
  do 3 f_equal. field. lra.
Qed.
Lemma E_C43_constructed : exists d' s' K,
  Kcorrect lin bq0 sun0 sun0 r_files [] Plain false ["u"%string] r_sed r_tmpl None None 0 1 2 = (d', s', Ok K) /\ k_out K = k_map K.
Proof.
  destruct r_built as (d' & s' & K & H). exists d', s', K. split; auto.
  pose proof (L_C40_mapping R Num_R _ _ _ _ _ _ _ _ _ _ _ _ _ _ _ _ _ _ _ H) as (-> & -> & _). reflexivity.
Qed.

(** C46 for constructed objects: whenever responses_out and responses_map name the same bands in the same order, the
    reconstructed absolute magnitude without band shift is -2.5 log10 of the flux of the model at redshift 0, minus the
    distance modulus. *)
Lemma L_C46_constructed :
  forall cub bq sun vega fs d k responses (s : sed R) t out map_ r0 r1 nz d' s' K w rows distmod lim kc z m iv c dist,
    Kcorrect cub bq sun vega fs d k false responses s t out map_ r0 r1 nz = (d', s', Ok K) -> k_out K = k_map K ->
    s_rflux s = table w rows -> rect w rows -> rows <> [] -> r0 < r1 -> (2 <= nz)%nat ->
    r0 <= z <= r1 -> r0 <= 0 <= r1 -> length m = length responses -> length iv = length responses ->
    length c = length rows -> 0 < fold_right Rplus 0 c ->
    let flux := model_flux cub d' (s_rwave s) w rows (redshift_grid r0 r1 nz) in
    exists v a, absmag_object distmod K 0 false true lim kc {| ko_z := z; ko_m := m; ko_iv := iv; ko_c := c; ko_d := dist |} = Ok a /\
      nth_error (parts a) 1 = Some (vec v) /\ length v = length (k_out K) /\
      forall j n, nth_error (k_out K) j = Some n -> exists x y, flux n c z x /\ flux n c 0 y /\
        (0 < x -> 0 < y -> nth_error v j = Some (-5/2 * log10 y - distmod z)).
Proof.
  intros cub bq sun vega fs d k responses s t out map_ r0 r1 nz d' s' K w rows distmod lim kc z m iv c dist B HO Hf Hr Hne Hrr Hnz Hz H0 Lm Liv Lc HS flux.
  destruct (built_tables _ _ _ _ _ _ _ _ _ _ _ _ _ _ _ _ _ _ _ _ _ B Hf Hr Hne Hrr Hnz) as (A & Ao & HK & _).
  pose proof (L_C40_mapping R Num_R _ _ _ _ _ _ _ _ _ _ _ _ _ _ _ _ _ _ _ B) as (_ & Hm & _ & _ & _ & _ & Hab & _ & _ & _ & _ & Hmap).
  assert (Hno : no_ab (k_fit K)) by (left; congruence).
  destruct (L_C72_reconstruct _ _ _ _ _ _ _ _ _ _ _ _ _ _ _ _ _ _ _ _ _ z c 0 B Hf Hr Hne Hrr Hnz) as [(mi & Emi & Lmi & Hmi) (om & Eom & Lom & Hom)]; auto; [lra|].
  destruct (L_C72_reconstruct _ _ _ _ _ _ _ _ _ _ _ _ _ _ _ _ _ _ _ _ _ 0 c 0 B Hf Hr Hne Hrr Hnz) as [_ (mo & Emo & Lmo & Hmo)]; auto; [lra|].
  destruct (L_C46_offset distmod K A Ao _ _ _ 0 lim kc {| ko_z := z; ko_m := m; ko_iv := iv; ko_c := c; ko_d := dist |} mi mo om HK Hno)
    as (v & a & Ea & Ev & Lv & Hv); auto; [split; [|split]; auto|].
  exists v, a. split; auto. split; auto. split; auto. intros j n Hn.
  destruct (Hmap j n) as (i & I1 & I2 & _); [rewrite <- Hm; congruence|].
  destruct (Hmi i n I2) as (x & Fx & Ex). destruct (Hom j n Hn) as (x' & Fx' & Ex'). destruct (Hmo j n Hn) as (y & Fy & Ey).
  replace ((1 + z) * (1 + 0) - 1) with z in * by lra. replace ((1 + 0) * (1 + 0) - 1) with 0 in * by lra.
  rewrite (L_C72_flux_determined _ _ _ _ _ _ _ _ _ _ _ _ _ Hrr Hnz Fx Fx') in *.
  exists x, y. split; auto. split; auto. intros Px Py. replace (x / (1 + 0)) with x in * by field. replace (y / (1 + 0)) with y in * by field.
  assert (Hj : (j < length (k_out K))%nat) by (apply nth_error_Some; congruence).
  specialize (Hv j Hj). unfold in_band in Hv. cbn [ko_z] in Hv.
  rewrite (nth_error_nth _ _ 0%nat I1), (nth_error_nth _ _ 0 Ex), (nth_error_nth _ _ 0 Ex'), (nth_error_nth _ _ 0 Ey) in Hv.
  rewrite Hv by auto. replace (x / x) with 1 by (field; lra). rewrite log10_1. f_equal. lra.
Qed.
Lemma E_C46_constructed : (exists d' s' K,
  Kcorrect lin bq0 sun0 sun0 r_files [] Plain false ["u"%string] r_sed r_tmpl None None 0 1 2 = (d', s', Ok K) /\ k_out K = k_map K) /\
  0 < fold_right Rplus 0 [1; 1/2].
Proof. split; [exact E_C43_constructed|cbn; lra]. Qed.

(** C18.  The maggies lie between the smallest and the largest ratio of the spectrum to the AB source at the points of the
    grids, for every nonnegative response bracketed by the SED.  So a positive spectrum has positive maggies as long as
    its interpolation is positive there. *)
Lemma L_C18_between :
  forall cub bq sun vega wave y r w yy sw f s a b,
    band cub bq sun vega wave y r w yy -> spectrum sw f s -> overlaps w sw -> brackets w sw ->
    (forall t, In t sw \/ In t w -> 0 <= spline cub w yy t) -> (exists t, In t w /\ 0 < spline cub w yy t) ->
    (forall t, In t sw \/ In t w -> a * ab_flux t <= spline cub sw f t <= b * ab_flux t) ->
    exists m, project_sed cub r s = Ok (scal m) /\ a <= m <= b.
Proof. exact bounded_flux. Qed.
Lemma E_C18_between : exists r s, band lin bq0 sun0 sun0 [1;2;3;4] [0;1;1;0] r [1;2;3;4] [0;1;1;0] /\
  spectrum [1/2;1;2;3;4;5] [1;1;2;2;1;1] s /\ overlaps [1;2;3;4] [1/2;1;2;3;4;5] /\ brackets [1;2;3;4] [1/2;1;2;3;4;5] /\
  forall t, 0 <= spline lin [1;2;3;4] [0;1;1;0] t.
Proof.
  destruct trapezium_band as [r Hr]. destruct (wide_spectrum [1;1;2;2;1;1] eq_refl) as [s Hs]. destruct wide_overlaps as [Ho Hb].
  exists r, s. repeat (split; [auto; fail|]). apply trapezium_nonneg.
Qed.
