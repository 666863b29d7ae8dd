(** Properties of the example programs (C94-C97): the proofs.  Prop_Scripts.v restates them. *)
From Coq Require Import String List Arith Lia Bool ZArith QArith Qreals Reals Lra.
From Verif Require Import Base BaseLemmas Num Interp Spec Utils UtilsProofs UtilsReal Sed Response Fitter FitSpec FitterProofs FitterThms FitRealThms AbThms
  FitEx Scripts ScriptsSpec ScriptsEx ScriptsProofs ScriptsReal.
Import ListNotations.
Local Open Scope R_scope.

(* STATEMENTS *)

(** Whatever the catalogue contains (flags, NaN, infinities, negative inverse variances), k_plot_test_gst prepares photometry in which every
    band is acceptable to the solver. *)
Lemma L_C94_gst_usable :
  forall vj vh vk (rows : list (gst_row xr)), Forall five_bands rows ->
    exists m iv nbad, gst_photometry vj vh vk rows = Ok (table 10 m, table 10 iv, nbad) /\
      length m = length rows /\ length iv = length rows /\ rect 10 m /\ rect 10 iv /\
      forall i k a v, entry m i k a -> entry iv i k v -> usable a v.
Proof.
  intros vj vh vk rows H. destruct (gst_photometry_rows vj vh vk rows H) as (nbad & E & _). rewrite Forall_forall in H.
  do 3 eexists. split; [exact E|]. rewrite !map_length. split; [auto|]. split; [auto|]. split; [|split].
  - apply rect_mapf. intros r Hr. destruct (gst_lens vj vh vk r (H r Hr)) as (L1 & _ & L2). unfold clean_m. rewrite length_zip. lia.
  - apply rect_mapf. intros r Hr. destruct (gst_lens vj vh vk r (H r Hr)) as (L1 & _ & L2). unfold clean_iv. rewrite length_zip. lia.
  - intros i k a v Ha Hv. apply (entry_map (fun r => clean_m (gst_m vj vh vk r) (gst_iv vj vh vk r))) in Ha as (r & R1 & R2).
    apply (entry_map (fun r => clean_iv (gst_m vj vh vk r) (gst_iv vj vh vk r))) in Hv as (r' & R1' & R2'). rewrite R1 in R1'. injection R1' as <-.
    eapply clean_usable; eauto.
Qed.
Lemma E_C94_gst_usable : exists r : gst_row xr, five_bands r /\ g_fuv r = NaN /\ In NaN (g_model_ivar r).
Proof. exists nan_row. cbn. unfold five_bands. cbn. auto 10. Qed.

(** So its fit returns coefficients for every object, or raises the RuntimeError of a solver that does not converge; no other exception. *)
Lemma L_C94_gst_fit :
  forall nnls rng (F : fitter xr) A x tab nt vj vh vk (rows : list (gst_row xr)) cur,
    nnls_shape nnls -> no_ab F -> ready F A 10 nt -> a_x A = map Fin x -> a_rows A = map (map Fin) tab -> grid_ok x ->
    Forall five_bands rows -> Forall (fun r => g_z r <> NaN) rows ->
    (exists c, length c = length rows /\ rect nt c /\ gst_coeffs nnls rng F vj vh vk rows cur = Ok (Bare (table nt c), cur)) \/
    gst_coeffs nnls rng F vj vh vk rows cur = Raise RuntimeError.
Proof.
  intros nnls rng F A x tab nt vj vh vk rows cur Hs Ha HF Hx Ht Hg H Hz. unfold gst_coeffs.
  destruct (gst_photometry_rows vj vh vk rows H) as (nbad & E & _). rewrite E. cbn [bind].
  rewrite Forall_forall in H, Hz.
  set (objs := map (fun r => {| o_z := g_z r; o_m := clean_m (gst_m vj vh vk r) (gst_iv vj vh vk r); o_iv := clean_iv (gst_m vj vh vk r) (gst_iv vj vh vk r) |}) rows).
  assert (G : Forall (good_obj 10) objs).
  { apply good_rows. intros r Hr. destruct (gst_lens vj vh vk r (H r Hr)) as (L1 & _ & L2). auto. }
  pose proof (fit_all_good nnls rng F A x tab 10 nt Hs Ha HF ltac:(lia) Hx Ht Hg objs cur G) as Q.
  unfold fit_objects, objs_z, objs_m, objs_iv, objs in Q. rewrite !map_map, map_length in Q. cbn [o_z o_m o_iv] in Q. exact Q.
Qed.
Lemma E_C94_gst_fit :
  nnls_shape (T := xr) ex_nnls /\ no_ab gst_fitter /\ ready gst_fitter gst_tab 10 1 /\ a_x gst_tab = map Fin [0; 1] /\
  a_rows gst_tab = map (map Fin) (repeat [1; 2; 3; 4; 5; 6; 7; 8; 9; 10] 2) /\ grid_ok [0; 1] /\
  Forall five_bands [nan_row; nan_row] /\ Forall (fun r => g_z r <> NaN) [nan_row; nan_row] /\ g_fuv nan_row = NaN.
Proof.
  split; [apply ex_nnls_shape|]. split; [left; reflexivity|]. split; [apply gst_ready|]. split; [reflexivity|]. split; [reflexivity|].
  split; [repeat constructor; lra|]. split; [repeat constructor|]. split; [|reflexivity].
  repeat (apply Forall_cons; [cbn; congruence|]). constructor.
Qed.

(** The same for k_plot_test_mtol; objects with a redshift that is NaN are not selected, so nothing has to be assumed about the redshifts. *)
Lemma L_C94_mtol_fit :
  forall nnls rng (F : fitter xr) A x tab nt (post : list (xr * nat)) (im : list (im_row xr)) cur,
    nnls_shape nnls -> no_ab F -> ready F A 5 nt -> a_x A = map Fin x -> a_rows A = map (map Fin) tab -> grid_ok x ->
    Forall five_bands_im im -> Forall (fun p => (snd p < length im)%nat) post ->
    (exists c, rect nt c /\ length c = Nat.min (100 * 100) (length (filter (fun p => nltb (fst p) (nlit (1 # 5))) post)) /\
       mtol_coeffs nnls rng F post im cur = Ok (Bare (table nt c), cur)) \/
    mtol_coeffs nnls rng F post im cur = Raise RuntimeError.
Proof.
  intros nnls rng F A x tab nt post im cur Hs Ha HF Hx Ht Hg H Hp. unfold mtol_coeffs, mtol_select.
  set (sel := firstn _ _).
  assert (Sel : forall p, In p sel -> (snd p < length im)%nat /\ fst p <> NaN).
  { intros p Q. apply (fun L => In_nth_error _ _ L) in Q. destruct Q as [n Q]. unfold sel in Q. rewrite nth_error_firstn in Q. destruct (n <? _)%nat; [|discriminate].
    apply nth_error_In in Q. apply filter_In in Q as [Q1 Q2]. rewrite Forall_forall in Hp. split; auto. intro N. rewrite N in Q2. discriminate. }
  assert (LS : length sel = Nat.min (100 * 100) (length (filter (fun p => nltb (fst p) (nlit (1 # 5))) post))) by apply firstn_length.
  rewrite <- LS. clearbody sel. clear LS Hp post.
  assert (M : exists rows, mapM (fun p : xr * nat => match nth_error im (snd p) with Some r => Ok (fst p, r) | None => Raise IndexError end) sel = Ok rows /\
     length rows = length sel /\ forall z r, In (z, r) rows -> z <> NaN /\ five_bands_im r).
  { induction sel as [|p sel IH].
    - exists []. split; [reflexivity|]. split; [reflexivity|]. intros z r [].
    - destruct IH as (rows & E & L & Q); [intros; apply Sel; right; auto|]. destruct (Sel p (or_introl eq_refl)) as [P1 P2].
      destruct (nth_error im (snd p)) as [r|] eqn:Er; [|apply nth_error_None in Er; lia].
      exists ((fst p, r) :: rows). cbn [mapM]. rewrite Er. cbn [bind]. rewrite E. cbn [bind length]. split; [reflexivity|]. split; [congruence|].
      intros z r0 [H0|H0]; [injection H0 as <- <-|eapply Q; eauto]. split; auto.
      apply nth_error_In in Er. rewrite Forall_forall in H. auto. }
  destruct M as (rows & E & L & Q). rewrite E. cbn [bind]. rewrite <- L.
  assert (H5 : Forall five_bands_im (map snd rows)) by (rewrite Forall_map, Forall_forall; intros [z r] Hr; eapply Q; eauto).
  destruct (mtol_photometry_rows (map snd rows) H5) as (nbad & EP & _). rewrite EP. cbn [bind].
  set (objs := map (fun p => {| o_z := fst p; o_m := clean_m (mt_m (snd p)) (mt_iv (snd p)); o_iv := clean_iv (mt_m (snd p)) (mt_iv (snd p)) |}) rows).
  assert (G : Forall (good_obj 5) objs).
  { apply good_rows. intros [z r] Hr. destruct (Q z r Hr) as [Q1 Q2]. destruct (mt_lens r Q2) as (L1 & _ & L2). auto. }
  pose proof (fit_all_good nnls rng F A x tab 5 nt Hs Ha HF ltac:(lia) Hx Ht Hg objs cur G) as R.
  unfold fit_objects, objs_z, objs_m, objs_iv, objs in R. rewrite !map_map, map_length in R. cbn [o_z o_m o_iv] in R. rewrite !map_map.
  destruct R as [(c & R1 & R2 & R3)|R]; [left; exists c; auto|right; auto].
Qed.
Lemma E_C94_mtol_fit :
  nnls_shape (T := xr) ex_nnls /\ no_ab (five_fitter Plain false) /\ ready (five_fitter Plain false) five_tab 5 1 /\ a_x five_tab = map Fin [0; 1] /\
  a_rows five_tab = map (map Fin) (repeat [1; 2; 3; 4; 5] 2) /\ grid_ok [0; 1] /\
  Forall five_bands_im [nan_im; nan_im] /\ Forall (fun p => (snd p < length [nan_im; nan_im])%nat) [(Fin 0.1, 1%nat); (NaN, 0%nat); (Fin 0, 1%nat)] /\
  length (filter (fun p => nltb (fst p) (nlit (1 # 5))) [(Fin 0.1, 1%nat); (NaN, 0%nat); (Fin 0, 1%nat)]) = 2%nat.
Proof.
  split; [apply ex_nnls_shape|]. split; [left; reflexivity|]. split; [apply five_ready|]. split; [reflexivity|]. split; [reflexivity|].
  split; [repeat constructor; lra|]. split; [repeat constructor|]. split; [repeat (apply Forall_cons; [cbn; lia|]); constructor|].
  assert (L : forall r, (r < 1 / 5)%R -> nltb (Fin r) (nlit (1 # 5)) = true).
  { intros r Hr. change (Rltb r (Q2R (1 # 5)) = true). apply Rltb_true. unfold Q2R; cbn. lra. }
  cbn [filter fst]. rewrite !L by lra. reflexivity.
Qed.

(** k_plot_test_sdss does not clean its photometry: one flux that is NaN, of an object in the redshift range, ends the program with an exception. *)
Lemma L_C94_sdss_raises :
  forall nnls rng (F : fitter xr) A nt (zs : list xr) (rows : list (im_row xr)) cur i k z r,
    nnls_shape nnls -> f_kind F = SDSS -> f_abc F = true -> ready F A 5 nt -> length zs = length rows -> Forall five_bands_im rows ->
    nth_error zs i = Some z -> nth_error rows i = Some r -> ~ outside A z -> nth_error (i_flux r) k = Some NaN ->
    exists e, sdss_coeffs nnls rng F zs rows cur = Raise e.
Proof.
  intros nnls rng F A nt zs rows cur i k z r Hs Hk Ha HF Hz H Ei Er Ho En. pose proof HF as (HA & Hr & Hn & HT).
  destruct (sdss_explicit nnls rng F zs rows cur Hk Ha Hr Hz H) as (Q1 & Q2 & Q3 & Q4 & Q5).
  set (objs := zip (fun z p => {| o_z := z; o_m := ab_m (fst p); o_iv := ab_iv (snd p) |}) zs (zip pair (sd_m rows) (sd_iv rows))).
  assert (Lm : length (sd_m rows) = length zs) by (unfold sd_m; rewrite map_length; congruence).
  assert (Lv : length (sd_iv rows) = length zs) by (unfold sd_iv; rewrite map_length; congruence).
  assert (HF' : ready (without_ab F) A 5 nt) by exact HF. assert (NAB : no_ab (without_ab F)) by (left; reflexivity).
  assert (OZ : map o_z objs = zs /\ map o_m objs = map ab_m (sd_m rows) /\ map o_iv objs = map ab_iv (sd_iv rows)).
  { unfold objs. clear -Lm Lv. revert Lm Lv. generalize (sd_m rows) (sd_iv rows). induction zs as [|z zs IH]; intros [|a m] [|b v] L1 L2; try discriminate; auto.
    cbn [zip map o_z o_m o_iv fst snd]. destruct (IH m v) as (-> & -> & ->); auto. }
  destruct OZ as (OZ & OM & OV).
  assert (FE : sdss_coeffs nnls rng F zs rows cur = fit_objects nnls rng (without_ab F) 5 0 objs cur).
  { rewrite Q5. unfold fit_objects, objs_z, objs_m, objs_iv. rewrite OZ, OM, OV. reflexivity. }
  assert (OK : Forall (obj_ok 5) objs).
  { rewrite Forall_forall. intros o HO. split.
    - apply (rect_In 5 _ Q2). rewrite <- OM. apply in_map; auto.
    - apply (rect_In 5 _ Q3). rewrite <- OV. apply in_map; auto. }
  rewrite Forall_forall in H. pose proof (H r (nth_error_In _ _ Er)) as (L1 & L2 & L3).
  assert (K5 : (k < 5)%nat) by (rewrite <- L1; apply nth_error_Some; congruence).
  assert (Eobj : exists o, nth_error objs i = Some o /\ o_z o = z /\ nth_error (o_m o) k = Some NaN /\ exists v, nth_error (o_iv o) k = Some v).
  { destruct (nth_error objs i) as [o|] eqn:Eo.
    - exists o. split; auto. assert (Z := nth_map_list o_z _ _ _ Eo). rewrite OZ, Ei in Z. injection Z as ->. split; auto.
      assert (M := nth_map_list o_m _ _ _ Eo). rewrite OM, nth_error_map in M. unfold sd_m in M. rewrite nth_error_map, Er in M. cbn [option_map] in M. injection M as <-.
      split.
      + unfold ab_m. rewrite nth_error_zip, nth_error_seq, (proj2 (Nat.ltb_lt k 5) K5), nth_error_zip, En, (nth_error_nth' (i_ext r) (Fin 0)) by lia. reflexivity.
      + exists (nth k (o_iv o) (Fin 0)). apply nth_error_nth'. rewrite Forall_forall in OK. destruct (OK o (nth_error_In _ _ Eo)) as [_ ->]. auto.
    - exfalso. apply nth_error_None in Eo. assert (length objs = length zs) by (rewrite <- OZ; rewrite map_length; reflexivity).
      assert (i < length zs)%nat by (apply nth_error_Some; congruence). lia. }
  destruct Eobj as (o & Eo & EZ & EN & v & EV).
  assert (BAD : exists i m iv, nth_error (o_m o) i = Some m /\ nth_error (o_iv o) i = Some iv /\ ~ usable m iv).
  { exists k, NaN, v. split; auto. split; auto. intros [(u & U) _]. discriminate. }
  rewrite FE. destruct (Nat.eq_dec (length objs) 1) as [L|L].
  - destruct objs as [|o' [|]]; try discriminate. destruct i as [|i]; [|destruct i; discriminate]. injection Eo as ->.
    rewrite (L_C27_batch_of_one _ _ _ _ _ A 5 nt _ _ Hs NAB HF') by (try lia; inversion OK; auto).
    rewrite (L_C59_unusable_band_raises nnls rng (without_ab F) A 5 nt 0 o cur NAB HF') by (try lia; try (inversion OK; auto; fail); auto; rewrite EZ; auto).
    eauto.
  - apply (L_C59_batch_raises nnls rng (without_ab F) A 5 nt 0 objs o cur Hs NAB HF'); auto; try lia.
    + eapply nth_error_In; eauto.
    + rewrite EZ. auto.
Qed.
Lemma E_C94_sdss_raises :
  nnls_shape (T := xr) ex_nnls /\ f_kind (five_fitter SDSS true) = SDSS /\ f_abc (five_fitter SDSS true) = true /\ ready (five_fitter SDSS true) five_tab 5 1 /\
  Forall five_bands_im [nan_im] /\ ~ outside five_tab (Fin (1 / 2)) /\ nth_error (i_flux nan_im) 2 = Some NaN.
Proof.
  split; [apply ex_nnls_shape|]. split; [reflexivity|]. split; [reflexivity|]. split; [apply five_ready|]. split; [repeat constructor|]. split; [|reflexivity].
  intros [Q|Q]; cbn in Q; unfold Rltb in Q; match type of Q with context [Rlt_dec ?a ?b] => destruct (Rlt_dec a b) end; lra || discriminate.
Qed.

(** On a catalogue of finite numbers k_plot_test_gst passes to the fit, in every band, the AB magnitude of the catalogue corrected for extinction,
    with the relative error of the catalogue or the floor, whichever is larger; bands that are not measured get inverse variance 0; and the
    number it reports as nbad is 0 unless the catalogue has negative inverse variances. *)
Lemma L_C95_gst_values :
  forall vj vh vk (rows : list (gst_row R)), Forall five_bands rows ->
    exists m iv nbad, gst_photometry (Fin vj) (Fin vh) (Fin vk) (map fin_row rows) = Ok (table 10 m, table 10 iv, nbad) /\
      (Forall (fun r => Forall (Rle 0) (g_model_ivar r)) rows -> nbad = 0%nat) /\
      forall i k r, nth_error rows i = Some r -> (k < 10)%nat ->
        exists x y, entry m i k x /\ entry iv i k y /\
          let fl := nth k floors10 0 in let A := ext_mag r k in
          ((k < 2)%nat -> let '(zp, f, e) := galex_col r k in
             (~ galex_measured f e -> x = Fin 0 /\ y = Fin 0) /\
             (galex_measured f e -> stands_for x y (f * pow10 (-0.4 * (zp - A))) (Rmax fl (Rabs (e / f))))) /\
          ((2 <= k < 7)%nat -> 
             let f := nth (k - 2) (g_model r) 0 in let w := nth (k - 2) (g_model_ivar r) 0 in let a := nth (k - 2) abfix 0 in
             let F := f * 1e-9 * pow10 (-0.4 * (a - A)) in
             (w < 0 -> x = Fin 0 /\ y = Fin 0) /\ (0 <= w -> x = Fin F) /\ (w = 0 -> y = Fin 0) /\
             (0 < w -> f <> 0 -> stands_for x y F (Rmax fl (rel_error f w)))) /\
          ((7 <= k)%nat -> let '(v, mag, sig) := tmass_col vj vh vk r k in
             (~ tmass_measured mag sig -> x = Fin 0 /\ y = Fin 0) /\
             (tmass_measured mag sig -> stands_for x y (pow10 (-0.4 * (mag + v - A))) (Rmax fl (ln 10 / 2.5 * sig)))).
Proof.
  intros vj vh vk rows H.
  assert (H' : Forall five_bands (map fin_row rows)).
  { rewrite Forall_map. eapply Forall_impl; [|exact H]. intros r [L1 L2]. unfold five_bands. cbn [fin_row g_model g_model_ivar]. rewrite !map_length. auto. }
  destruct (gst_photometry_rows (Fin vj) (Fin vh) (Fin vk) _ H') as (nbad & E & E0). rewrite Forall_forall in H.
  do 3 eexists. split; [exact E|].
  assert (RAW : forall r, In r rows -> forall k, (k < 10)%nat -> exists a b, nth_error (rraw_m vj vh vk r) k = Some a /\ nth_error (rraw_iv vj vh vk r) k = Some b).
  { intros r Hr k Hk. destruct (H r Hr) as [L1 L2].
    assert (LL : length (rraw_m vj vh vk r) = 10%nat /\ length (rraw_iv vj vh vk r) = 10%nat).
    { unfold rraw_m, rraw_iv, rab_m, rab_iv. rewrite !app_length, !map_length, !length_zip, L1, L2. auto. }
    exists (nth k (rraw_m vj vh vk r) 0), (nth k (rraw_iv vj vh vk r) 0). split; apply nth_error_nth'; lia. }
  assert (RN : forall r k, In r rows -> Forall (Rle 0) (g_model_ivar r) -> forall b, nth_error (rraw_iv vj vh vk r) k = Some b -> 0 <= b).
  { intros r k Hr Hn b Hb. apply nth_error_In in Hb. unfold rraw_iv in Hb. cbn [app In] in Hb. rewrite in_app_iff in Hb. cbn [In] in Hb.
    assert (Q : forall t, t <> 0 -> 0 <= 1 / t ^ 2) by (intros t Ht; left; apply Rdiv_lt_0_compat; [lra|apply pow2_gt_0; auto]).
    assert (G : forall zp f e, 0 <= rgalex_iv zp f e).
    { intros zp f e. unfold rgalex_iv. destruct (galex_ok _ _) eqn:G; [|lra]. apply galex_ok_fin in G as (_ & _ & _ & He). apply Q.
      apply Rmult_integral_contrapositive_currified; auto. apply pow10_neq0. }
    assert (T : forall v m s, 0 <= rtmass_iv v m s).
    { intros v m s. unfold rtmass_iv. destruct (tmass_ok _ _) eqn:G'; [|lra]. apply tmass_ok_fin in G' as [_ Hs]. apply Q. pose proof ln10_pos'.
      pose proof (pow10_neq0 (-0.4 * (m + v))). repeat apply Rmult_integral_contrapositive_currified; auto; lra. }
    destruct Hb as [<-|[<-|[Hb|[<-|[<-|[<-|[]]]]]]]; auto. apply in_map_iff in Hb as (u & <- & Hu). apply In_nth_error in Hu as [j Hj].
    unfold rab_iv in Hj. rewrite nth_error_zip in Hj. destruct (nth_error abfix j) as [a|]; [|discriminate]. destruct (nth_error (g_model_ivar r) j) as [w|] eqn:Ew; [|discriminate].
    injection Hj as <-. apply nth_error_In in Ew. rewrite Forall_forall in Hn. apply Hn in Ew. unfold Rdiv.
    assert (0 < / pow10 (-0.4 * a) ^ 2) by (apply Rinv_0_lt_compat, pow_lt, pow10_pos).
    apply Rmult_le_pos; [|lra]. apply Rmult_le_pos; [lra|]. left. apply Rinv_0_lt_compat.
      first [apply pow_lt, pow10_pos | repeat apply Rmult_lt_0_compat; try apply pow10_pos; lra]. }
  split.
  - intro Hn. apply E0. rewrite Forall_map, Forall_forall. intros r Hr. rewrite Forall_forall in Hn. specialize (Hn r Hr).
    rewrite Forall_forall. intros bb Hbb. apply In_nth_error in Hbb as [k Hk]. rewrite nth_error_zip in Hk.
    destruct (lt_dec k 10) as [K|K].
    + destruct (RAW r Hr k K) as (a & b & Ra & Rb). destruct (gst_entry vj vh vk r k a b Ra Rb K) as [G1 G2]. rewrite G1, G2 in Hk. injection Hk as <-.
      apply kept; [apply floors10_pos; auto|apply rex_pos|eapply RN; eauto].
    + assert (five_bands (fin_row r)) as F5 by (rewrite Forall_map, Forall_forall in H'; apply H'; auto).
      destruct (gst_lens (Fin vj) (Fin vh) (Fin vk) _ F5) as (L1 & _ & L2).
      rewrite (proj2 (nth_error_None _ k)) in Hk by lia. discriminate.
  - intros i k r Hi Hk. assert (Hr : In r rows) by (eapply nth_error_In; eauto).
    destruct (RAW r Hr k Hk) as (a & b & Ra & Rb). destruct (gst_entry vj vh vk r k a b Ra Rb Hk) as [G1 G2]. cbv zeta in G1, G2.
    destruct (clean_entry _ _ _ _ _ G1 G2) as [C1 C2].
    set (p := rex (g_ext r) (nth k ext_coeff 0 / 2.751)) in *. set (fl := nth k floors10 0) in *.
    do 2 eexists. split; [|split].
    { apply (entry_map (fun r => clean_m (gst_m (Fin vj) (Fin vh) (Fin vk) r) (gst_iv (Fin vj) (Fin vh) (Fin vk) r))). exists (fin_row r). split; [apply nth_map_list; exact Hi|exact C1]. }
    { apply (entry_map (fun r => clean_iv (gst_m (Fin vj) (Fin vh) (Fin vk) r) (gst_iv (Fin vj) (Fin vh) (Fin vk) r))). exists (fin_row r). split; [apply nth_map_list; exact Hi|exact C2]. }
    assert (Hp : 0 < p) by apply rex_pos. assert (Hf : 0 < fl) by (apply floors10_pos; auto).
    assert (EP : forall u, pow10 (-0.4 * u) * p = pow10 (-0.4 * (u - ext_mag r k))).
    { intro u. unfold p, rex. rewrite <- pow10_plus. f_equal. unfold ext_mag. ring_simplify. lra. }
    cbv zeta. fold fl. split; [|split]; intro K.
    + assert (GX : forall zp f e, a = rgalex_m zp f e -> b = rgalex_iv zp f e ->
        (~ galex_measured f e -> (if bad (Fin (a * p)) (Fin (out_iv fl p a b)) then Fin 0 else Fin (a * p)) = Fin 0 /\
           (if bad (Fin (a * p)) (Fin (out_iv fl p a b)) then Fin 0 else Fin (out_iv fl p a b)) = Fin 0) /\
        (galex_measured f e -> stands_for (if bad (Fin (a * p)) (Fin (out_iv fl p a b)) then Fin 0 else Fin (a * p))
           (if bad (Fin (a * p)) (Fin (out_iv fl p a b)) then Fin 0 else Fin (out_iv fl p a b)) (f * pow10 (-0.4 * (zp - ext_mag r k))) (Rmax fl (Rabs (e / f))))).
      { intros zp f e Ea Eb. unfold rgalex_m in Ea. unfold rgalex_iv in Eb. destruct (galex_ok (Fin f) (Fin e)) eqn:G.
        - apply galex_ok_fin in G. split; [tauto|]. intros _. destruct G as (_ & Gf & _ & Ge).
          assert (S : 0 < pow10 (-0.4 * zp)) by apply pow10_pos.
          assert (AN : a <> 0) by (subst a; apply Rmult_integral_contrapositive_currified; auto; lra).
          assert (BP : 0 < b).
          { subst b. apply Rdiv_lt_0_compat; [lra|]. apply pow2_gt_0. apply Rmult_integral_contrapositive_currified; auto. lra. }
          rewrite kept by (auto; lra). destruct (out_measured fl p a b Hf Hp AN BP) as [O1 O2]. split.
          + f_equal. subst a. rewrite Rmult_assoc, EP. reflexivity.
          + exists (out_iv fl p a b). split; auto. split; auto. rewrite <- EP, <- Rmult_assoc, <- Ea, O2. f_equal. subst a b. apply rel_error_galex; auto.
        - split; [|intro Q; apply galex_ok_fin in Q; congruence]. intros _. subst a b. rewrite out_zero, Rmult_0_l. rewrite bad_fin, Rltb_false by lra. auto. }
      destruct k as [|[|k]]; [| |lia]; cbn in Ra, Rb; injection Ra as <-; injection Rb as <-; cbn [galex_col]; apply GX; reflexivity.
    + assert (SB := sdss_band fl p (nth (k - 2) (g_model r) 0) (nth (k - 2) (g_model_ivar r) 0) (nth (k - 2) abfix 0) Hf Hp). cbv zeta in SB.
      destruct (H r Hr) as [L1 L2].
      assert (EA : a = nth (k - 2) (g_model r) 0 * pow10 (-0.4 * nth (k - 2) abfix 0) * 1e-9).
      { destruct (g_model r) as [|m0 [|m1 [|m2 [|m3 [|m4 [|]]]]]] eqn:EM; try discriminate. unfold rraw_m in Ra. rewrite EM in Ra.
        destruct k as [|[|[|[|[|[|[|k]]]]]]]; try lia; unfold rab_m, abfix in Ra; cbn [app map zip nth_error] in Ra; injection Ra as <-; unfold abfix; cbn [Nat.sub nth]; reflexivity. }
      assert (EB : b = nth (k - 2) (g_model_ivar r) 0 / pow10 (-0.4 * nth (k - 2) abfix 0) ^ 2 * 1e18).
      { destruct (g_model_ivar r) as [|m0 [|m1 [|m2 [|m3 [|m4 [|]]]]]] eqn:EM; try discriminate. unfold rraw_iv in Rb. rewrite EM in Rb.
        destruct k as [|[|[|[|[|[|[|k]]]]]]]; try lia; unfold rab_iv, abfix in Rb; cbn [app map zip nth_error] in Rb; injection Rb as <-; unfold abfix; cbn [Nat.sub nth]; reflexivity. }
      rewrite <- EA, <- EB in SB.
      replace (nth (k - 2) (g_model r) 0 * 1e-9 * pow10 (-0.4 * (nth (k - 2) abfix 0 - ext_mag r k))) with (a * p); [exact SB|].
      rewrite EA, <- EP. ring.
    + assert (TX : forall v mag sig, a = rtmass_m v mag sig -> b = rtmass_iv v mag sig ->
        (~ tmass_measured mag sig -> (if bad (Fin (a * p)) (Fin (out_iv fl p a b)) then Fin 0 else Fin (a * p)) = Fin 0 /\
           (if bad (Fin (a * p)) (Fin (out_iv fl p a b)) then Fin 0 else Fin (out_iv fl p a b)) = Fin 0) /\
        (tmass_measured mag sig -> stands_for (if bad (Fin (a * p)) (Fin (out_iv fl p a b)) then Fin 0 else Fin (a * p))
           (if bad (Fin (a * p)) (Fin (out_iv fl p a b)) then Fin 0 else Fin (out_iv fl p a b)) (pow10 (-0.4 * (mag + v - ext_mag r k))) (Rmax fl (ln 10 / 2.5 * sig)))).
      { intros v mag sig Ea Eb. unfold rtmass_m in Ea. unfold rtmass_iv in Eb. destruct (tmass_ok (Fin mag) (Fin sig)) eqn:G.
        - apply tmass_ok_fin in G. split; [tauto|]. intros _. destruct G as [_ Gs]. pose proof ln10_pos' as LN.
          assert (S : 0 < pow10 (-0.4 * (mag + v))) by apply pow10_pos.
          assert (U : 0 < ln 10 / 2.5 * sig) by (apply Rmult_lt_0_compat; lra).
          assert (Eb' : b = 1 / (a * (ln 10 / 2.5 * sig)) ^ 2) by (rewrite Eb, Ea; replace (pow10 (-0.4 * (mag + v)) * ln 10 / 2.5 * sig) with (pow10 (-0.4 * (mag + v)) * (ln 10 / 2.5 * sig)) by (unfold Rdiv; ring); reflexivity).
          assert (AP : 0 < a) by (rewrite Ea; auto).
          assert (BP : 0 < b). { rewrite Eb'. apply Rdiv_lt_0_compat; [lra|]. apply pow_lt. apply Rmult_lt_0_compat; auto. }
          rewrite kept by (auto; lra). destruct (out_measured fl p a b Hf Hp ltac:(lra) BP) as [O1 O2]. split.
          + f_equal. rewrite Ea. apply EP.
          + exists (out_iv fl p a b). split; auto. split; auto. rewrite <- EP, <- Ea, O2. f_equal. rewrite Eb'. apply rel_error_pow; auto.
        - split; [|intro Q; apply tmass_ok_fin in Q; congruence]. intros _. subst a b. rewrite out_zero, Rmult_0_l. rewrite bad_fin, Rltb_false by lra. auto. }
      destruct (H r Hr) as [L1 L2].
      destruct (g_model r) as [|m0 [|m1 [|m2 [|m3 [|m4 [|]]]]]] eqn:EM; try discriminate. unfold rraw_m in Ra. rewrite EM in Ra.
      destruct (g_model_ivar r) as [|w0 [|w1 [|w2 [|w3 [|w4 [|]]]]]] eqn:EW; try discriminate. unfold rraw_iv in Rb. rewrite EW in Rb.
      do 7 (destruct k as [|k]; [lia|]). unfold rab_m, abfix in Ra; unfold rab_iv, abfix in Rb. destruct k as [|[|[|k]]]; [| | |lia]; cbn [app map zip nth_error] in Ra, Rb; injection Ra as <-; injection Rb as <-; cbn [tmass_col]; apply TX; reflexivity.
Qed.
Lemma E_C95_gst_values : exists r : gst_row R, five_bands r /\ Forall (Rle 0) (g_model_ivar r) /\ galex_measured (g_fuv r) (g_fuverr r) /\ ~ galex_measured (g_nuv r) (g_nuverr r) /\
  tmass_measured (g_j r) (g_jsig r).
Proof.
  exists {| g_fuv := 10; g_fuverr := 1; g_nuv := -99; g_nuverr := -99; g_model := [1; 2; 3; 4; 5]; g_model_ivar := [1; 2; 3; 4; 5];
     g_j := 14; g_jsig := 0.1; g_h := 0; g_hsig := 1; g_k := 12; g_ksig := 0; g_ext := 0.1; g_z := 0.2 |}.
  unfold five_bands, galex_measured, tmass_measured. cbn. split; [auto|]. split; [repeat (apply Forall_cons; [lra|]); constructor|].
  split; [repeat split; lra|]. split; [intros (Q & _); lra|]. split; lra.
Qed.

(** The same for k_plot_test_mtol. *)
Lemma L_C95_mtol_values :
  forall (rows : list (im_row R)), Forall five_bands_im rows ->
    exists m iv nbad, mtol_photometry (map fin_im rows) = Ok (table 5 m, table 5 iv, nbad) /\
      (Forall (fun r => Forall (Rle 0) (i_ivar r)) rows -> nbad = 0%nat) /\
      forall i k r, nth_error rows i = Some r -> (k < 5)%nat ->
        exists x y, entry m i k x /\ entry iv i k y /\
          let fl := nth k floors5 0 in let f := nth k (i_flux r) 0 in let w := nth k (i_ivar r) 0 in
          let F := f * 1e-9 * pow10 (-0.4 * (nth k abfix 0 - nth k (i_ext r) 0)) in
          (w < 0 -> x = Fin 0 /\ y = Fin 0) /\ (0 <= w -> x = Fin F) /\ (w = 0 -> y = Fin 0) /\
          (0 < w -> f <> 0 -> stands_for x y F (Rmax fl (rel_error f w))).
Proof.
  intros rows H.
  assert (H' : Forall five_bands_im (map fin_im rows)).
  { rewrite Forall_map. eapply Forall_impl; [|exact H]. intros r (L1 & L2 & L3). unfold five_bands_im. cbn [fin_im i_flux i_ivar i_ext]. rewrite !map_length. auto. }
  destruct (mtol_photometry_rows _ H') as (nbad & E & E0). rewrite Forall_forall in H.
  do 3 eexists. split; [exact E|].
  assert (RAW : forall r, In r rows -> forall k, (k < 5)%nat ->
    let a := nth k abfix 0 in
    nth_error (rab_m (i_flux r)) k = Some (nth k (i_flux r) 0 * pow10 (-0.4 * a)) /\
    nth_error (rab_iv (i_ivar r)) k = Some (nth k (i_ivar r) 0 / pow10 (-0.4 * a) ^ 2) /\ nth_error (i_ext r) k = Some (nth k (i_ext r) 0)).
  { intros r Hr k Hk. destruct (H r Hr) as (L1 & L2 & L3). cbv zeta. unfold rab_m, rab_iv. rewrite !nth_error_zip, (nth_error_nth' abfix 0) by exact Hk.
    rewrite (nth_error_nth' (i_flux r) 0), (nth_error_nth' (i_ivar r) 0), (nth_error_nth' (i_ext r) 0) by lia. auto. }
  split.
  - intro Hn. apply E0. rewrite Forall_map, Forall_forall. intros r Hr. rewrite Forall_forall in Hn. specialize (Hn r Hr).
    rewrite Forall_forall. intros bb Hbb. apply In_nth_error in Hbb as [k Hk]. rewrite nth_error_zip in Hk. destruct (H r Hr) as (L1 & L2 & L3).
    destruct (lt_dec k 5) as [K|K].
    + destruct (RAW r Hr k K) as (Ra & Rb & Re). destruct (mtol_entry r k _ _ _ Ra Rb Re K) as [G1 G2]. rewrite G1, G2 in Hk. injection Hk as <-.
      apply kept; [apply floors5_pos; auto|apply pow10_pos|]. assert (0 < / pow10 (-0.4 * nth k abfix 0) ^ 2) by (apply Rinv_0_lt_compat, pow_lt, pow10_pos).
      assert (0 <= nth k (i_ivar r) 0) by (rewrite Forall_forall in Hn; apply Hn, nth_In; lia). unfold Rdiv. apply Rmult_le_pos; [|lra]. apply Rmult_le_pos; [lra|]. left. apply Rinv_0_lt_compat.
      first [apply pow_lt, pow10_pos | repeat apply Rmult_lt_0_compat; try apply pow10_pos; lra].
    + assert (five_bands_im (fin_im r)) as F5 by (rewrite Forall_map, Forall_forall in H'; apply H'; auto).
      destruct (mt_lens _ F5) as (Q1 & _ & Q2).
      rewrite (proj2 (nth_error_None _ k)) in Hk by lia. discriminate.
  - intros i k r Hi Hk. assert (Hr : In r rows) by (eapply nth_error_In; eauto).
    destruct (RAW r Hr k Hk) as (Ra & Rb & Re). destruct (mtol_entry r k _ _ _ Ra Rb Re Hk) as [G1 G2]. cbv zeta in G1, G2.
    destruct (clean_entry _ _ _ _ _ G1 G2) as [C1 C2].
    do 2 eexists. split; [|split].
    { apply (entry_map (fun r => clean_m (mt_m r) (mt_iv r))). exists (fin_im r). split; [apply nth_map_list; exact Hi|exact C1]. }
    { apply (entry_map (fun r => clean_iv (mt_m r) (mt_iv r))). exists (fin_im r). split; [apply nth_map_list; exact Hi|exact C2]. }
    set (p := pow10 (0.4 * nth k (i_ext r) 0)). assert (Hp : 0 < p) by apply pow10_pos.
    assert (SB := sdss_band (nth k floors5 0) p (nth k (i_flux r) 0) (nth k (i_ivar r) 0) (nth k abfix 0) (floors5_pos k Hk) Hp). cbv zeta in SB |- *.
    replace (nth k (i_flux r) 0 * 1e-9 * pow10 (-0.4 * (nth k abfix 0 - nth k (i_ext r) 0))) with (nth k (i_flux r) 0 * pow10 (-0.4 * nth k abfix 0) * 1e-9 * p); [exact SB|].
    unfold p. replace (-0.4 * (nth k abfix 0 - nth k (i_ext r) 0)) with (-0.4 * nth k abfix 0 + 0.4 * nth k (i_ext r) 0) by lra. rewrite pow10_plus. ring.
Qed.
Lemma E_C95_mtol_values : exists r : im_row R, five_bands_im r /\ Forall (Rle 0) (i_ivar r).
Proof. exists {| i_flux := [1; 2; 3; 4; 5]; i_ivar := [1; 2; 3; 0; 5]; i_ext := [0.1; 0.1; 0.1; 0.1; 0.1] |}. unfold five_bands_im. cbn. split; [auto|].
  repeat (apply Forall_cons; [lra|]). constructor. Qed.

(** In k_plot_test_sdss the photometry that is fit is the flux of the catalogue corrected for extinction and to the AB system, with the relative
    error of the catalogue. *)
Lemma L_C95_sdss_values :
  forall (rows : list (im_row R)), Forall five_bands_im rows ->
    let P := sdss_photometry (map fin_im rows) in
    exists m iv, sdss_ab_correct (fst P) (Some (snd P)) default_abfix = Ok (table 5 m, Some (table 5 iv)) /\
      forall i k r, nth_error rows i = Some r -> (k < 5)%nat ->
        exists x y, entry m i k x /\ entry iv i k y /\
          let f := nth k (i_flux r) 0 in let w := nth k (i_ivar r) 0 in
          let F := f * pow10 (-0.4 * (nth k abfix 0 - nth k (i_ext r) 0)) in
          x = Fin F /\ (w = 0 -> y = Fin 0) /\ (0 < w -> f <> 0 -> stands_for x y F (rel_error f w)).
Proof.
  intros rows H P.
  assert (H' : Forall five_bands_im (map fin_im rows)).
  { rewrite Forall_map. eapply Forall_impl; [|exact H]. intros r (L1 & L2 & L3). unfold five_bands_im. cbn [fin_im i_flux i_ivar i_ext]. rewrite !map_length. auto. }
  exists (map ab_m (sd_m (map fin_im rows))), (map ab_iv (sd_iv (map fin_im rows))). split.
  { apply sdss_pair; auto. }
  intros i k r Hi Hk. assert (Hr : In r rows) by (eapply nth_error_In; eauto). rewrite Forall_forall in H. destruct (H r Hr) as (L1 & L2 & L3).
  set (p := pow10 (0.4 * nth k (i_ext r) 0)). assert (Hp : 0 < p) by apply pow10_pos.
  set (q := pow10 (-0.4 * nth k abfix 0)). assert (Hq : 0 < q) by apply pow10_pos.
  assert (PM : zip (fun x e : xr => nmul x (npow10 (nmul (nlit (2 # 5)) e))) (i_flux (fin_im r)) (i_ext (fin_im r)) =
     map Fin (zip (fun x e => x * pow10 (0.4 * e)) (i_flux r) (i_ext r))).
  { cbn [fin_im i_flux i_ext]. rewrite zip_map_l, zip_map_r, map_zip. apply zip_ext. intros x e _ _. xcbn. rewrite lit04. reflexivity. }
  assert (PV : zip (fun x e : xr => nmul x (npow10 (nmul (nlit (-(4) # 5)) e))) (i_ivar (fin_im r)) (i_ext (fin_im r)) =
     map Fin (zip (fun x e => x * pow10 (-0.8 * e)) (i_ivar r) (i_ext r))).
  { cbn [fin_im i_ivar i_ext]. rewrite zip_map_l, zip_map_r, map_zip. apply zip_ext. intros x e _ _. xcbn. rewrite litm08. reflexivity. }
  exists (Fin (nth k (i_flux r) 0 * p * q)), (Fin (nth k (i_ivar r) 0 * pow10 (-0.8 * nth k (i_ext r) 0) / q ^ 2)). split; [|split].
  { unfold sd_m. rewrite !map_map. apply (entry_map (fun x => ab_m (zip _ (i_flux (fin_im x)) (i_ext (fin_im x))))). exists r. split; auto.
    rewrite PM, ab_m_fin, nth_error_map. unfold rab_m. rewrite !nth_error_zip, (nth_error_nth' abfix 0), (nth_error_nth' (i_flux r) 0), (nth_error_nth' (i_ext r) 0) by (cbn [length abfix]; lia).
    reflexivity. }
  { unfold sd_iv. rewrite !map_map. apply (entry_map (fun x => ab_iv (zip _ (i_ivar (fin_im x)) (i_ext (fin_im x))))). exists r. split; auto.
    rewrite PV, ab_iv_fin, nth_error_map. unfold rab_iv. rewrite !nth_error_zip, (nth_error_nth' abfix 0), (nth_error_nth' (i_ivar r) 0), (nth_error_nth' (i_ext r) 0) by (cbn [length abfix]; lia).
    reflexivity. }
  cbv zeta. set (f := nth k (i_flux r) 0). set (w := nth k (i_ivar r) 0).
  assert (EF : f * p * q = f * pow10 (-0.4 * (nth k abfix 0 - nth k (i_ext r) 0))).
  { unfold p, q. rewrite Rmult_assoc, <- pow10_plus. f_equal. f_equal. lra. }
  assert (E8 : pow10 (-0.8 * nth k (i_ext r) 0) = / p ^ 2).
  { assert (pow10 (-0.8 * nth k (i_ext r) 0) * (p * p) = 1).
    { unfold p. rewrite <- !pow10_plus. match goal with |- pow10 ?e = 1 => replace e with 0 by lra end. unfold pow10. apply Rpower_O. lra. }
    apply (Rmult_eq_reg_r (p * p)); [|apply Rgt_not_eq, Rmult_lt_0_compat; auto]. rewrite H0. field. lra. }
  rewrite <- EF. split; [reflexivity|]. split.
  - intros ->. f_equal. unfold Rdiv. ring.
  - intros Hw Hf. split; auto. eexists. split; [reflexivity|]. rewrite E8.
    assert (W : w * / p ^ 2 / q ^ 2 = w / (p * q) ^ 2) by (field; split; lra). rewrite W.
    assert (0 < p * q) by (apply Rmult_lt_0_compat; auto).
    split; [apply Rdiv_lt_0_compat; auto; apply pow_lt; auto|]. unfold rel_error.
    rewrite Rmult_assoc, Rabs_mult, (Rabs_right (p * q)) by lra. rewrite sqrt_div by (try apply pow_lt; auto; lra). rewrite sqrt_pow2 by lra.
    assert (0 < sqrt w) by (apply sqrt_lt_R0; auto). assert (Rabs f <> 0) by (apply Rabs_no_R0; auto). field. repeat split; lra.
Qed.
Lemma E_C95_sdss_values : exists r : im_row R, five_bands_im r /\ Forall (Rlt 0) (i_ivar r) /\ Forall (Rlt 0) (i_flux r).
Proof. exists {| i_flux := [1; 2; 3; 4; 5]; i_ivar := [1; 2; 3; 1; 5]; i_ext := [0.1; 0.1; 0.1; 0.1; 0.1] |}. unfold five_bands_im. cbn. split; [auto|].
  split; repeat (apply Forall_cons; [lra|]); constructor. Qed.

(** In k_plot_test_sdss the photometry that the residuals are taken from is exactly the photometry that the fit uses: the fit is that of an
    object without AB correction to it. *)
Lemma L_C96_sdss_fit :
  forall nnls rng (F : fitter xr) (zs : list xr) (rows : list (im_row xr)) cur,
    f_kind F = SDSS -> f_abc F = true -> length (f_resp F) = 5%nat -> length zs = length rows -> Forall five_bands_im rows ->
    exists om oiv, sdss_ab_correct (fst (sdss_photometry rows)) None default_abfix = Ok (table 5 om, None) /\
      sdss_ab_correct (fst (sdss_photometry rows)) (Some (snd (sdss_photometry rows))) default_abfix = Ok (table 5 om, Some (table 5 oiv)) /\
      length om = length rows /\ rect 5 om /\ rect 5 oiv /\
      sdss_coeffs nnls rng F zs rows cur =
      fit_coeffs nnls rng (without_ab F) (Some (vec zs)) (Some (table 5 om)) (Some (table 5 oiv)) 0 cur.
Proof.
  intros nnls rng F zs rows cur Hk Ha Hr Hz H.
  destruct (sdss_explicit nnls rng F zs rows cur Hk Ha Hr Hz H) as (Q1 & Q2 & Q3 & Q4 & Q5).
  exists (map ab_m (sd_m rows)), (map ab_iv (sd_iv rows)). rewrite map_length. assert (LM : length (sd_m rows) = length rows) by apply map_length. rewrite LM. auto 10.
Qed.
Lemma E_C96_sdss_fit : f_kind (five_fitter SDSS true) = SDSS /\ f_abc (five_fitter SDSS true) = true /\ length (f_resp (five_fitter SDSS true)) = 5%nat /\
  Forall five_bands_im [nan_im; {| i_flux := repeat (Fin 1) 5; i_ivar := repeat (Fin 1) 5; i_ext := repeat (Fin 0.1) 5 |}].
Proof. split; [reflexivity|]. split; [reflexivity|]. split; [reflexivity|]. repeat constructor. Qed.

(** The plotted residual of an object in a band is the difference of the magnitudes of that photometry and of the reconstructed one, and that
    of a colour is the difference of the residuals of its two bands. *)
Lemma L_C96_residuals :
  forall (maggies : nd xr) (om rm : list (list R)) (i : nat),
    sdss_ab_correct maggies None default_abfix = Ok (table 5 (map (map Fin) om), None) ->
    rect 5 om -> rect 5 rm -> length rm = length om -> Forall (Forall (Rlt 0)) om -> Forall (Forall (Rlt 0)) rm -> (i < 5)%nat ->
    let res := fun k j => magnitude (nth k (nth j om []) 0) - magnitude (nth k (nth j rm []) 0) in
    sdss_residual maggies (table 5 (map (map Fin) rm)) i = Ok (vec (map (fun j => Fin (res i j)) (seq 0 (length om)))) /\
    ((S i < 5)%nat -> 
     sdss_colour_residual maggies (table 5 (map (map Fin) rm)) i = Ok (vec (map (fun j => Fin (res i j - res (S i) j)) (seq 0 (length om))))).
Proof.
  intros maggies om rm i E Ro Rr L Po Pr Hi res.
  assert (C : forall k (t : list (list R)), rect 5 t -> (k < 5)%nat ->
     get_last k n0 (table 5 (map (map Fin) t)) = Ok (vec (map (fun j => Fin (nth k (nth j t []) 0)) (seq 0 (length t))))).
  { intros k t Rt Hk. unfold get_last. unfold table at 1 2. cbn [shp]. change (lastd [length (map (map Fin) t); 5%nat]) with 5%nat.
    rewrite (proj2 (Nat.ltb_lt k 5) Hk). rewrite lrows_table by (apply rect_map; auto). f_equal. unfold vec. f_equal.
    - unfold table. cbn. rewrite !map_length, seq_length. reflexivity.
    - rewrite map_map. rewrite <- (map_map (fun j => nth j t []) (fun r => Fin (nth k r 0))). rewrite map_nth_seq_all. apply map_ext. intro r.
      change (@n0 xr _) with (Fin 0). apply map_nth. }
  assert (MR : forall (u v : nat -> R) n, (forall j, (j < n)%nat -> 0 < u j /\ 0 < v j) ->
     mag_ratio (vec (map (fun j => Fin (u j)) (seq 0 n))) (vec (map (fun j => Fin (v j)) (seq 0 n))) =
     Ok (vec (map (fun j => Fin (magnitude (u j) - magnitude (v j))) (seq 0 n)))).
  { intros u v n Hp. unfold mag_ratio. rewrite bin_vec by (rewrite !map_length; auto). rewrite zip_maps, zip_diag. f_equal. f_equal.
    apply map_ext_in. intros j Hj. apply in_seq in Hj. destruct (Hp j) as [P1 P2]; [lia|]. xcbn. rewrite xdiv_fin by lra.
    assert (Q : 0 < u j / v j) by (apply Rdiv_lt_0_compat; auto). unfold xlog. rewrite Rltb_false by lra. rewrite Reqb_false by lra. cbn [xmul]. f_equal.
    unfold magnitude, log10, Rdiv. rewrite ln_mult by (auto; apply Rinv_0_lt_compat; auto). rewrite ln_Rinv by auto. unfold Q2R. cbn. lra. }
  assert (PO : forall t k j, rect 5 t -> Forall (Forall (Rlt 0)) t -> (k < 5)%nat -> (j < length t)%nat -> 0 < nth k (nth j t []) 0).
  { intros t k j Rt Pt Hk Hj. rewrite Forall_forall in Pt. assert (Q : In (nth j t []) t) by (apply nth_In; auto). specialize (Pt _ Q). rewrite Forall_forall in Pt.
    apply Pt, nth_In. rewrite (rect_nth Rt Hj). auto. }
  split.
  - unfold sdss_residual. rewrite E. cbn [bind fst]. rewrite !C by auto. cbn [bind]. rewrite L, MR; [reflexivity|]. intros j Hj. split; apply PO; auto. congruence.
  - intro Hi'. unfold sdss_colour_residual. rewrite E. cbn [bind fst]. rewrite !C by auto. cbn [bind]. rewrite L, MR by (intros j Hj; split; apply PO; auto; congruence).
    cbn [bind]. rewrite MR by (intros j Hj; split; apply PO; auto; congruence). cbn [bind].
    rewrite bin_vec by (rewrite !map_length; auto). rewrite zip_maps, zip_diag. f_equal. f_equal. apply map_ext. intro j. xcbn. f_equal. unfold res. lra.
Qed.
Lemma E_C96_residuals : exists m : nd xr, sdss_ab_correct m None default_abfix =
  Ok (table 5 (map (map Fin) [map (fun a => pow10 (-0.4 * a)) abfix]), None).
Proof.
  exists (table 5 [map Fin [1; 1; 1; 1; 1]]).
  assert (R1 : rect 5 [map Fin [1; 1; 1; 1; 1]]) by (constructor; [reflexivity|constructor]).
  rewrite (sdss_table_none _ R1). change (map ab_m [map Fin [1; 1; 1; 1; 1]]) with [ab_m (map Fin [1; 1; 1; 1; 1])]. rewrite ab_m_fin. unfold rab_m, abfix. cbn [zip map]. rewrite !Rmult_1_l. reflexivity.
Qed.

(** A mass-to-light ratio in solar units does not depend on the photometric system, whether the absolute magnitudes of the galaxy and of the Sun are
    both AB or both Vega; the value plotted by k_plot_test_gst and k_plot_test_mtol is lower by 0.4 vega2ab in the logarithm, so it is the
    logarithm of the mass-to-light ratio only if vega2ab is 0. *)
Lemma L_C97_plotted_mtol :
  forall mass mag sun v : R, 0 < mass ->
    let ml := fun m s => mass / pow10 (-0.4 * (m - s)) in
    ml (mag - v) (sun - v) = ml mag sun /\
    plotted_mtol (Fin (ml mag sun)) (Fin v) = Fin (log10 (ml mag sun) - 0.4 * v).
Proof.
  intros mass mag sun v Hm ml. split; [unfold ml; f_equal; f_equal; lra|].
  assert (P : 0 < ml mag sun) by (apply Rdiv_lt_0_compat; auto; apply pow10_pos).
  unfold plotted_mtol. xcbn. rewrite lit04. pose proof (pow10_pos (0.4 * v)). rewrite xdiv_fin by lra.
  assert (Q : 0 < ml mag sun / pow10 (0.4 * v)) by (apply Rdiv_lt_0_compat; auto).
  unfold xlog. rewrite Rltb_false by lra. rewrite Reqb_false by lra. f_equal. unfold log10. unfold Rdiv at 2. rewrite ln_mult by (auto; apply Rinv_0_lt_compat; auto).
  rewrite ln_Rinv by auto. unfold pow10 at 1. unfold Rpower. rewrite ln_exp. field. pose proof ln10_pos'. lra.
Qed.
Lemma E_C97_plotted_mtol : 0 < 1e10.
Proof. lra. Qed.
Lemma L_C97_solar_units_refuted :
  exists mass mag sun v : R, 0 < mass /\
    plotted_mtol (Fin (mass / pow10 (-0.4 * (mag - sun)))) (Fin v) <> Fin (log10 (mass / pow10 (-0.4 * (mag - sun)))).
Proof.
  exists 1, 0, 0, 1. split; [lra|]. destruct (L_C97_plotted_mtol 1 0 0 1) as [_ E]; [lra|]. rewrite E. intro Q. injection Q as Q. lra.
Qed.

(** The plotted colour is that in the Vega system: with AB magnitudes of the object and vega2ab the AB magnitudes of Vega, it
    is -2.5 log10 of the ratio, between the bands, of the flux in units of that of Vega; 0 for an object with the colour of
    Vega. *)
Lemma L_C97_colour :
  forall fB fV gB gV : R, 0 < fB -> 0 < fV -> 0 < gB -> 0 < gV ->
    let ab := fun f => -2.5 * log10 f in
    plotted_bmv (Fin (ab fB)) (Fin (ab fV)) (Fin (ab gB)) (Fin (ab gV)) = Fin (-2.5 * log10 ((fB / gB) / (fV / gV))).
Proof.
  intros fB fV gB gV H1 H2 H3 H4 ab. unfold plotted_bmv. xcbn. f_equal. unfold ab, log10.
  assert (D : forall x y, 0 < x -> 0 < y -> ln (x / y) = ln x - ln y).
  { intros x y Hx Hy. unfold Rdiv. rewrite ln_mult, ln_Rinv by (auto; apply Rinv_0_lt_compat; auto). lra. }
  rewrite !D by (auto; apply Rdiv_lt_0_compat; auto). pose proof ln10_pos'. field. lra.
Qed.
Lemma E_C97_colour : 0 < 1e-9 /\ 0 < 2e-9.
Proof. lra. Qed.
