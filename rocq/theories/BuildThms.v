(** Properties of constructed Kcorrect objects (C70-C73): the proofs.  Prop_Build.v restates them. *)
From Coq Require Import String List Arith Lia Bool ZArith QArith Qreals Reals Lra Sorting.Sorted Sorting.Permutation.
From Verif Require Import Base BaseLemmas Num Toy Interp InterpReal Spec Utils Sed Response RespDict ResponseObj LinInterp ResponseEx
  Fitter FitSpec FitterProofs FitterMC FitReal FitTable FitEx FitRealEx FitRealThms Kcorrect KSpec KTable KEx KcorrectThms
  AbThms UtilsThms RespDictThms PersistThms BuildSpec BuildProofs BuildTable BuildEx.
Import ListNotations.
Local Open Scope R_scope.
(* STATEMENTS *)

(** C70.  What is constructed, and what the response cache holds afterwards, does not depend on the redshift the
    templates were at before: any history of set_redshift calls (failed ones included) can precede it. *)
Lemma L_C70_state_independent :
  forall (T : Type) (N : Num T) cub bq sun vega fs d k abc responses s (zs : list T) t out map_ r0 r1 nz d1 s1 o1 d2 s2 o2,
    Kcorrect cub bq sun vega fs d k abc responses s t out map_ r0 r1 nz = (d1, s1, o1) ->
    Kcorrect cub bq sun vega fs d k abc responses (moved s zs) t out map_ r0 r1 nz = (d2, s2, o2) ->
    d2 = d1 /\ o2 = o1 /\ (forall K, o1 = Ok K -> s2 = s1).
Proof.
  intros T N cub bq sun vega fs d k abc responses s zs t out map_ r0 r1 nz d1 s1 o1 d2 s2 o2 E1 E2.
  pose proof (Kcorrect_same cub bq sun vega fs d k abc responses s (moved s zs) t out map_ r0 r1 nz (moved_rest s zs)) as H.
  rewrite E1, E2 in H. tauto.
Qed.
Lemma E_C70_state_independent : exists d1 K,
  Kcorrect q_lin (fun _ _ _ => Raise Unmodelled) (Raise Unmodelled) (Raise Unmodelled) (fun _ => None) q_cache Plain false
    ["u"; "g"]%string (moved (q_sed false) [1; 2]%Q) q_tmpl None None 0%Q 1%Q 2 = (d1, q_sed false, Ok K) /\
  s_z (moved (q_sed false) [1; 2]%Q) = 2%Q.
Proof. eexists; eexists. split; [vm_compute; reflexivity|reflexivity]. Qed.

(** Constructing the same object a second time, after other work that moved the templates and added responses to the
    cache, and with whatever files there now are, gives the same object; the cache is not changed by it. *)
Lemma L_C70_again :
  forall (T : Type) (N : Num T) cub bq sun vega fs fs' d d1 d' k abc responses s s1 (zs : list T) t out map_ r0 r1 nz K,
    Kcorrect cub bq sun vega fs d k abc responses s t out map_ r0 r1 nz = (d1, s1, Ok K) -> extends d1 d' ->
    Kcorrect cub bq sun vega fs' d' k abc responses (moved s1 zs) t out map_ r0 r1 nz = (d', s1, Ok K).
Proof.
  intros T N cub bq sun vega fs fs' d d1 d' k abc responses s s1 zs t out map_ r0 r1 nz K H He.
  eapply Kcorrect_again; eauto. apply moved_rest.
Qed.
Lemma E_C70_again : exists d1 s1 K, q_build (Some ["g"]%string) (Some ["u"]%string) = (d1, s1, Ok K) /\
  extends d1 (dset d1 "x"%string q_resp) /\ dmem d1 "x"%string = false.
Proof.
  eexists; eexists; eexists. split; [vm_compute; reflexivity|]. split; [|reflexivity].
  intros n r Hn. rewrite dget_dset. destruct (String.eqb_spec "x"%string n); auto. subst. discriminate.
Qed.

(** A construction that fails can leave the templates it was given at a redshift other than 0. *)
Lemma L_C70_failure_restores_refuted :
  exists d (s s' : sed Q) d' e,
    s_z s = 0%Q /\
    Kcorrect q_lin (fun _ _ _ => Raise Unmodelled) (Raise Unmodelled) (Raise Unmodelled) (fun _ => None) d Plain false ["u"%string] s
      q_tmpl None None 1%Q 2%Q 2 = (d', s', Raise e) /\
    s_z s' = 1%Q.
Proof. exists q_blank, (q_sed false). eexists; eexists; exists TypeError. split; [reflexivity|]. split; [vm_compute; reflexivity|reflexivity]. Qed.

(** That does not change what is constructed from them later. *)
Lemma L_C70_after_failure :
  forall (T : Type) (N : Num T) cub bq sun vega fs d k abc responses s t out map_ (r0 r1 : T) nz d1 s1 e
         fs' k' abc' responses' t' out' map' q0 q1 nz' d2 s2 o2 d3 s3 o3,
    Kcorrect cub bq sun vega fs d k abc responses s t out map_ r0 r1 nz = (d1, s1, Raise e) ->
    Kcorrect cub bq sun vega fs' d1 k' abc' responses' s t' out' map' q0 q1 nz' = (d2, s2, o2) ->
    Kcorrect cub bq sun vega fs' d1 k' abc' responses' s1 t' out' map' q0 q1 nz' = (d3, s3, o3) ->
    d3 = d2 /\ o3 = o2 /\ (forall K, o2 = Ok K -> s3 = s2).
Proof.
  intros T N cub bq sun vega fs d k abc responses s t out map_ r0 r1 nz d1 s1 e
         fs' k' abc' responses' t' out' map' q0 q1 nz' d2 s2 o2 d3 s3 o3 H1 H2 H3.
  pose proof (Kcorrect_same cub bq sun vega fs d k abc responses s s t out map_ r0 r1 nz (same_rest_refl s)) as H.
  rewrite H1 in H. destruct H as (_ & _ & _ & HR & _).
  pose proof (Kcorrect_same cub bq sun vega fs' d1 k' abc' responses' s s1 t' out' map' q0 q1 nz' HR) as H.
  rewrite H2, H3 in H. tauto.
Qed.
Lemma E_C70_after_failure : exists d1 s1 e,
  Kcorrect q_lin (fun _ _ _ => Raise Unmodelled) (Raise Unmodelled) (Raise Unmodelled) (fun _ => None) q_blank Plain false ["u"%string]
    (q_sed false) q_tmpl None None 1%Q 2%Q 2 = (d1, s1, Raise e) /\ s1 <> q_sed false.
Proof. eexists; eexists; eexists. split; [vm_compute; reflexivity|]. intro H. apply (f_equal s_z) in H. discriminate. Qed.

(** C71.  A KcorrectSDSS or KcorrectGST object built with the default arguments: its responses, whether it corrects to AB,
    its redshift grid, and that every output band is matched with the input band of the same position. *)
Lemma L_C71_defaults :
  forall (T : Type) (N : Num T) cub bq sun vega fs (d : dict (resp T)) s t d' s' K,
    (KcorrectSDSS cub bq sun vega fs d None None s t None None None None = (d', s', Ok K) ->
       f_resp (k_fit K) = ["sdss_u0"; "sdss_g0"; "sdss_r0"; "sdss_i0"; "sdss_z0"]%string /\ k_out K = f_resp (k_fit K) /\
       k_map K = f_resp (k_fit K) /\ k_imap K = [0; 1; 2; 3; 4]%nat /\ f_kind (k_fit K) = SDSS /\ f_abc (k_fit K) = true /\
       f_zs (k_fit K) = redshift_grid (nlit 0) (nlit 2) 4000 /\ k_rr K = (cst (nlit 0), cst (nlit 2)) /\ k_tmpl K = t) /\
    (KcorrectGST cub bq sun vega fs d None None s t None None None None = (d', s', Ok K) ->
       f_resp (k_fit K) = ["galex_FUV"; "galex_NUV"; "sdss_u0"; "sdss_g0"; "sdss_r0"; "sdss_i0"; "sdss_z0"; "twomass_J";
                           "twomass_H"; "twomass_Ks"]%string /\ k_out K = f_resp (k_fit K) /\
       k_map K = f_resp (k_fit K) /\ k_imap K = [0; 1; 2; 3; 4; 5; 6; 7; 8; 9]%nat /\ f_kind (k_fit K) = GST /\
       f_abc (k_fit K) = false /\ without_ab (k_fit K) = k_fit K /\
       f_zs (k_fit K) = redshift_grid (nlit 0) (nlit 2) 4000 /\ k_rr K = (cst (nlit 0), cst (nlit 2)) /\ k_tmpl K = t).
Proof.
  intros T N cub bq sun vega fs d s t d' s' K. unfold KcorrectSDSS, KcorrectGST. cbn [default fst snd].
  generalize 4000%nat. intro nz. split; intro H; pose proof (L_C40_mapping T N _ _ _ _ _ _ _ _ _ _ _ _ _ _ _ _ _ _ _ H) as
    (Ho & Hm & _ & Hl & Hr & Hk & Ha & Ht & Hrr & Hz & _ & Hi); rewrite Ho, Hm, Hr, Hk, Ha, Ht, Hrr, Hz;
    repeat match goal with |- _ /\ _ => split; auto end.
  3:{ destruct (k_fit K) as [a b c e f g]. unfold without_ab. cbn [f_abc f_kind f_resp f_sed f_zs f_A] in *. rewrite Ha. reflexivity. }
  all: apply (nth_ext _ _ 0%nat 0%nat); [exact Hl|]; intros j Hj; rewrite Hl in Hj; cbn in Hj;
    (do 10 (destruct j as [|j]; [
      match goal with |- nth ?n _ _ = _ => destruct (Hi n _ eq_refl) as (i & E1 & E2 & E3) end;
      rewrite (nth_error_nth _ _ _ E1); cbn [nth];
      (do 10 (destruct i as [|i]; [first [reflexivity | discriminate E2]|])); destruct i; discriminate E2
     |]) || idtac); try lia.
Qed.
Lemma E_C71_defaults : (exists d' s' K, q_sdss None None = (d', s', Ok K) /\ k_imap K = [0; 1; 2; 3; 4]%nat) /\
  exists d' s' K, q_gst None None = (d', s', Ok K) /\ k_imap K = [0; 1; 2; 3; 4; 5; 6; 7; 8; 9]%nat.
Proof. split; do 3 eexists; (split; [vm_compute; reflexivity|reflexivity]). Qed.

(** With its default responses and abcorrect left at True, a KcorrectSDSS object fits and computes absolute magnitudes from
    photometry in which every band has been corrected by the offset documented for the response of that band. *)
Lemma L_C71_sdss :
  forall cub bq sun vega fs (d : dict (resp xr)) s t out map_ rr nz d' s' K z (sh : list nat) m iv,
    KcorrectSDSS cub bq sun vega fs d None None s t out map_ rr nz = (d', s', Ok K) ->
    (shp z = [] /\ sh = [5]%nat) \/ (exists n, shp z = [n] /\ sh = [n; 5]%nat) -> length m = size sh -> length iv = size sh ->
    exists m' iv', on_ab_system (f_resp (k_fit K)) sh m iv m' iv' /\
      (forall nnls rng mc cur,
        fit_coeffs nnls rng (k_fit K) (Some z) (Some (rarr sh m)) (Some (rarr sh iv)) mc cur =
        fit_coeffs nnls rng (without_ab (k_fit K)) (Some z) (Some (rarr sh m')) (Some (rarr sh iv')) mc cur) /\
      (forall distmod c bs dist r l k, documented 5 (f_nsed (k_fit K)) z None None (Some c) ->
        absmag distmod K (Some (rarr sh m)) (Some (rarr sh iv)) (Some z) (Some c) bs dist r l k =
        absmag distmod (kwithout_ab K) (Some (rarr sh m')) (Some (rarr sh iv')) (Some z) (Some c) bs dist r l k).
Proof.
  intros cub bq sun vega fs d s t out map_ rr nz d' s' K z sh m iv H Hsh Lm Li.
  unfold KcorrectSDSS in H. cbn [default fst snd] in H.
  pose proof (L_C40_mapping xr Num_xr _ _ _ _ _ _ _ _ _ _ _ _ _ _ _ _ _ _ _ H) as (_ & _ & _ & _ & Hr & Hk & Ha & _).
  assert (H5 : last sh 0%nat = 5%nat) by (destruct Hsh as [[_ ->]|(n & _ & ->)]; reflexivity).
  destruct (L_C01_sdss_ab_correct sh m iv abfix H5 Lm Li eq_refl) as (m' & iv' & E & _ & Lm' & Li' & Hj).
  rewrite <- L_C01_default_offsets in E.
  exists m', iv'. rewrite Hr. split; [|split].
  - split; auto. split; auto. intros j name Hlt Hn. destruct (Hj j Hlt) as (Q1 & Q2 & _).
    assert (X : nth (j mod 5) abfix 0 = ab_offset name).
    { change (length sdss_responses) with 5%nat in Hn. revert Hn. pose proof (Nat.mod_upper_bound j 5 ltac:(lia)) as Hb.
      revert Hb. generalize (j mod 5)%nat. intros i Hb.
      do 5 (destruct i as [|i]; [cbn; intro Q; injection Q as <-; reflexivity|]). lia. }
    rewrite X in Q1, Q2. auto.
  - intros nnls rng mc cur. rewrite L_C61_fit; auto.
    + rewrite Hk. cbn [to_ab]. rewrite E. reflexivity.
    + rewrite Hr. destruct Hsh as [[Hz ->]|(n & Hz & ->)]; [left|right; exists n]; repeat split; try exact Hz; try exact D2; intros a Q; try discriminate Q; injection Q as <-; reflexivity.
  - intros distmod c bs dist r l k Hd. rewrite L_C61_absmag; auto.
    + rewrite Hk. cbn [to_ab]. rewrite E. reflexivity.
    + rewrite Hr. destruct Hsh as [[Hz ->]|(n & Hz & ->)]; [left|right; exists n];
        (destruct Hd as [(D1 & _ & _ & D2)|(n' & D1 & _ & _ & D2)]; rewrite Hz in D1; try discriminate; try (injection D1 as <-));
        repeat split; try exact Hz; try exact D2; intros a Q; try discriminate Q; injection Q as <-; reflexivity.
Qed.
Lemma E_C71_sdss : exists d' s' K,
  KcorrectSDSS (fun _ _ _ => Fin 0) (fun _ _ _ => Raise Unmodelled) (Raise Unmodelled) (Raise Unmodelled) (fun _ => None) x_ten None None
    x_sed x_tmpl1 None None (Some (Fin 0, Fin 1)) (Some 2%nat) = (d', s', Ok K).
Proof. apply x_build; [discriminate|]. cbn. intuition. Qed.

(** The same for KcorrectGST with its default responses and abcorrect=True: the GALEX and 2MASS bands are left alone. *)
Lemma L_C71_gst :
  forall cub bq sun vega fs (d : dict (resp xr)) s t out map_ rr nz d' s' K z (sh : list nat) m iv,
    KcorrectGST cub bq sun vega fs d (Some true) None s t out map_ rr nz = (d', s', Ok K) ->
    (shp z = [] /\ sh = [10]%nat) \/ (exists n, shp z = [n] /\ sh = [n; 10]%nat) -> length m = size sh -> length iv = size sh ->
    exists m' iv', on_ab_system (f_resp (k_fit K)) sh m iv m' iv' /\
      (forall nnls rng mc cur,
        fit_coeffs nnls rng (k_fit K) (Some z) (Some (rarr sh m)) (Some (rarr sh iv)) mc cur =
        fit_coeffs nnls rng (without_ab (k_fit K)) (Some z) (Some (rarr sh m')) (Some (rarr sh iv')) mc cur) /\
      (forall distmod c bs dist r l k, documented 10 (f_nsed (k_fit K)) z None None (Some c) ->
        absmag distmod K (Some (rarr sh m)) (Some (rarr sh iv)) (Some z) (Some c) bs dist r l k =
        absmag distmod (kwithout_ab K) (Some (rarr sh m')) (Some (rarr sh iv')) (Some z) (Some c) bs dist r l k).
Proof.
  intros cub bq sun vega fs d s t out map_ rr nz d' s' K z sh m iv H Hsh Lm Li.
  unfold KcorrectGST in H. cbn [default fst snd] in H.
  pose proof (L_C40_mapping xr Num_xr _ _ _ _ _ _ _ _ _ _ _ _ _ _ _ _ _ _ _ H) as (_ & _ & _ & _ & Hr & Hk & Ha & _).
  assert (H5 : last sh 0%nat = 10%nat) by (destruct Hsh as [[_ ->]|(n & _ & ->)]; reflexivity).
  destruct (L_C55_columns sh m iv) as (m' & iv' & Lm' & Li' & E & Hj); auto.
  { destruct Hsh as [[_ ->]|(n & _ & ->)]; discriminate. }
  { rewrite H5. lia. }
  exists m', iv'. rewrite Hr. split; [|split].
  - split; auto. split; auto. intros j name Hlt Hn. pose proof (Hj j Hlt) as Q. cbv zeta in Q. rewrite H5 in Q.
    change (length gst_responses) with 10%nat in Hn. revert Hn Q. pose proof (Nat.mod_upper_bound j 10 ltac:(lia)) as Hb.
    revert Hb. generalize (j mod 10)%nat. intros i Hb.
    assert (P0 : pow10 (-0.4 * 0) = 1) by (replace (-0.4 * 0) with 0 by lra; apply pow10_0).
    do 10 (destruct i as [|i]; [cbn [nth_error gst_responses]; intro Q; injection Q as <-;
      cbn [Nat.leb andb Nat.sub nth abfix]; unfold ab_offset; cbn [String.eqb Ascii.eqb Bool.eqb];
      intros [-> ->]; rewrite ?P0; split; auto; lra|]). lia.
  - intros nnls rng mc cur. rewrite L_C61_fit; auto.
    + rewrite Hk, E. reflexivity.
    + rewrite Hr. destruct Hsh as [[Hz ->]|(n & Hz & ->)]; [left|right; exists n]; repeat split; try exact Hz; try exact D2; intros a Q; try discriminate Q; injection Q as <-; reflexivity.
  - intros distmod c bs dist r l k Hd. rewrite L_C61_absmag; auto.
    + rewrite Hk, E. reflexivity.
    + rewrite Hr. destruct Hsh as [[Hz ->]|(n & Hz & ->)]; [left|right; exists n];
        (destruct Hd as [(D1 & _ & _ & D2)|(n' & D1 & _ & _ & D2)]; rewrite Hz in D1; try discriminate; try (injection D1 as <-));
        repeat split; try exact Hz; try exact D2; intros a Q; try discriminate Q; injection Q as <-; reflexivity.
Qed.
Lemma E_C71_gst : exists d' s' K,
  KcorrectGST (fun _ _ _ => Fin 0) (fun _ _ _ => Raise Unmodelled) (Raise Unmodelled) (Raise Unmodelled) (fun _ => None) x_ten (Some true)
    None x_sed x_tmpl1 None None (Some (Fin 0, Fin 1)) (Some 2%nat) = (d', s', Ok K).
Proof. apply x_build; [discriminate|]. auto. Qed.

(** It fails when the same five responses are given in another order: the corrections go by position, not by name. *)
Lemma L_C71_other_order_refuted :
  exists cub bq sun vega fs (d : dict (resp xr)) responses s t rr nz d' s' K (m iv m' iv' : list R),
    Permutation responses sdss_responses /\
    KcorrectSDSS cub bq sun vega fs d None (Some responses) s t None None rr nz = (d', s', Ok K) /\
    length m = 5%nat /\ length iv = 5%nat /\ ~ on_ab_system (f_resp (k_fit K)) [5%nat] m iv m' iv' /\
    forall nnls rng z mc cur, shp z = [] ->
      fit_coeffs nnls rng (k_fit K) (Some z) (Some (rarr [5%nat] m)) (Some (rarr [5%nat] iv)) mc cur =
      fit_coeffs nnls rng (without_ab (k_fit K)) (Some z) (Some (rarr [5%nat] m')) (Some (rarr [5%nat] iv')) mc cur.
Proof.
  assert (HP : Permutation (rev sdss_responses) sdss_responses) by (apply Permutation_sym, Permutation_rev).
  destruct (x_build (fun _ _ _ => Fin 0) (fun _ _ _ => Raise Unmodelled) (Raise Unmodelled) (Raise Unmodelled) (fun _ => None) SDSS true
              (rev sdss_responses)) as (d' & s' & K & H); [discriminate|cbn; intuition|].
  pose proof (L_C40_mapping xr Num_xr _ _ _ _ _ _ _ _ _ _ _ _ _ _ _ _ _ _ _ H) as (_ & _ & _ & _ & Hr & Hk & Ha & _).
  destruct (L_C01_sdss_ab_correct [5%nat] [1;1;1;1;1] [1;1;1;1;1] abfix eq_refl eq_refl eq_refl eq_refl) as (m' & iv' & E & _ & _ & _ & Hj).
  rewrite <- L_C01_default_offsets in E.
  do 4 eexists. exists (fun _ => None), x_ten, (rev sdss_responses), x_sed, x_tmpl1, (Some (Fin 0, Fin 1)), (Some 2%nat), d', s', K.
  exists [1;1;1;1;1], [1;1;1;1;1], m', iv'. split; [exact HP|]. split; [exact H|]. split; [reflexivity|]. split; [reflexivity|]. split.
  - intros (_ & _ & X). rewrite Hr in X. destruct (X 0%nat "sdss_z0"%string ltac:(cbn; lia) eq_refl) as [X1 _].
    destruct (Hj 0%nat ltac:(cbn; lia)) as [Y1 _]. rewrite Y1 in X1. cbn [nth abfix Nat.modulo Nat.divmod fst snd Nat.sub] in X1.
    unfold ab_offset in X1. cbn [String.eqb Ascii.eqb Bool.eqb] in X1. rewrite !Rmult_1_l in X1.
    assert (Z : log10 (pow10 (-0.4 * -0.036)) = log10 (pow10 (-0.4 * 0.040))) by (f_equal; exact X1).
    rewrite !log10_pow10 in Z. lra.
  - intros nnls rng z mc cur Hz. rewrite L_C61_fit; auto.
    + rewrite Hk. cbn [to_ab]. rewrite E. reflexivity.
    + rewrite Hr. left. repeat split; try exact Hz; try exact D2; intros a Q; try discriminate Q; injection Q as <-; reflexivity.
Qed.

(** C72.  For a constructed object and any redshift whose band-shifted value (1+z)(1+shift)-1 lies in the redshift range,
    reconstruct and reconstruct_out give, band by band, the flux of the templates with those coefficients (synthetic
    photometry of the rest-frame templates moved to the grid redshifts around it, interpolated), divided by 1+shift. *)
Lemma L_C72_reconstruct :
  forall cub bq sun vega fs d k abc responses s t out map_ (r0 r1 : R) nz d' s' K w rows z c bs,
    Kcorrect cub bq sun vega fs d k abc responses s t out map_ r0 r1 nz = (d', s', Ok K) ->
    s_rflux s = table w rows -> rect w rows -> rows <> [] -> r0 < r1 -> (2 <= nz)%nat ->
    r0 <= (1 + z) * (1 + bs) - 1 <= r1 -> length c = length rows ->
    let flux := model_flux cub d' (s_rwave s) w rows (redshift_grid r0 r1 nz) in
    (exists p, reconstruct (k_fit K) (Some (scal z)) (Some (vec c)) bs = Ok (vec p) /\ length p = length responses /\
      forall j n, nth_error responses j = Some n ->
        exists x, flux n c ((1 + z) * (1 + bs) - 1) x /\ nth_error p j = Some (x / (1 + bs))) /\
    (exists p, reconstruct_out K (Some (scal z)) (Some (vec c)) bs = Ok (vec p) /\ length p = length (k_out K) /\
      forall j n, nth_error (k_out K) j = Some n ->
        exists x, flux n c ((1 + z) * (1 + bs) - 1) x /\ nth_error p j = Some (x / (1 + bs))).
Proof.
  intros cub bq sun vega fs d k abc responses s t out map_ r0 r1 nz d' s' K w rows z c bs H Hf Hr Hne Hrr Hnz Hg Lc flux.
  destruct (built_tables _ _ _ _ _ _ _ _ _ _ _ _ _ _ _ _ _ _ _ _ _ H Hf Hr Hne Hrr Hnz) as (A & Ao & HK & X1 & X2 & HE).
  destruct HK as ((EA & Eb & En & Ht) & EAo & Hto & Lo & _).
  destruct (L_C36_grid r0 r1 nz Hnz Hrr) as (_ & HG & G0 & G1 & _).
  assert (Hin : in_range (redshift_grid r0 r1 nz) ((1 + z) * (1 + bs) - 1)) by (unfold in_range; rewrite G0, G1; auto).
  unfold flux. unfold reconstruct, reconstruct_out. rewrite EA, EAo. split.
  - rewrite <- X1 in *. apply recon_model; auto. intros i y Hi. apply (HE i y Hi).
  - rewrite <- X2 in *. apply recon_model; auto. intros i y Hi. apply (HE i y Hi).
Qed.
Lemma E_C72_reconstruct : s_rflux r_sed = table 6 [[1;1;2;2;1;1]; [1;2;3;4;5;6]] /\ (exists d' s' K,
  Kcorrect lin bq0 sun0 sun0 r_files [] Plain false ["u"%string] r_sed r_tmpl None None 0 1 2 = (d', s', Ok K)) /\
  0 <= (1 + 1 / 5) * (1 + 1 / 10) - 1 <= 1.
Proof. split; [reflexivity|]. split; [apply r_built|lra]. Qed.

(** At a grid redshift the flux is the photometry of the templates at that redshift, with no interpolation. *)
Lemma L_C72_at_grid_redshifts :
  forall cub (d : dict (resp R)) wave w rows (r0 r1 : R) nz n c i z x l, r0 < r1 -> (2 <= nz)%nat ->
    model_flux cub d wave w rows (redshift_grid r0 r1 nz) n c z x -> nth_error (redshift_grid r0 r1 nz) i = Some z ->
    photometry cub d wave w rows n z l -> x = dot l c.
Proof.
  intros cub d wave w rows r0 r1 nz n c i z x l H0 Hnz H Hi Hp. eapply model_flux_grid; eauto. apply grid_sorted; auto.
Qed.
Lemma E_C72_at_grid_redshifts : exists d' x l,
  model_flux lin d' (s_rwave r_sed) 6 [[1;1;2;2;1;1]; [1;2;3;4;5;6]] (redshift_grid 0 1 2) "u" [1; 1/2] 1 x /\
  nth_error (redshift_grid 0 1 2) 1 = Some 1 /\ photometry lin d' (s_rwave r_sed) 6 [[1;1;2;2;1;1]; [1;2;3;4;5;6]] "u" 1 l.
Proof.
  assert (G1 : nth_error (redshift_grid 0 1 2) 1 = Some 1) by (unfold redshift_grid, nnat; cbn [seq map nth_error]; rcbn; f_equal; unfold Q2R; cbn; field).
  destruct r_built as (d' & s' & K & H).
  destruct (L_C72_reconstruct _ _ _ _ _ _ _ _ _ _ _ _ _ _ _ _ _ _ _ 6%nat [[1;1;2;2;1;1]; [1;2;3;4;5;6]] 1 [1; 1/2] 0 H)
    as [(p & _ & _ & Hp) _]; auto; try lra; try discriminate; [repeat constructor|].
  destruct (Hp 0%nat "u"%string eq_refl) as (x & Hx & _). replace ((1 + 1) * (1 + 0) - 1) with 1 in Hx by lra. exists d', x.
  pose proof Hx as (i & z0 & z1 & l0 & l1 & u & I0 & I1 & _ & _ & _ & P1 & _).
  destruct i as [|i]; [|exfalso; destruct i; discriminate I1]. rewrite G1 in I1. injection I1 as <-. exists l1. auto.
Qed.

(** The K-correction of a constructed object: -2.5 log10 of the ratio of the flux of the templates at the redshift in the
    mapped input band to their flux at redshift band_shift in the output band, that one divided by 1+band_shift. *)
Lemma L_C72_kcorrect :
  forall cub bq sun vega fs d k abc responses s t out map_ (r0 r1 : R) nz d' s' K w rows z c bs,
    Kcorrect cub bq sun vega fs d k abc responses s t out map_ r0 r1 nz = (d', s', Ok K) ->
    s_rflux s = table w rows -> rect w rows -> rows <> [] -> r0 < r1 -> (2 <= nz)%nat ->
    r0 <= z <= r1 -> r0 <= bs <= r1 -> length c = length rows -> 0 < fold_right Rplus 0 c ->
    let flux := model_flux cub d' (s_rwave s) w rows (redshift_grid r0 r1 nz) in
    exists v, kcorrect K (Some (scal z)) (Some (vec c)) bs = Ok (vec v) /\ length v = length (k_out K) /\
      forall j n_out n_in, nth_error (k_out K) j = Some n_out -> nth_error (k_map K) j = Some n_in ->
        exists x y, flux n_in c z x /\ flux n_out c bs y /\ nth_error v j = Some (-5/2 * log10 (x / (y / (1 + bs)))).
Proof.
  intros cub bq sun vega fs d k abc responses s t out map_ r0 r1 nz d' s' K w rows z c bs H Hf Hr Hne Hrr Hnz Hz Hbs Lc Hc flux.
  pose proof (L_C40_mapping R Num_R _ _ _ _ _ _ _ _ _ _ _ _ _ _ _ _ _ _ _ H) as (_ & Hm & _ & _ & _ & _ & _ & _ & _ & _ & _ & Hmap).
  destruct (built_tables _ _ _ _ _ _ _ _ _ _ _ _ _ _ _ _ _ _ _ _ _ H Hf Hr Hne Hrr Hnz) as (A & Ao & HK & _).
  destruct (L_C72_reconstruct cub bq sun vega fs d k abc responses s t out map_ r0 r1 nz d' s' K w rows z c 0 H Hf Hr Hne Hrr Hnz)
    as [(p & Ep & Lp & Hp) _]; [lra|auto|].
  destruct (L_C72_reconstruct cub bq sun vega fs d k abc responses s t out map_ r0 r1 nz d' s' K w rows 0 c bs H Hf Hr Hne Hrr Hnz)
    as [_ (q & Eq & Lq & Hq)]; [lra|auto|].
  destruct (L_C41_definition R Num_R K A Ao _ _ _ z c bs rounding_R HK Lc) as (_ & _ & HD); [rcbn; change (Q2R 0) with (Q2R 0); rewrite Q2R_lit; lra|].
  destruct (HD _ _ Ep Eq) as (v & Ev & Lv & Hv). exists v. split; auto. split; auto.
  intros j no ni Hno Hni. destruct (Hv j) as (xj & yj & X1 & X2 & X3); [apply nth_error_Some; congruence|].
  destruct (Hmap j ni ltac:(rewrite <- Hm; exact Hni)) as (i & I1 & I2 & _).
  unfold in_band in X1. rewrite (nth_error_nth _ _ _ I1) in X1. cbn [vec dat] in X1, X2.
  destruct (Hp i ni I2) as (x & F1 & E1). destruct (Hq j no Hno) as (y & F2 & E2). rewrite E1 in X1. rewrite E2 in X2.
  injection X1 as <-. injection X2 as <-. exists x, y.
  replace ((1 + z) * (1 + 0) - 1) with z in F1 by lra. replace ((1 + 0) * (1 + bs) - 1) with bs in F2 by lra.
  split; auto. split; auto. rewrite X3. f_equal. rcbn. rewrite map_id, nsum_R, Rltb_true by auto. rewrite Q2R_lit.
  replace (x / (1 + 0)) with x by field. f_equal.
Qed.
Lemma E_C72_kcorrect : (exists d' s' K,
  Kcorrect lin bq0 sun0 sun0 r_files [] Plain false ["u"%string] r_sed r_tmpl None None 0 1 2 = (d', s', Ok K)) /\
  0 < fold_right Rplus 0 [1; 1/2].
Proof. split; [apply r_built|cbn; lra]. Qed.

(** The coefficients fitted with a constructed object, when no AB correction is made, for a redshift in the range: they are
    nonnegative and no other nonnegative coefficients have fluxes with a smaller chi^2. *)
Lemma L_C72_fit :
  forall cub bq sun vega fs d k responses s t out map_ (r0 r1 : R) nz d' s' K w rows nnls rng o cur c cur',
    Kcorrect cub bq sun vega fs d k false responses s t out map_ r0 r1 nz = (d', s', Ok K) ->
    s_rflux s = table w rows -> rect w rows -> rows <> [] -> r0 < r1 -> (2 <= nz)%nat -> length responses <> 1%nat ->
    nnls_contract nnls -> obj_ok (length responses) o -> nonneg (o_iv o) -> r0 <= o_z o <= r1 ->
    fit_object nnls rng (k_fit K) 0 o cur = Ok (Bare (vec c), cur') ->
    let flux := model_flux cub d' (s_rwave s) w rows (redshift_grid r0 r1 nz) in
    let fluxes c p := length p = length responses /\
      forall j n x, nth_error responses j = Some n -> nth_error p j = Some x -> flux n c (o_z o) x in
    length c = length rows /\ nonneg c /\
    exists p, fluxes c p /\
      forall y, length y = length rows -> nonneg y ->
        exists q, fluxes y q /\ chi2 (o_iv o) (o_m o) p <= chi2 (o_iv o) (o_m o) q.
Proof.
  intros cub bq sun vega fs d k responses s t out map_ r0 r1 nz d' s' K w rows nnls rng o cur c cur'
    H Hf Hr Hne Hrr Hnz H1 Hn Ho Hiv Hz E flux fluxes.
  pose proof (L_C40_mapping R Num_R _ _ _ _ _ _ _ _ _ _ _ _ _ _ _ _ _ _ _ H) as (_ & _ & _ & _ & _ & _ & Ha & _).
  destruct (built_tables _ _ _ _ _ _ _ _ _ _ _ _ _ _ _ _ _ _ _ _ _ H Hf Hr Hne Hrr Hnz) as (A & Ao & HK & X1 & _).
  destruct HK as (HR & _).
  destruct (L_C36_grid r0 r1 nz Hnz Hrr) as (_ & HG & G0 & G1 & _).
  assert (Hin : in_range (a_x A) (o_z o)) by (unfold in_range; rewrite X1, G0, G1; auto).
  destruct (L_C28_optimal nnls rng (k_fit K) A (length responses) (length rows) o cur c cur') as (Lc & Nc & p & Ep & HO); auto.
  { left. exact Ha. }
  assert (HF : forall y q, length y = length rows -> reconstruct (k_fit K) (Some (scal (o_z o))) (Some (vec y)) 0 = Ok (vec q) -> fluxes y q).
  { intros y q Ly Eq.
    destruct (L_C72_reconstruct cub bq sun vega fs d k false responses s t out map_ r0 r1 nz d' s' K w rows (o_z o) y 0 H Hf Hr Hne Hrr Hnz)
      as [(p' & Ep' & Lp & Hp) _]; [lra|auto|].
    rewrite Eq in Ep'. injection Ep' as _ <-. split; auto. intros j n x Hj Hx. destruct (Hp j n Hj) as (x' & F & Ex).
    rewrite Hx in Ex. injection Ex as ->. replace ((1 + o_z o) * (1 + 0) - 1) with (o_z o) in F by lra.
    replace (x' / (1 + 0)) with x' by field. exact F. }
  split; auto. split; auto. exists p. split; [apply HF; auto|]. intros y Ly Ny. destruct (HO y Ly Ny) as (q & Eq & Hq).
  exists q. split; auto.
Qed.

Lemma E_C72_fit : exists d' s' K c cur',
  Kcorrect lin bq0 sun0 sun0 r_files [] Plain false ["u"; "u"]%string r_sed1 r_tmpl None None 0 1 2 = (d', s', Ok K) /\
  nnls_contract nnls1 /\
  fit_object nnls1 (fun _ => 0) (k_fit K) 0 {| o_z := 1 / 2; o_m := [2; 6]; o_iv := [1; 4] |} 0 = Ok (Bare (vec c), cur').
Proof.
  destruct r_built1 as (d' & s' & K & H). exists d', s', K.
  destruct (built_tables _ _ _ _ _ _ _ _ _ _ _ _ _ _ _ _ _ _ _ 6%nat [[1;1;2;2;1;1]] H) as (A & Ao & HK & X1 & _);
    auto; try lra; try discriminate; [repeat constructor|].
  destruct HK as (HR & _).
  destruct (L_C36_grid 0 1 2 (le_n 2) ltac:(lra)) as (_ & HG & G0 & G1 & _).
  pose proof (L_C40_mapping R Num_R _ _ _ _ _ _ _ _ _ _ _ _ _ _ _ _ _ _ _ H) as (_ & _ & _ & _ & _ & _ & Ha & _).
  destruct (L_C28_retry nnls1 (fun _ => 0) (k_fit K) A 2 1 {| o_z := 1 / 2; o_m := [2; 6]; o_iv := [1; 4] |} 0) as (M & _ & _ & _ & E); auto.
  - left. exact Ha.
  - split; reflexivity.
  - unfold in_range. rewrite X1, G0, G1. cbn. lra.
  - cbn zeta in E. unfold nnls1 in E at 2. cbn [Nat.eqb] in E. do 2 eexists. split; [exact H|]. split; [apply nnls1_contract|exact E].
Qed.

(** The flux is determined by the templates, the responses, the coefficients and the redshift. *)
Lemma L_C72_flux_determined :
  forall cub (d : dict (resp R)) wave w rows (r0 r1 : R) nz n c z x x', r0 < r1 -> (2 <= nz)%nat ->
    model_flux cub d wave w rows (redshift_grid r0 r1 nz) n c z x ->
    model_flux cub d wave w rows (redshift_grid r0 r1 nz) n c z x' -> x' = x.
Proof. intros cub d wave w rows r0 r1 nz n c z x x' H0 Hnz. apply model_flux_unique. apply grid_sorted; auto. Qed.

Lemma E_C72_flux_determined : exists d' x,
  model_flux lin d' (s_rwave r_sed) 6 [[1;1;2;2;1;1]; [1;2;3;4;5;6]] (redshift_grid 0 1 2) "u" [1; 1/2] (1/5) x.
Proof.
  destruct r_built as (d' & s' & K & H).
  destruct (L_C72_reconstruct _ _ _ _ _ _ _ _ _ _ _ _ _ _ _ _ _ _ _ 6%nat [[1;1;2;2;1;1]; [1;2;3;4;5;6]] (1/5) [1; 1/2] 0 H)
    as [(p & _ & _ & Hp) _]; auto; try lra; try discriminate; [repeat constructor|].
  destruct (Hp 0%nat "u"%string eq_refl) as (x & Hx & _). exists d', x. replace (1/5) with ((1 + 1/5) * (1 + 0) - 1) by lra. exact Hx.
Qed.

(** C73.  Construction succeeds, over the reals, when: every input and output response is cached with a curve or can be
    loaded from its file; responses_map has the length of responses_out and names input responses only; the templates
    have at least four strictly increasing wavelengths; and the redshift range is increasing and above -1 with at least
    two grid points. *)
Lemma L_C73_construction_succeeds :
  forall cub bq sun vega fs d k abc responses (s : sed R) t out map_ r0 r1 nz rows,
    let o := match out with Some l => l | None => responses end in
    let m := match map_ with Some l => l | None => responses end in
    (forall n, In n responses \/ In n o -> obtainable cub bq sun vega fs d n) ->
    length m = length o -> (forall name, In name m -> In name responses) ->
    StronglySorted Rlt (s_rwave s) -> (4 <= length (s_rwave s))%nat ->
    s_rflux s = table (length (s_rwave s)) rows -> rect (length (s_rwave s)) rows -> rows <> [] ->
    -1 < r0 -> r0 < r1 -> (2 <= nz)%nat ->
    exists d' s' K, Kcorrect cub bq sun vega fs d k abc responses s t out map_ r0 r1 nz = (d', s', Ok K).
Proof. exact real_build. Qed.
Lemma E_C73_construction_succeeds :
  obtainable lin bq0 sun0 sun0 r_files [] "u" /\ StronglySorted Rlt (s_rwave r_sed) /\ (4 <= length (s_rwave r_sed))%nat /\
  s_rflux r_sed = table (length (s_rwave r_sed)) [[1;1;2;2;1;1]; [1;2;3;4;5;6]].
Proof. split; [apply r_obtainable|]. split; [apply sorted_wide|]. split; [cbn; lia|reflexivity]. Qed.
