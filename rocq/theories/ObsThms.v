(** Theorems about the spectrum of a fit (docs/examples.rst:148-171; response.py:314-411, fitter.py:76-113, 456-543, kcorrect.py:394-416).
    Scope: exact arithmetic. *)
From Coquelicot Require Import Coquelicot.
From Coq Require Import String List Arith Lia Bool ZArith QArith Qreals Reals Lra Sorting.Sorted Sorting.Permutation.
From Verif Require Import Base BaseLemmas Num Toy Interp InterpReal Spec Utils UtilsReal Sed Response RespDict ResponseObj LinInterp ResponseEx
  Fitter FitSpec FitterProofs FitterMC FitReal FitTable FitEx FitRealEx FitRealThms Kcorrect KSpec KTable KEx KcorrectThms
  BuildSpec BuildProofs BuildTable BuildEx ShiftSpec Spline SplineSpec QuadSpec BlendSpec BlendEx ObsSpec.
Import ListNotations.
Local Open Scope R_scope.
(* STATEMENTS *)
From Verif Require Import ResponseProofs ResponseThms SplineProofs SplineThms BuildThms ShiftThms SteadyProofs QuadProofs QuadThms AccThms BlendProofs BlendThms ResponseFwhm PipeProofs PipeEx.

Lemma spec_projected cub d wave rows n z l c r : splines cub -> StronglySorted Rlt wave -> (4 <= length wave)%nat -> -1 < z ->
  rect (length wave) rows -> length c = length rows -> dget d n = Some r -> photometry cub d wave (length wave) rows n z l ->
  project_arr cub r (vec (spec_wave wave z)) (vec (spec_flux (length wave) rows c z)) = Ok (scal (dot l c)).
Proof.
  intros Hc Hs H4 Hz Hr Lc Hd HP.
  destruct (photometry_linear cub d wave n z rows l Hc Hs H4 Hz Hr HP) as (phi & Hphi & -> & Hall).
  rewrite (dot_combined _ _ Hphi) by auto.
  assert (Hone : rect (length wave) [combined (length wave) rows c]) by (constructor; [apply combined_length|constructor]).
  destruct (photometry_each _ _ _ _ _ _ _ _ (Hall _ Hone) Hone Hd Hs H4 Hz) as [_ T].
  destruct (T 0%nat (spec_flux (length wave) rows c z) eq_refl) as (s & HS & Em). cbn [map nth] in Em.
  rewrite (L_C17_array_call cub r (spec_wave wave z) (vec (spec_flux (length wave) rows c z)) s); auto.
  - apply wf_vec.
  - unfold spec_flux, spec_wave. cbn. rewrite !map_length, combined_length. reflexivity.
Qed.

Lemma forall2_nth {A B} (P : A -> B -> Prop) (l : list A) (m : list B) : length m = length l ->
  (forall j a b, nth_error l j = Some a -> nth_error m j = Some b -> P a b) -> Forall2 P l m.
Proof.
  revert m. induction l as [|a l IH]; intros [|b m] L H; try discriminate; constructor.
  - apply (H 0%nat); reflexivity.
  - apply IH; [cbn in L; lia|]. intros j x y Hx Hy. apply (H (S j)); auto.
Qed.
Lemma forall2_weaken {A B} (P Q : A -> B -> Prop) (l : list A) (m : list B) : (forall a b, P a b -> Q a b) -> Forall2 P l m -> Forall2 Q l m.
Proof. intros H F. induction F; constructor; auto. Qed.
Lemma sorted_at (l : list R) i j a b : StronglySorted Rlt l -> nth_error l i = Some a -> nth_error l j = Some b -> (i <= j)%nat -> a <= b.
Proof.
  intros Hs Ha Hb Hij. rewrite <- (nth_error_nth _ _ 0 Ha), <- (nth_error_nth _ _ 0 Hb). apply nth_sorted_le; auto. split; auto.
  apply nth_error_Some. congruence.
Qed.
Lemma grid_in r0 r1 nz i z : r0 < r1 -> (2 <= nz)%nat -> nth_error (redshift_grid r0 r1 nz) i = Some z -> r0 <= z <= r1.
Proof.
  intros Hr Hnz Hi. assert (Hk : (i < nz)%nat) by (rewrite <- (grid_length r0 r1 nz); apply nth_error_Some; congruence).
  split; [eapply grid_above; eauto|].
  rewrite <- (nth_error_nth _ _ 0 Hi), grid_eq by auto. assert (P : 0 < INR (nz - 1)) by (apply lt_0_INR; lia).
  assert (INR i <= INR (nz - 1)) by (apply le_INR; lia).
  assert (INR i / INR (nz - 1) <= 1). { apply Rmult_le_reg_r with (INR (nz - 1)); auto. unfold Rdiv. rewrite Rmult_assoc, Rinv_l; lra. }
  unfold Rdiv in *. rewrite Rmult_assoc. nra.
Qed.

(** C107.  docs/examples.rst plots the spectrum of coefficients c, seen from redshift z: its wavelengths are (1+z) times those of the
    templates, its fluxes the combined fluxes of the templates over 1+z.  reconstruct and reconstruct_out give the fluxes of this
    spectrum in the input and output bands, interpolated between the redshifts of the grid and over 1+band_shift. *)
Lemma L_C107_reconstruct :
  forall cub bq sun vega fs d k abc responses s t out map_ (r0 r1 : R) nz d' s' K rows z c bs,
    let wave := s_rwave s in
    splines cub -> Kcorrect cub bq sun vega fs d k abc responses s t out map_ r0 r1 nz = (d', s', Ok K) ->
    s_rflux s = table (length wave) rows -> rect (length wave) rows -> rows <> [] -> -1 < r0 < r1 -> (2 <= nz)%nat ->
    StronglySorted Rlt wave -> (4 <= length wave)%nat -> length c = length rows ->
    let Z := (1 + z) * (1 + bs) - 1 in
    r0 <= Z <= r1 ->
    let in_band n y x := exists r, dget d' n = Some r /\
      project_arr cub r (vec (spec_wave wave y)) (vec (spec_flux (length wave) rows c y)) = Ok (scal x) in
    let interpolated n x := exists i z0 z1 u x0 x1,
      nth_error (redshift_grid r0 r1 nz) i = Some z0 /\ nth_error (redshift_grid r0 r1 nz) (S i) = Some z1 /\
      0 <= u <= 1 /\ Z = (1 - u) * z0 + u * z1 /\ in_band n z0 x0 /\ in_band n z1 x1 /\ x = ((1 - u) * x0 + u * x1) / (1 + bs) in
    exists p q, reconstruct (k_fit K) (Some (scal z)) (Some (vec c)) bs = Ok (vec p) /\ Forall2 interpolated responses p /\
      reconstruct_out K (Some (scal z)) (Some (vec c)) bs = Ok (vec q) /\ Forall2 interpolated (k_out K) q.
Proof.
  intros cub bq sun vega fs d k abc responses s t out map_ r0 r1 nz d' s' K rows z c bs wave Hc H Hf Hr Hne Hrr Hnz Hs H4 Lc Z HZ ib itp.
  destruct (L_C72_reconstruct cub bq sun vega fs d k abc responses s t out map_ r0 r1 nz d' s' K _ rows z c bs H Hf Hr Hne (proj2 Hrr) Hnz HZ Lc)
    as [(p & Ep & Lp & Hp) (q & Eq & Lq & Hq)].
  assert (A : forall names p, length p = length names -> (forall j n, nth_error names j = Some n ->
      exists x, model_flux cub d' (s_rwave s) (length wave) rows (redshift_grid r0 r1 nz) n c Z x /\ nth_error p j = Some (x / (1 + bs))) -> Forall2 itp names p).
  { intros names p' L Hpp. apply forall2_nth; [auto|]. intros j n x Hj Hx. destruct (Hpp j n Hj) as (y & Hy & Ey).
    rewrite Hx in Ey. injection Ey as ->. destruct Hy as (i & z0 & z1 & l0 & l1 & u & G0 & G1 & Hu & Ez & P0 & P1 & ->).
    exists i, z0, z1, u, (dot l0 c), (dot l1 c). repeat (split; [assumption|]).
    pose proof (grid_in _ _ _ _ _ (proj2 Hrr) Hnz G0). pose proof (grid_in _ _ _ _ _ (proj2 Hrr) Hnz G1).
    assert (Q : forall y l, -1 < y -> photometry cub d' (s_rwave s) (length wave) rows n y l -> ib n y (dot l c)).
    { intros y l Hy Hl. destruct (Hl) as (r & v & Hd & _). exists r. split; auto. eapply spec_projected; eauto. }
    split; [apply Q; auto; lra|]. split; [apply Q; auto; lra|]. reflexivity. }
  exists p, q. split; [exact Ep|]. split; [apply A; auto|]. split; [exact Eq|]. apply A; auto.
Qed.

Lemma E_C107_reconstruct : exists bq d d' s' K, let rows := [[1;1;2;2;1;1]; [1;2;3;4;5;6]] in
  splines notaknot /\ Kcorrect notaknot bq sun0 sun0 (fun _ => None) d Plain false ["u"; "u"]%string (b_sed rows) r_tmpl None None 0 1 2 = (d', s', Ok K) /\
  s_rwave (b_sed rows) = b_wave /\ s_rflux (b_sed rows) = table 6 rows /\ StronglySorted Rlt b_wave /\
  0 <= (1 + 1/5) * (1 + 1/10) - 1 <= 1 /\
  spec_wave b_wave 1 = [1;2;4;6;8;10] /\ spec_flux 6 rows [2; 2] 1 = [2;3;5;6;6;7].
Proof.
  destruct (b_pair [[1;1;2;2;1;1]; [1;2;3;4;5;6]] [[4;6;10;12;12;14]]) as (d & d1 & s1 & K1 & d2 & s2 & K2 & H1 & H2); try discriminate; try (repeat constructor).
  exists (bisect (1/1000)), d, d1, s1, K1. split; [exact L_C78_exists|]. split; [exact H1|]. split; [reflexivity|]. split; [reflexivity|]. split; [apply sorted_wide|].
  split; [lra|]. unfold spec_wave, spec_flux, b_wave, combined, dot. cbn.
  split; repeat (apply (f_equal2 (@cons R)); [lra|]); reflexivity.
Qed.

(** At the redshifts of the grid they are the fluxes of the spectrum. *)
Lemma L_C107_at_grid_redshifts :
  forall cub bq sun vega fs d k abc responses s t out map_ (r0 r1 : R) nz d' s' K rows z c i,
    let wave := s_rwave s in
    splines cub -> Kcorrect cub bq sun vega fs d k abc responses s t out map_ r0 r1 nz = (d', s', Ok K) ->
    s_rflux s = table (length wave) rows -> rect (length wave) rows -> rows <> [] -> -1 < r0 < r1 -> (2 <= nz)%nat ->
    StronglySorted Rlt wave -> (4 <= length wave)%nat -> length c = length rows -> nth_error (redshift_grid r0 r1 nz) i = Some z ->
    let in_band n x := exists r, dget d' n = Some r /\
      project_arr cub r (vec (spec_wave wave z)) (vec (spec_flux (length wave) rows c z)) = Ok (scal x) in
    exists p q, reconstruct (k_fit K) (Some (scal z)) (Some (vec c)) 0 = Ok (vec p) /\ Forall2 in_band responses p /\
      reconstruct_out K (Some (scal z)) (Some (vec c)) 0 = Ok (vec q) /\ Forall2 in_band (k_out K) q.
Proof.
  intros cub bq sun vega fs d k abc responses s t out map_ r0 r1 nz d' s' K rows z c i wave Hc H Hf Hr Hne Hrr Hnz Hs H4 Lc Hi ib.
  pose proof (grid_in _ _ _ _ _ (proj2 Hrr) Hnz Hi) as Hz. assert (EZ : (1 + z) * (1 + 0) - 1 = z) by ring.
  destruct (L_C107_reconstruct cub bq sun vega fs d k abc responses s t out map_ r0 r1 nz d' s' K rows z c 0 Hc H Hf Hr Hne Hrr Hnz Hs H4 Lc)
    as (p & q & Ep & Hp & Eq & Hq); [rewrite EZ; auto|].
  pose proof (grid_sorted r0 r1 nz Hnz (proj2 Hrr)) as Sg.
  assert (A : forall n x, (exists j z0 z1 u x0 x1,
      nth_error (redshift_grid r0 r1 nz) j = Some z0 /\ nth_error (redshift_grid r0 r1 nz) (S j) = Some z1 /\
      0 <= u <= 1 /\ (1 + z) * (1 + 0) - 1 = (1 - u) * z0 + u * z1 /\
      (exists r, dget d' n = Some r /\ project_arr cub r (vec (spec_wave wave z0)) (vec (spec_flux (length wave) rows c z0)) = Ok (scal x0)) /\
      (exists r, dget d' n = Some r /\ project_arr cub r (vec (spec_wave wave z1)) (vec (spec_flux (length wave) rows c z1)) = Ok (scal x1)) /\
      x = ((1 - u) * x0 + u * x1) / (1 + 0)) -> ib n x).
  { intros n x (j & z0 & z1 & u & x0 & x1 & G0 & G1 & Hu & Ez & P0 & P1 & ->). rewrite EZ in Ez.
    assert (D : z = z0 /\ u = 0 \/ z = z1 /\ u = 1).
    { pose proof (grid_step r0 r1 nz j z0 z1 (proj2 Hrr) Hnz G0 G1) as (_ & _ & Hlt & _).
      destruct (le_lt_dec i j) as [Q|Q].
      - left. assert (z <= z0).
        { destruct (Nat.eq_dec i j) as [->|]; [rewrite G0 in Hi; injection Hi as ->; lra|]. apply (sorted_at _ _ _ _ _ Sg Hi G0). lia. }
        assert (u = 0) by nra. subst u. lra.
      - right. assert (z1 <= z).
        { destruct (Nat.eq_dec i (S j)) as [->|]; [rewrite G1 in Hi; injection Hi as ->; lra|]. apply (sorted_at _ _ _ _ _ Sg G1 Hi). lia. }
        assert (u = 1) by nra. subst u. lra. }
    destruct D as [[-> ->]|[-> ->]]; [destruct P0 as (r & ? & P)|destruct P1 as (r & ? & P)]; exists r; split; auto; rewrite P; do 2 f_equal; field. }
  exists p, q. split; [exact Ep|]. split; [eapply forall2_weaken; [|exact Hp]; exact A|]. split; [exact Eq|]. eapply forall2_weaken; [|exact Hq]; exact A.
Qed.

Lemma E_C107_at_grid_redshifts : exists bq d d' s' K, let rows := [[1;1;2;2;1;1]; [1;2;3;4;5;6]] in
  splines notaknot /\ Kcorrect notaknot bq sun0 sun0 (fun _ => None) d Plain false ["u"; "u"]%string (b_sed rows) r_tmpl None None 0 1 2 = (d', s', Ok K) /\
  nth_error (redshift_grid 0 1 2) 1 = Some 1 /\ spec_flux 6 rows [2; 2] 1 = [2;3;5;6;6;7].
Proof.
  destruct E_C107_reconstruct as (bq & d & d' & s' & K & H1 & H2 & _ & _ & _ & _ & _ & H3). exists bq, d, d', s', K. split; auto. split; auto. split; auto.
  unfold redshift_grid, nnat; cbn [seq map nth_error]; rcbn; f_equal; unfold Q2R; cbn; field.
Qed.

(** Between them, if F z is the flux of the spectrum seen from z, they differ from F by at most the error of linear interpolation. *)
Lemma L_C107_error :
  forall cub bq sun vega fs d k abc responses s t out map_ (r0 r1 : R) nz d' s' K rows z c bs,
    let wave := s_rwave s in
    splines cub -> Kcorrect cub bq sun vega fs d k abc responses s t out map_ r0 r1 nz = (d', s', Ok K) ->
    s_rflux s = table (length wave) rows -> rect (length wave) rows -> rows <> [] -> -1 < r0 < r1 -> (2 <= nz)%nat ->
    StronglySorted Rlt wave -> (4 <= length wave)%nat -> length c = length rows ->
    let Z := (1 + z) * (1 + bs) - 1 in
    r0 <= Z <= r1 -> -1 < bs ->
    let step := (r1 - r0) / INR (nz - 1) in
    let accurate n x := forall r F, dget d' n = Some r ->
      (forall y, r0 <= y <= r1 -> project_arr cub r (vec (spec_wave wave y)) (vec (spec_flux (length wave) rows c y)) = Ok (scal (F y))) ->
      (forall M, curved M F r0 r1 -> Rabs (x - F Z / (1 + bs)) <= M / 8 * step ^ 2 / (1 + bs)) /\
      (forall L, (forall a b, r0 <= a <= r1 -> r0 <= b <= r1 -> Rabs (F a - F b) <= L * Rabs (a - b)) ->
         Rabs (x - F Z / (1 + bs)) <= L / 2 * step / (1 + bs)) in
    exists p q, reconstruct (k_fit K) (Some (scal z)) (Some (vec c)) bs = Ok (vec p) /\ Forall2 accurate responses p /\
      reconstruct_out K (Some (scal z)) (Some (vec c)) bs = Ok (vec q) /\ Forall2 accurate (k_out K) q.
Proof.
  intros cub bq sun vega fs d k abc responses s t out map_ r0 r1 nz d' s' K rows z c bs wave Hc H Hf Hr Hne Hrr Hnz Hs H4 Lc Z HZ Hbs step acc.
  destruct (L_C104_reconstruct cub bq sun vega fs d k abc responses s t out map_ r0 r1 nz d' s' K _ rows z c bs H Hf Hr Hne (proj2 Hrr) Hnz HZ Hbs Lc)
    as (p & q & Ep & Lp & Hp & Eq & Lq & Hq).
  assert (T : forall n r F, dget d' n = Some r ->
    (forall y, r0 <= y <= r1 -> project_arr cub r (vec (spec_wave wave y)) (vec (spec_flux (length wave) rows c y)) = Ok (scal (F y))) ->
    forall i y l, nth_error (redshift_grid r0 r1 nz) i = Some y -> photometry cub d' (s_rwave s) (length wave) rows n y l -> F y = dot l c).
  { intros n r F Hd HF i y l Hi Hl. pose proof (grid_in _ _ _ _ _ (proj2 Hrr) Hnz Hi) as Hy.
    pose proof (spec_projected cub d' wave rows n y l c r Hc Hs H4 ltac:(lra) Hr Lc Hd Hl) as E. rewrite HF in E by auto. injection E. auto. }
  exists p, q. split; [exact Ep|]. split; [|split; [exact Eq|]]; (apply forall2_nth; [auto|]); intros j n x Hj Hx r F Hd HF;
    [destruct (Hp j n F Hj (T n r F Hd HF)) as (x' & Ex & A)|destruct (Hq j n F Hj (T n r F Hd HF)) as (x' & Ex & A)];
    rewrite Hx in Ex; injection Ex as ->; exact A.
Qed.

Lemma E_C107_error : exists bq d d' s' K r F, let rows := [[1;1;2;2;1;1]; [1;2;3;4;5;6]] in
  splines notaknot /\ Kcorrect notaknot bq sun0 sun0 (fun _ => None) d Plain false ["u"; "u"]%string (b_sed rows) r_tmpl None None 0 1 2 = (d', s', Ok K) /\
  dget d' "u"%string = Some r /\
  forall y, 0 <= y <= 1 -> project_arr notaknot r (vec (spec_wave b_wave y)) (vec (spec_flux 6 rows [2; 2] y)) = Ok (scal (F y)).
Proof.
  destruct (band_example notaknot (bisect (1/1000)) (1/1000) [0;1;1;0]) as [r HB]; auto using L_C78_exists.
  - apply bisect_root_finder. lra.
  - apply Exists_cons_tl, Exists_cons_hd. lra.
  - destruct (HB) as (_ & HR & _).
    destruct (b_build [("u"%string, r)] r [[1;1;2;2;1;1]; [1;2;3;4;5;6]]) as (d' & s' & K & HK & Hd); auto; try discriminate; [repeat constructor|].
    set (P := fun y => project_arr notaknot r (vec (spec_wave b_wave y)) (vec (spec_flux 6 [[1;1;2;2;1;1]; [1;2;3;4;5;6]] [2; 2] y))).
    exists (bisect (1/1000)), [("u"%string, r)], d', s', K, r, (fun y => match P y with Ok a => hd 0 (dat a) | Raise _ => 0 end).
    split; [exact L_C78_exists|]. split; [exact HK|]. split; [exact Hd|]. intros y Hy.
    assert (S : exists s, spectrum (spec_wave b_wave y) (spec_flux 6 [[1;1;2;2;1;1]; [1;2;3;4;5;6]] [2; 2] y) s).
    { apply spectrum_intro; [|cbn; lia|reflexivity|]; unfold spec_wave, b_wave; cbn [map]; repeat constructor; lra. }
    destruct S as [s HS].
    assert (S2 : exists s2, spectrum (spec_wave b_wave y) (zip (fun u v => 1 * u + 0 * v)
      (spec_flux 6 [[1;1;2;2;1;1]; [1;2;3;4;5;6]] [2; 2] y) (spec_flux 6 [[1;1;2;2;1;1]; [1;2;3;4;5;6]] [2; 2] y)) s2).
    { apply spectrum_intro; [apply HS|cbn; lia|reflexivity|apply HS]. }
    destruct S2 as [s2 HS2].
    destruct (L_C17_linear_spline notaknot _ _ _ _ _ r _ _ _ _ _ 1 0 s s s2 L_C78_exists HB HS HS HS2) as (m & _ & E & _).
    assert (EP : P y = Ok (scal m)). { unfold P. rewrite (L_C17_array_call _ r _ _ s); auto; [apply wf_vec|apply HS]. }
    change (P y = Ok (scal (match P y with Ok a => hd 0 (dat a) | Raise _ => 0 end))). rewrite EP. reflexivity.
Qed.

Lemma grid_flux cub d wave rows r0 r1 nz i n c z x : splines cub -> StronglySorted Rlt wave -> (4 <= length wave)%nat -> rect (length wave) rows ->
  length c = length rows -> -1 < r0 < r1 -> (2 <= nz)%nat -> nth_error (redshift_grid r0 r1 nz) i = Some z ->
  model_flux cub d wave (length wave) rows (redshift_grid r0 r1 nz) n c z x ->
  exists r, dget d n = Some r /\ project_arr cub r (vec (spec_wave wave z)) (vec (spec_flux (length wave) rows c z)) = Ok (scal x).
Proof.
  intros Hc Hs H4 Hr Lc Hrr Hnz Hi Hx. pose proof Hx as (j & z0 & z1 & l0 & l1 & u & G0 & G1 & Hu & Ez & P0 & P1 & _).
  pose proof (grid_sorted r0 r1 nz Hnz (proj2 Hrr)) as Sg. pose proof (grid_in _ _ _ _ _ (proj2 Hrr) Hnz Hi) as Hz.
  assert (D : z = z0 \/ z = z1).
  { pose proof (grid_step r0 r1 nz j z0 z1 (proj2 Hrr) Hnz G0 G1) as (_ & _ & Hlt & _).
    destruct (le_lt_dec i j) as [Q|Q].
    - left. pose proof (sorted_at _ _ _ _ _ Sg Hi G0 Q). nra.
    - right. pose proof (sorted_at _ _ _ _ _ Sg G1 Hi Q). nra. }
  assert (P : exists l, photometry cub d wave (length wave) rows n z l) by (destruct D as [->| ->]; eauto).
  destruct P as [l P]. rewrite (L_C72_at_grid_redshifts _ _ _ _ _ _ _ _ _ _ _ _ _ l (proj2 Hrr) Hnz Hx Hi P).
  pose proof P as (r & v & Hd & _). exists r. split; auto. eapply spec_projected; eauto. lra.
Qed.

(** The K-correction compares the flux of this spectrum in the input band with that of the same spectrum moved to redshift band_shift
    in the output band. *)
Lemma L_C107_kcorrect :
  forall cub bq sun vega fs d k abc responses s t out map_ (r0 r1 : R) nz d' s' K rows z c bs i i',
    let wave := s_rwave s in
    splines cub -> Kcorrect cub bq sun vega fs d k abc responses s t out map_ r0 r1 nz = (d', s', Ok K) ->
    s_rflux s = table (length wave) rows -> rect (length wave) rows -> rows <> [] -> -1 < r0 < r1 -> (2 <= nz)%nat ->
    StronglySorted Rlt wave -> (4 <= length wave)%nat -> length c = length rows -> 0 < fold_right Rplus 0 c ->
    nth_error (redshift_grid r0 r1 nz) i = Some z -> nth_error (redshift_grid r0 r1 nz) i' = Some bs ->
    let in_band n y x := exists r, dget d' n = Some r /\
      project_arr cub r (vec (spec_wave wave y)) (vec (spec_flux (length wave) rows c y)) = Ok (scal x) in
    exists v, kcorrect K (Some (scal z)) (Some (vec c)) bs = Ok (vec v) /\ length v = length (k_out K) /\
      forall j n_out n_in, nth_error (k_out K) j = Some n_out -> nth_error (k_map K) j = Some n_in ->
        exists x y, in_band n_in z x /\ in_band n_out bs y /\ nth_error v j = Some (-5/2 * log10 (x / (y / (1 + bs)))).
Proof.
  intros cub bq sun vega fs d k abc responses s t out map_ r0 r1 nz d' s' K rows z c bs i i' wave Hc H Hf Hr Hne Hrr Hnz Hs H4 Lc Hsum Hi Hi' ib.
  destruct (L_C72_kcorrect cub bq sun vega fs d k abc responses s t out map_ r0 r1 nz d' s' K _ rows z c bs H Hf Hr Hne (proj2 Hrr) Hnz
    (grid_in _ _ _ _ _ (proj2 Hrr) Hnz Hi) (grid_in _ _ _ _ _ (proj2 Hrr) Hnz Hi') Lc Hsum) as (v & Ev & Lv & Hv).
  exists v. split; [exact Ev|]. split; [exact Lv|]. intros j n_out n_in Ho Hn. destruct (Hv j n_out n_in Ho Hn) as (x & y & Hx & Hy & E).
  exists x, y. split; [eapply grid_flux; eauto|]. split; [eapply grid_flux; eauto|exact E].
Qed.

Lemma E_C107_kcorrect : exists bq d d' s' K, let rows := [[1;1;2;2;1;1]; [1;2;3;4;5;6]] in
  splines notaknot /\ Kcorrect notaknot bq sun0 sun0 (fun _ => None) d Plain false ["u"; "u"]%string (b_sed rows) r_tmpl None None 0 1 2 = (d', s', Ok K) /\
  nth_error (redshift_grid 0 1 2) 1 = Some 1 /\ nth_error (redshift_grid 0 1 2) 0 = Some 0 /\ 0 < fold_right Rplus 0 [2; 2] /\
  spec_wave b_wave 1 = [1;2;4;6;8;10] /\ spec_flux 6 rows [2; 2] 1 = [2;3;5;6;6;7] /\ spec_flux 6 rows [2; 2] 0 = [4;6;10;12;12;14].
Proof.
  destruct E_C107_reconstruct as (bq & d & d' & s' & K & H1 & H2 & _ & _ & _ & _ & H4 & H3). exists bq, d, d', s', K. split; auto. split; auto.
  split; [|split; [|split; [cbn; lra|split; auto; split; auto]]].
  1,2: unfold redshift_grid, nnat; cbn [seq map nth_error]; rcbn; f_equal; unfold Q2R; cbn; field.
  unfold spec_flux, combined, dot. cbn. repeat (apply (f_equal2 (@cons R)); [lra|]); reflexivity.
Qed.
