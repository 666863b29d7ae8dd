(** Supporting lemmas about the example programs. *)
From Coq Require Import String List Arith Lia Bool ZArith QArith Qreals Reals Lra.
From Verif Require Import Base BaseLemmas Num Interp Utils UtilsProofs Sed Response Fitter FitSpec FitterProofs FitterThms FitRealThms Scripts ScriptsSpec.
Import ListNotations.
Local Open Scope nat_scope.

Section Tables.
  Context {T : Type} {N : Num T}.
  Definition ab_m (l : list T) : list T :=
    zip (fun k x => cst (nmul (cst x) (code_abfac default_abfix k))) (seq 0 5) l.
  Definition ab_iv (l : list T) : list T :=
    zip (fun k x => cst (ndiv (cst x) (nsq (code_abfac default_abfix k)))) (seq 0 5) l.
  Definition floor_row (fl m iv : list T) : list T :=
    zip (fun f p => floor_entry cst f (fst p) (snd p)) fl (zip pair m iv).

  Lemma rect_In w (rows : list (list T)) : rect w rows -> forall r, In r rows -> length r = w.
  Proof. unfold rect. rewrite Forall_forall. auto. Qed.
  Lemma wf_table w (rows : list (list T)) : rect w rows -> wf (table w rows).
  Proof. intro H. unfold wf, table. cbn [shp dat size fold_right]. rewrite (length_table H). lia. Qed.
  Lemma nd_eq (a : nd T) s d : shp a = s -> dat a = d -> a = mk s d.
  Proof. destruct a; cbn; intros -> ->; auto. Qed.

  Lemma to_table (a : nd T) w rows : 0 < w -> wf a -> shp a = [length rows; w] -> rect w rows ->
    (forall i k, i < length rows -> k < w -> nth_error (dat a) (i * w + k) = nth_error (nth i rows []) k) -> a = table w rows.
  Proof.
    intros Hw Wa Sa R H. apply nd_eq; auto. apply nth_error_ext. intro j.
    rewrite (nth_error_concat_flat rows j (rect_In _ _ R) Hw).
    destruct (le_lt_dec (length rows) (j / w)) as [L|L].
    - rewrite (proj2 (nth_error_None rows _) L). apply nth_error_None. rewrite Wa, Sa. cbn [size fold_right]. rewrite Nat.mul_1_r.
      pose proof (div_mod_idx j Hw). nia.
    - rewrite (div_mod_idx j Hw) at 1. rewrite H; [|lia|apply Nat.mod_upper_bound; lia].
      rewrite (nth_error_nth' rows [] L). reflexivity.
  Qed.

  Lemma rect_zip {A} w (f : A -> list T -> list T) l rows : (forall a r, length r = w -> length (f a r) = w) -> rect w rows ->
    rect w (zip f l rows).
  Proof.
    intros H R. revert l. induction R as [|r rows E R IH]; intros [|a l]; cbn [zip]; constructor; auto. apply IH.
  Qed.
  Lemma rect_mapf {A} w (f : A -> list T) l : (forall a, In a l -> length (f a) = w) -> rect w (map f l).
  Proof. intro H. unfold rect. rewrite Forall_map, Forall_forall. auto. Qed.

  Lemma ab_len l : length l = 5 -> length (ab_m l) = 5 /\ length (ab_iv l) = 5.
  Proof. intro H. unfold ab_m, ab_iv. rewrite !length_zip, H. auto. Qed.

  Lemma sdss_table rows rows' : rect 5 rows -> rect 5 rows' -> length rows' = length rows ->
    sdss_ab_correct (table 5 rows) (Some (table 5 rows')) default_abfix =
    Ok (table 5 (map ab_m rows), Some (table 5 (map ab_iv rows'))).
  Proof.
    intros R R' L.
    destruct (@sdss_ab_correct_spec T N (table 5 rows) default_abfix (Some (table 5 rows'))) as (am & ai & E & S & W & H & a & -> & Sa & Wa & Ha);
      auto using wf_table; try (unfold table, lastd; cbn; lia); try (unfold wf; reflexivity).
    - intros iv Q. injection Q as <-. split; auto using wf_table. unfold table. cbn [shp]. congruence.
    - rewrite E. f_equal. f_equal; [|f_equal].
      + apply to_table; auto; try lia.
        * rewrite S, map_length. reflexivity.
        * apply rect_mapf. intros r Hr. apply ab_len. exact (rect_In _ _ R _ Hr).
        * rewrite map_length. intros i k Hi Hk. rewrite H by (unfold table; cbn; nia).
          change (lastd (shp (table 5 rows))) with 5. rewrite Nat.add_comm, Nat.mod_add, Nat.mod_small, (proj2 (Nat.ltb_lt k 5)) by lia.
          change (nth i (map ab_m rows) []) with (nth i (map ab_m rows) (ab_m [])). rewrite map_nth. unfold ab_m. rewrite nth_error_zip, nth_error_seq, (proj2 (Nat.ltb_lt k 5)) by lia.
          unfold table. cbn [dat]. rewrite Nat.add_comm, (nth_error_concat_const rows i (rect_In _ _ R) Hk), (nth_error_nth' rows [] Hi).
          destruct (nth_error (nth i rows []) k); reflexivity.
      + apply to_table; auto; try lia.
        * rewrite Sa, map_length, L. reflexivity.
        * apply rect_mapf. intros r Hr. apply ab_len. exact (rect_In _ _ R' _ Hr).
        * rewrite map_length. intros i k Hi Hk. rewrite Ha by (unfold table; cbn; nia).
          change (lastd (shp (table 5 rows))) with 5. rewrite Nat.add_comm, Nat.mod_add, Nat.mod_small, (proj2 (Nat.ltb_lt k 5)) by lia.
          change (nth i (map ab_iv rows') []) with (nth i (map ab_iv rows') (ab_iv [])). rewrite map_nth. unfold ab_iv. rewrite nth_error_zip, nth_error_seq, (proj2 (Nat.ltb_lt k 5)) by lia.
          unfold table. cbn [dat]. rewrite Nat.add_comm, (nth_error_concat_const rows' i (rect_In _ _ R') Hk), (nth_error_nth' rows' [] Hi).
          destruct (nth_error (nth i rows' []) k); reflexivity.
  Qed.

  Lemma sdss_table_none rows : rect 5 rows ->
    sdss_ab_correct (table 5 rows) None default_abfix = Ok (table 5 (map ab_m rows), None).
  Proof.
    intros R. pose proof (sdss_table rows rows R R eq_refl) as E.
    destruct (@sdss_ab_correct_spec T N (table 5 rows) default_abfix (Some (table 5 rows))) as (am & ai & E1 & S1 & W1 & H1 & _);
      auto using wf_table; try (unfold table, lastd; cbn; lia); try (unfold wf; reflexivity).
    { intros iv Q. injection Q as <-. split; auto using wf_table. }
    destruct (@sdss_ab_correct_spec T N (table 5 rows) default_abfix None) as (am2 & ai2 & E2 & S2 & W2 & H2 & Hn);
      auto using wf_table; try (unfold table, lastd; cbn; lia); try (unfold wf; reflexivity); try discriminate.
    rewrite E2. subst ai2. f_equal. f_equal. rewrite E in E1. assert (Q : table 5 (map ab_m rows) = am) by congruence. rewrite Q.
    destruct am as [s d], am2 as [s2 d2]. cbn [shp dat] in *. rewrite S1, S2. f_equal. apply nth_error_ext. intro j.
    destruct (le_lt_dec (size (shp (table 5 rows))) j) as [Lj|Lj].
    - rewrite !(proj2 (nth_error_None _ j)); auto; [rewrite W1|rewrite W2]; cbn [shp]; congruence.
    - rewrite H1, H2 by auto. reflexivity.
  Qed.

  Lemma floor_table w fl rows rows' : 0 < w -> length fl = w -> rect w rows -> rect w rows' -> length rows' = length rows ->
    error_floor cst (vec fl) (table w rows) (table w rows') = Ok (table w (zip (floor_row fl) rows rows')).
  Proof.
    intros Hw Hf R R' L.
    assert (RZ : rect w (zip (floor_row fl) rows rows')).
    { clear L. revert rows' R'. induction R as [|r rows E R IH]; intros [|r' rows'] R'; cbn [zip]; constructor; inversion R'; subst; auto.
      - unfold floor_row. rewrite !length_zip. lia.
      - apply IH; auto. }
    destruct (@error_floor_spec T N cst (vec fl) (table w rows) (table w rows')) as (o & E & S & W & H);
      auto using wf_table, wf_vec; try (unfold table; cbn; congruence); try (unfold table, ndim; cbn; lia).
    rewrite E. f_equal. apply to_table; auto.
    - rewrite S, length_zip, L, Nat.min_id. reflexivity.
    - rewrite length_zip, L, Nat.min_id. intros i k Hi Hk. rewrite H by (unfold table; cbn; nia).
      change (lastd (shp (table w rows))) with w. rewrite Nat.add_comm, Nat.mod_add, Nat.mod_small by lia. rewrite Nat.add_comm.
      assert (EZ : nth i (zip (floor_row fl) rows rows') [] = floor_row fl (nth i rows []) (nth i rows' [])).
      { apply nth_error_nth. rewrite nth_error_zip, (nth_error_nth' rows [] Hi), (nth_error_nth' rows' [] (n := i)) by lia. reflexivity. }
      assert (G : forall rs, rect w rs -> i < length rs -> nth (i * w + k) (dat (table w rs)) n0 = nth k (nth i rs []) n0 /\ k < length (nth i rs [])).
      { intros rs Rs Hi'. assert (LL : length (nth i rs []) = w) by (apply rect_nth; auto). split; [|lia].
        apply nth_error_nth. unfold table. cbn [dat]. rewrite (nth_error_concat_const rs i (rect_In _ _ Rs) Hk), (nth_error_nth' rs [] Hi').
        apply nth_error_nth'. lia. }
      destruct (G rows R Hi) as [-> K1]. destruct (G rows' R' ltac:(lia)) as [-> K2]. rewrite EZ. unfold floor_row. rewrite !nth_error_zip.
      rewrite (nth_error_nth' (nth i rows []) n0 K1), (nth_error_nth' (nth i rows' []) n0 K2), (nth_error_nth' fl n0) by lia. reflexivity.
  Qed.

  Definition clean_m (m iv : list T) : list T := zip (fun x y => if bad x y then n0 else x) m iv.
  Definition clean_iv (m iv : list T) : list T := zip (fun x y => if bad x y then n0 else y) m iv.
  Lemma zip_concat {A B C} (f : A -> B -> C) w : forall rows rows', rect w rows -> rect w rows' -> length rows' = length rows ->
    zip f (concat rows) (concat rows') = concat (zip (zip f) rows rows').
  Proof.
    induction rows as [|r rows IH]; intros [|r' rows'] R R' L; try discriminate; auto. inversion R; inversion R'; subst. cbn [concat zip].
    rewrite <- (IH rows'); auto. generalize (concat rows) (concat rows'). clear -H5. revert r' H5. induction r as [|a r IH]; intros [|b r'] H l l'; try discriminate; auto.
    cbn [app zip]. f_equal. apply IH. cbn in H. lia.
  Qed.
  Lemma clean_table w rows rows' : rect w rows -> rect w rows' -> length rows' = length rows ->
    exists nbad, clean (table w rows) (table w rows') = (table w (zip clean_m rows rows'), table w (zip clean_iv rows rows'), nbad) /\
      (Forall (Forall (fun b => b = false)) (zip (zip bad) rows rows') -> nbad = 0).
  Proof.
    intros R R' L. eexists. unfold clean, table. cbn [shp dat]. rewrite !(zip_concat _ w rows rows') by auto.
    rewrite !length_zip, L, Nat.min_id. split; [reflexivity|].
    intro H. generalize dependent (zip (zip bad) rows rows'). intro l. induction l as [|r l IH]; intro H; auto. inversion H; subst. cbn [concat].
    rewrite filter_app, app_length, IH by auto. clear -H2. induction r as [|b r IHr]; auto. inversion H2; subst. apply IHr; auto.
  Qed.
  Lemma clean_rect w rows rows' : rect w rows -> rect w rows' -> rect w (zip clean_m rows rows') /\ rect w (zip clean_iv rows rows').
  Proof.
    intros R. revert rows'. induction R as [|r rows E R IH]; intros [|r' rows'] R'; cbn [zip]; split; constructor; inversion R'; subst;
      try (unfold clean_m, clean_iv; rewrite length_zip; lia); apply IH; auto.
  Qed.
End Tables.

(** * Rows *)
Section Rows.
  Context {T : Type} {N : Num T}.
  Variables vj vh vk : T.
  Definition gst_floors : list T := dat gst_floor.
  Definition gst_m (r : gst_row T) : list T := deredden_m (g_ext r) (gst_raw_m vj vh vk r (ab_m (g_model r))).
  Definition gst_iv (r : gst_row T) : list T :=
    floor_row gst_floors (gst_m r) (deredden_iv (g_ext r) (gst_raw_iv vj vh vk r (ab_iv (g_model_ivar r)))).
  Lemma zip_maps {A B C D E} (f : A -> B -> C) (g : D -> A) (h : E -> B) l l' : zip f (map g l) (map h l') = zip (fun a b => f (g a) (h b)) l l'.
  Proof. rewrite zip_map_l, zip_map_r. reflexivity. Qed.
  Lemma zip_diag {A C} (f : A -> A -> C) l : zip f l l = map (fun a => f a a) l.
  Proof. induction l; cbn; f_equal; auto. Qed.

  Lemma red_fac_len : length red_fac = 10.
  Proof. reflexivity. Qed.
  Lemma gst_lens r : five_bands r -> length (gst_m r) = 10 /\ length (deredden_iv (g_ext r) (gst_raw_iv vj vh vk r (ab_iv (g_model_ivar r)))) = 10 /\ length (gst_iv r) = 10.
  Proof.
    intros [H1 H2]. destruct (ab_len _ H1) as [A1 _]. destruct (ab_len _ H2) as [_ A2].
    assert (L1 : length (gst_m r) = 10) by (unfold gst_m, deredden_m, gst_raw_m; rewrite length_zip, red_fac_len, !app_length, map_length, A1; reflexivity).
    assert (L2 : length (deredden_iv (g_ext r) (gst_raw_iv vj vh vk r (ab_iv (g_model_ivar r)))) = 10)
      by (unfold deredden_iv, gst_raw_iv; rewrite length_zip, red_fac_len, !app_length, map_length, A2; reflexivity).
    split; [exact L1|]. split; [exact L2|]. unfold gst_iv, floor_row. rewrite !length_zip, L1, L2. reflexivity.
  Qed.

  Lemma gst_photometry_rows rows : Forall five_bands rows ->
    exists nbad, gst_photometry vj vh vk rows =
      Ok (table 10 (map (fun r => clean_m (gst_m r) (gst_iv r)) rows), table 10 (map (fun r => clean_iv (gst_m r) (gst_iv r)) rows), nbad) /\
      (Forall (fun r => Forall (fun b => b = false) (zip bad (gst_m r) (gst_iv r))) rows -> nbad = 0).
  Proof.
    intro H. rewrite Forall_forall in H. unfold gst_photometry.
    assert (R1 : rect 5 (map g_model rows)) by (apply rect_mapf; intros; apply H; auto).
    assert (R2 : rect 5 (map g_model_ivar rows)) by (apply rect_mapf; intros; apply H; auto).
    pose proof (sdss_table (map g_model rows) (map g_model_ivar rows) R1 R2) as E. unfold table at 1 2 in E. rewrite !map_length in E.
    rewrite E by auto. cbn [bind fst snd].
    rewrite !lrows_table by (apply rect_mapf; intros r Hr; apply ab_len; rewrite in_map_iff in Hr; destruct Hr as (x & <- & Hx); apply H; auto).
    rewrite !map_map. rewrite !zip_map_r, !zip_diag.
    assert (R3 : rect 10 (map gst_m rows)) by (apply rect_mapf; intros; apply gst_lens; auto).
    assert (R4 : rect 10 (map (fun r => deredden_iv (g_ext r) (gst_raw_iv vj vh vk r (ab_iv (g_model_ivar r)))) rows)) by (apply rect_mapf; intros; apply gst_lens; auto).
    assert (R5 : rect 10 (map gst_iv rows)) by (apply rect_mapf; intros; apply gst_lens; auto).
    pose proof (floor_table 10 gst_floors _ _ ltac:(lia) eq_refl R3 R4 ltac:(rewrite !map_length; auto)) as EF.
    unfold table at 1 2 in EF. rewrite !map_length in EF. unfold gst_m at 1 in EF. change (vec gst_floors) with (@gst_floor T N) in EF. rewrite EF. cbn [bind].
    rewrite zip_maps, zip_diag.
    destruct (clean_table 10 (map gst_m rows) (map gst_iv rows) R3 R5 ltac:(rewrite !map_length; auto)) as (nb & EC & E0).
    exists nb. rewrite zip_maps, zip_diag, Forall_map in E0. split; [|exact E0].
    rewrite !zip_maps, !zip_diag in EC. rewrite <- EC. unfold table. rewrite !map_length. reflexivity.
  Qed.

  (** The rows of the other program. *)
  Definition mtol_floors : list T := dat mtol_floor.
  Definition mt_m (r : im_row T) : list T :=
    zip (fun x e => nmul (nmul x (nlit (1 # 1000000000))) (npow10 (nmul (nlit (2 # 5)) e))) (ab_m (i_flux r)) (i_ext r).
  Definition mt_iv0 (r : im_row T) : list T :=
    zip (fun x e => nmul (nmul x (nlit (1000000000000000000 # 1))) (npow10 (nmul (nlit (-(4) # 5)) e))) (ab_iv (i_ivar r)) (i_ext r).
  Definition mt_iv (r : im_row T) : list T := floor_row mtol_floors (mt_m r) (mt_iv0 r).
  Lemma mt_lens r : five_bands_im r -> length (mt_m r) = 5 /\ length (mt_iv0 r) = 5 /\ length (mt_iv r) = 5.
  Proof.
    intros (H1 & H2 & H3). destruct (ab_len _ H1) as [A1 _]. destruct (ab_len _ H2) as [_ A2].
    assert (L1 : length (mt_m r) = 5) by (unfold mt_m; rewrite length_zip, A1, H3; reflexivity).
    assert (L2 : length (mt_iv0 r) = 5) by (unfold mt_iv0; rewrite length_zip, A2, H3; reflexivity).
    split; [exact L1|]. split; [exact L2|]. unfold mt_iv, floor_row. rewrite !length_zip, L1, L2. reflexivity.
  Qed.
  Lemma mtol_photometry_rows rows : Forall five_bands_im rows ->
    exists nbad, mtol_photometry rows =
      Ok (table 5 (map (fun r => clean_m (mt_m r) (mt_iv r)) rows), table 5 (map (fun r => clean_iv (mt_m r) (mt_iv r)) rows), nbad) /\
      (Forall (fun r => Forall (fun b => b = false) (zip bad (mt_m r) (mt_iv r))) rows -> nbad = 0).
  Proof.
    intro H. rewrite Forall_forall in H. unfold mtol_photometry.
    assert (R1 : rect 5 (map i_flux rows)) by (apply rect_mapf; intros; apply H; auto).
    assert (R2 : rect 5 (map i_ivar rows)) by (apply rect_mapf; intros; apply H; auto).
    assert (R0 : rect 5 (map i_ext rows)) by (apply rect_mapf; intros; apply H; auto).
    pose proof (sdss_table (map i_flux rows) (map i_ivar rows) R1 R2) as E. unfold table at 1 2 in E. rewrite !map_length in E.
    rewrite E by auto. cbn [bind fst snd].
    assert (A1 : rect 5 (map ab_m (map i_flux rows))) by (apply rect_mapf; intros r Hr; apply ab_len; exact (rect_In _ _ R1 _ Hr)).
    assert (A2 : rect 5 (map ab_iv (map i_ivar rows))) by (apply rect_mapf; intros r Hr; apply ab_len; exact (rect_In _ _ R2 _ Hr)).
    change (dat (table 5 (map ab_m (map i_flux rows)))) with (concat (map ab_m (map i_flux rows))).
    change (dat (table 5 (map ab_iv (map i_ivar rows)))) with (concat (map ab_iv (map i_ivar rows))).
    rewrite !(zip_concat _ 5) by (auto; rewrite !map_length; auto).
    rewrite !map_map, !zip_maps, !zip_diag.
    assert (R3 : rect 5 (map mt_m rows)) by (apply rect_mapf; intros; apply mt_lens; auto).
    assert (R4 : rect 5 (map mt_iv0 rows)) by (apply rect_mapf; intros; apply mt_lens; auto).
    assert (R5 : rect 5 (map mt_iv rows)) by (apply rect_mapf; intros; apply mt_lens; auto).
    pose proof (floor_table 5 mtol_floors _ _ ltac:(lia) eq_refl R3 R4 ltac:(rewrite !map_length; auto)) as EF.
    unfold table at 1 2 in EF. rewrite !map_length in EF. unfold mt_m at 1, mt_iv0 at 1 in EF. change (vec mtol_floors) with (@mtol_floor T N) in EF.
    rewrite EF. cbn [bind].
    rewrite zip_maps, zip_diag.
    destruct (clean_table 5 (map mt_m rows) (map mt_iv rows) R3 R5 ltac:(rewrite !map_length; auto)) as (nb & EC & E0).
    exists nb. rewrite zip_maps, zip_diag, Forall_map in E0. split; [|exact E0].
    rewrite !zip_maps, !zip_diag in EC. rewrite <- EC. unfold table. rewrite !map_length. reflexivity.
  Qed.
End Rows.

(** * Fits of usable photometry *)
Lemma clean_usable (m iv : list xr) i a v :
  nth_error (clean_m m iv) i = Some a -> nth_error (clean_iv m iv) i = Some v -> usable a v.
Proof.
  unfold clean_m, clean_iv. rewrite !nth_error_zip. destruct (nth_error m i) as [x|], (nth_error iv i) as [y|]; try discriminate.
  intros Ha Hv. injection Ha as <-. injection Hv as <-. unfold bad, usable. xcbn.
  destruct x as [x| | |]; cbn [xfin negb orb]; try (split; [exists 0%R; auto|exists 0%R; split; auto; lra]).
  destruct y as [y| | |]; cbn [xfin negb orb]; try (split; [exists 0%R; auto|exists 0%R; split; auto; lra]).
  unfold xltb. destruct (Rltb y 0) eqn:E; [split; [exists 0%R; auto|exists 0%R; split; auto; lra]|].
  split; [exists x; auto|]. exists y. split; auto. unfold Rltb in E. destruct (Rlt_dec y 0); [discriminate|lra].
Qed.

Definition good_obj (nb : nat) (o : obj xr) : Prop :=
  obj_ok nb o /\ o_z o <> NaN /\ forall i a v, nth_error (o_m o) i = Some a -> nth_error (o_iv o) i = Some v -> usable a v.

Section Fit.
  Variables (nnls : option nat -> nat -> list (list xr) -> list xr -> option (list xr)) (rng : nat -> xr).
  Variables (F : fitter xr) (A : atab xr) (x : list R) (rows : list (list R)) (nb nt : nat).
  Hypothesis (Hs : nnls_shape nnls) (Ha : no_ab F) (HF : ready F A nb nt) (Hb : nb <> 1).
  Hypothesis (Hx : a_x A = map Fin x) (Hr : a_rows A = map (map Fin) rows) (Hg : grid_ok x).

  Lemma fit_good o cur : good_obj nb o ->
    (exists c, fit_object nnls rng F 0 o cur = Ok (Bare (vec c), cur)) \/ fit_object nnls rng F 0 o cur = Raise RuntimeError.
  Proof.
    intros (Ho & Hz & Hu). 
    assert (L2 : (2 <= length x)%nat) by (destruct HF as (_ & _ & _ & _ & _ & Q & _); rewrite Hx, map_length in Q; auto).
    assert (E0 : nth 0 (a_x A) n0 = Fin (nth 0 x 0%R)) by (rewrite Hx; apply (map_nth Fin)).
    assert (EL : last (a_x A) n0 = Fin (last x 0%R)).
    { rewrite Hx. clear. change (@n0 xr _) with (Fin 0). generalize 0%R as d. induction x as [|a [|b l] IH]; intro d; auto. cbn [map last] in *. apply IH. }
    assert (OUT : outside A (cst (o_z o)) -> (exists c, fit_object nnls rng F 0 o cur = Ok (Bare (vec c), cur)) \/ fit_object nnls rng F 0 o cur = Raise RuntimeError).
    { intro O. left. eexists. eapply L_C30_out_of_range_gives_zero; eauto. }
    unfold outside in OUT. rewrite E0, EL in OUT. change (cst (o_z o)) with (o_z o) in OUT.
    destruct o as [z m iv]. cbn [o_z o_m o_iv] in *. destruct Ho as [Lm Li]. cbn [o_m o_iv] in Lm, Li.
    destruct z as [t| | |]; try congruence; [|apply OUT; right; reflexivity|apply OUT; left; reflexivity].
    destruct (Rlt_dec t (nth 0 x 0%R)) as [L|L]; [apply OUT; left; apply Rltb_true; auto|].
    destruct (Rlt_dec (last x 0%R) t) as [G|G]; [apply OUT; right; apply Rltb_true; auto|].
    eapply L_C59_usable_photometry_is_fitted; eauto. unfold in_range. lra.
  Qed.

  Lemma fit_all_good objs cur : Forall (good_obj nb) objs ->
    (exists c, length c = length objs /\ rect nt c /\ fit_objects nnls rng F nb 0 objs cur = Ok (Bare (table nt c), cur)) \/
    fit_objects nnls rng F nb 0 objs cur = Raise RuntimeError.
  Proof.
    intro H. 
    assert (OK : Forall (obj_ok nb) objs) by (eapply Forall_impl; [|exact H]; intros o Q; apply Q).
    assert (B : forall o r cur', fit_object nnls rng F 0 o cur = Ok (r, cur') -> cur' = cur /\ length (dat (out_c r)) = nt).
    { intros o r cur' E. destruct (fit_object_bare _ _ _ _ _ _ _ _ _ _ _ _ Hs HF E) as (-> & c & -> & W & S). split; auto. cbn [out_c].
      rewrite W, S. cbn. lia. }
    destruct (Nat.eq_dec (length objs) 1) as [L1|L1].
    - destruct objs as [|o [|]]; try discriminate. inversion OK; subst. inversion H; subst.
      rewrite (L_C27_batch_of_one _ _ _ _ _ _ _ _ _ _ Hs Ha HF Hb) by auto.
      destruct (fit_good o cur) as [[c E]|E]; auto; rewrite E; [left|right; auto].
      exists [c]. destruct (B _ _ _ E) as [_ L]. cbn in L. split; auto. split; [constructor; auto|]. unfold table. cbn. rewrite app_nil_r. reflexivity.
    - rewrite (L_C27_batch_is_sequence_of_single_calls _ _ _ _ _ _ _ _ _ _ _ Hs Ha HF Hb) by auto.
      assert (Q : (exists outs, length outs = length objs /\ Forall (fun o => length (dat (out_c o)) = nt) outs /\
                     run_each (fit_object nnls rng F 0) objs cur = Ok (outs, cur)) \/
                  run_each (fit_object nnls rng F 0) objs cur = Raise RuntimeError).
      { clear L1 OK. induction H as [|o objs G H IH]; cbn [run_each].
        - left. exists []. auto.
        - destruct (fit_good o cur G) as [[c E]|E]; rewrite E; auto. destruct (B _ _ _ E) as [_ L].
          destruct IH as [(outs & I1 & I2 & I3)|I]; [|rewrite I; auto]. rewrite I3. left. exists (Bare (vec c) :: outs). cbn [length]. auto. }
      destruct Q as [(outs & Q1 & Q2 & Q3)|Q]; [|rewrite Q; auto]. rewrite Q3. left. cbn [Nat.eqb].
      exists (map (fun o => map cst (dat (out_c o))) outs). rewrite map_length, Q1. split; auto. split.
      + unfold rect. rewrite Forall_map. eapply Forall_impl; [|exact Q2]. intros o Ho. rewrite map_length. auto.
      + unfold table. rewrite map_length, Q1. reflexivity.
  Qed.
End Fit.
