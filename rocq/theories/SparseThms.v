(** C102: few templates suffice. *)
From Coq Require Import String List Arith Lia Bool ZArith QArith Qreals Reals Lra.
From Verif Require Import Base BaseLemmas Num Toy Interp InterpReal Spec Utils UtilsReal Sed Response RespDict ResponseObj LinInterp ResponseEx
  Fitter FitSpec FitterProofs FitterMC FitReal FitTable FitEx FitRealEx FitRealThms Kcorrect KSpec KTable KEx KcorrectProofs XrAlg KcorrectThms AbsmagProofs AbsmagThms
  NnlsSpec NnlsExact NnlsEx NnlsThms SparseSpec SparseProofs SparseEx.
Import ListNotations.
Local Open Scope R_scope.
(* STATEMENTS *)

Lemma recon_same (F : fitter R) A nb nt z c x bs : f_nsed F = nt -> tab_ok A nb nt -> length c = nt -> length x = nt ->
  mulmv (chunks nb nt (arow A (shifted bs z))) x = mulmv (chunks nb nt (arow A (shifted bs z))) c ->
  reconstruct_ F (Some A) (Some (scal z)) (Some (vec x)) bs = reconstruct_ F (Some A) (Some (scal z)) (Some (vec c)) bs.
Proof.
  intros Hn Ht Lc Lx E. rewrite (reconstruct_scal F z x bs Hn Ht Lx), (reconstruct_scal F z c bs Hn Ht Lc). rcbn.
  rewrite !map_id, !recon1_shift, E. reflexivity.
Qed.

Lemma mulmv_app M1 M2 c : mulmv (M1 ++ M2) c = mulmv M1 c ++ mulmv M2 c.
Proof. unfold mulmv. apply map_app. Qed.
Lemma app_parts {A} (a b c d : list A) : length a = length c -> a ++ b = c ++ d -> a = c /\ b = d.
Proof.
  revert c. induction a as [|x a IH]; intros [|y c] L H; try discriminate; [auto|].
  cbn in H. injection H as -> H. injection L as L. destruct (IH c L H) as [-> ->]. auto.
Qed.
Lemma mulmv_split M1 M2 c x : mulmv (M1 ++ M2) x = mulmv (M1 ++ M2) c -> mulmv M1 x = mulmv M1 c /\ mulmv M2 x = mulmv M2 c.
Proof. rewrite !mulmv_app. apply app_parts. unfold mulmv. rewrite !map_length. auto. Qed.
Lemma rect_app {A} n (a b : list (list A)) : rect n a -> rect n b -> rect n (a ++ b).
Proof. intros H1 H2. unfold rect. apply Forall_app. auto. Qed.

(** * The same results from other coefficients *)
Lemma process_two (F : fitter R) z m iv (c x : list R) : length x = length c ->
  match process_inputs F z m iv (Some (vec c)), process_inputs F z m iv (Some (vec x)) with
  | Ok p, Ok q => q_array q = q_array p /\ q_n q = q_n p /\ q_z q = q_z p /\ q_m q = q_m p /\ q_iv q = q_iv p /\ q_c p = Some (vec c) /\ q_c q = Some (vec x)
  | Raise e, Raise e' => e' = e
  | _, _ => False
  end.
Proof.
  intro L. unfold process_inputs. destruct z as [z|]; [|auto]. destruct (Nat.leb _ 1); [|auto].
  assert (E : forall l : list R, map1 cst (vec l) = vec l) by (intro l; unfold map1, vec; cbn; rewrite map_id; auto).
  assert (S : shp (vec x) = shp (vec c)) by (cbn [shp vec]; congruence).
  cbn [option_map]. rewrite !E. 
  assert (O : forall a n w, opt_shape_ok a n w (Some (vec x)) = opt_shape_ok a n w (Some (vec c))) by (intros; cbn [opt_shape_ok]; rewrite S; auto).
  rewrite O.
  destruct (opt_shape_ok _ _ _ (option_map (map1 cst) m)); [|auto].
  destruct (opt_shape_ok _ _ _ (option_map (map1 cst) iv)); [|auto].
  destruct (opt_shape_ok _ _ _ (Some (vec c))); [|auto].
  destruct (f_abc F), (option_map (map1 cst) m) as [m'|]; cbn [bind]; [|repeat split; reflexivity..].
  destruct (to_ab (f_kind F) m' (option_map (map1 cst) iv)); cbn; [repeat split; reflexivity|congruence].
Qed.
Lemma absmag_same distmod (K : kcor R) m iv z c x bs dist r l k : length x = length c ->
  kcorrect K (Some (scal z)) (Some (vec x)) bs = kcorrect K (Some (scal z)) (Some (vec c)) bs ->
  reconstruct_out K (Some (scal z)) (Some (vec x)) bs = reconstruct_out K (Some (scal z)) (Some (vec c)) bs ->
  absmag distmod K m iv (Some (scal z)) (Some (vec x)) bs dist r l k = absmag distmod K m iv (Some (scal z)) (Some (vec c)) bs dist r l k.
Proof.
  intros L E1 E2. unfold absmag. pose proof (process_two (k_fit K) (Some (scal z)) m iv c x L) as H.
  destruct (process_inputs (k_fit K) (Some (scal z)) m iv (Some (vec c))) as [p|] eqn:Ep,
           (process_inputs (k_fit K) (Some (scal z)) m iv (Some (vec x))) as [q|] eqn:Eq; try contradiction; [|cbn [bind]; congruence].
  destruct H as (H1 & H2 & H3 & H4 & H5 & H6 & H7). cbn [bind]. unfold absmag_after. rewrite H1, H3, H4, H5, H6, H7.
  assert (Z : q_z p = scal z).
  { unfold process_inputs in Ep. cbn [ndim scal map1 shp map dat length Nat.leb Nat.eqb] in Ep.
    repeat match type of Ep with context [opt_shape_ok ?a ?b ?c ?d] => destruct (opt_shape_ok a b c d); [|discriminate] end.
    destruct (f_abc _), (option_map _ m); try (injection Ep as <-; reflexivity).
    destruct (to_ab _ _ _); [|discriminate]. cbn [bind] in Ep. injection Ep as <-. reflexivity. }
  rewrite Z, E1, E2. destruct dist as [d|]; [|reflexivity].
  pose proof (process_two (k_fit K) (Some d) None None c x L) as H.
  destruct (process_inputs (k_fit K) (Some d) None None (Some (vec c))) as [p'|],
           (process_inputs (k_fit K) (Some d) None None (Some (vec x))) as [q'|]; try contradiction; [|cbn [bind]; congruence].
  destruct H as (I1 & _ & I3 & _). cbn [bind]. rewrite I1, I3. reflexivity.
Qed.
Lemma kcorrect_same (K : kcor R) A Ao nb no nt z c x bs : kready K A Ao nb no nt -> length c = nt -> length x = nt ->
  reconstruct (k_fit K) (Some (scal z)) (Some (vec x)) 0 = reconstruct (k_fit K) (Some (scal z)) (Some (vec c)) 0 ->
  reconstruct_out K (Some (scal 0)) (Some (vec x)) bs = reconstruct_out K (Some (scal 0)) (Some (vec c)) bs ->
  fold_right Rplus 0 x = fold_right Rplus 0 c ->
  kcorrect K (Some (scal z)) (Some (vec x)) bs = kcorrect K (Some (scal z)) (Some (vec c)) bs.
Proof.
  intros ((HA & Hb & Hn & Ht) & _) Lc Lx E1 E2 Es. unfold kcorrect.
  rewrite (process_zc_scal (k_fit K) z x Hn Lx), (process_zc_scal (k_fit K) z c Hn Lc). cbn [bind plain_pin q_z q_c q_array option_map].
  assert (E : forall l : list R, map1 cst (vec l) = vec l) by (intro l; unfold map1, vec; cbn; rewrite map_id; auto).
  rewrite !E. assert (Z : map1 (fun z => nmul (nlit 0) z) (map1 cst (scal z)) = scal 0).
  { unfold map1, scal; cbn [shp dat map]. rcbn. do 2 f_equal. unfold Q2R; cbn. lra. }
  rewrite Z. change (map1 cst (scal z)) with (scal z). change (@n0 R Num_R) with 0 in *. rewrite E1, E2.
  rewrite !nsum_R. cbn [dat vec]. rewrite Es. reflexivity.
Qed.
(** The sums over templates of [derived]. *)
Definition sums (K : kcor R) : list (list R) :=
  let t := k_tmpl K in
  [t_intsfh t; t_mremain t; zip Rmult (t_mremain t) (t_mets t); t_m50 t; t_m300 t; t_m1000 t].
Lemma derived_same distmod d (K : kcor R) A Ao nb no nt z c x bs dist : kready K A Ao nb no nt -> length c = nt -> length x = nt ->
  reconstruct_out K (Some (scal 0)) (Some (vec x)) bs = reconstruct_out K (Some (scal 0)) (Some (vec c)) bs ->
  mulmv (sums K) x = mulmv (sums K) c ->
  (forall dd, dist = Some dd -> ndim dd = 0%nat) ->
  derived distmod d K (Some (scal z)) (Some (vec x)) bs dist = derived distmod d K (Some (scal z)) (Some (vec c)) bs dist.
Proof.
  intros ((HA & Hb & Hn & Ht) & _) Lc Lx E1 Es Hd. unfold derived.
  rewrite (process_zc_scal (k_fit K) z x Hn Lx), (process_zc_scal (k_fit K) z c Hn Lc). cbn [bind plain_pin q_z q_c q_array option_map].
  assert (E : forall l : list R, map1 cst (vec l) = vec l) by (intro l; unfold map1, vec; cbn; rewrite map_id; auto).
  rewrite !E. unfold mulmv, sums in Es. cbn [map] in Es. injection Es as S1 S2 S3 S4 S5 S6.
  assert (W : forall v df, dot v x = dot v c -> weighted (lrows (vec x)) v df = weighted (lrows (vec c)) v df).
  { intros v df H. rewrite !lrows_vec. unfold weighted. destruct df as [|f df]; [reflexivity|]. cbn [zip].
    rewrite !dotp_dot, (dot_comm x), (dot_comm c), H. reflexivity. }
  destruct dist as [dd|].
  - assert (L : length x = length c) by congruence.
    assert (Ar : forall q l, process_inputs (k_fit K) (Some dd) None None (Some (vec l)) = Ok q -> q_array q = false).
    { intros q l H. unfold process_inputs in H. assert (N0 : ndim (map1 cst dd) = 0%nat) by (rewrite <- (Hd dd eq_refl); reflexivity).
      rewrite N0 in H. cbn [Nat.leb Nat.eqb option_map opt_shape_ok] in H. destruct (shape_ok _ _ _ _); [|discriminate].
      destruct (f_abc (k_fit K)); injection H as <-; reflexivity. }
    pose proof (process_two (k_fit K) (Some dd) None None c x L) as H.
    destruct (process_inputs (k_fit K) (Some dd) None None (Some (vec c))) as [p'|] eqn:Ep,
             (process_inputs (k_fit K) (Some dd) None None (Some (vec x))) as [q'|] eqn:Eq; try contradiction; [|cbn [bind]; congruence].
    rewrite (Ar _ _ Ep) in H. destruct H as (I1 & _ & I3 & _). cbn [bind]. rewrite I1, I3, (Ar _ _ Ep).
    change (@n0 R Num_R) with 0. rewrite E1. change (@nmul R Num_R) with Rmult. rewrite !(W _ _ S1), !(W _ _ S2), !(W _ _ S3), !(W _ _ S4), !(W _ _ S5), !(W _ _ S6). reflexivity.
  - cbn [bind]. change (@n0 R Num_R) with 0. rewrite E1. change (@nmul R Num_R) with Rmult.
    rewrite !(W _ _ S1), !(W _ _ S2), !(W _ _ S3), !(W _ _ S4), !(W _ _ S5), !(W _ _ S6). reflexivity.
Qed.

(** The rows of the measured bands. *)
Fixpoint kept (iv : list R) (M : list (list R)) : list (list R) :=
  match iv, M with
  | w :: iv, r :: M => if Rlt_dec 0 w then r :: kept iv M else kept iv M
  | _, _ => []
  end.
Lemma kept_rect n : forall iv M, rect n M -> rect n (kept iv M).
Proof. induction iv as [|w iv IH]; intros [|r M] H; try constructor. inversion H; subst. cbn [kept]. destruct (Rlt_dec 0 w); [constructor; auto|]; apply IH; auto. Qed.
Lemma kept_length : forall iv M, length iv = length M -> length (kept iv M) = measured iv.
Proof.
  unfold measured. induction iv as [|w iv IH]; intros [|r M] H; try discriminate; [reflexivity|]. injection H as H. cbn [kept filter].
  destruct (Rlt_dec 0 w); cbn [length]; auto.
Qed.
Lemma kept_same : forall iv M x c, mulmv (kept iv M) x = mulmv (kept iv M) c -> same_measured iv (mulmv M x) (mulmv M c).
Proof.
  intros iv M x c H. split; [unfold mulmv; rewrite !map_length; auto|]. revert M H.
  induction iv as [|w iv IH]; intros M H i w' a b Hi Hw Ha Hb; [destruct i; discriminate|].
  destruct M as [|r M]; [destruct i; discriminate|]. cbn [kept] in H.
  destruct i as [|i]; cbn [nth_error mulmv map] in Hi, Ha, Hb.
  - injection Hi as ->. destruct (Rlt_dec 0 w'); [|contradiction]. unfold mulmv in H. cbn [map] in H. congruence.
  - apply (IH M) with (i := i) (w := w'); auto. destruct (Rlt_dec 0 w); auto. unfold mulmv in *. cbn [map] in H. congruence.
Qed.
Lemma kept_dark : forall iv M y, (forall v, In v (mulmv (kept iv M) y) -> v = 0) -> dark_measured iv (mulmv M y).
Proof.
  intros iv M y. revert M. induction iv as [|w iv IH]; intros M H i w' a Hi Hw Ha; [destruct i; discriminate|].
  destruct M as [|r M]; [destruct i; discriminate|]. cbn [kept] in H.
  destruct i as [|i]; cbn [nth_error mulmv map] in Hi, Ha.
  - injection Hi as ->. destruct (Rlt_dec 0 w'); [|contradiction]. injection Ha as <-. apply H. left; auto.
  - apply (IH M) with (i := i) (w := w'); auto. intros v Hv. apply H. destruct (Rlt_dec 0 w); auto. right; auto.
Qed.
Lemma chi2_same : forall iv m p q, nonneg iv -> same_measured iv p q -> chi2 iv m p = chi2 iv m q.
Proof.
  induction iv as [|w iv IH]; intros m p q Hn [L H]; [reflexivity|]. inversion Hn as [|? ? Hw Hn']; subst.
  destruct m as [|a m]; [reflexivity|]. destruct p as [|b p], q as [|e q]; try discriminate; [reflexivity|]. injection L as L.
  unfold chi2, vsub in *. cbn [zip fold_right]. rewrite (IH m p q); auto.
  - destruct (Rlt_dec 0 w) as [P|P]; [rewrite (H 0%nat w b e eq_refl P eq_refl eq_refl); auto|]. replace w with 0 by lra. lra.
  - split; auto. intros i. apply (H (S i)).
Qed.
Lemma trio_fit x m iv : length x = 3%nat -> nonneg x -> m = [nth 0 x 0 + 2 * nth 1 x 0 + 3 * nth 2 x 0; nth 1 m 0] -> 
  (iv = [1; 0] \/ iv = [1; 1] /\ nth 1 m 0 = 2 * nth 0 m 0) ->
  fit_object (prefer x) (fun _ => 0) trio_fitter 0 {| o_z := 0; o_m := m; o_iv := iv |} 0 = Ok (Bare (vec x), 0%nat).
Proof.
  intros Lx Nx Em Hi.
  assert (R0 : in_range (a_x trio_tab) 0) by (unfold in_range; cbn; lra). assert (AB : no_ab trio_fitter) by (left; reflexivity).
  assert (Lm : length m = 2%nat) by (rewrite Em; reflexivity). assert (Li : length iv = 2%nat) by (destruct Hi as [->|[-> _]]; reflexivity).
  destruct (fit_eq (prefer x) (fun _ => 0) trio_fitter trio_tab 2 3 {| o_z := 0; o_m := m; o_iv := iv |} 0)
    as (_ & _ & _ & ->); auto; [apply trio_ready|split; auto|]. cbn [o_z o_m o_iv].
  rewrite (arow_between trio_tab 2 3 0 0 (proj2 (proj2 (proj2 trio_ready))) trio_grid) by (cbn; lia || lra).
  destruct x as [|x0 [|x1 [|x2 [|]]]]; try discriminate. destruct m as [|m0 [|m1 [|]]]; try discriminate. cbn [nth] in Em, Hi. injection Em as Em.
  cbn [a_x trio_tab a_rows nth chunks firstn skipn zip map].
  unfold prefer. cbn [length Nat.eqb andb]. rewrite (proj2 (nonnegb_iff [x0; x1; x2]) Nx).
  destruct (Req_EM_T _ _) as [_|Hz]; [reflexivity|]. exfalso. apply Hz.
  unfold sumsq, vsub, mulmv, dot. destruct Hi as [->|[-> ->]]; cbn [map zip fold_right]; rewrite ?sqrt_1, ?sqrt_0, Em; field.
Qed.

(** C102.  For any nonnegative coefficients, and any list of redshifts and band shifts, there are nonnegative coefficients
    that use only some of the same templates, at most one for each response and pair of the list, with the same fluxes. *)
Lemma L_C102_fluxes :
  forall (F : fitter R) A nb nt c qs, ready F A nb nt -> length c = nt -> nonneg c ->
    exists x, length x = nt /\ nonneg x /\ within c x /\ (used x <= length qs * nb)%nat /\
      forall z bs, In (z, bs) qs ->
        reconstruct F (Some (scal z)) (Some (vec x)) bs = reconstruct F (Some (scal z)) (Some (vec c)) bs.
Proof.
  intros F A nb nt c qs (HA & Hb & Hn & Ht) Lc Nc.
  set (Q := fun q : R * R => chunks nb nt (arow A (shifted (snd q) (fst q)))).
  assert (HQ : rect nt (concat (map Q qs)) /\ length (concat (map Q qs)) = (length qs * nb)%nat).
  { induction qs as [|q qs [IH1 IH2]]; [split; [constructor|reflexivity]|]. cbn [map concat]. split.
    - apply rect_app; auto. apply chunks_length_all; auto.
    - rewrite app_length, IH2. unfold Q. rewrite length_chunks. reflexivity. }
  destruct HQ as [HR HL]. destruct (few _ c nt HR Lc Nc) as (x & X1 & X2 & X3 & X4 & X5). rewrite HL in X4.
  exists x. split; auto. split; auto. split; auto. split; auto. intros z bs Hi. unfold reconstruct. rewrite HA.
  apply (recon_same F A nb nt); auto. fold (Q (z, bs)). clear - X5 Hi. induction qs as [|q qs IH]; [destruct Hi|].
  cbn [map concat] in X5. apply mulmv_split in X5 as [X5 X6]. destruct Hi as [->|Hi]; auto.
Qed.
Lemma E_C102_fluxes : ready trio_fitter trio_tab 2 3 /\ nonneg [1; 1; 1] /\ used [1; 1; 1] = 3%nat /\
  (forall x, length x = 3%nat -> nonneg x -> (used x <= 0)%nat -> x = [0; 0; 0]).
Proof.
  assert (H1 : 1 <> 0) by lra. split; [apply trio_ready|]. split; [repeat constructor; lra|]. split.
  - unfold used; cbn [filter]. destruct (Req_EM_T 1 0); [contradiction|reflexivity].
  - intros [|a [|b [|c [|]]]] L _ U; try discriminate. unfold used in U. cbn [filter] in U.
    destruct (Req_EM_T a 0) as [->|]; [|cbn in U; lia]. destruct (Req_EM_T b 0) as [->|]; [|cbn in U; lia].
    destruct (Req_EM_T c 0) as [->|]; [|cbn in U; lia]. reflexivity.
Qed.

(** So there are always coefficients of at most (number of responses) + 2 (number of output responses) + 7 templates that
    give an object the same fluxes, K-corrections, absolute magnitudes and derived quantities. *)
Lemma L_C102_everything :
  forall distmod d (K : kcor R) A Ao nb no nt z c bs,
    kready K A Ao nb no nt -> tmpl_shape K nt -> length c = nt -> nonneg c ->
    exists x, length x = nt /\ nonneg x /\ within c x /\ (used x <= nb + 2 * no + 7)%nat /\
      reconstruct (k_fit K) (Some (scal z)) (Some (vec x)) 0 = reconstruct (k_fit K) (Some (scal z)) (Some (vec c)) 0 /\
      reconstruct_out K (Some (scal z)) (Some (vec x)) bs = reconstruct_out K (Some (scal z)) (Some (vec c)) bs /\
      kcorrect K (Some (scal z)) (Some (vec x)) bs = kcorrect K (Some (scal z)) (Some (vec c)) bs /\
      (forall m iv dist r l k,
        absmag distmod K m iv (Some (scal z)) (Some (vec x)) bs dist r l k =
        absmag distmod K m iv (Some (scal z)) (Some (vec c)) bs dist r l k) /\
      (forall dist, derived distmod d K (Some (scal z)) (Some (vec x)) bs (option_map scal dist) =
                    derived distmod d K (Some (scal z)) (Some (vec c)) bs (option_map scal dist)).
Proof.
  intros distmod d K A Ao nb no nt z c bs HK HS Lc Nc.
  pose proof HK as ((HA & Hb & Hn & Ht) & HAo & Hto & _).
  set (M1 := chunks nb nt (arow A (shifted 0 z))). set (M2 := chunks no nt (arow Ao (shifted bs 0))). set (M3 := chunks no nt (arow Ao (shifted bs z))).
  assert (R : rect nt (M1 ++ M2 ++ M3 ++ [repeat 1 nt] ++ sums K)).
  { apply rect_app; [apply chunks_length_all; auto|]. apply rect_app; [apply chunks_length_all; auto|]. apply rect_app; [apply chunks_length_all; auto|].
    apply rect_app; [constructor; [apply repeat_length|constructor]|]. unfold tmpl_shape in HS. unfold sums. rewrite !Forall_cons_iff in HS.
    destruct HS as (S1 & S2 & S3 & S4 & S5 & S6 & _). unfold rect. repeat constructor; auto. rewrite length_zip. rewrite S2, S3. apply Nat.min_id. }
  destruct (few _ c nt R Lc Nc) as (x & X1 & X2 & X3 & X4 & X5).
  apply mulmv_split in X5 as [Y1 X5]. apply mulmv_split in X5 as [Y2 X5]. apply mulmv_split in X5 as [Y3 X5]. apply mulmv_split in X5 as [Y4 Y5].
  assert (Ones : forall l, length l = nt -> dot (repeat 1 nt) l = fold_right Rplus 0 l).
  { clear. intros l Hl. subst nt. induction l as [|a l IH]; [reflexivity|]. cbn [length repeat]. unfold dot in *. cbn [zip fold_right]. rewrite IH. ring. }
  assert (Z1 : reconstruct (k_fit K) (Some (scal z)) (Some (vec x)) 0 = reconstruct (k_fit K) (Some (scal z)) (Some (vec c)) 0).
  { unfold reconstruct. rewrite HA. apply (recon_same (k_fit K) A nb nt); auto. }
  assert (Z2 : reconstruct_out K (Some (scal 0)) (Some (vec x)) bs = reconstruct_out K (Some (scal 0)) (Some (vec c)) bs).
  { unfold reconstruct_out. rewrite HAo. apply (recon_same (k_fit K) Ao no nt); auto. }
  assert (Z3 : reconstruct_out K (Some (scal z)) (Some (vec x)) bs = reconstruct_out K (Some (scal z)) (Some (vec c)) bs).
  { unfold reconstruct_out. rewrite HAo. apply (recon_same (k_fit K) Ao no nt); auto. }
  assert (Z4 : kcorrect K (Some (scal z)) (Some (vec x)) bs = kcorrect K (Some (scal z)) (Some (vec c)) bs).
  { apply (kcorrect_same K A Ao nb no nt); auto. unfold mulmv in Y4. cbn [map] in Y4. injection Y4 as Y4. rewrite !Ones in Y4 by auto. auto. }
  exists x. split; auto. split; auto. split; auto. split.
  { unfold M1, M2, M3 in X4. rewrite !app_length, !length_chunks in X4. cbn [length sums] in X4. lia. }
  split; auto. split; auto. split; auto. split.
  - intros. apply absmag_same; auto; congruence.
  - intro dist. apply (derived_same distmod d K A Ao nb no nt); auto. destruct dist as [q|]; intros dd E; [injection E as <-; reflexivity|discriminate].
Qed.
Lemma E_C102_everything : kready dozen_kcor dozen_tab dozen_tab 1 1 12 /\ tmpl_shape dozen_kcor 12 /\ nonneg (repeat 1 12) /\
  (1 + 2 * 1 + 7 < used (repeat 1%R 12))%nat.
Proof.
  split; [apply dozen_ready|]. split; [apply dozen_tmpl|]. split; [repeat constructor; lra|].
  assert (H1 : 1 <> 0) by lra. unfold used; cbn [filter repeat]. destruct (Req_EM_T 1 0); [contradiction|cbn; lia].
Qed.

(** Whatever the solver, there is a fit as good that uses only some of the templates of its own, at most one for each measured band. *)
Lemma L_C102_fit :
  forall nnls rng (F : fitter R) A nb nt o cur c cur',
    nnls_contract nnls -> no_ab F -> ready F A nb nt -> nb <> 1%nat -> obj_ok nb o ->
    nonneg (o_iv o) -> in_range (a_x A) (o_z o) ->
    fit_object nnls rng F 0 o cur = Ok (Bare (vec c), cur') ->
    exists x p q, length x = nt /\ nonneg x /\ within c x /\ (used x <= measured (o_iv o))%nat /\
      reconstruct F (Some (scal (o_z o))) (Some (vec c)) 0 = Ok (vec p) /\
      reconstruct F (Some (scal (o_z o))) (Some (vec x)) 0 = Ok (vec q) /\ same_measured (o_iv o) q p /\
      forall y py, length y = nt -> nonneg y -> reconstruct F (Some (scal (o_z o))) (Some (vec y)) 0 = Ok (vec py) ->
        chi2 (o_iv o) (o_m o) q <= chi2 (o_iv o) (o_m o) py.
Proof.
  intros nnls rng F A nb nt o cur c cur' Hc Hab H H1 Ho Hiv Hr E.
  pose proof (fit_best F A nb nt H _ _ _ _ _ _ Hc Hab H1 Ho Hiv Hr E) as (Lc & Nc & Hb).
  pose proof H as (_ & _ & _ & Ht). pose proof Ho as [Lm Li].
  set (M := chunks nb nt (arow A (o_z o))) in *.
  assert (RM : rect nt M) by (apply chunks_length_all; auto). assert (LM : length M = nb) by apply length_chunks.
  destruct (few (kept (o_iv o) M) c nt (kept_rect _ _ _ RM) Lc Nc) as (x & X1 & X2 & X3 & X4 & X5).
  rewrite kept_length in X4 by congruence. pose proof (kept_same (o_iv o) M x c X5) as SM.
  exists x, (mulmv M c), (mulmv M x). split; auto. split; auto. split; auto. split; auto.
  split; [apply (model_eq F A nb nt); auto|]. split; [apply (model_eq F A nb nt); auto|]. split; auto.
  intros y py Ly Ny Ey. rewrite (model_eq F A nb nt (o_z o) y H Ly Hr) in Ey. injection Ey as _ <-.
  rewrite (chi2_same (o_iv o) (o_m o) (mulmv M x) (mulmv M c)) by auto. apply Hb; auto.
Qed.
Lemma E_C102_fit :
  nnls_contract (prefer [1; 1; 0]) /\ no_ab trio_fitter /\ ready trio_fitter trio_tab 2 3 /\ nonneg [1; 0] /\ in_range (a_x trio_tab) 0 /\
  fit_object (prefer [1; 1; 0]) (fun _ => 0) trio_fitter 0 {| o_z := 0; o_m := [3; 7]; o_iv := [1; 0] |} 0 = Ok (Bare (vec [1; 1; 0]), 0%nat) /\
  measured [1; 0] = 1%nat /\ used [1; 1; 0] = 2%nat.
Proof.
  assert (R0 : in_range (a_x trio_tab) 0) by (unfold in_range; cbn; lra). assert (AB : no_ab trio_fitter) by (left; reflexivity).
  split; [apply prefer_contract|]. split; [exact AB|]. split; [apply trio_ready|]. split; [repeat constructor; lra|]. split; [exact R0|]. split.
  - apply trio_fit; [reflexivity|repeat constructor; lra|cbn [nth]; f_equal; lra|cbn [nth]; first [left; reflexivity|right; split; [reflexivity|lra]]].
  - assert (N1 : 1 <> 0) by lra. assert (P1 : 0 < 1) by lra. split.
    + unfold measured; cbn [filter]. destruct (Rlt_dec 0 1); [|contradiction]. destruct (Rlt_dec 0 0); [lra|reflexivity].
    + unfold used; cbn [filter]. destruct (Req_EM_T 1 0); [contradiction|]. destruct (Req_EM_T 0 0); [reflexivity|contradiction].
Qed.

(** Coefficients of templates that no combination cancels in the measured bands are no more than the measured bands. *)
Lemma L_C102_independent :
  forall (F : fitter R) A nb nt z c iv,
    ready F A nb nt -> length c = nt -> length iv = nb -> in_range (a_x A) z ->
    (forall y q, length y = nt -> within c y -> reconstruct F (Some (scal z)) (Some (vec y)) 0 = Ok (vec q) -> dark_measured iv q -> y = repeat 0 nt) ->
    (used c <= measured iv)%nat.
Proof.
  intros F A nb nt z c iv H Lc Li Hr Hd. pose proof H as (_ & _ & _ & Ht). set (M := chunks nb nt (arow A z)).
  assert (RM : rect nt M) by (apply chunks_length_all; auto). assert (LM : length M = nb) by apply length_chunks.
  rewrite <- (kept_length iv M) by congruence. apply (few_basic _ _ nt); auto using kept_rect.
  intros y Ly Wy Hy. apply (Hd y (mulmv M y)); auto; [apply (model_eq F A nb nt); auto|]. apply kept_dark; auto.
Qed.
Lemma E_C102_independent : ready trio_fitter trio_tab 2 3 /\ in_range (a_x trio_tab) 0 /\ measured [1; 0] = 1%nat /\
  forall y q, length y = 3%nat -> within [0; 5; 0] y -> reconstruct trio_fitter (Some (scal 0)) (Some (vec y)) 0 = Ok (vec q) ->
    dark_measured [1; 0] q -> y = repeat 0 3.
Proof.
  assert (R0 : in_range (a_x trio_tab) 0) by (unfold in_range; cbn; lra).
  split; [apply trio_ready|]. split; [exact R0|]. split.
  - unfold measured; cbn [filter]. destruct (Rlt_dec 0 1); [|lra]. destruct (Rlt_dec 0 0); [lra|reflexivity].
  - intros y q Ly W Eq D. rewrite (model_eq trio_fitter trio_tab 2 3 0 y trio_ready Ly R0) in Eq.
    rewrite (arow_between trio_tab 2 3 0 0 (proj2 (proj2 (proj2 trio_ready))) trio_grid) in Eq by (cbn; lia || lra).
    destruct y as [|a [|b [|e [|]]]]; try discriminate.
    pose proof (W 0%nat eq_refl) as Wa. pose proof (W 2%nat eq_refl) as We. cbn [nth] in Wa, We. subst a e.
    cbn [a_x trio_tab a_rows nth chunks firstn skipn zip map mulmv] in Eq. unfold dot in Eq; cbn [zip fold_right] in Eq. injection Eq as Eq. subst q.
    specialize (D 0%nat 1 _ eq_refl ltac:(lra) eq_refl). cbn [repeat]. assert (b = 0) by lra. subst b. reflexivity.
Qed.

(** What the solver is asked for allows more. *)
Lemma L_C102_solver_refuted :
  exists nnls rng (F : fitter R) A o c, nnls_contract nnls /\ no_ab F /\ ready F A 2 3 /\ obj_ok 2 o /\ Forall (Rlt 0) (o_iv o) /\
    in_range (a_x A) (o_z o) /\ fit_object nnls rng F 0 o 0 = Ok (Bare (vec c), 0%nat) /\ (measured (o_iv o) < used c)%nat.
Proof.
  exists (prefer [1; 1; 1]), (fun _ => 0), trio_fitter, trio_tab, {| o_z := 0; o_m := [6; 12]; o_iv := [1; 1] |}, [1; 1; 1].
  assert (R0 : in_range (a_x trio_tab) 0) by (unfold in_range; cbn; lra). assert (AB : no_ab trio_fitter) by (left; reflexivity).
  split; [apply prefer_contract|]. split; [exact AB|]. split; [apply trio_ready|]. split; [split; reflexivity|]. split; [repeat constructor; lra|].
  split; [exact R0|]. split.
  - apply trio_fit; [reflexivity|repeat constructor; lra|cbn [nth]; f_equal; lra|cbn [nth]; first [left; reflexivity|right; split; [reflexivity|lra]]].
  - cbn [o_iv]. assert (N1 : 1 <> 0) by lra. unfold measured, used; cbn [filter]. destruct (Req_EM_T 1 0); [contradiction|]. destruct (Rlt_dec 0 1); [cbn; lia|lra].
Qed.
