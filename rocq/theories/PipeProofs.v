(** Fits in terms of the names of the bands: the lemmas behind C87-C90. *)
From Coq Require Import String List Arith Lia Bool ZArith QArith Qreals Reals Lra Sorting.Sorted Sorting.Permutation.
From Verif Require Import Base BaseLemmas Num Toy Interp InterpReal Spec Utils Sed Response RespDict ResponseObj LinInterp ResponseEx
  Fitter FitSpec FitterProofs FitterMC FitReal FitTable FitEx FitRealEx FitRealThms Kcorrect KSpec KTable KEx KcorrectProofs XrAlg KcorrectThms AbsmagProofs AbsmagThms
  AbThms UtilsThms RespDictThms PersistThms BuildSpec BuildProofs BuildTable BuildEx BuildThms NnlsSpec NnlsExact NnlsThms PipeSpec.
Import ListNotations.
Local Open Scope R_scope.

Lemma finite_choice {A} (P : string -> A -> Prop) (a0 : A) : forall l, (forall n, In n l -> exists x, P n x) ->
  exists f, forall n, In n l -> P n (f n).
Proof.
  induction l as [|n l IH]; intro H; [exists (fun _ => a0); easy|].
  destruct IH as [f Hf]; [intros; apply H; right; auto|]. destruct (H n (or_introl eq_refl)) as [x Hx].
  exists (fun m => if string_dec n m then x else f m). intros m Hm. destruct (string_dec n m) as [->|]; auto.
  destruct Hm as [->|Hm]; auto. congruence.
Qed.

Lemma chi2_misfit f : forall l, chi2 (map o_ivar l) (map o_mag l) (map (fun b => f (o_name b)) l) = misfit f l.
Proof.
  unfold chi2, misfit, vsub. induction l as [|b l IH]; cbn [map zip fold_right]; auto. rewrite IH. lra.
Qed.
Lemma misfit_mid f1 f2 : forall l,
  misfit (fun n => (f1 n + f2 n) / 2) l + fold_right Rplus 0 (map (fun b => o_ivar b * (f1 (o_name b) - f2 (o_name b)) ^ 2) l) / 4
  = (misfit f1 l + misfit f2 l) / 2.
Proof. unfold misfit. induction l as [|b l IH]; cbn [map fold_right]; [lra|]. lra. Qed.
Lemma misfit_ext f g : forall l, (forall b, In b l -> f (o_name b) = g (o_name b)) -> misfit f l = misfit g l.
Proof. intros l H. unfold misfit. f_equal. apply map_ext_in. intros b Hb. rewrite H; auto. Qed.
Lemma sum_null : forall l (h : obs -> R), Forall (fun b => 0 <= o_ivar b) l ->
  fold_right Rplus 0 (map (fun b => o_ivar b * (h b) ^ 2) l) <= 0 -> forall b, In b l -> 0 < o_ivar b -> h b = 0.
Proof.
  intros l h Hl. assert (P : forall l, Forall (fun b => 0 <= o_ivar b) l -> 0 <= fold_right Rplus 0 (map (fun b => o_ivar b * (h b) ^ 2) l)).
  { clear. induction 1 as [|b l Hb Hl IH]; cbn [map fold_right]; [lra|]. pose proof (pow2_ge_0 (h b)).
    pose proof (Rmult_le_pos _ _ Hb H). lra. }
  induction Hl as [|b l Hb Hl IH]; intros H b' Hin Hp; [easy|]. cbn [map fold_right] in H. specialize (P l Hl).
  pose proof (pow2_ge_0 (h b)) as Q. pose proof (Rmult_le_pos _ _ Hb Q).
  destruct Hin as [<-|Hin]; [|apply IH; auto; lra].
  assert (Z : o_ivar b * h b ^ 2 = 0) by lra. apply Rmult_integral in Z as [Z|Z]; [lra|]. 
  replace (h b ^ 2) with (h b * h b) in Z by ring. apply Rmult_integral in Z as [Z|Z]; auto.
Qed.

Section Flux.
  Variables (cub : list R -> list R -> R -> R) (d : dict (resp R)) (wave : list R) (w : nat) (rows : list (list R)) (r0 r1 : R) (nz : nat).
  Hypothesis Hr : r0 < r1.
  Hypothesis Hnz : (2 <= nz)%nat.
  Notation grid := (redshift_grid r0 r1 nz).
  Notation flux := (model_flux cub d wave w rows grid).

  Lemma flux_lin n a b c1 c2 z x1 x2 : length c1 = length c2 -> flux n c1 z x1 -> flux n c2 z x2 ->
    flux n (lincomb a b c1 c2) z (a * x1 + b * x2).
  Proof.
    intros L (i & z0 & z1 & l0 & l1 & u & H1 & H2 & Hu & Hz & P0 & P1 & ->) F2.
    assert (F2' : flux n c2 z ((1 - u) * dot l0 c2 + u * dot l1 c2)).
    { exists i, z0, z1, l0, l1, u. repeat split; auto; lra. }
    rewrite (L_C72_flux_determined _ _ _ _ _ _ _ _ _ _ _ _ _ Hr Hnz F2' F2).
    exists i, z0, z1, l0, l1, u. repeat (split; [auto; fail|]).
    rewrite (dot_comm l0 (lincomb _ _ _ _)), (dot_comm l1 (lincomb _ _ _ _)), !dot_lin_l by auto.
    rewrite (dot_comm c1 l0), (dot_comm c2 l0), (dot_comm c1 l1), (dot_comm c2 l1). ring.
  Qed.
  Lemma flux_scale n a c z x : flux n c z x -> flux n (map (Rmult a) c) z (a * x).
  Proof.
    intros (i & z0 & z1 & l0 & l1 & u & H1 & H2 & Hu & Hz & P0 & P1 & ->).
    exists i, z0, z1, l0, l1, u. repeat (split; [auto; fail|]).
    rewrite (dot_comm l0 (map _ _)), (dot_comm l1 (map _ _)), !dot_scale, (dot_comm c l0), (dot_comm c l1). ring.
  Qed.
  Lemma flux_ext d' n c z x : extends d d' -> flux n c z x -> model_flux cub d' wave w rows grid n c z x.
  Proof.
    intros He (i & z0 & z1 & l0 & l1 & u & H1 & H2 & Hu & Hz & P0 & P1 & ->).
    exists i, z0, z1, l0, l1, u. repeat (split; [auto; fail|]). split; [eapply photometry_ext; eauto|]. split; [eapply photometry_ext; eauto|]. auto.
  Qed.
End Flux.

Section Built.
  Variables (cub : list R -> list R -> R -> R) (bq : (R -> R) -> R -> R -> res R) (sun vega : res (list R * list (basel_unit R))).
  Variables (fs : @fsys R) (d : dict (resp R)) (k : abkind) (abc : bool) (responses : list string) (s : sed R) (t : tmpl R).
  Variables (out map_ : option (list string)) (r0 r1 : R) (nz : nat) (d' : dict (resp R)) (s' : sed R) (K : kcor R).
  Variables (w : nat) (rows : list (list R)).
  Hypothesis H : Kcorrect cub bq sun vega fs d k abc responses s t out map_ r0 r1 nz = (d', s', Ok K).
  Hypothesis Hf : s_rflux s = table w rows.
  Hypothesis Hrect : rect w rows.
  Hypothesis Hne : rows <> [].
  Hypothesis Hr : r0 < r1.
  Hypothesis Hnz : (2 <= nz)%nat.
  Notation flux := (model_flux cub d' (s_rwave s) w rows (redshift_grid r0 r1 nz)).

  Lemma built_flux n c z : In n responses -> length c = length rows -> r0 <= z <= r1 -> exists x, flux n c z x.
  Proof.
    intros Hn Lc Hz.
    destruct (L_C72_reconstruct _ _ _ _ _ _ _ _ _ _ _ _ _ _ _ _ _ _ _ _ _ z c 0 H Hf Hrect Hne Hr Hnz) as [(p & _ & _ & Hp) _]; auto; [lra|].
    apply In_nth_error in Hn as [j Hj]. destruct (Hp j n Hj) as (x & Hx & _). exists x.
    replace ((1 + z) * (1 + 0) - 1) with z in Hx by lra. auto.
  Qed.
  Lemma built_flux_out n c z : In n (k_out K) -> length c = length rows -> r0 <= z <= r1 -> exists x, flux n c z x.
  Proof.
    intros Hn Lc Hz.
    destruct (L_C72_reconstruct _ _ _ _ _ _ _ _ _ _ _ _ _ _ _ _ _ _ _ _ _ z c 0 H Hf Hrect Hne Hr Hnz) as [_ (p & _ & _ & Hp)]; auto; [lra|].
    apply In_nth_error in Hn as [j Hj]. destruct (Hp j n Hj) as (x & Hx & _). exists x.
    replace ((1 + z) * (1 + 0) - 1) with z in Hx by lra. auto.
  Qed.

  (** reconstruct, band by band. *)
  Lemma built_recon c z f : length c = length rows -> r0 <= z <= r1 -> (forall n, In n responses -> flux n c z (f n)) ->
    reconstruct (k_fit K) (Some (scal z)) (Some (vec c)) 0 = Ok (vec (map f responses)).
  Proof.
    intros Lc Hz Hfl.
    destruct (L_C72_reconstruct _ _ _ _ _ _ _ _ _ _ _ _ _ _ _ _ _ _ _ _ _ z c 0 H Hf Hrect Hne Hr Hnz) as [(p & Ep & Lp & Hp) _]; auto; [lra|].
    rewrite Ep. do 2 f_equal. apply nth_ext with (d := 0) (d' := 0); [rewrite map_length; auto|].
    intros j Hj. destruct (nth_error responses j) as [n|] eqn:En.
    - destruct (Hp j n En) as (x & Hx & Ex). rewrite (nth_error_nth _ _ _ Ex).
      replace ((1 + z) * (1 + 0) - 1) with z in Hx by lra.
      rewrite (L_C72_flux_determined _ _ _ _ _ _ _ _ _ _ _ _ _ Hr Hnz (Hfl n (nth_error_In _ _ En)) Hx).
      erewrite nth_error_nth; [|rewrite nth_error_map, En; reflexivity]. field.
    - apply nth_error_None in En. lia.
  Qed.

  (** The fit of an object, band by band. *)
  Lemma built_fit nnls rng z l cur c cur' : abc = false -> responses = map o_name l -> length l <> 1%nat -> nnls_contract nnls ->
    Forall (fun b => 0 <= o_ivar b) l -> r0 <= z <= r1 ->
    fit_object nnls rng (k_fit K) 0 (observed z l) cur = Ok (Bare (vec c), cur') ->
    length c = length rows /\ nonneg c /\
    forall y f g, length y = length rows -> nonneg y -> (forall b, In b l -> flux (o_name b) c z (f (o_name b))) ->
      (forall b, In b l -> flux (o_name b) y z (g (o_name b))) -> misfit f l <= misfit g l.
  Proof.
    intros Ha Hl H1 Hn Hiv Hz E. pose proof H as H'. rewrite Ha in H'.
    assert (LL : length responses = length l) by (rewrite Hl, map_length; auto).
    destruct (L_C72_fit _ _ _ _ _ _ _ _ _ _ _ _ _ _ _ _ _ _ _ _ nnls rng (observed z l) cur c cur' H' Hf Hrect Hne Hr Hnz) as (Lc & Nc & p & Hp & HO); auto.
    - congruence.
    - split; cbn [observed o_m o_iv]; rewrite map_length; auto.
    - unfold nonneg. apply Forall_map. exact Hiv.
    - split; auto. split; auto. intros y f g Ly Ny Fc Fy. cbn [observed o_z o_m o_iv] in *.
      assert (X : forall c f q, (forall b, In b l -> flux (o_name b) c z (f (o_name b))) ->
        (length q = length responses /\ forall j n x, nth_error responses j = Some n -> nth_error q j = Some x -> flux n c z x) ->
        q = map (fun b => f (o_name b)) l).
      { clear - Hl Hr Hnz LL. intros c f q Hc [Lq Hq]. apply nth_ext with (d := 0) (d' := 0); [rewrite map_length; congruence|].
        intros j Hj. assert (Hj' : (j < length l)%nat) by congruence. destruct (nth_error l j) as [b|] eqn:Eb; [|apply nth_error_None in Eb; lia].
        erewrite (nth_error_nth (map _ _)); [|rewrite nth_error_map, Eb; reflexivity].
        destruct (nth_error q j) as [x|] eqn:Ex; [|apply nth_error_None in Ex; lia]. rewrite (nth_error_nth _ _ _ Ex).
        eapply L_C72_flux_determined; [exact Hr|exact Hnz| |].
        - apply Hc. eapply nth_error_In; eauto.
        - apply (Hq j); auto. rewrite Hl, nth_error_map, Eb. reflexivity. }
      destruct (HO y Ly Ny) as (q & Hq & HC). rewrite (X c f p Fc Hp), (X y g q Fy Hq), !chi2_misfit in HC. exact HC.
  Qed.

  (** absmag, band by band. *)
  Lemma built_absmag distmod l k0 z c m iv dd bs : abc = false -> length m = length responses -> length iv = length responses ->
    length c = length rows -> r0 <= z <= r1 -> r0 <= bs <= r1 -> 0 < fold_right Rplus 0 c ->
    exists ks v a, kcorrect K (Some (scal z)) (Some (vec c)) bs = Ok (vec ks) /\
      absmag_object distmod K bs false false l k0 {| ko_z := z; ko_m := m; ko_iv := iv; ko_c := c; ko_d := dd |} = Ok a /\
      nth_error (parts a) 0 = Some (vec v) /\ length v = length (k_out K) /\
      forall j n_out n_in, nth_error (k_out K) j = Some n_out -> nth_error (k_map K) j = Some n_in ->
        exists i x y kj, nth_error (k_imap K) j = Some i /\ nth_error responses i = Some n_in /\ flux n_in c z x /\ flux n_out c bs y /\
          nth_error ks j = Some kj /\ kj = -5/2 * log10 (x / (y / (1 + bs))) /\
          (forall mi vi, nth_error m i = Some mi -> nth_error iv i = Some vi ->
            (0 < mi -> 0 < vi -> nth_error v j = Some (-5/2 * log10 mi - distmod z - kj)) /\
            (mi <= 0 \/ vi <= 0 -> nth_error v j = Some (-9999))).
  Proof.
    intros Ha Lm Liv Lc Hz Hbs Hs.
    destruct (L_C72_kcorrect _ _ _ _ _ _ _ _ _ _ _ _ _ _ _ _ _ _ _ _ _ z c bs H Hf Hrect Hne Hr Hnz) as (ks & Ek & Lk & Hk); auto.
    destruct (built_tables _ _ _ _ _ _ _ _ _ _ _ _ _ _ _ _ _ _ _ _ _ H Hf Hrect Hne Hr Hnz) as (A & Ao & HK & _).
    pose proof (L_C40_mapping R Num_R _ _ _ _ _ _ _ _ _ _ _ _ _ _ _ _ _ _ _ H) as (_ & Hm & _ & _ & _ & _ & Hab & _ & _ & _ & _ & Hmap).
    assert (Hno : no_ab (k_fit K)) by (left; congruence).
    set (o := {| ko_z := z; ko_m := m; ko_iv := iv; ko_c := c; ko_d := dd |}).
    assert (Ho : kobj_ok (length responses) (length rows) o) by (split; [|split]; auto).
    pose proof (kc_scal K A Ao _ _ _ z c bs rounding_R HK Lc) as Ekc. rewrite Ek in Ekc.
    pose proof (am_scal distmod K A Ao _ _ _ bs false false l k0 o rounding_R HK Hno Ho) as Eam.
    change (ko_z o) with z in *. change (ko_c o) with c in *. change (ko_m o) with m in *. change (ko_iv o) with iv in *.
    destruct (kbad A Ao bs z); [discriminate|]. injection Ekc as Lk' Ekc. cbn [andb] in Eam. cbv zeta in Eam.
    destruct (am_row_nth K A Ao _ _ _ m iv (dm_val distmod false z (ko_d o)) ks HK Lm Liv Lk) as [L Hn].
    rewrite <- Ekc in Eam. change (@cst R Num_R) with (fun x : R => x) in Eam. rewrite !map_id in Eam.
    exists ks, (am_row K m iv (dm_val distmod false z (ko_d o)) ks). eexists. split; auto. split; [exact Eam|].
    split; [rewrite am_pack_0; unfold vec; rewrite L; reflexivity|]. split; [exact L|].
    intros j no ni Ho1 Ni. destruct (Hk j no ni Ho1 Ni) as (x & y & Fx & Fy & Ej).
    destruct (Hmap j ni ltac:(rewrite <- Hm; exact Ni)) as (i & I1 & I2 & _).
    exists i, x, y, (-5/2 * log10 (x / (y / (1 + bs)))). split; auto. split; auto. split; auto. split; auto. split; auto. split; auto.
    intros mi vi Em Ev. assert (Hj : (j < length (k_out K))%nat) by (apply nth_error_Some; congruence).
    rewrite (Hn j 0 Hj). unfold in_band. rewrite (nth_error_nth _ _ 0%nat I1), (nth_error_nth _ _ 0 Em), (nth_error_nth _ _ 0 Ev), (nth_error_nth _ _ 0 Ej).
    unfold absmag1, dm_val, m25, sentinel. rcbn. rewrite Q2R_m25, Q2R_9999. split.
    - intros P1 P2. rewrite (proj2 (Rltb_iff _ _) P1), (proj2 (Rltb_iff _ _) P2). cbn [andb].
      unfold Rleb. destruct (Rle_dec mi 0); [lra|]. destruct (Rle_dec vi 0); [lra|]. reflexivity.
    - unfold Rleb. intros [P|P].
      + destruct (Rle_dec mi 0); [reflexivity|lra].
      + destruct (Rle_dec vi 0); [|lra]. rewrite orb_true_r. reflexivity.
  Qed.
End Built.

Lemma same_info_sym l1 l2 : same_information l1 l2 -> same_information l2 l1.
Proof. intros [k Hk]. exists (- k). intro f. rewrite Hk. lra. Qed.

(** Two minimisers of the same chi^2 agree in the measured bands. *)
Lemma mins_agree (cub : list R -> list R -> R -> R) d wave w rows r0 r1 nz z l1 l2 c1 c2 : r0 < r1 -> (2 <= nz)%nat ->
  let flux := model_flux cub d wave w rows (redshift_grid r0 r1 nz) in
  let minimal l c := length c = length rows /\ nonneg c /\
    forall y f g, length y = length rows -> nonneg y -> (forall b, In b l -> flux (o_name b) c z (f (o_name b))) ->
      (forall b, In b l -> flux (o_name b) y z (g (o_name b))) -> misfit f l <= misfit g l in
  (forall n c, In n (map o_name (l1 ++ l2)) -> length c = length rows -> exists x, flux n c z x) ->
  Forall (fun b => 0 <= o_ivar b) l1 -> same_information l1 l2 -> minimal l1 c1 -> minimal l2 c2 ->
  forall b, In b l1 -> 0 < o_ivar b -> exists x, flux (o_name b) c1 z x /\ flux (o_name b) c2 z x.
Proof.
  intros Hr Hnz flux minimal Hex Hiv [k Hk] (L1 & N1 & M1) (L2 & N2 & M2) b Hb Hpos.
  destruct (finite_choice (fun n x => flux n c1 z x) 0 (map o_name (l1 ++ l2))) as [f1 Hf1]; [intros; apply Hex; auto|].
  destruct (finite_choice (fun n x => flux n c2 z x) 0 (map o_name (l1 ++ l2))) as [f2 Hf2]; [intros; apply Hex; auto|].
  assert (I1 : forall b, In b l1 -> In (o_name b) (map o_name (l1 ++ l2))) by (intros; apply in_map, in_or_app; auto).
  assert (I2 : forall b, In b l2 -> In (o_name b) (map o_name (l1 ++ l2))) by (intros; apply in_map, in_or_app; auto).
  pose proof (M2 c1 f2 f1 L1 N1 ltac:(auto) ltac:(auto)) as Q2.
  set (cm := lincomb (1 - 1/2) (1/2) c1 c2).
  assert (Q3 : misfit f1 l1 <= misfit (fun n => (f1 n + f2 n) / 2) l1).
  { apply (M1 cm); [| |auto|].
    - unfold cm. rewrite lincomb_length; [assumption|congruence].
    - unfold cm. apply lin_nonneg; [lra|assumption|assumption].
    - intros b' Hb'. replace ((f1 (o_name b') + f2 (o_name b')) / 2) with ((1 - 1/2) * f1 (o_name b') + 1/2 * f2 (o_name b')) by field.
      apply flux_lin; auto; [congruence|apply Hf1; auto|apply Hf2; auto]. }
  pose proof (misfit_mid f1 f2 l1) as Q4. rewrite (Hk f2) in Q4. rewrite !(Hk f1) in *.
  assert (Q5 : f1 (o_name b) - f2 (o_name b) = 0).
  { apply (sum_null l1 (fun b => f1 (o_name b) - f2 (o_name b)) Hiv); auto.
    set (S := fold_right Rplus 0 _) in *. cbv beta in *. lra. }
  exists (f1 (o_name b)). split; auto. replace (f1 (o_name b)) with (f2 (o_name b)) by lra. auto.
Qed.

(** ... and if the templates can be told apart they are equal. *)
Lemma told_apart_eq (cub : list R -> list R -> R -> R) d wave w rows r0 r1 nz z l c1 c2 : r0 < r1 -> (2 <= nz)%nat ->
  let flux := model_flux cub d wave w rows (redshift_grid r0 r1 nz) in
  length c1 = length rows -> length c2 = length rows ->
  (forall b, In b l -> 0 < o_ivar b -> exists x, flux (o_name b) c1 z x /\ flux (o_name b) c2 z x) ->
  told_apart flux (length rows) z l -> c1 = c2.
Proof.
  intros Hr Hnz flux L1 L2 HA HT.
  assert (Z : lincomb 1 (-1) c1 c2 = repeat 0 (length rows)).
  { apply HT; [rewrite lincomb_length; congruence|]. intros b Hb Hp. destruct (HA b Hb Hp) as (x & F1 & F2).
    replace 0 with (1 * x + -1 * x) by lra. apply flux_lin; auto. congruence. }
  clear - L1 L2 Z. revert c1 c2 L1 L2 Z. generalize (length rows). intros n c1. revert n.
  induction c1 as [|x c1 IH]; intros n [|y c2] L1 L2 Z; cbn in *; try congruence. subst n. injection L2 as L2.
  unfold lincomb in Z. cbn [zip repeat] in Z. injection Z as Z0 Z. f_equal; [lra|]. apply (IH (length c1)); auto.
Qed.

(** The same templates for the second object. *)
Lemma built_after cub bq sun vega fs d k abc responses (s : sed R) t out map_ r0 r1 nz d' s' K :
  Kcorrect cub bq sun vega fs d k abc responses s t out map_ r0 r1 nz = (d', s', Ok K) -> extends d d' /\ same_rest s s'.
Proof.
  intro H. apply (Kcorrect_again cub bq sun vega fs fs d d' d' k abc responses s s' s' t out map_ r0 r1 nz K); auto.
  - intros n r Hn. exact Hn.
  - apply same_rest_refl.
Qed.
