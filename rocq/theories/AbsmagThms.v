(** Properties of absmag (C44-C47): the proofs.  Prop_Absmag.v restates them. *)
From Coq Require Import String List Arith Lia Bool ZArith QArith Qreals Reals Lra.
From Verif Require Import Base BaseLemmas Num Toy Interp InterpReal Utils Sed Response RespDict Fitter FitSpec FitterProofs FitterMC
  FitReal FitTable FitEx FitRealEx Kcorrect KSpec KTable KEx KcorrectProofs XrAlg AbsmagProofs.
Import ListNotations.
Local Open Scope R_scope.
(* STATEMENTS *)

(** C44.  absmag of one object raises whatever kcorrect raises.  Otherwise band j is m - DM - K where both maggies and
    inverse variance of its input band are positive, -9999 where one of them is <= 0, and 0 in the remaining case (one
    is NaN, the other not <= 0).  The cosmological distance modulus is a function of the redshift. *)
Lemma L_C44_law :
  forall distmod (K : kcor xr) A Ao nb no nt bs l k o,
    kready K A Ao nb no nt -> no_ab (k_fit K) -> kobj_ok nb nt o ->
    let kc := kcorrect K (Some (scal (ko_z o))) (Some (vec (ko_c o))) bs in
    let am := absmag_object distmod K bs false false l k o in
    (forall e, kc = Raise e -> am = Raise e) /\
    (forall ks, kc = Ok (vec ks) -> exists v a, am = Ok a /\ nth_error (parts a) 0 = Some (vec v) /\ length v = no /\
       forall j, (j < no)%nat ->
         let m := nth (in_band K j) (ko_m o) NaN in
         let iv := nth (in_band K j) (ko_iv o) NaN in
         (nltb n0 m = true -> nltb n0 iv = true ->
            nth_error v j = Some (nsub (nsub (nmul (Fin (-5/2)) (nlog10 m)) (distmod (ko_z o))) (nth j ks NaN))) /\
         (nleb m n0 = true \/ nleb iv n0 = true -> nth_error v j = Some (Fin (-9999))) /\
         (m = NaN -> nleb iv n0 = false -> nth_error v j = Some (Fin 0)) /\
         (iv = NaN -> nleb m n0 = false -> nth_error v j = Some (Fin 0))).
Proof.
  intros distmod K A Ao nb no nt bs l k o HK Hab Ho kc am.
  assert (Ekc : kc = if kbad A Ao bs (ko_z o) then Raise ValueError else Ok (mk [no] (kval1 K A Ao nb no nt bs (ko_z o) (ko_c o))))
    by (apply kc_scal; auto using rounding_xr; apply Ho).
  assert (Eam : am = _) by (apply (am_scal distmod K A Ao nb no nt bs false false l k o rounding_xr HK Hab Ho)).
  rewrite Ekc. split.
  - intros e E. destruct (kbad A Ao bs (ko_z o)); [|discriminate]. congruence.
  - intros ks E. destruct (kbad A Ao bs (ko_z o)); [discriminate|]. injection E as E1 E2. subst ks.
    cbn [andb] in Eam. cbv zeta in Eam. rewrite Eam. clear Eam.
    destruct (am_row_nth K A Ao nb no nt (ko_m o) (ko_iv o) (dm_val distmod false (ko_z o) (ko_d o))
                (kval1 K A Ao nb no nt bs (ko_z o) (ko_c o)) HK (proj1 Ho) (proj1 (proj2 Ho)) (eq_sym E1)) as [L Hn].
    cbn [cst Num_xr]. rewrite !map_id.
    exists (am_row K (ko_m o) (ko_iv o) (dm_val distmod false (ko_z o) (ko_d o)) (kval1 K A Ao nb no nt bs (ko_z o) (ko_c o))).
    eexists. split; [reflexivity|]. split; [rewrite am_pack_0; unfold vec; rewrite L; reflexivity|].
    split; [exact L|].
    intros j Hj. rewrite (Hn j NaN Hj).
    set (m := nth (in_band K j) (ko_m o) NaN). set (iv := nth (in_band K j) (ko_iv o) NaN). unfold absmag1. cbn [cst Num_xr]. unfold m25, sentinel, dm_val.
    cbn [nlit Num_xr cst n0 nltb nleb]. rewrite Q2R_m25, Q2R_9999.
    repeat split.
    + intros H1 H2. rewrite H1, H2. cbn [andb].
      rewrite (xltb_xleb _ H1), (xltb_xleb _ H2). reflexivity.
    + intros [H|H]; rewrite H, ?orb_true_r; reflexivity.
    + intros E H. rewrite E, H. reflexivity.
    + intros E H. rewrite E, H. cbn. rewrite andb_false_r. reflexivity.
Qed.
Lemma E_C44_law : kready x_kcor x_tab x_tab 2 2 1 /\ no_ab (k_fit x_kcor) /\
  kobj_ok 2 1 {| ko_z := Fin 0; ko_m := [Fin 1; Fin (-1)]; ko_iv := [Fin 1; Fin 2]; ko_c := [Fin 1]; ko_d := NaN |} /\
  exists ks, kcorrect x_kcor (Some (scal (Fin 0))) (Some (vec [Fin 1])) (Fin 0) = Ok (vec ks).
Proof.
  split; [apply x_kready|]. split; [left; reflexivity|]. split; [repeat split|].
  rewrite (kc_scal x_kcor x_tab x_tab 2 2 1 (Fin 0) [Fin 1] (Fin 0) rounding_xr x_kready eq_refl).
  assert (E : kbad x_tab x_tab (Fin 0) (Fin 0) = false).
  { unfold kbad, out_of, shifted, zero_of. cbn. rewrite !Rltb_false by (unfold Q2R; cbn; lra). reflexivity. }
  rewrite E. eexists. unfold vec. rewrite kval1_len with (no := 2%nat); [reflexivity|apply x_kready].
Qed.

(** Row i of each array returned for a batch is the one returned for object i, with or without distances; the batch
    raises if and only if a call for one of its objects does.  (Exact arithmetic with special values; with rounding the
    K-correction of a batch is rounded before it is used.) *)
Lemma L_C44_batch :
  forall (T : Type) (N : Num T) distmod (K : kcor T) A Ao nb no nt bs wd r l k objs,
    (forall x : T, cst x = x) -> (forall x : T, nmul x n1 = x) ->
    kready K A Ao nb no nt -> no_ab (k_fit K) -> Forall (kobj_ok nb nt) objs ->
    let one := absmag_object distmod K bs wd r l k in
    let all := absmag_objects distmod K nb nt bs wd r l k objs in
    (forall outs, Forall2 (fun o a => one o = Ok a) objs outs ->
       exists a, all = Ok a /\ length (parts a) = (1 + count r + count l + count k)%nat /\
         forall p arr, nth_error (parts a) p = Some arr ->
           exists rows, arr = table no rows /\ Forall2 (fun o row => nth_error (parts o) p = Some (vec row)) outs rows) /\
    (forall o e, In o objs -> one o = Raise e -> exists e', all = Raise e') /\
    (forall e, all = Raise e -> exists o, In o objs /\ one o = Raise e).
Proof.
  intros T N distmod K A Ao nb no nt bs wd r l k objs Hcst Hone HK Hab Hok one all.
  assert (HR : rounding N) by (split; intros; rewrite !Hcst; auto).
  assert (Hall : all = _) by (apply (am_vec distmod K A Ao nb no nt bs wd r l k objs HR HK Hab Hok)).
  assert (Hobj : forall o, In o objs -> one o = obj_res distmod K A Ao nb no nt bs wd r l k o).
  { intros o Hin. rewrite Forall_forall in Hok. apply (obj_eq distmod K A Ao nb no nt bs wd r l k o HR HK Hab (Hok o Hin)). }
  unfold obj_res in Hobj.
  assert (EB : existsb (fun o => out_of (a_x A) (shifted n0 (cst (ko_z o)))) objs ||
       existsb (fun o => out_of (a_x Ao) (shifted bs (zero_of (ko_z o)))) objs = existsb (fun o => kbad A Ao bs (ko_z o)) objs).
  { clear. unfold kbad. induction objs as [|a l IH]; cbn; auto. rewrite <- IH.
    destruct (out_of (a_x A) _), (out_of (a_x Ao) _), (existsb _ l), (existsb _ l); reflexivity. }
  rewrite EB in Hall. clear EB.
  split; [|split].
  - intros outs H2.
    assert (B1 : existsb (fun o => kbad A Ao bs (ko_z o)) objs = false).
    { clear Hall. induction H2 as [|o a objs outs H H2 IH]; auto. cbn [existsb]. rewrite Hobj in H by (cbn; auto).
      destruct (kbad A Ao bs (ko_z o)); [discriminate|]. cbn [orb]. apply IH.
      - inversion Hok; auto.
      - intros; apply Hobj; cbn; auto. }
    assert (B2 : r && existsb (fun o => out_of (a_x Ao) (shifted bs (cst (ko_z o)))) objs = false).
    { clear Hall. induction H2 as [|o a objs outs H H2 IH]; [apply andb_false_r|]. cbn [existsb] in *. rewrite Hobj in H by (cbn; auto).
      apply orb_false_iff in B1 as [B0 B1]. rewrite B0 in H. rewrite andb_orb_distrib_r.
      destruct (r && out_of (a_x Ao) (shifted bs (cst (ko_z o)))); [discriminate|]. cbn [orb]. apply IH; auto.
      - inversion Hok; auto.
      - intros; apply Hobj; cbn; auto. }
    rewrite B1, B2 in Hall. cbv zeta in Hall. rewrite Hall. clear Hall.
    eexists. split; [reflexivity|]. split; [apply am_pack_len|].
    assert (Hobj' : forall o, In o objs -> one o = Ok (obj_out distmod K A Ao nb no nt bs wd r l k o)).
    { intros o Hin. rewrite Hobj by auto. 
      rewrite (existsb_false_in _ _ B1 o Hin).
      replace (r && out_of (a_x Ao) (shifted bs (cst (ko_z o)))) with false; [reflexivity|].
      destruct r; auto. cbn [andb] in *. symmetry. apply (existsb_false_in _ _ B2 o Hin). }
    clear Hobj. unfold obj_out in Hobj'.
    assert (Eouts : outs = map (fun o => match one o with Ok a => a | Raise _ => Bare1 (scal n0) end) objs).
    { clear Hobj' B1 B2 Hok. induction H2 as [|o a objs outs H H2 IH]; auto. cbn [map]. rewrite H. f_equal; auto. }
    clear H2. subst outs.
    intros p arr Hp.
    destruct (am_pack_nth r l k _ _ _ _ p arr Hp) as [[-> Hsel]|[[-> Hsel]|[[-> Hsel]|[-> Hsel]]]];
      eexists; (split; [reflexivity|]);
      (apply Forall2_map_map; intros o Hin; rewrite (Hobj' o Hin), Hsel; apply f_equal;
       rewrite Forall_forall in Hok; destruct (Hok o Hin) as (Hm & Hi & Hc)).
    + destruct (am_row_nth K A Ao nb no nt (ko_m o) (ko_iv o) (dm_val distmod wd (ko_z o) (ko_d o))
        (kval1 K A Ao nb no nt bs (ko_z o) (ko_c o)) HK Hm Hi (kval1_len _ _ _ _ _ _ _ _ _ HK)) as [L _].
      unfold vec. rewrite !(map_cst_id Hcst), !Hone, L. reflexivity.
    + destruct (rec_row_nth no (recon1 Ao no nt bs (ko_z o) (ko_c o)) (dm_val distmod wd (ko_z o) (ko_d o))
        (kval1 K A Ao nb no nt bs (ko_z o) (ko_c o)) (recon1_len _ _ _ _ _ _) (kval1_len _ _ _ _ _ _ _ _ _ HK)) as [L _].
      unfold vec. rewrite !(map_cst_id Hcst), !Hone, !Hcst, L. reflexivity.
    + destruct (lim_row_nth K A Ao nb no nt (ko_iv o) (dm_val distmod wd (ko_z o) (ko_d o))
        (kval1 K A Ao nb no nt bs (ko_z o) (ko_c o)) HK Hi (kval1_len _ _ _ _ _ _ _ _ _ HK)) as [L _].
      unfold vec. rewrite !(map_cst_id Hcst), !Hone, L. reflexivity.
    + unfold vec. rewrite (map_cst_id Hcst), (kval1_len _ _ _ _ _ _ _ _ _ HK). reflexivity.
  - intros o e Hin He. rewrite (Hobj o Hin) in He. cbv zeta in He.
    destruct (existsb (fun o => kbad A Ao bs (ko_z o)) objs) eqn:E1; [eauto|].
    rewrite (existsb_false_in _ _ E1 o Hin) in He.
    destruct (r && out_of (a_x Ao) (shifted bs (cst (ko_z o)))) eqn:E2; [|discriminate].
    apply andb_prop in E2 as [-> E2].
    assert (E3 : existsb (fun o => out_of (a_x Ao) (shifted bs (cst (ko_z o)))) objs = true) by (apply existsb_exists; eauto).
    rewrite E3 in Hall. cbn [andb] in Hall. eauto.
  - intros e He. rewrite Hall in He. cbv zeta in He.
    destruct (existsb (fun o => kbad A Ao bs (ko_z o)) objs) eqn:E1.
    + injection He as <-. apply existsb_exists in E1 as (o & Hin & E1). exists o. split; auto. rewrite (Hobj o Hin), E1. auto.
    + destruct (r && existsb _ objs) eqn:E2; [|discriminate]. injection He as <-. apply andb_prop in E2 as [-> E2].
      apply existsb_exists in E2 as (o & Hin & E2). exists o. split; auto. rewrite (Hobj o Hin), E2.
      rewrite (existsb_false_in _ _ E1 o Hin). auto.
Qed.
Lemma E_C44_batch : (forall x : xr, cst x = x) /\ (forall x : xr, nmul x n1 = x) /\ kready x_kcor x_tab x_tab 2 2 1 /\
  Forall (kobj_ok 2 1) [{| ko_z := Fin 0; ko_m := [Fin 1; Fin (-1)]; ko_iv := [Fin 1; Fin 2]; ko_c := [Fin 1]; ko_d := NaN |};
                        {| ko_z := Fin (1/2); ko_m := [Fin 1; NaN]; ko_iv := [Fin 3; Fin 2]; ko_c := [Fin 7]; ko_d := Fin 1 |}].
Proof.
  split; [reflexivity|]. split; [apply xmul_1|]. split; [apply x_kready|]. repeat constructor.
Qed.

(** C45.  With an explicit distance of x > 0 Mpc, absmag is what a cosmology with distance modulus
    5 log10(x / 10 pc) would give, for all flags. *)
Lemma L_C45_distance :
  forall distmod (K : kcor xr) A Ao nb no nt bs r l k o x,
    kready K A Ao nb no nt -> no_ab (k_fit K) -> kobj_ok nb nt o -> ko_d o = Fin x -> 0 < x ->
    absmag_object distmod K bs true r l k o =
    absmag_object (fun _ => Fin (5 * log10 (x / (1 / 100000)))) K bs false r l k o.
Proof.
  intros distmod K A Ao nb no nt bs r l k o x HK Hab Ho Hd Hx.
  rewrite !(obj_eq _ K A Ao nb no nt) by (auto using rounding_xr). unfold obj_res, obj_out, dm_val. rewrite Hd.
  change (cst (Fin x)) with (Fin x). rewrite (dm_xr x Hx). reflexivity.
Qed.
Lemma E_C45_distance : kready x_kcor x_tab x_tab 2 2 1 /\ no_ab (k_fit x_kcor) /\
  kobj_ok 2 1 {| ko_z := Fin 0; ko_m := [Fin 1; Fin (-1)]; ko_iv := [Fin 1; Fin 2]; ko_c := [Fin 1]; ko_d := Fin 20 |} /\
  0 < 20.
Proof. split; [apply x_kready|]. split; [left; reflexivity|]. split; [repeat split|lra]. Qed.

(** For the same object at two distances, the absolute magnitudes (where finite and not the sentinel) differ by
    5 log10(d2/d1). *)
Lemma L_C45_difference :
  forall distmod (K : kcor xr) A Ao nb no nt bs l k z m iv c x1 x2 a1 a2 v1 v2 j y1 y2,
    kready K A Ao nb no nt -> no_ab (k_fit K) -> length m = nb -> length iv = nb -> length c = nt -> 0 < x1 -> 0 < x2 ->
    let o := fun x => {| ko_z := z; ko_m := m; ko_iv := iv; ko_c := c; ko_d := Fin x |} in
    absmag_object distmod K bs true false l k (o x1) = Ok a1 -> nth_error (parts a1) 0 = Some (vec v1) ->
    absmag_object distmod K bs true false l k (o x2) = Ok a2 -> nth_error (parts a2) 0 = Some (vec v2) ->
    (j < no)%nat -> nltb n0 (nth (in_band K j) m NaN) = true -> nltb n0 (nth (in_band K j) iv NaN) = true ->
    nth_error v1 j = Some (Fin y1) -> nth_error v2 j = Some (Fin y2) -> y1 - y2 = 5 * log10 (x2 / x1).
Proof.
  intros distmod K A Ao nb no nt bs l k z m iv c x1 x2 a1 a2 v1 v2 j y1 y2 HK Hab Hm Hi Hc H1 H2 o E1 P1 E2 P2 Hj Hmp Hip N1 N2.
  assert (Ho : forall x, kobj_ok nb nt (o x)) by (intro; repeat split; auto).
  assert (X : forall x a v y, 0 < x -> absmag_object distmod K bs true false l k (o x) = Ok a -> nth_error (parts a) 0 = Some (vec v) ->
    nth_error v j = Some (Fin y) ->
    Fin y = nsub (nsub (nmul (Fin (-5/2)) (nlog10 (nth (in_band K j) m NaN))) (Fin (5 * log10 (x / (1/100000)))))
        (nth j (kval1 K A Ao nb no nt bs z c) NaN)).
  { intros x a v y Hx E P Ny. rewrite (L_C45_distance distmod K A Ao nb no nt bs false l k (o x) x HK Hab (Ho x) eq_refl Hx) in E.
    pose proof (L_C44_law (fun _ => Fin (5 * log10 (x / (1 / 100000)))) K A Ao nb no nt bs l k (o x) HK Hab (Ho x)) as [L1 L2].
    rewrite (kc_scal K A Ao nb no nt _ _ bs rounding_xr HK) in L1, L2 by apply Ho. cbn [ko_z ko_c o] in L1, L2.
    destruct (kbad A Ao bs z); [rewrite (L1 ValueError eq_refl) in E; discriminate|].
    destruct (L2 (kval1 K A Ao nb no nt bs z c)) as (v' & a' & Ea & Pv & Lv & Hn).
    { unfold vec. rewrite (kval1_len _ _ _ _ _ _ _ _ _ HK). reflexivity. }
    rewrite E in Ea. injection Ea as <-. rewrite P in Pv. injection Pv as _ <-.
    destruct (Hn j Hj) as (Hg & _). cbn [ko_m ko_iv o] in Hg. rewrite (Hg Hmp Hip) in Ny. injection Ny as <-. reflexivity. }
  pose proof (X x1 a1 v1 y1 H1 E1 P1 N1) as Y1. pose proof (X x2 a2 v2 y2 H2 E2 P2 N2) as Y2.
  pose proof (xdiff _ _ _ _ _ _ _ (eq_sym Y1) (eq_sym Y2) eq_refl) as D. rewrite D.
  rewrite !log10_div; auto; lra.
Qed.
Lemma E_C45_difference : kready x_kcor x_tab x_tab 2 2 1 /\ 0 < 20 /\ 0 < 40 /\
  exists a v y, absmag_object (fun z => z) x_kcor (Fin 0) true false false false
     {| ko_z := Fin 0; ko_m := [Fin 1; Fin (-1)]; ko_iv := [Fin 1; Fin 2]; ko_c := [Fin 1]; ko_d := Fin 20 |} = Ok a /\
    nth_error (parts a) 0 = Some (vec v) /\ nth_error v 0 = Some (Fin y).
Proof.
  split; [apply x_kready|]. split; [lra|]. split; [lra|].
  rewrite (obj_eq _ x_kcor x_tab x_tab 2 2 1); [|apply rounding_xr|apply x_kready|left; reflexivity|repeat split].
  unfold obj_res, obj_out. cbn [ko_z ko_m ko_iv ko_c ko_d cst Num_xr map andb].
  assert (E : kbad x_tab x_tab (Fin 0) (Fin 0) = false).
  { unfold kbad, out_of, shifted, zero_of. cbn. rewrite !Rltb_false by (unfold Q2R; cbn; lra). reflexivity. }
  rewrite E. eexists.
  pose proof (kval1_len x_kcor x_tab x_tab 2 2 1 (Fin 0) (Fin 0) [Fin 1] x_kready) as Lk.
  destruct (am_row_nth x_kcor x_tab x_tab 2 2 1 [Fin 1; Fin (-1)] [Fin 1; Fin 2] (dm_val (fun z => z) true (Fin 0) (Fin 20)) _ x_kready eq_refl eq_refl Lk) as [L Hn].
  eexists. eexists. split; [reflexivity|]. split.
  { unfold am_pack, parts; cbn [orb nth_error]. unfold vec. rewrite L. reflexivity. }
  rewrite (Hn 0%nat NaN) by lia. unfold in_band; cbn [k_imap x_kcor nth]. unfold dm_val. change (cst (Fin 20)) with (Fin 20). rewrite dm_xr by lra.
  unfold absmag1. cbn [nltb nleb Num_xr n0 xltb xleb]. rewrite (proj2 (Rltb_iff 0 1)) by lra. unfold Rleb. destruct (Rle_dec 1 0); [lra|].
  cbn [andb orb cst Num_xr]. rewrite x_kval0. unfold m25. cbn. rewrite Rltb_false, Reqb_false by lra. reflexivity.
Qed.

(** Passing the distances whose moduli are the cosmological ones gives the same result as not passing distances, for
    one object and for a batch. *)
Lemma L_C45_consistent :
  forall distmod (K : kcor xr) A Ao nb no nt bs r l k objs,
    kready K A Ao nb no nt -> no_ab (k_fit K) -> Forall (kobj_ok nb nt) objs ->
    Forall (fun o => exists x, 0 < x /\ ko_d o = Fin x /\ distmod (ko_z o) = Fin (5 * log10 (x / (1 / 100000)))) objs ->
    absmag_objects distmod K nb nt bs true r l k objs = absmag_objects distmod K nb nt bs false r l k objs /\
    Forall (fun o => absmag_object distmod K bs true r l k o = absmag_object distmod K bs false r l k o) objs.
Proof.
  intros distmod K A Ao nb no nt bs r l k objs HK Hab Hok Hd.
  assert (D : forall o, In o objs -> dm_val distmod true (ko_z o) (ko_d o) = dm_val distmod false (ko_z o) (ko_d o)).
  { intros o Hin. rewrite Forall_forall in Hd. destruct (Hd o Hin) as (x & Hx & E1 & E2). unfold dm_val. rewrite E1.
    change (cst (Fin x)) with (Fin x). change (cst (ko_z o)) with (ko_z o). rewrite (dm_xr x Hx). auto. }
  split.
  - rewrite !(am_vec distmod K A Ao nb no nt) by (auto using rounding_xr).
    destruct (existsb _ objs || existsb _ objs); auto. destruct (r && _); auto. cbv zeta. do 2 f_equal; f_equal; apply map_ext_in; intros o Hin; rewrite D; auto.
  - apply Forall_forall. intros o Hin. rewrite Forall_forall in Hok. pose proof (Hok o Hin) as Ho.
    rewrite !(obj_eq _ K A Ao nb no nt) by (auto using rounding_xr). unfold obj_res, obj_out. rewrite D; auto.
Qed.
Lemma E_C45_consistent : exists distmod : xr -> xr, kready x_kcor x_tab x_tab 2 2 1 /\
  let objs := [{| ko_z := Fin (1/2); ko_m := [Fin 1; NaN]; ko_iv := [Fin 3; Fin 2]; ko_c := [Fin 7]; ko_d := Fin 100 |}] in
  Forall (kobj_ok 2 1) objs /\
  Forall (fun o => exists x, 0 < x /\ ko_d o = Fin x /\ distmod (ko_z o) = Fin (5 * log10 (x / (1 / 100000)))) objs.
Proof.
  exists (fun _ => Fin (5 * log10 (100 / (1 / 100000)))). split; [apply x_kready|]. split; [repeat constructor|].
  repeat constructor. exists 100. cbn. repeat split; auto. lra.
Qed.

(** C46.  The reconstructed absolute magnitude of band j is -2.5 log10(f) - DM - K where f, the flux of reconstruct_out
    at the redshift of the object and with the band shift, is positive, and -9999 elsewhere.  When reconstruct_out
    raises, so does absmag. *)
Lemma L_C46_law :
  forall distmod (K : kcor xr) A Ao nb no nt bs l k o ks,
    kready K A Ao nb no nt -> no_ab (k_fit K) -> kobj_ok nb nt o ->
    kcorrect K (Some (scal (ko_z o))) (Some (vec (ko_c o))) bs = Ok (vec ks) ->
    let rec := reconstruct_out K (Some (scal (ko_z o))) (Some (vec (ko_c o))) bs in
    let am := absmag_object distmod K bs false true l k o in
    (forall e, rec = Raise e -> am = Raise e) /\
    (forall om, rec = Ok (vec om) -> exists v a, am = Ok a /\ nth_error (parts a) 1 = Some (vec v) /\ length v = no /\
       forall j, (j < no)%nat ->
         (nltb n0 (nth j om NaN) = true ->
            nth_error v j = Some (nsub (nsub (nmul (Fin (-5/2)) (nlog10 (nth j om NaN))) (distmod (ko_z o))) (nth j ks NaN))) /\
         (nltb n0 (nth j om NaN) = false -> nth_error v j = Some (Fin (-9999)))).
Proof.
  intros distmod K A Ao nb no nt bs l k o ks HK Hab Ho Hk rec am.
  pose proof HK as ((HA & Hb & Hn & Ht) & HAo & Hto & Hno & Hi & Hf). pose proof Ho as (Hm & Hiv & Hc).
  rewrite (kc_scal K A Ao nb no nt _ _ bs rounding_xr HK Hc) in Hk.
  assert (Er : rec = reconstruct_ (k_fit K) (Some Ao) (Some (scal (ko_z o))) (Some (vec (ko_c o))) bs) by (unfold rec, reconstruct_out; rewrite HAo; auto).
  rewrite (reconstruct_scal _ _ _ _ Hn Hto Hc) in Er. rewrite Er. unfold am. rewrite (obj_eq _ K A Ao nb no nt) by auto using rounding_xr.
  unfold obj_res. destruct (kbad A Ao bs (ko_z o)); [discriminate|]. injection Hk as Lk Hk. subst ks. cbn [andb].
  destruct (out_of (a_x Ao) (shifted bs (cst (ko_z o)))).
  - split; [congruence|intros; discriminate].
  - split; [intros; discriminate|]. intros om E. injection E as Lo E. subst om.
    unfold obj_out. change (@cst xr Num_xr) with (fun x : xr => x). rewrite !map_id.
    destruct (rec_row_nth no (recon1 Ao no nt bs (ko_z o) (ko_c o)) (dm_val distmod false (ko_z o) (ko_d o))
       (kval1 K A Ao nb no nt bs (ko_z o) (ko_c o)) (recon1_len _ _ _ _ _ _) (eq_sym Lk)) as [L Hr].
    exists (rec_row (recon1 Ao no nt bs (ko_z o) (ko_c o)) (dm_val distmod false (ko_z o) (ko_d o)) (kval1 K A Ao nb no nt bs (ko_z o) (ko_c o))).
    eexists. split; [reflexivity|]. split; [unfold am_pack, vec; cbn [orb parts nth_error app]; rewrite L; reflexivity|].
    split; [exact L|]. intros j Hj. rewrite (Hr j NaN Hj). unfold absrec1, dm_val, m25, sentinel.
    cbn [nlit Num_xr cst n0 nltb nleb nadd]. rewrite Q2R_m25, Q2R_9999.
    set (x := nth j _ NaN). split.
    + intro H. rewrite H, (xltb_xleb _ H). reflexivity.
    + intro H. rewrite H. cbn [xadd]. rewrite Rplus_0_l. destruct (xleb x (Fin 0)); reflexivity.
Qed.
Lemma E_C46_law : kready x_kcor x_tab x_tab 2 2 1 /\ no_ab (k_fit x_kcor) /\
  kobj_ok 2 1 {| ko_z := Fin 0; ko_m := [Fin 1; Fin (-1)]; ko_iv := [Fin 1; Fin 2]; ko_c := [Fin 1]; ko_d := NaN |} /\
  exists ks, kcorrect x_kcor (Some (scal (Fin 0))) (Some (vec [Fin 1])) (Fin 0) = Ok (vec ks).
Proof. exact E_C44_law. Qed.

(** Over the reals, where the fluxes involved are positive: it is the model absolute magnitude -2.5 log10(f0) - DM, with
    f0 from reconstruct_out at redshift 0 with the band shift, plus the magnitude difference between reconstruct_out(z,
    band_shift) and the input-band flux reconstruct(z). *)
Lemma L_C46_offset :
  forall distmod (K : kcor R) A Ao nb no nt bs l k o mi mo om,
    kready K A Ao nb no nt -> no_ab (k_fit K) -> kobj_ok nb nt o -> 0 < fold_right Rplus 0 (ko_c o) ->
    reconstruct (k_fit K) (Some (scal (ko_z o))) (Some (vec (ko_c o))) 0 = Ok (vec mi) ->
    reconstruct_out K (Some (scal 0)) (Some (vec (ko_c o))) bs = Ok (vec mo) ->
    reconstruct_out K (Some (scal (ko_z o))) (Some (vec (ko_c o))) bs = Ok (vec om) ->
    exists v a, absmag_object distmod K bs false true l k o = Ok a /\ nth_error (parts a) 1 = Some (vec v) /\ length v = no /\
      forall j, (j < no)%nat -> 0 < nth (in_band K j) mi 0 -> 0 < nth j mo 0 -> 0 < nth j om 0 ->
        nth_error v j = Some (-5/2 * log10 (nth j mo 0) - distmod (ko_z o)
                              + -5/2 * log10 (nth j om 0 / nth (in_band K j) mi 0)).
Proof.
  intros distmod K A Ao nb no nt bs l k o mi mo om HK Hab Ho Hs Emi Emo Eom.
  pose proof HK as ((HA & Hb & Hn & Ht) & HAo & Hto & Hno & Hi & Hf). pose proof Ho as (Hm & Hiv & Hc).
  unfold reconstruct in Emi. unfold reconstruct_out in Emo, Eom. rewrite HA in Emi. rewrite HAo in Emo, Eom.
  rewrite (reconstruct_scal _ _ _ _ Hn Ht Hc) in Emi. rewrite (reconstruct_scal _ _ _ _ Hn Hto Hc) in Emo.
  rewrite (reconstruct_scal _ _ _ _ Hn Hto Hc) in Eom.
  rewrite (obj_eq _ K A Ao nb no nt) by auto using rounding_R. unfold obj_res, kbad.
  assert (Z0 : zero_of (ko_z o) = 0). { unfold zero_of; rcbn. rewrite RMicromega.Q2R_0. lra. }
  rewrite Z0. change (@cst R Num_R) with (fun x : R => x) in *. change (@n0 R Num_R) with 0 in *. cbv beta in *.
  destruct (out_of (a_x A) (shifted 0 (ko_z o))); [discriminate|].
  destruct (out_of (a_x Ao) (shifted bs 0)); [discriminate|].
  destruct (out_of (a_x Ao) (shifted bs (ko_z o))); [discriminate|]. cbn [orb andb].
  rewrite !map_id in *. injection Emi as _ Emi. injection Emo as _ Emo. injection Eom as _ Eom.
  unfold obj_out. change (@cst R Num_R) with (fun x : R => x). rewrite !map_id.
  pose proof (kval1_len K A Ao nb no nt bs (ko_z o) (ko_c o) HK) as Lk.
  destruct (rec_row_nth no (recon1 Ao no nt bs (ko_z o) (ko_c o)) (dm_val distmod false (ko_z o) (ko_d o))
       (kval1 K A Ao nb no nt bs (ko_z o) (ko_c o)) (recon1_len _ _ _ _ _ _) Lk) as [L Hr].
  exists (rec_row (recon1 Ao no nt bs (ko_z o) (ko_c o)) (dm_val distmod false (ko_z o) (ko_d o)) (kval1 K A Ao nb no nt bs (ko_z o) (ko_c o))).
  eexists. split; [reflexivity|]. split; [unfold am_pack, vec; cbn [orb parts nth_error app]; rewrite L; reflexivity|].
  split; [exact L|]. intros j Hj P1 P2 P3. rewrite (Hr j 0 Hj). rewrite Eom.
  unfold absrec1, dm_val, m25, sentinel. rcbn. rewrite (proj2 (Rltb_iff _ _) P3).
  unfold Rleb at 1. destruct (Rle_dec (nth j om 0) 0); [lra|]. rewrite Q2R_m25.
  assert (Kj : nth j (kval1 K A Ao nb no nt bs (ko_z o) (ko_c o)) 0 = -5/2 * log10 (nth (in_band K j) mi 0 / nth j mo 0)).
  { unfold kval1, kval. rewrite Z0. change (@cst R Num_R) with (fun x : R => x). rewrite !map_id. cbv beta. rewrite nsum_R.
    change (@n0 R Num_R) with 0. rewrite Emi, Emo. rcbn. rewrite (proj2 (Rltb_iff _ _) Hs).
    apply nth_error_nth. rewrite nth_error_zip, nth_error_map.
    assert (Hij : nth_error (k_imap K) j = Some (in_band K j)) by (apply nth_error_nth_lt; lia). rewrite Hij. cbn [option_map].
    assert (Lmo : length mo = no) by (rewrite <- Emo; apply recon1_len).
    rewrite (nth_error_nth_lt mo 0) by lia. unfold m25; rcbn. rewrite Q2R_m25. reflexivity. }
  rewrite Kj, !log10_div by auto. f_equal. lra.
Qed.
Lemma E_C46_offset : kready r_kcor r_tab r_tab 2 2 1 /\ no_ab (k_fit r_kcor) /\
  kobj_ok 2 1 {| ko_z := 1/4; ko_m := [1; 1]; ko_iv := [1; 1]; ko_c := [1]; ko_d := 0 |} /\ 0 < fold_right Rplus 0 [1] /\
  (exists mi mo, reconstruct (k_fit r_kcor) (Some (scal (1/4))) (Some (vec [1])) 0 = Ok (vec mi) /\
     reconstruct_out r_kcor (Some (scal 0)) (Some (vec [1])) (1/4) = Ok (vec mo)) /\
  reconstruct_out r_kcor (Some (scal (1/4))) (Some (vec [1])) (1/4) = Ok (vec [17/10; 5/2]).
Proof.
  split; [apply r_kready|]. split; [left; reflexivity|]. split; [repeat split|]. split; [cbn; lra|].
  pose proof r_ready as (_ & _ & Hn & Ht). split.
  - do 2 eexists. split.
    + unfold reconstruct. cbn [k_fit r_kcor]. rewrite (reconstruct_scal r_fitter _ [1] _ Hn Ht eq_refl).
      change (@cst R Num_R) with (fun x : R => x). cbv beta. rewrite map_id, recon1_shift.
      match goal with |- context [shifted ?a ?b] => replace (shifted a b) with (1/4) by (unfold shifted; rcbn; unfold Q2R; cbn; lra) end.
      assert (HR : in_range (a_x r_tab) (1/4)) by (unfold in_range; cbn; lra). apply out_of_range in HR. rewrite HR. match goal with |- Ok {| shp := _; dat := ?d |} = _ => exact (eq_refl (Ok (vec d))) end.
    + unfold reconstruct_out. cbn [k_fit r_kcor k_Aout]. rewrite (reconstruct_scal r_fitter _ [1] _ Hn Ht eq_refl).
      change (@cst R Num_R) with (fun x : R => x). cbv beta. rewrite map_id, recon1_shift.
      match goal with |- context [shifted ?a ?b] => replace (shifted a b) with (1/4) by (unfold shifted; rcbn; unfold Q2R; cbn; lra) end.
      assert (HR : in_range (a_x r_tab) (1/4)) by (unfold in_range; cbn; lra). apply out_of_range in HR. rewrite HR. match goal with |- Ok {| shp := _; dat := ?d |} = _ => exact (eq_refl (Ok (vec d))) end.
  - unfold reconstruct_out. cbn [k_fit r_kcor k_Aout]. rewrite (reconstruct_scal r_fitter _ [1] _ Hn Ht eq_refl).
    assert (S : shifted (1/4) (1/4) = 9/16). { unfold shifted; rcbn. lra. }
    change (@cst R Num_R) with (fun x : R => x). cbv beta. rewrite map_id, recon1_shift, S.
    assert (HR : in_range (a_x r_tab) (9/16)) by (unfold in_range; cbn; lra). apply out_of_range in HR. rewrite HR.
    rewrite (arow_between r_tab 2 1 0 (9/16) Ht r_grid) by (cbn; lia || lra).
    cbn [a_x r_tab a_rows nth chunks firstn skipn zip map]. unfold mulmv, dot, vec; cbn [map zip fold_right length].
    do 3 f_equal; [field|]. f_equal. field.
Qed.

(** So with the output bands equal to the input bands and without band shift it is the model absolute magnitude. *)
Lemma L_C46_same_bands :
  forall distmod (K : kcor R) A nb nt l k o mi mo,
    kready K A A nb nb nt -> k_imap K = seq 0 nb -> no_ab (k_fit K) -> kobj_ok nb nt o -> 0 < fold_right Rplus 0 (ko_c o) ->
    reconstruct (k_fit K) (Some (scal (ko_z o))) (Some (vec (ko_c o))) 0 = Ok (vec mi) ->
    reconstruct_out K (Some (scal 0)) (Some (vec (ko_c o))) 0 = Ok (vec mo) ->
    exists v a, absmag_object distmod K 0 false true l k o = Ok a /\ nth_error (parts a) 1 = Some (vec v) /\ length v = nb /\
      forall j, (j < nb)%nat -> 0 < nth j mi 0 -> 0 < nth j mo 0 ->
        nth_error v j = Some (-5/2 * log10 (nth j mo 0) - distmod (ko_z o)).
Proof.
  intros distmod K A nb nt l k o mi mo HK Hi Hab Ho Hs Emi Emo.
  assert (Eom : reconstruct_out K (Some (scal (ko_z o))) (Some (vec (ko_c o))) 0 = Ok (vec mi)).
  { rewrite <- Emi. unfold reconstruct, reconstruct_out. destruct HK as ((-> & _) & -> & _). reflexivity. }
  destruct (L_C46_offset distmod K A A nb nb nt 0 l k o mi mo mi HK Hab Ho Hs Emi Emo Eom) as (v & a & Ea & Ev & L & Hv).
  exists v, a. repeat split; auto. intros j Hj P1 P2.
  assert (Ej : in_band K j = j) by (unfold in_band; rewrite Hi; apply seq_nth; auto).
  rewrite Hv; rewrite ?Ej; auto. f_equal. rewrite log10_div by auto. lra.
Qed.
Lemma E_C46_same_bands : kready r_kcor r_tab r_tab 2 2 1 /\ k_imap r_kcor = seq 0 2 /\ no_ab (k_fit r_kcor) /\
  kobj_ok 2 1 {| ko_z := 1/4; ko_m := [1; 1]; ko_iv := [1; 1]; ko_c := [1]; ko_d := 0 |}.
Proof. split; [apply r_kready|]. split; [reflexivity|]. split; [left; reflexivity|repeat split]. Qed.

(** With a band shift it is not: here all fluxes are positive and the value differs from -2.5 log10(f0) - DM. *)
Lemma L_C46_shift_refuted :
  exists (K : kcor R) A nb nt bs o mo om v a,
    kready K A A nb nb nt /\ k_imap K = seq 0 nb /\ no_ab (k_fit K) /\ kobj_ok nb nt o /\ 0 < fold_right Rplus 0 (ko_c o) /\
    reconstruct_out K (Some (scal 0)) (Some (vec (ko_c o))) bs = Ok (vec mo) /\
    reconstruct_out K (Some (scal (ko_z o))) (Some (vec (ko_c o))) bs = Ok (vec om) /\ 0 < nth 0 mo 0 /\ 0 < nth 0 om 0 /\
    absmag_object (fun _ => 30) K bs false true false false o = Ok a /\ nth_error (parts a) 1 = Some (vec v) /\
    nth 0 v 0 <> -5/2 * log10 (nth 0 mo 0) - 30.
Proof.
  set (o := {| ko_z := 1/4; ko_m := [1; 1]; ko_iv := [1; 1]; ko_c := [1]; ko_d := 0 |}).
  pose proof r_ready as (_ & _ & Hn & Ht).
  assert (Emi : reconstruct (k_fit r_kcor) (Some (scal (ko_z o))) (Some (vec (ko_c o))) 0 = Ok (vec [3/2; 5/2])).
  { cbn [ko_z ko_c o k_fit r_kcor]. assert (HR : in_range (a_x r_tab) (1/4)) by (unfold in_range; cbn; lra).
    rewrite (model_eq r_fitter r_tab 2 1 (1/4) [1] r_ready eq_refl HR).
    rewrite (arow_between r_tab 2 1 0 (1/4) Ht r_grid) by (cbn; lia || lra).
    cbn [a_x r_tab a_rows nth chunks firstn skipn zip map]. unfold mulmv, dot; cbn [map zip fold_right].
    do 3 f_equal; [field|]. f_equal. field. }
  assert (Emo : reconstruct_out r_kcor (Some (scal 0)) (Some (vec (ko_c o))) (1/4) = Ok (vec [6/5; 2])).
  { cbn [ko_z ko_c o]. unfold reconstruct_out. cbn [k_fit r_kcor k_Aout]. rewrite (reconstruct_scal r_fitter _ [1] _ Hn Ht eq_refl).
    assert (S : shifted (1/4) 0 = 1/4). { unfold shifted; rcbn. lra. }
    change (@cst R Num_R) with (fun x : R => x). cbv beta. rewrite map_id, recon1_shift, S.
    assert (HR : in_range (a_x r_tab) (1/4)) by (unfold in_range; cbn; lra). apply out_of_range in HR. rewrite HR.
    rewrite (arow_between r_tab 2 1 0 (1/4) Ht r_grid) by (cbn; lia || lra).
    cbn [a_x r_tab a_rows nth chunks firstn skipn zip map]. unfold mulmv, dot, vec; cbn [map zip fold_right length].
    do 3 f_equal; [field|]. f_equal. field. }
  pose proof E_C46_offset as (_ & _ & _ & _ & _ & Eom).
  assert (Ho : kobj_ok 2 1 o) by repeat split. assert (Hab : no_ab (k_fit r_kcor)) by (left; reflexivity).
  assert (Hs : 0 < fold_right Rplus 0 (ko_c o)) by (cbn; lra).
  destruct (L_C46_offset (fun _ => 30) r_kcor r_tab r_tab 2 2 1 (1/4) false false o _ _ _ r_kready Hab Ho Hs Emi Emo Eom)
    as (v & a & Ea & Ev & L & Hv).
  exists r_kcor, r_tab, 2%nat, 1%nat, (1/4), o, [6/5; 2], [17/10; 5/2], v, a. repeat (split; [auto using r_kready; cbn; lra || auto using r_kready|]).
  specialize (Hv 0%nat ltac:(lia)). unfold in_band in Hv. cbn [r_kcor k_imap nth] in Hv. specialize (Hv ltac:(lra) ltac:(lra) ltac:(lra)).
  rewrite (nth_error_nth _ _ _ Hv). cbn [nth].
  assert (0 < log10 (17 / 10 / (3 / 2))); [|lra]. unfold log10. apply Rdiv_lt_0_compat.
  - rewrite <- ln_1. apply ln_increasing; lra.
  - rewrite <- ln_1. apply ln_increasing; lra.
Qed.

(** Asking for the reconstructed magnitudes can raise ValueError for an object for which absmag without them works:
    when (1+z)(1+band_shift)-1 is outside the redshift grid. *)
Lemma L_C46_out_of_range_refuted :
  exists (K : kcor Q) A Ao o bs a, kready K A Ao 2 2 3 /\ kobj_ok 2 3 o /\
    absmag_object (fun z => z) K bs false false true true o = Ok a /\
    absmag_object (fun z => z) K bs false true true true o = Raise ValueError.
Proof.
  exists q_kcor, q_tab, q_out, {| ko_z := 2; ko_m := [1; 2]; ko_iv := [1; 4]; ko_c := [1; 0; 2]; ko_d := 0 |}%Q, (1#2)%Q.
  eexists. split; [apply q_kready|]. split; [repeat split|]. split; vm_compute; reflexivity.
Qed.

(** C47.  The absolute magnitude limit of band j is -2.5 log10(1/sqrt(ivar)) - DM - K where the inverse variance of its
    input band is positive, and -9999 elsewhere, whatever the coefficients are. *)
Lemma L_C47_law :
  forall distmod (K : kcor xr) A Ao nb no nt bs k o ks,
    kready K A Ao nb no nt -> no_ab (k_fit K) -> kobj_ok nb nt o ->
    kcorrect K (Some (scal (ko_z o))) (Some (vec (ko_c o))) bs = Ok (vec ks) ->
    exists v a, absmag_object distmod K bs false false true k o = Ok a /\ nth_error (parts a) 1 = Some (vec v) /\ length v = no /\
       forall j, (j < no)%nat ->
         let iv := nth (in_band K j) (ko_iv o) NaN in
         (nltb n0 iv = true ->
            nth_error v j = Some (nsub (nsub (nmul (Fin (-5/2)) (nlog10 (ndiv (Fin 1) (nsqrt iv)))) (distmod (ko_z o))) (nth j ks NaN))) /\
         (nltb n0 iv = false -> nth_error v j = Some (Fin (-9999))).
Proof.
  intros distmod K A Ao nb no nt bs k o ks HK Hab Ho Hk.
  pose proof Ho as (Hm & Hiv & Hc).
  rewrite (kc_scal K A Ao nb no nt _ _ bs rounding_xr HK Hc) in Hk. rewrite (obj_eq _ K A Ao nb no nt) by auto using rounding_xr.
  unfold obj_res. destruct (kbad A Ao bs (ko_z o)); [discriminate|]. injection Hk as Lk Hk. subst ks. cbn [andb].
  unfold obj_out. change (@cst xr Num_xr) with (fun x : xr => x). rewrite !map_id.
  destruct (lim_row_nth K A Ao nb no nt (ko_iv o) (dm_val distmod false (ko_z o) (ko_d o))
       (kval1 K A Ao nb no nt bs (ko_z o) (ko_c o)) HK Hiv (eq_sym Lk)) as [L Hr].
  exists (lim_row K (ko_iv o) (dm_val distmod false (ko_z o) (ko_d o)) (kval1 K A Ao nb no nt bs (ko_z o) (ko_c o))).
  eexists. split; [reflexivity|]. split; [unfold am_pack, vec; cbn [orb parts nth_error app]; rewrite L; reflexivity|].
  split; [exact L|]. intros j Hj. set (iv := nth (in_band K j) (ko_iv o) NaN). rewrite (Hr j NaN Hj). fold iv. unfold abslim1, dm_val, m25, sentinel.
  cbn [nlit Num_xr cst n0 n1 nltb nleb nadd ndiv nsqrt]. rewrite Q2R_m25, Q2R_9999. split.
  - intro H. rewrite H, (xltb_xleb _ H). reflexivity.
  - intro H. rewrite H. cbn [xadd]. rewrite Rplus_0_l. destruct (xleb iv (Fin 0)); reflexivity.
Qed.
Lemma E_C47_law : kready x_kcor x_tab x_tab 2 2 1 /\ no_ab (k_fit x_kcor) /\
  kobj_ok 2 1 {| ko_z := Fin 0; ko_m := [Fin 1; Fin (-1)]; ko_iv := [Fin 1; Fin 2]; ko_c := [Fin 1]; ko_d := NaN |} /\
  exists ks, kcorrect x_kcor (Some (scal (Fin 0))) (Some (vec [Fin 1])) (Fin 0) = Ok (vec ks).
Proof. exact E_C44_law. Qed.

(** For an object whose coefficients do not have positive sum (all zero: the fit failed) the limit is computed with K = 0
    in every band with positive inverse variance; the docstring promises -9999. *)
Lemma L_C47_zero_coeffs :
  forall distmod (K : kcor xr) A Ao nb no nt bs k o v a,
    kready K A Ao nb no nt -> no_ab (k_fit K) -> kobj_ok nb nt o -> nltb n0 (nsum (ko_c o)) = false ->
    absmag_object distmod K bs false false true k o = Ok a -> nth_error (parts a) 1 = Some (vec v) ->
    forall j, (j < no)%nat ->
      let iv := nth (in_band K j) (ko_iv o) NaN in
      nltb n0 iv = true ->
      nth_error v j = Some (nsub (nsub (nmul (Fin (-5/2)) (nlog10 (ndiv (Fin 1) (nsqrt iv)))) (distmod (ko_z o))) (Fin 0)).
Proof.
  intros distmod K A Ao nb no nt bs k o v a HK Hab Ho Hz Ha Hv j Hj iv Hi.
  pose proof (kc_scal K A Ao nb no nt (ko_z o) (ko_c o) bs rounding_xr HK (proj2 (proj2 Ho))) as Ek.
  rewrite (obj_eq _ K A Ao nb no nt) in Ha by auto using rounding_xr. unfold obj_res in Ha.
  destruct (kbad A Ao bs (ko_z o)) eqn:EB; [discriminate|].
  assert (Ek' : kcorrect K (Some (scal (ko_z o))) (Some (vec (ko_c o))) bs = Ok (vec (repeat (Fin 0) no))).
  { rewrite Ek. unfold kval1, kval, vec. change (@cst xr Num_xr) with (fun x : xr => x). rewrite !map_id. rewrite Hz.
    rewrite recon1_len, repeat_length. reflexivity. }
  destruct (L_C47_law distmod K A Ao nb no nt bs k o _ HK Hab Ho Ek') as (v' & a' & Ea & Pv & L & Hn).
  rewrite (obj_eq _ K A Ao nb no nt) in Ea by auto using rounding_xr. unfold obj_res in Ea. rewrite EB in Ea.
  rewrite Ha in Ea. injection Ea as <-. rewrite Hv in Pv. injection Pv as _ <-.
  destruct (Hn j Hj) as [Hg _]. rewrite (Hg Hi). do 2 f_equal. apply nth_error_nth. rewrite nth_error_repeat.
  destruct (Nat.ltb_spec j no); [auto|lia].
Qed.
Lemma E_C47_zero_coeffs : nltb n0 (nsum [Fin 0]) = false /\
  exists a v, absmag_object (fun z => Fin 30) x_kcor (Fin 0) false false true false
     {| ko_z := Fin 0; ko_m := [Fin 1; Fin (-1)]; ko_iv := [Fin 1; Fin 2]; ko_c := [Fin 0]; ko_d := NaN |} = Ok a /\
    nth_error (parts a) 1 = Some (vec v) /\ nth_error v 0 = Some (Fin (-30)) /\ nth_error v 0 <> Some (Fin (-9999)).
Proof.
  assert (HZ : nltb n0 (nsum [Fin 0]) = false) by (cbn; rewrite Rltb_false by lra; auto). split; auto.
  set (o := {| ko_z := Fin 0; ko_m := [Fin 1; Fin (-1)]; ko_iv := [Fin 1; Fin 2]; ko_c := [Fin 0]; ko_d := NaN |}).
  assert (Ho : kobj_ok 2 1 o) by repeat split. assert (Hab : no_ab (k_fit x_kcor)) by (left; reflexivity).
  assert (E : kbad x_tab x_tab (Fin 0) (Fin 0) = false).
  { unfold kbad, out_of, shifted, zero_of. cbn. rewrite !Rltb_false by (unfold Q2R; cbn; lra). reflexivity. }
  pose proof (kc_scal x_kcor x_tab x_tab 2 2 1 (Fin 0) [Fin 0] (Fin 0) rounding_xr x_kready eq_refl) as Ek. rewrite E in Ek.
  destruct (L_C47_law (fun z => Fin 30) x_kcor x_tab x_tab 2 2 1 (Fin 0) false o (kval1 x_kcor x_tab x_tab 2 2 1 (Fin 0) (Fin 0) [Fin 0]) x_kready Hab Ho)
    as (v & a & Ea & Ev & L & _).
  { cbn [ko_z ko_c o]. rewrite Ek. unfold vec. rewrite (kval1_len _ _ _ _ _ _ _ _ _ x_kready). reflexivity. }
  exists a, v. split; auto. split; auto.
  pose proof (L_C47_zero_coeffs _ x_kcor x_tab x_tab 2 2 1 (Fin 0) false o v a x_kready Hab Ho HZ Ea Ev 0%nat ltac:(lia)) as H.
  cbv zeta in H. rewrite H.
  2:{ cbn. rewrite (proj2 (Rltb_iff 0 1)) by lra. auto. }
  unfold in_band; cbn [k_imap x_kcor nth ko_iv o]. cbn [nsqrt Num_xr xsqrt]. rewrite Rltb_false by lra. rewrite sqrt_1.
  cbn [ndiv Num_xr xdiv]. rewrite Reqb_false by lra. cbn [nlog10 Num_xr xlog]. rewrite Rltb_false, Reqb_false by lra.
  replace (1 / 1) with 1 by field. unfold log10. rewrite ln_1. cbn.
  split; [do 2 f_equal; lra|]. intro X. injection X as X. lra.
Qed.
