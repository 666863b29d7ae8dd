(** Lemmas for the theorems about kcorrect.py. *)
From Coq Require Import String List Arith Bool Lia ZArith QArith.
From Verif Require Import Base BaseLemmas Num Interp Sed Response RespDict Fitter FitSpec FitterProofs FitterMC
  Kcorrect KSpec.
Import ListNotations.
Local Open Scope nat_scope.

Lemma pick_ok {T} {N : Num T} idx (l : list T) : Forall (fun i => i < length l) idx ->
  pick idx l = Ok (map (fun k => nth k l n0) idx).
Proof.
  intro H. unfold pick. replace (forallb (fun k => Nat.ltb k (length l)) idx) with true; auto.
  symmetry. apply forallb_forall. intros k Hk. rewrite Forall_forall in H. apply Nat.ltb_lt; auto.
Qed.

Lemma map_repeat {A B} (f : A -> B) x n : map f (repeat x n) = repeat (f x) n.
Proof. induction n; cbn; congruence. Qed.

Section K.
  Context {T : Type} {N : Num T}.

  Lemma process_zc_scal (F : fitter T) z c {nt} : f_nsed F = nt -> length c = nt ->
    process_inputs F (Some (scal z)) None None (Some (vec c)) =
    Ok (plain_pin false 1 (scal z) None None (Some (vec c))).
  Proof.
    intros Hn Hc. unfold process_inputs; cbn [ndim scal map1 shp map dat length Nat.leb Nat.eqb option_map opt_shape_ok].
    unfold shape_ok, vec, map1; cbn [shp]. rewrite Hc, Hn, Nat.eqb_refl. destruct (f_abc F); auto.
  Qed.
  Lemma process_zc_vec (F : fitter T) {nt} (objs : list (T * list T)) : f_nsed F = nt ->
    process_inputs F (Some (vec (map fst objs))) None None (Some (table nt (map snd objs))) =
    Ok (plain_pin true (length objs) (vec (map fst objs)) None None (Some (table nt (map snd objs)))).
  Proof.
    intro Hn. unfold process_inputs, vec, table; cbn [ndim map1 shp length Nat.leb Nat.eqb option_map opt_shape_ok].
    unfold shape_ok; cbn [shp size fold_right]. rewrite !map_length, Hn, Nat.mul_1_r, !Nat.eqb_refl. cbn [andb].
    unfold plain_pin, map1; cbn [option_map shp dat]. destruct (f_abc F); auto.
  Qed.

  Lemma recon1_len (A : atab T) nb nt bs z c : length (recon1 A nb nt bs z c) = nb.
  Proof. unfold recon1. rewrite map_length, length_chunks. auto. Qed.

  (** The K-correction of one object from its two reconstructions. *)
  Definition kval (K : kcor T) (mi mo c : list T) : list T :=
    if nltb n0 (nsum c) then zip (fun x y => nmul m25 (nlog10 (ndiv x y))) (map (fun k => nth k mi n0) (k_imap K)) mo
    else repeat n0 (length mo).

  Lemma kval_len (K : kcor T) mi mo c : length mo = length (k_imap K) -> length (kval K mi mo c) = length mo.
  Proof.
    intro H. unfold kval. destruct (nltb _ _); [|apply repeat_length]. rewrite length_zip, map_length. lia.
  Qed.

  Lemma kc_row_ok (K : kcor T) mi mo : Forall (fun i => i < length mi) (k_imap K) -> length mo = length (k_imap K) ->
    kc_row K mi mo = Ok (zip (fun x y => nmul m25 (nlog10 (ndiv x y))) (map (fun k => nth k mi n0) (k_imap K)) mo).
  Proof. intros H1 H2. unfold kc_row. rewrite pick_ok by auto. cbn [bind]. rewrite map_length, H2, Nat.eqb_refl. auto. Qed.

  Definition zero_of (z : T) : T := cst (nmul (nlit (0 # 1)) (cst z)).
  Definition kval1 (K : kcor T) (A Ao : atab T) nb no nt bs (z : T) (c : list T) : list T :=
    kval K (recon1 A nb nt n0 (cst z) (map cst c)) (recon1 Ao no nt bs (zero_of z) (map cst c)) (map cst c).
  Definition kbad (A Ao : atab T) bs (z : T) : bool :=
    out_of (a_x A) (shifted n0 (cst z)) || out_of (a_x Ao) (shifted bs (zero_of z)).

  Lemma cst2 (l : list T) : rounding N -> map cst (map cst l) = map cst l.
  Proof. intros [H _]. rewrite map_map. apply map_ext. auto. Qed.

  Lemma kc_scal (K : kcor T) A Ao nb no nt z c bs : rounding N -> kready K A Ao nb no nt -> length c = nt ->
    kcorrect K (Some (scal z)) (Some (vec c)) bs =
    if kbad A Ao bs z then Raise ValueError else Ok (mk [no] (kval1 K A Ao nb no nt bs z c)).
  Proof.
    intros HR ((HA & Hb & Hn & Ht) & HAo & Hto & Ho & Hi & Hf) Hc. unfold kcorrect.
    rewrite (process_zc_scal _ z c Hn Hc). cbn [bind plain_pin q_z q_c q_array option_map].
    unfold reconstruct, reconstruct_out. rewrite HA, HAo.
    assert (E1 : map1 cst (vec c) = vec (map cst c)) by (unfold map1, vec; cbn; rewrite map_length; auto).
    assert (E2 : map1 cst (scal z) = scal (cst z)) by reflexivity.
    assert (E3 : map1 (fun z0 => nmul (nlit 0) z0) (scal (cst z)) = scal (nmul (nlit (0 # 1)) (cst z))) by reflexivity.
    rewrite E1, E2, E3.
    assert (Hc' : length (map cst c) = nt) by (rewrite map_length; auto).
    rewrite (reconstruct_scal _ _ _ n0 Hn Ht Hc'). destruct HR as [R1 R2]. rewrite R1.
    unfold kbad. destruct (out_of (a_x A) (shifted n0 (cst z))); cbn [bind orb]; auto.
    rewrite (reconstruct_scal _ _ _ bs Hn Hto Hc'). fold (zero_of z).
    destruct (out_of (a_x Ao) (shifted bs (zero_of z))); cbn [bind]; auto.
    rewrite cst2 by (split; auto). cbn [vec dat shp]. unfold kval1, kval.
    destruct (nltb n0 (nsum (map cst c))).
    - rewrite kc_row_ok; auto.
      + rewrite recon1_len. subst nb; auto.
      + rewrite recon1_len; auto.
    - rewrite recon1_len. unfold full. cbn [size fold_right]. rewrite Nat.mul_1_r. auto.
  Qed.

  Lemma mapM_ok_map {A B} (f : A -> res B) (g : A -> B) l : (forall a, In a l -> f a = Ok (g a)) ->
    mapM f l = Ok (map g l).
  Proof. induction l as [|a l IH]; intro H; cbn [mapM map]; auto. rewrite H, IH; cbn; auto; intros; apply H; cbn; auto. Qed.

  Lemma mapM_map {A B C} (f : B -> res C) (g : A -> B) l : mapM f (map g l) = mapM (fun a => f (g a)) l.
  Proof. induction l as [|a l IH]; cbn [mapM map]; auto. rewrite IH; auto. Qed.

  Lemma kc_vec (K : kcor T) A Ao nb no nt objs bs : rounding N -> kready K A Ao nb no nt -> Forall (zc_ok nt) objs ->
    kcorrect K (Some (vec (map fst objs))) (Some (table nt (map snd objs))) bs =
    if existsb (fun zc => out_of (a_x A) (shifted n0 (cst (fst zc)))) objs ||
       existsb (fun zc => out_of (a_x Ao) (shifted bs (zero_of (fst zc)))) objs then Raise ValueError
    else Ok (table no (map (fun zc => map cst (kval1 K A Ao nb no nt bs (fst zc) (snd zc))) objs)).
  Proof.
    intros HR ((HA & Hb & Hn & Ht) & HAo & Hto & Ho & Hi & Hf) Hok. unfold kcorrect.
    rewrite (process_zc_vec _ objs Hn). cbn [bind plain_pin q_z q_c q_array option_map].
    unfold reconstruct, reconstruct_out. rewrite HA, HAo.
    set (o1 := map (fun zc : T * list T => (cst (fst zc), map cst (snd zc))) objs).
    set (o2 := map (fun zc : T * list T => (nmul (nlit (0 # 1)) (cst (fst zc)), map cst (snd zc))) objs).
    assert (L1 : map1 cst (vec (map fst objs)) = vec (map fst o1)).
    { unfold map1, vec, o1; cbn [shp dat]. rewrite !map_map, !map_length. auto. }
    assert (L2 : map1 (fun z => nmul (nlit 0) z) (map1 cst (vec (map fst objs))) = vec (map fst o2)).
    { unfold map1, vec, o2; cbn [shp dat]. rewrite !map_map, !map_length. auto. }
    assert (M1 : map1 cst (table nt (map snd objs)) = table nt (map snd o1)).
    { rewrite map1_table. unfold o1. rewrite !map_map. auto. }
    assert (M2 : table nt (map snd o1) = table nt (map snd o2)) by (unfold o1, o2; rewrite !map_map; auto).
    rewrite L2, M1, L1.
    assert (Hok1 : Forall (cobj_ok nt) o1).
    { unfold o1. apply Forall_map. eapply Forall_impl; [|exact Hok]. intros a Ha. unfold cobj_ok; cbn. rewrite map_length; auto. }
    assert (Hok2 : Forall (cobj_ok nt) o2).
    { unfold o2. apply Forall_map. eapply Forall_impl; [|exact Hok]. intros a Ha. unfold cobj_ok; cbn. rewrite map_length; auto. }
    rewrite (reconstruct_vec _ n0 Hn Ht Hok1). destruct HR as [R1 R2].
    assert (X1 : existsb (fun zc => out_of (a_x A) (shifted n0 (cst (fst zc)))) o1 =
                 existsb (fun zc => out_of (a_x A) (shifted n0 (cst (fst zc)))) objs).
    { unfold o1. clear - R1. induction objs as [|a l IH]; cbn; auto. rewrite IH, R1. auto. }
    rewrite X1. destruct (existsb _ objs); cbn [bind orb]; auto.
    rewrite M2, (reconstruct_vec _ bs Hn Hto Hok2).
    assert (X2 : existsb (fun zc => out_of (a_x Ao) (shifted bs (cst (fst zc)))) o2 =
                 existsb (fun zc => out_of (a_x Ao) (shifted bs (zero_of (fst zc)))) objs).
    { unfold o2, zero_of. clear. induction objs as [|a l IH]; cbn; auto. rewrite IH. auto. }
    rewrite X2. destruct (existsb _ objs); cbn [bind]; auto.
    set (mi := map (fun zc => recon1 A nb nt n0 (cst (fst zc)) (map cst (snd zc))) o1).
    set (mo := map (fun zc => recon1 Ao no nt bs (cst (fst zc)) (map cst (snd zc))) o2).
    assert (Rmi : rect nb mi). { apply Forall_map. apply Forall_forall. intros. apply recon1_len. }
    assert (Rmo : rect no mo). { apply Forall_map. apply Forall_forall. intros. apply recon1_len. }
    assert (Rc : rect nt (map snd o2)). { apply Forall_map. exact Hok2. }
    rewrite !lrows_table by auto.
    assert (EM : mapM (fun r : list T * (list T * list T) => let '(ci, (a, b)) := r in
            if nltb n0 (nsum ci) then do k <- kc_row K a b; Ok (map cst k) else Ok (repeat n0 (length b)))
          (combine (map snd o2) (combine mi mo)) =
      Ok (map (fun zc => map cst (kval1 K A Ao nb no nt bs (fst zc) (snd zc))) objs)).
    { assert (EC : combine (map snd o2) (combine mi mo) = map (fun zc => (map cst (snd zc),
         (recon1 A nb nt n0 (cst (fst zc)) (map cst (snd zc)), recon1 Ao no nt bs (zero_of (fst zc)) (map cst (snd zc))))) objs).
      { unfold o1, o2, mi, mo, o1, o2. rewrite !map_map. cbn [fst snd]. clear - R1 R2.
        induction objs as [|a l IH]; cbn [map combine]; auto. rewrite IH, R1, cst2 by (split; auto). auto. }
      rewrite EC, mapM_map. apply mapM_ok_map. intros zc _.
      unfold kval1, kval. destruct (nltb n0 (nsum (map cst (snd zc)))).
      - rewrite kc_row_ok; cbn [bind]; auto; rewrite recon1_len; auto.
      - rewrite map_repeat, R2. auto. }
    rewrite EM. cbn [bind]. unfold table, mo, o2. rewrite !map_length. auto.
  Qed.
  (** * absmag *)
  Variable distmod : T -> T.

  Definition dm_val (wd : bool) (z d : T) : T := if wd then dm_of_distance (cst d) else distmod (cst z).
  Definition am_pack (r l k : bool) (a b c d : nd T) : am_out T :=
    if r || l || k then Tuple (a :: (if r then [b] else []) ++ (if l then [c] else []) ++ (if k then [d] else []))
    else Bare1 a.
  Definition picked (K : kcor T) (v : list T) : list T := map (fun i => nth i v n0) (k_imap K).
  Definition am_row (K : kcor T) (m iv : list T) (dm : T) (k : list T) : list T :=
    zip (fun (x : T * T) kj => absmag1 (fst x) (snd x) dm kj) (combine (picked K m) (picked K iv)) k.
  Definition rec_row (om : list T) (dm : T) (k : list T) : list T := zip (fun x kj => absrec1 x dm kj) om k.
  Definition lim_row (K : kcor T) (iv : list T) (dm : T) (k : list T) : list T :=
    zip (fun x kj => abslim1 x dm kj) (picked K iv) k.

  Lemma zip_combine_repeat {B} (f : B -> T * T -> T) (l : list B) (x : T) (k : list T) n : length k <= n ->
    zip f l (combine (repeat x n) k) = zip (fun b kj => f b (x, kj)) l k.
  Proof.
    revert n k; induction l as [|a l IH]; intros [|n] [|y k] H; cbn in *; auto; try lia.
    - f_equal. apply IH. lia.
  Qed.

  Lemma zero_of_cst z : rounding N -> zero_of (cst z) = zero_of z.
  Proof. intros [H _]. unfold zero_of. rewrite H. auto. Qed.
  Lemma kval1_cst K A Ao nb no nt bs z c : rounding N ->
    kval1 K A Ao nb no nt bs (cst z) (map cst c) = kval1 K A Ao nb no nt bs z c.
  Proof. intro H. unfold kval1. rewrite zero_of_cst, cst2 by auto. destruct H as [H _]. rewrite H. auto. Qed.
  Lemma kbad_cst (A Ao : atab T) bs z : rounding N -> kbad A Ao bs (cst z) = kbad A Ao bs z.
  Proof. intro H. unfold kbad. rewrite zero_of_cst by auto. destruct H as [H _]. rewrite H. auto. Qed.

  Lemma map1_cst_vec (l : list T) : map1 cst (vec l) = vec (map cst l).
  Proof. unfold map1, vec; cbn. rewrite map_length; auto. Qed.

  Lemma take_last_vec idx (l : list T) : Forall (fun i => i < length l) idx ->
    take_last idx n0 (vec l) = Ok (vec (map (fun i => nth i l n0) idx)).
  Proof.
    intro H. unfold take_last, vec, lrows; cbn [shp dat lead removelast lastd last size fold_right chunks app map concat].
    replace (forallb (fun k => Nat.ltb k (length l)) idx) with true.
    2:{ symmetry. apply forallb_forall. intros k Hk. rewrite Forall_forall in H. apply Nat.ltb_lt; auto. }
    rewrite firstn_all, app_nil_r, map_length. auto.
  Qed.

  Lemma am_scal (K : kcor T) A Ao nb no nt bs wd r l k (o : kobj T) : rounding N -> kready K A Ao nb no nt ->
    no_ab (k_fit K) -> kobj_ok nb nt o ->
    absmag_object distmod K bs wd r l k o =
    if kbad A Ao bs (ko_z o) then Raise ValueError
    else if r && out_of (a_x Ao) (shifted bs (cst (ko_z o))) then Raise ValueError
    else let kk := kval1 K A Ao nb no nt bs (ko_z o) (ko_c o) in
         let dm := dm_val wd (ko_z o) (ko_d o) in
         Ok (am_pack r l k (mk [no] (am_row K (map cst (ko_m o)) (map cst (ko_iv o)) dm kk))
               (mk [no] (rec_row (recon1 Ao no nt bs (cst (ko_z o)) (map cst (ko_c o))) dm kk))
               (mk [no] (lim_row K (map cst (ko_iv o)) dm kk)) (mk [no] kk)).
  Proof.
    intros HR HK Hab (Hm & Hi & Hc). pose proof HK as ((HA & Hb & Hn & Ht) & HAo & Hto & Ho & HiL & Hf).
    unfold absmag_object, absmag, absmag_after.
    rewrite process_inputs_ok; auto.
    2:{ left. repeat split; auto; intros a E; injection E as <-; unfold vec; cbn; congruence. }
    cbn [bind]. change (ndim (scal (ko_z o))) with 0. cbn [Nat.eqb]. cbn [plain_pin q_c q_z q_m q_iv q_array option_map].
    rewrite !map1_cst_vec. change (map1 cst (scal (ko_z o))) with (scal (cst (ko_z o))).
    assert (Hc' : length (map cst (ko_c o)) = nt) by (rewrite map_length; auto).
    assert (ED : match (if wd then Some (scal (ko_d o)) else None) with
      | Some d => do q <- process_inputs (k_fit K) (Some d) None None (Some (vec (map cst (ko_c o))));
                  Ok (q_array q, map1 dm_of_distance (q_z q))
      | None => Ok (false, map1 distmod (scal (cst (ko_z o)))) end =
      Ok (false, scal (dm_val wd (ko_z o) (ko_d o)))).
    { destruct wd; auto. rewrite (process_zc_scal _ _ _ Hn Hc'). auto. }
    rewrite ED. clear ED. cbn [bind].
    rewrite (kc_scal K A Ao nb no nt _ _ bs HR HK Hc'), kbad_cst, kval1_cst by auto.
    destruct (kbad A Ao bs (ko_z o)); cbn [bind]; auto.
    set (kk := kval1 K A Ao nb no nt bs (ko_z o) (ko_c o)).
    assert (Lk : length kk = no). { unfold kk, kval1. rewrite kval_len; rewrite recon1_len; auto. }
    rewrite !take_last_vec by (rewrite map_length, ?Hm, ?Hi; auto). cbn [bind].
    fold (picked K (map cst (ko_m o))) (picked K (map cst (ko_iv o))).
    assert (Lm : length (picked K (map cst (ko_m o))) = no) by (unfold picked; rewrite map_length; auto).
    assert (Li : length (picked K (map cst (ko_iv o))) = no) by (unfold picked; rewrite map_length; auto).
    unfold vec; cbn [shp dat]. rewrite Lm, shape_eqb_refl. unfold dm_entries. rewrite repeat_length, Ho, Lk, Nat.eqb_refl.
    cbn [scal dat hd]. set (dm := dm_val wd (ko_z o) (ko_d o)).
    rewrite !zip_combine_repeat by lia. cbn [fst snd].
    destruct r; cbn [andb].
    - unfold reconstruct_out. rewrite HAo. fold (vec (map cst (ko_c o))).
      change (mk [length (map cst (ko_c o))] (map cst (ko_c o))) with (vec (map cst (ko_c o))).
      change (mk [] [cst (ko_z o)]) with (scal (cst (ko_z o))).
      rewrite (reconstruct_scal _ _ _ bs Hn Hto Hc'). pose proof HR as [R1 R2]. rewrite R1, cst2 by auto.
      destruct (out_of (a_x Ao) (shifted bs (cst (ko_z o)))); cbn [bind]; auto.
      cbn [shp dat]. rewrite shape_eqb_refl. cbn [bind app]. rewrite zip_combine_repeat by lia.
      destruct l, k; reflexivity.
    - cbn [bind app]. destruct l, k; reflexivity.
  Qed.
  Lemma take_last_table idx w (rows : list (list T)) : rect w rows -> Forall (fun i => i < w) idx ->
    take_last idx n0 (table w rows) = Ok (table (length idx) (map (fun r => map (fun i => nth i r n0) idx) rows)).
  Proof.
    intros Hr H. unfold take_last. rewrite lrows_table by auto. unfold table; cbn [shp dat lead removelast lastd last].
    replace (forallb (fun k => Nat.ltb k w) idx) with true.
    2:{ symmetry. apply forallb_forall. intros k Hk. rewrite Forall_forall in H. apply Nat.ltb_lt; auto. }
    rewrite map_length. auto.
  Qed.

  Lemma zip_rows {A B C D} (f : B -> C -> D) w (g : A -> list B) (h : A -> list C) l :
    (forall a, length (g a) = w) -> (forall a, length (h a) = w) ->
    zip f (concat (map g l)) (concat (map h l)) = concat (map (fun a => zip f (g a) (h a)) l).
  Proof.
    intros Hg Hh. induction l as [|a l IH]; cbn [map concat]; auto. rewrite zip_app by (rewrite Hg, Hh; auto).
    rewrite IH; auto.
  Qed.
  Lemma combine_rows {A B C} w (g : A -> list B) (h : A -> list C) l :
    (forall a, length (g a) = w) -> (forall a, length (h a) = w) ->
    combine (concat (map g l)) (concat (map h l)) = concat (map (fun a => combine (g a) (h a)) l).
  Proof.
    assert (E : forall X Y (l1 : list X) (l2 : list Y), combine l1 l2 = zip pair l1 l2).
    { induction l1; destruct l2; cbn; auto. f_equal; auto. }
    intros Hg Hh. rewrite E, (zip_rows pair w g h) by auto. f_equal. apply map_ext. intro. auto.
  Qed.

  Lemma existsb_map {A B} (f : B -> bool) (g : A -> B) l : existsb f (map g l) = existsb (fun a => f (g a)) l.
  Proof. induction l; cbn; congruence. Qed.
  Lemma existsb_ext {A} (f g : A -> bool) l : (forall a, f a = g a) -> existsb f l = existsb g l.
  Proof. intro H. induction l; cbn; congruence. Qed.

  Lemma am_vec (K : kcor T) A Ao nb no nt bs wd r l k (objs : list (kobj T)) : rounding N -> kready K A Ao nb no nt ->
    no_ab (k_fit K) -> Forall (kobj_ok nb nt) objs ->
    absmag_objects distmod K nb nt bs wd r l k objs =
    if existsb (fun o => out_of (a_x A) (shifted n0 (cst (ko_z o)))) objs ||
       existsb (fun o => out_of (a_x Ao) (shifted bs (zero_of (ko_z o)))) objs then Raise ValueError
    else if r && existsb (fun o => out_of (a_x Ao) (shifted bs (cst (ko_z o)))) objs then Raise ValueError
    else let kk := fun o => map cst (kval1 K A Ao nb no nt bs (ko_z o) (ko_c o)) in
         let dm := fun o => nmul (dm_val wd (ko_z o) (ko_d o)) n1 in
         Ok (am_pack r l k
               (table no (map (fun o => am_row K (map cst (ko_m o)) (map cst (ko_iv o)) (dm o) (kk o)) objs))
               (table no (map (fun o => rec_row (recon1 Ao no nt bs (cst (ko_z o)) (map cst (ko_c o))) (dm o) (kk o)) objs))
               (table no (map (fun o => lim_row K (map cst (ko_iv o)) (dm o) (kk o)) objs))
               (table no (map kk objs))).
  Proof.
    intros HR HK Hab Hok. pose proof HK as ((HA & Hb & Hn & Ht) & HAo & Hto & Ho & HiL & Hf).
    unfold absmag_objects, absmag, absmag_after.
    rewrite process_inputs_ok; auto.
    2:{ right. exists (length objs). unfold vec, table, is_shape; cbn [shp]. rewrite map_length.
        repeat split; intros a E; injection E as <-; cbn [shp]; rewrite map_length; congruence. }
    cbn [bind]. change (ndim (vec (map ko_z objs))) with 1. cbn [Nat.eqb]. cbn [plain_pin q_c q_z q_m q_iv q_array option_map].
    set (zc := map (fun o : kobj T => (cst (ko_z o), map cst (ko_c o))) objs).
    assert (Ez : map1 cst (vec (map ko_z objs)) = vec (map fst zc)).
    { rewrite map1_cst_vec. unfold zc. rewrite !map_map. auto. }
    assert (Ec : map1 cst (table nt (map ko_c objs)) = table nt (map snd zc)).
    { rewrite map1_table. unfold zc. rewrite !map_map. auto. }
    rewrite Ez, Ec, !map1_table, !map_map.
    set (dmo := fun o : kobj T => dm_val wd (ko_z o) (ko_d o)).
    assert (ED : match (if wd then Some (vec (map ko_d objs)) else None) with
      | Some d => do q <- process_inputs (k_fit K) (Some d) None None (Some (table nt (map snd zc)));
                  Ok (q_array q, map1 dm_of_distance (q_z q))
      | None => Ok (true, map1 distmod (vec (map fst zc))) end =
      Ok (true, vec (map dmo objs))).
    { unfold dmo, dm_val. destruct wd.
      - set (dc := map (fun o : kobj T => (ko_d o, map cst (ko_c o))) objs).
        replace (vec (map ko_d objs)) with (vec (map fst dc)) by (unfold dc; rewrite map_map; auto).
        replace (map snd zc) with (map snd dc) by (unfold dc, zc; rewrite !map_map; auto).
        rewrite (process_zc_vec _ dc Hn). cbn [bind q_array q_z plain_pin]. do 2 f_equal.
        unfold map1, vec, dc; cbn [shp dat]. rewrite !map_map, !map_length. auto.
      - unfold map1, vec, zc; cbn [shp dat]. rewrite !map_map, !map_length. auto. }
    rewrite ED. clear ED. cbn [bind].
    assert (Hzc : Forall (zc_ok nt) zc).
    { apply Forall_map. eapply Forall_impl; [|exact Hok]. intros o (_ & _ & H). unfold zc_ok; cbn. rewrite map_length; auto. }
    rewrite (kc_vec K A Ao nb no nt zc bs HR HK Hzc).
    pose proof HR as [R1 R2].
    assert (X1 : existsb (fun zc => out_of (a_x A) (shifted n0 (cst (fst zc)))) zc =
      existsb (fun o => out_of (a_x A) (shifted n0 (cst (ko_z o)))) objs).
    { unfold zc. rewrite existsb_map. apply existsb_ext. intro o. cbn. rewrite R1; auto. }
    assert (X2 : existsb (fun zc => out_of (a_x Ao) (shifted bs (zero_of (fst zc)))) zc =
      existsb (fun o => out_of (a_x Ao) (shifted bs (zero_of (ko_z o)))) objs).
    { unfold zc. rewrite existsb_map. apply existsb_ext. intro o. cbn. rewrite zero_of_cst; auto. }
    rewrite X1, X2. clear X1 X2. destruct (existsb _ objs || existsb _ objs); cbn [bind]; auto.
    set (kk := fun o => map cst (kval1 K A Ao nb no nt bs (ko_z o) (ko_c o))).
    assert (Ek : map (fun zc => map cst (kval1 K A Ao nb no nt bs (fst zc) (snd zc))) zc = map kk objs).
    { unfold zc, kk. rewrite map_map. apply map_ext. intro o. cbn [fst snd]. rewrite kval1_cst; auto. }
    rewrite Ek. clear Ek.
    assert (Lk : forall o, length (kk o) = no).
    { intro o. unfold kk, kval1. rewrite map_length, kval_len; rewrite recon1_len; auto. }
    rewrite !(take_last_table _ nb); auto.
    2:{ apply Forall_map. eapply Forall_impl; [|exact Hok]. intros o (_ & H & _). rewrite map_length; auto. }
    2:{ apply Forall_map. eapply Forall_impl; [|exact Hok]. intros o (H & _ & _). rewrite map_length; auto. }
    cbn [bind]. rewrite !map_map. rewrite HiL.
    assert (Lt : length (concat (map kk objs)) = length objs * no).
    { rewrite (@length_concat_const T no), map_length; auto. intros x Hx. apply in_map_iff in Hx as (o & <- & _). auto. }
    unfold table at 1 2; cbn [shp dat]. rewrite !map_length, shape_eqb_refl.
    assert (Ed : dm_entries true (length (k_out K)) (vec (map dmo objs)) =
      concat (map (fun o => repeat (nmul (dmo o) n1) no) objs)).
    { unfold dm_entries, vec; cbn [dat]. rewrite map_map, Ho. auto. }
    rewrite Ed. clear Ed.
    assert (Lr : forall o, length (repeat (nmul (dmo o) n1) no) = no) by (intro; apply repeat_length).
    rewrite (@length_concat_const T no) by (intros x Hx; apply in_map_iff in Hx as (o & <- & _); auto).
    unfold table; cbn [shp dat].
    rewrite Lt, map_length, Nat.eqb_refl.
    assert (Lp : forall v : list T, length (picked K v) = no) by (intro; unfold picked; rewrite map_length; auto).
    set (dk := combine (concat (map (fun o => repeat (nmul (dmo o) n1) no) objs)) (concat (map kk objs))).
    assert (Edk : dk = concat (map (fun o => combine (repeat (nmul (dmo o) n1) no) (kk o)) objs)).
    { unfold dk. apply (combine_rows no); auto. }
    rewrite !Edk. clear Edk dk.
    assert (Ldk : forall o, length (combine (repeat (nmul (dmo o) n1) no) (kk o)) = no).
    { intro. rewrite combine_length, Lr, Lk. lia. }
    change (fun x : kobj T => map (fun i : nat => nth i (map cst (ko_m x)) n0) (k_imap K)) with
      (fun x : kobj T => picked K (map cst (ko_m x))).
    change (fun x : kobj T => map (fun i : nat => nth i (map cst (ko_iv x)) n0) (k_imap K)) with
      (fun x : kobj T => picked K (map cst (ko_iv x))).
    rewrite (combine_rows no) by auto.
    rewrite (zip_rows _ no (fun a => combine (picked K (map cst (ko_m a))) (picked K (map cst (ko_iv a)))) _ objs); auto.
    2:{ intro. rewrite combine_length, !Lp. lia. }
    rewrite (zip_rows _ no (fun a => picked K (map cst (ko_iv a))) _ objs) by auto.
    assert (E1 : map (fun a => zip (fun x y : T * T => absmag1 (fst x) (snd x) (fst y) (snd y))
        (combine (picked K (map cst (ko_m a))) (picked K (map cst (ko_iv a)))) (combine (repeat (nmul (dmo a) n1) no) (kk a))) objs =
      map (fun o => am_row K (map cst (ko_m o)) (map cst (ko_iv o)) (nmul (dmo o) n1) (kk o)) objs).
    { apply map_ext. intro o. rewrite zip_combine_repeat by (rewrite Lk; lia). auto. }
    rewrite E1. clear E1.
    assert (E2 : map (fun a => zip (fun (x : T) (y : T * T) => abslim1 x (fst y) (snd y))
        (picked K (map cst (ko_iv a))) (combine (repeat (nmul (dmo a) n1) no) (kk a))) objs =
      map (fun o => lim_row K (map cst (ko_iv o)) (nmul (dmo o) n1) (kk o)) objs).
    { apply map_ext. intro o. rewrite zip_combine_repeat by (rewrite Lk; lia). auto. }
    rewrite E2. clear E2.
    destruct r; cbn [andb].
    - unfold reconstruct_out. rewrite HAo.
      change (mk [length (map fst zc)] (map fst zc)) with (vec (map fst zc)).
      change (mk [length (map snd zc); nt] (concat (map snd zc))) with (table nt (map snd zc)).
      rewrite (reconstruct_vec _ bs Hn Hto Hzc).
      assert (X3 : existsb (fun zc => out_of (a_x Ao) (shifted bs (cst (fst zc)))) zc =
        existsb (fun o => out_of (a_x Ao) (shifted bs (cst (ko_z o)))) objs).
      { unfold zc. rewrite existsb_map. apply existsb_ext. intro o. cbn. rewrite R1; auto. }
      rewrite X3. destruct (existsb _ objs); cbn [bind]; auto.
      unfold table; cbn [shp dat]. unfold zc at 1 2. rewrite !map_length, shape_eqb_refl. cbn [bind].
      assert (E3 : map (fun zc => recon1 Ao no nt bs (cst (fst zc)) (map cst (snd zc))) zc =
        map (fun o => recon1 Ao no nt bs (cst (ko_z o)) (map cst (ko_c o))) objs).
      { unfold zc. rewrite map_map. apply map_ext. intro o. cbn [fst snd]. rewrite R1, cst2; auto. }
      rewrite E3. rewrite (zip_rows _ no) by (auto; intro; apply recon1_len).
      assert (E4 : map (fun a => zip (fun (x : T) (y : T * T) => absrec1 x (fst y) (snd y))
          (recon1 Ao no nt bs (cst (ko_z a)) (map cst (ko_c a))) (combine (repeat (nmul (dmo a) n1) no) (kk a))) objs =
        map (fun o => rec_row (recon1 Ao no nt bs (cst (ko_z o)) (map cst (ko_c o))) (nmul (dmo o) n1) (kk o)) objs).
      { apply map_ext. intro o. rewrite zip_combine_repeat by (rewrite Lk; lia). auto. }
      rewrite E4. unfold am_pack. destruct l, k; cbn; rewrite ?map_length; reflexivity.
    - cbn [bind app]. unfold am_pack. destruct l, k; cbn; rewrite ?map_length; reflexivity.
  Qed.
End K.
