(** Lemmas for derived and the Monte Carlo methods of kcorrect.py. *)
From Coq Require Import String List Arith Bool Lia ZArith QArith.
From Verif Require Import Base BaseLemmas Num Interp Sed Response RespDict Fitter FitSpec FitterProofs FitterMC
  Kcorrect KSpec KcorrectProofs.
Import ListNotations.
Local Open Scope nat_scope.

(** Arrays given by their rows along the last axis. *)
Definition arr {A} (sh : list nat) (w : nat) (rows : list (list A)) : nd A := mk (sh ++ [w]) (concat rows).

Lemma lrows_arr {A} sh w (rows : list (list A)) : rect w rows -> length rows = size sh -> lrows (arr sh w rows) = rows.
Proof.
  intros H L. unfold lrows, arr; cbn [shp dat]. rewrite lead_snoc, lastd_snoc, <- L. apply chunks_concat.
  intros r Hr. unfold rect in H. rewrite Forall_forall in H. auto.
Qed.

Lemma snoc_match {B} (sh : list nat) w (a b : B) :
  match sh ++ [w] with [] => a | _ => b end = b.
Proof. destruct sh; auto. Qed.

Lemma get_last_arr {A} (d : A) sh w rows k : rect w rows -> length rows = size sh -> k < w ->
  get_last k d (arr sh w rows) = Ok (mk sh (map (fun r => nth k r d) rows)).
Proof.
  intros H L Hk. unfold get_last. rewrite lrows_arr by auto. unfold arr; cbn [shp].
  rewrite snoc_match, lastd_snoc, lead_snoc. apply Nat.ltb_lt in Hk. rewrite Hk. auto.
Qed.
Lemma get_last_arr_err {A} (d : A) sh w rows k : w <= k -> get_last k d (arr sh w rows) = Raise IndexError.
Proof. intro H. apply get_last_err. right. unfold arr; cbn [shp]. rewrite lastd_snoc. auto. Qed.

Lemma set_last_arr {A} (d : A) sh w rows k v : rect w rows -> length rows = size sh -> k < w -> length v = size sh ->
  set_last k d (mk sh v) (arr sh w rows) = Ok (arr sh w (zip (fun r x => upd k x r) rows v)).
Proof.
  intros H L Hk Hv. unfold set_last. rewrite lrows_arr by auto. unfold arr; cbn [shp].
  rewrite snoc_match, lastd_snoc, lead_snoc. apply Nat.ltb_lt in Hk. rewrite Hk.
  change sh with (shp (mk sh v)) at 1. rewrite bto_same; auto.
Qed.

Lemma rect_zip_upd {A} w k rows (v : list A) : rect w rows -> rect w (zip (fun r x => upd k x r) rows v).
Proof.
  intro H. revert v. induction H as [|r rows Hr _ IH]; intros [|x v]; cbn; constructor.
  - rewrite length_upd; auto.
  - apply IH.
Qed.

Lemma upd_split {A} (f : A -> A) (d : A) r (p : list A) i : i < length r -> length p = length r -> nth i p d = f (nth i r d) ->
  upd i (f (nth i r d)) (firstn i p ++ skipn i r) = firstn (S i) p ++ skipn (S i) r.
Proof.
  revert r p; induction i as [|i IH]; intros [|x r] [|y p]; cbn; intros; try lia.
  - congruence.
  - f_equal. apply IH; auto; lia.
Qed.

Section D.
  Context {T : Type} {N : Num T}.

  (** * The solar normalisation *)
  Definition lum (dm x s : T) : T := ndiv x (npow10 (nmul (nlit (-(2) # 5)) (nadd s dm))).
  Definition lum_row (sols : list T) (r : list T) (dm : T) : list T := zip (lum dm) r sols.

  Definition part_row (sols : list T) (i : nat) (r : list T) (dm : T) : list T :=
    firstn i (lum_row sols r dm) ++ skipn i r.

  Lemma part_row_len sols i r dm : length r = length sols -> i <= length r -> length (part_row sols i r dm) = length r.
  Proof.
    intros H Hi. unfold part_row, lum_row. rewrite app_length, firstn_length, length_zip, skipn_length. lia.
  Qed.

  Lemma part_row_step sols i r dm s : length r = length sols -> nth_error sols i = Some s ->
    upd i (lum dm (nth i (part_row sols i r dm) n0) s) (part_row sols i r dm) = part_row sols (S i) r dm.
  Proof.
    intros H Hs. assert (Hi : i < length sols) by (apply nth_error_Some; congruence).
    unfold part_row at 1. assert (L : length (lum_row sols r dm) = length r) by (unfold lum_row; rewrite length_zip; lia).
    rewrite app_nth2; rewrite firstn_length, L; [|lia]. rewrite Nat.min_l, Nat.sub_diag by lia.
    assert (E : nth 0 (skipn i r) n0 = nth i r n0).
    { rewrite <- (Nat.add_0_r i) at 2. clear. revert r; induction i; intros [|]; cbn; auto. }
    rewrite E. unfold part_row at 1 2. apply (upd_split (fun x => lum dm x s)); auto; [lia|].
    apply nth_error_nth. unfold lum_row. rewrite nth_error_zip, Hs.
    rewrite (nth_error_nth_lt r n0) by lia. auto.
  Qed.

  Lemma solar_fold (d : dict (resp T)) sh dms (rows : list (list T)) sols : length rows = size sh -> length dms = size sh ->
    rect (length sols) rows ->
    forall names i, i + length names = length sols ->
    Forall2 (fun name s => exists r, dget d name = Some r /\ p_solar r = Some s) names (skipn i sols) ->
    foldM (solar_step d (Some dms)) (combine (seq i (length names)) names)
          (arr sh (length sols) (zip (part_row sols i) rows dms)) =
    Ok (arr sh (length sols) (zip (lum_row sols) rows dms)).
  Proof.
    intros L Ld HR. induction names as [|nm names IH]; intros i Hi HF.
    - cbn. do 2 f_equal. apply zip_ext. intros r dm Hr _. unfold rect in HR. rewrite Forall_forall in HR.
      specialize (HR r Hr). cbn in Hi. unfold part_row. rewrite skipn_all2 by lia. rewrite app_nil_r.
      apply firstn_all2. unfold lum_row. rewrite length_zip. lia.
    - cbn [length] in Hi. cbn [length seq combine foldM].
      destruct (skipn i sols) as [|s0 rest] eqn:ES.
      { apply (f_equal (@length T)) in ES. rewrite skipn_length in ES. cbn in ES. lia. }
      inversion HF as [|? ? ? ? (r & Hd & Hs) HF']; subst.
      assert (Hs0 : nth_error sols i = Some s0).
      { rewrite <- (Nat.add_0_r i), <- nth_error_skipn, ES. auto. }
      assert (ES' : skipn (S i) sols = rest).
      { clear - ES. revert sols ES; induction i as [|i IHi]; intros [|a l] E; try discriminate.
        - injection E; auto.
        - apply (IHi l). exact E. }
      assert (HP : rect (length sols) (zip (part_row sols i) rows dms)).
      { unfold rect. apply Forall_forall. intros x Hx. apply In_nth_error in Hx as [k Hk]. rewrite nth_error_zip in Hk.
        destruct (nth_error rows k) eqn:E1; [|discriminate]. destruct (nth_error dms k); [|discriminate].
        injection Hk as <-. unfold rect in HR. rewrite Forall_forall in HR. apply nth_error_In in E1.
        apply HR in E1. rewrite part_row_len; lia. }
      assert (LP : length (zip (part_row sols i) rows dms) = size sh) by (rewrite length_zip; lia).
      assert (EQ : solar_step d (Some dms) (arr sh (length sols) (zip (part_row sols i) rows dms)) (i, nm) =
                   Ok (arr sh (length sols) (zip (part_row sols (S i)) rows dms))).
      { unfold solar_step. rewrite Hd, Hs.
        assert (EZ : zip (fun r x => upd i x r) (zip (part_row sols i) rows dms)
                       (zip (fun x dm => lum dm x s0) (map (fun r => nth i r n0) (zip (part_row sols i) rows dms)) dms) =
                     zip (part_row sols (S i)) rows dms).
        { clear - HR Hs0. revert dms. induction HR as [|r0 rows H0 _ IHr]; intros [|dm dms]; cbn; auto.
          rewrite part_row_step by auto. f_equal. apply IHr. }
        assert (EG : (do c <- get_last i n0 (arr sh (length sols) (zip (part_row sols i) rows dms));
           set_last i n0 (mk (shp c) (zip (fun x d0 => ndiv x (npow10 (nmul (nlit (-(2) # 5)) (nadd s0 d0)))) (dat c) dms))
             (arr sh (length sols) (zip (part_row sols i) rows dms))) =
           Ok (arr sh (length sols) (zip (part_row sols (S i)) rows dms))).
        { rewrite get_last_arr by (auto; lia). cbn [bind shp dat].
          rewrite set_last_arr; auto; [|lia|rewrite length_zip, map_length; lia].
          do 2 f_equal. exact EZ. }
        destruct dms; exact EG. }
      rewrite EQ. cbn [bind]. apply IH; [lia|]. rewrite ES'. auto.
  Qed.
  (** * derived *)
  Variable distmod : T -> T.

  Definition dfz (z : T) : T := npow10 (nmul (nlit (2 # 5)) (distmod (cst z))).
  Definition tot (v : list T) (zc : T * list T) : T := nmul (dotp (map cst (snd zc)) v) (dfz (fst zc)).
  Definition rat (K : kcor T) (st : T -> T) (x y : list T) (zc : T * list T) : T :=
    ratio st (tot (t_mremain (k_tmpl K)) zc) (tot x zc) (tot y zc).
  Definition mtl (K : kcor T) (Ao : atab T) no nt bs sols (u : T -> T) (zc : T * list T) : list T :=
    map (mtol1 (u (tot (t_mremain (k_tmpl K)) zc)))
        (lum_row sols (recon1 Ao no nt bs n0 (map cst (snd zc))) (distmod (cst (fst zc)))).

  Definition der_dict (K : kcor T) (Ao : atab T) no nt bs sols (array : bool) (objs : list (T * list T)) : outdict T :=
    let t := k_tmpl K in
    let st := if array then cst else (fun x => x) in
    let u := if array then (fun x => nmul x n1) else (fun x => x) in
    let per f := per_object array (map f objs) in
    [("mremain"%string, per (tot (t_mremain t))); ("intsfh"%string, per (tot (t_intsfh t)));
     ("mtol"%string, mk (if array then [length objs; no] else [no])
                        (concat (map (mtl K Ao no nt bs sols u) objs)));
     ("b50"%string, per (rat K st (t_m50 t) (t_intsfh t)));
     ("b300"%string, per (rat K st (t_m300 t) (t_intsfh t)));
     ("b1000"%string, per (rat K st (t_m1000 t) (t_intsfh t)));
     ("metallicity"%string, per (rat K st (zip nmul (t_mremain t) (t_mets t)) (t_mremain t)))].

  Lemma tmpl_ok_iff (K : kcor T) nt : tmpl_shape K nt -> tmpl_ok (k_tmpl K) nt = true.
  Proof.
    unfold tmpl_shape, tmpl_ok. intro H. apply forallb_forall. intros v Hv. apply Nat.eqb_eq.
    rewrite Forall_forall in H. auto.
  Qed.

  Lemma weighted_map (objs : list (T * list T)) v :
    weighted (map (fun zc => map cst (snd zc)) objs) v (map (fun zc => dfz (fst zc)) objs) = map (tot v) objs.
  Proof. unfold weighted. induction objs as [|a l IH]; cbn; auto. f_equal; auto. Qed.
  Lemma zip3_map {A} (f : T -> T * T -> T) (a b c : A -> T) l :
    zip f (map a l) (combine (map b l) (map c l)) = map (fun x => f (a x) (b x, c x)) l.
  Proof. induction l as [|x l IH]; cbn; auto. f_equal; auto. Qed.

  Definition der_z (array : bool) (objs : list (T * list T)) : nd T :=
    if array then vec (map fst objs) else scal (fst (hd (n0, []) objs)).
  Definition der_c (array : bool) nt (objs : list (T * list T)) : nd T :=
    if array then table nt (map snd objs) else vec (snd (hd (n0, []) objs)).

  Lemma solars_len d (K : kcor T) sols : solars d K sols -> length sols = length (k_out K).
  Proof. unfold solars. induction 1; cbn; congruence. Qed.

  Lemma der_eq d (K : kcor T) A Ao nb no nt bs sols array objs : rounding N -> kready K A Ao nb no nt ->
    tmpl_shape K nt -> solars d K sols -> Forall (zc_ok nt) objs -> (array = false -> length objs = 1) ->
    derived distmod d K (Some (der_z array objs)) (Some (der_c array nt objs)) bs None =
    if existsb (fun _ => out_of (a_x Ao) (shifted bs n0)) objs then Raise ValueError
    else if negb array || Nat.eqb nb no || Nat.eqb no 0 then Ok (der_dict K Ao no nt bs sols array objs)
    else Raise IndexError.
  Proof.
    intros HR ((HA & Hb & Hn & Ht) & HAo & Hto & Ho & HiL & Hf) Htm Hs Hok Harr. pose proof HR as [R1 R2].
    pose proof (solars_len _ _ _ Hs) as Ls. rewrite Ho in Ls.
    unfold derived.
    assert (EP : process_inputs (k_fit K) (Some (der_z array objs)) None None (Some (der_c array nt objs)) =
       Ok (plain_pin array (if array then length objs else 1) (der_z array objs) None None (Some (der_c array nt objs)))).
    { unfold der_z, der_c. destruct array.
      - rewrite (process_zc_vec _ objs Hn). auto.
      - destruct objs as [|zc [|]]; try (specialize (Harr eq_refl); discriminate). inversion Hok; subst.
        cbn [hd]. apply process_zc_scal with (nt := f_nsed (k_fit K)); auto. }
    rewrite EP. cbn [bind plain_pin q_c q_array q_z option_map]. rewrite Hn, tmpl_ok_iff by auto.
    set (objs1 := map (fun zc : T * list T => (n0, map cst (snd zc))) objs).
    assert (Hrows : lrows (map1 cst (der_c array nt objs)) = map (fun zc => map cst (snd zc)) objs).
    { unfold der_c. destruct array.
      - rewrite map1_table, lrows_table, map_map; auto. apply rect_map. apply Forall_map. auto.
      - destruct objs as [|zc [|]]; try (specialize (Harr eq_refl); discriminate). cbn [hd map].
        unfold lrows, vec, map1; cbn [shp dat lead removelast lastd last size fold_right chunks].
        rewrite firstn_all2; auto. rewrite map_length; auto. }
    rewrite Hrows. 
    assert (Hzs : map distmod (dat (map1 cst (der_z array objs))) = map (fun zc => distmod (cst (fst zc))) objs).
    { unfold der_z. destruct array; unfold map1, vec, scal; cbn [dat]; [rewrite !map_map; auto|].
      destruct objs as [|zc [|]]; try (specialize (Harr eq_refl); discriminate). auto. }
    rewrite Hzs, map_map. change (fun x : T * list T => npow10 (nmul (nlit (2 # 5)) (distmod (cst (fst x)))))
      with (fun x : T * list T => dfz (fst x)).
    rewrite !weighted_map.
    assert (Hrec : reconstruct_out K (Some (if array then full [length (dat (map1 cst (der_z array objs)))] n0 else scal n0))
        (Some (map1 cst (der_c array nt objs))) bs =
      if existsb (fun _ => out_of (a_x Ao) (shifted bs n0)) objs then Raise ValueError
      else Ok (arr (if array then [length objs] else []) no (map (fun zc => recon1 Ao no nt bs n0 (map cst (snd zc))) objs))).
    { unfold reconstruct_out. rewrite HAo. destruct array.
      - assert (E1 : full [length (dat (map1 cst (der_z true objs)))] n0 = vec (map fst objs1)).
        { unfold full, vec, objs1, der_z, map1, vec; cbn [dat size fold_right]. rewrite Nat.mul_1_r, !map_map, !map_length.
          f_equal. clear. induction objs as [|a l IH]; cbn in *; [auto|]. rewrite IH; auto. }
        assert (E2 : map1 cst (der_c true nt objs) = table nt (map snd objs1)).
        { unfold der_c, objs1. rewrite map1_table, !map_map. auto. }
        assert (Hok1 : Forall (cobj_ok nt) objs1).
        { apply Forall_map. eapply Forall_impl; [|exact Hok]. intros a Ha. unfold cobj_ok; cbn. rewrite map_length; auto. }
        rewrite E1, E2, (reconstruct_vec _ bs Hn Hto Hok1). unfold objs1. rewrite existsb_map. cbn [fst].
        rewrite R2. destruct (existsb _ objs); auto. unfold table, arr. rewrite !map_length, map_map. cbn [fst snd app].
        rewrite R2. do 3 f_equal. apply map_ext. intro. rewrite cst2; auto.
      - destruct objs as [|zc [|]]; try (specialize (Harr eq_refl); discriminate).
        inversion Hok as [|? ? Hz _]; subst. unfold der_c; cbn [hd]. rewrite map1_cst_vec.
        rewrite (reconstruct_scal _ n0 (map cst (snd zc)) bs eq_refl Hto) by (rewrite map_length; auto).
        cbn [existsb]. rewrite R2, orb_false_r, cst2 by auto. destruct (out_of _ _); auto.
        unfold arr; cbn [map concat app]. rewrite app_nil_r. auto. }
    rewrite Hrec. destruct (existsb _ objs); cbn [bind]; auto.
    set (rows := map (fun zc => recon1 Ao no nt bs n0 (map cst (snd zc))) objs).
    set (sh := if array then [length objs] else []).
    set (dms := map (fun zc => distmod (cst (fst zc))) objs).
    assert (Lsh : size sh = length objs).
    { unfold sh. destruct array; cbn [size fold_right]; [lia|]. symmetry; auto. }
    assert (Rrows : rect no rows) by (apply Forall_map, Forall_forall; intros; apply recon1_len).
    assert (EF : foldM (solar_step d (Some dms)) (combine (seq 0 (length (k_out K))) (k_out K)) (arr sh no rows) =
                 Ok (arr sh no (zip (lum_row sols) rows dms))).
    { rewrite <- Ls.
      assert (E0 : rows = zip (part_row sols 0) rows dms).
      { unfold part_row. cbn [firstn skipn app]. clear. unfold rows, dms.
        induction objs as [|zc l IH]; cbn [map zip]; auto. rewrite <- IH; auto. }
      rewrite E0 at 1. apply solar_fold; auto.
      - unfold rows. rewrite map_length; auto.
      - unfold dms. rewrite map_length; auto.
      - rewrite Ls; auto.
      - cbn. congruence. }
    rewrite EF. cbn [bind]. unfold arr at 1 2 3; cbn [shp]. rewrite !lastd_snoc, Hb.
    destruct (negb array || Nat.eqb nb no || Nat.eqb no 0); auto.
    f_equal. unfold der_dict.
    assert (Elr : lrows (arr sh no (zip (lum_row sols) rows dms)) = zip (lum_row sols) rows dms).
    { apply lrows_arr.
      - apply Forall_forall. intros x Hx. apply In_nth_error in Hx as [k Hk]. rewrite nth_error_zip in Hk.
        destruct (nth_error rows k) eqn:E1; [|discriminate]. destruct (nth_error dms k); [|discriminate].
        injection Hk as <-. unfold lum_row. rewrite length_zip. unfold rect in Rrows. rewrite Forall_forall in Rrows.
        apply nth_error_In in E1. apply Rrows in E1. lia.
      - rewrite length_zip. unfold rows, dms. rewrite !map_length. lia. }
    rewrite !Elr, !zip3_map. cbn [fst snd].
    assert (Ez : zip (fun mr r => map (mtol1 (if array then nmul mr n1 else mr)) r) (map (tot (t_mremain (k_tmpl K))) objs)
        (zip (lum_row sols) rows dms) =
      map (mtl K Ao no nt bs sols (if array then (fun x => nmul x n1) else (fun x => x))) objs).
    { unfold rows, dms, mtl. clear. induction objs as [|zc l IH]; cbn [map zip]; auto. rewrite IH.
      f_equal. destruct array; auto. }
    rewrite Ez. unfold rat.
    replace (sh ++ [no]) with (if array then [length objs; no] else [no]) by (unfold sh; destruct array; auto).
    reflexivity.
  Qed.
End D.
