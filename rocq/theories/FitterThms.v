(** Properties of fitter.py that hold in any arithmetic (C25-C27, C30-C32): the proofs. *)
From Coq Require Import String List Arith Lia Bool QArith.
From Verif Require Import Base BaseLemmas Num Toy Interp Sed Response Fitter FitSpec FitterProofs FitterMC FitEx.
Import ListNotations.
Local Open Scope nat_scope.
(* STATEMENTS *)

(** C25.  The inputs are accepted exactly when their shapes are the documented ones. *)
Lemma L_C25_accepted_iff_documented :
  forall (T : Type) (N : Num T) (F : fitter T) z m iv c, no_ab F ->
    ((exists p, process_inputs F (Some z) m iv c = Ok p) <->
     documented (length (f_resp F)) (f_nsed F) z m iv c).
Proof.
  intros T N F z m iv c Hab. split.
  - intros [p Hp].
    assert (D : documented (length (f_resp F)) (f_nsed F) z m iv c \/
                ~ documented (length (f_resp F)) (f_nsed F) z m iv c).
    { unfold process_inputs in Hp. change (ndim (map1 cst z)) with (ndim z) in Hp.
      change (shp (map1 cst z)) with (shp z) in Hp.
      destruct (Nat.leb (ndim z) 1) eqn:Hd; [|discriminate].
      repeat match type of Hp with (if ?x then _ else _) = _ => destruct x eqn:?; [|discriminate] end.
      clear Hp. apply opt_shape_ok_iff in Heqb, Heqb0, Heqb1. unfold ndim in *. left.
      destruct (shp z) as [|k [|]] eqn:Hz; cbn in *; try discriminate.
      - left; auto.
      - right. exists k. rewrite Nat.mul_1_r in *. auto. }
    destruct D as [D|D]; auto. rewrite process_inputs_bad in Hp by auto. discriminate.
  - intro H. rewrite process_inputs_ok by auto. eauto.
Qed.
Lemma E_C25_accepted_iff_documented :
  no_ab q_fitter /\
  documented (length (f_resp q_fitter)) (f_nsed q_fitter) (vec [0; 1]%Q) (Some (table 2 [[1; 2]; [3; 4]]%Q)) None None.
Proof.
  split; [left; reflexivity|]. right. exists 2. repeat split; intros a H; try discriminate; injection H as <-; reflexivity.
Qed.

(** Everything else raises, in fit_coeffs and in reconstruct, whatever the solver, the random stream and the
    state of the object: TypeError for a redshift of dimension two or more, ValueError otherwise. *)
Lemma L_C25_rejected :
  forall (T : Type) (N : Num T) nnls rng (F : fitter T) A z m iv c mc cur bs,
    (~ documented (length (f_resp F)) (f_nsed F) z m iv None ->
     fit_coeffs nnls rng F (Some z) m iv mc cur = Raise (if Nat.leb (ndim z) 1 then ValueError else TypeError)) /\
    (~ documented (length (f_resp F)) (f_nsed F) z None None c ->
     reconstruct_ F A (Some z) c bs = Raise (if Nat.leb (ndim z) 1 then ValueError else TypeError)).
Proof.
  intros. split; intro H.
  - unfold fit_coeffs, fit_after. rewrite process_inputs_bad by auto. auto.
  - unfold reconstruct_. rewrite process_inputs_bad by auto. auto.
Qed.
Lemma E_C25_rejected : ~ documented 2 3 (scal 0%Q) (Some (vec [1; 2; 3]%Q)) None None.
Proof.
  intros [(_ & H & _)|(n & H & _)]; [|discriminate]. specialize (H _ eq_refl). discriminate.
Qed.

(** A missing redshift. *)
Lemma L_C25_no_redshift :
  forall (T : Type) (N : Num T) nnls rng (F : fitter T) A m iv c mc cur bs,
    fit_coeffs nnls rng F None m iv mc cur = Raise TypeError /\
    reconstruct_ F A None c bs = Raise ValueError.
Proof. auto. Qed.

(** C26. *)
Lemma bto_length A (d : A) o v l : bto d o v = Ok l -> length l = size o.
Proof.
  unfold bto. destruct (bshape _ _); [|discriminate]. destruct (shape_eqb _ _); [|discriminate].
  intro H; injection H as <-. rewrite map_length, seq_length; auto.
Qed.

Lemma process_inputs_inv T (N : Num T) (F : fitter T) z m iv c p : process_inputs F (Some z) m iv c = Ok p ->
  q_z p = map1 cst z /\ ((shp z = [] /\ q_array p = false /\ q_n p = 1) \/
                         (exists n, shp z = [n] /\ q_array p = true /\ q_n p = n)).
Proof.
  unfold process_inputs. change (ndim (map1 cst z)) with (ndim z). change (shp (map1 cst z)) with (shp z).
  destruct (Nat.leb (ndim z) 1) eqn:Hd; [|discriminate].
  repeat match goal with |- (if ?x then _ else _) = _ -> _ => destruct x eqn:?; [|discriminate] end.
  intro H.
  assert (E : q_z p = map1 cst z /\ q_array p = Nat.eqb (ndim z) 1 /\
              q_n p = if Nat.eqb (ndim z) 1 then size (shp z) else 1).
  { destruct (f_abc F), (option_map (map1 cst) m); cbn [bind] in H;
      try (injection H as <-; auto; fail).
    apply bind_ok in H as (r & _ & H). injection H as <-. auto. }
  destruct E as (E1 & E2 & E3). split; auto. unfold ndim in *.
  destruct (shp z) as [|k [|]]; cbn in *; try discriminate; [left|right]; auto.
  exists k. rewrite Nat.mul_1_r in E3. auto.
Qed.

Lemma fit1_coeffs_shape T (N : Num T) nnls rng (F : fitter T) A nb nt t m iv mc cur o cur' :
  nnls_shape nnls -> ready F A nb nt -> fit1 nnls rng F (scal t) m iv mc cur = Ok (o, cur') ->
  out_c o = vec (dat (out_c o)) /\ length (dat (out_c o)) = nt /\
  (mc <> 0 -> exists c cm, o = Two c cm \/ exists mm, o = Three c cm mm /\ shp cm = [nt; mc]).
Proof.
  intros Hs H. pose proof H as (HA & Hb & Hn & Ht). unfold fit1. destruct iv as [iv|]; [|discriminate].
  rewrite HA, Hn, (acall_scal t Ht). destruct (out_of (a_x A) t); cbn [bind].
  - intro E. injection E as <- <-. destruct (Nat.eqb_spec mc 0); cbn [out_c full dat].
    + rewrite repeat_length. unfold vec, full; cbn. rewrite repeat_length, Nat.mul_1_r. repeat split; auto. congruence.
    + rewrite repeat_length. unfold vec, full; cbn. rewrite repeat_length, Nat.mul_1_r. repeat split; eauto.
  - destruct (bin nmul n0 n0 (inverr_matrix nt (map1 nsqrt iv)) (mk [nb; nt] (arow A t))) as [W|e] eqn:EW.
    + assert (HW : lastd (shp W) = nt).
      { unfold bin in EW. cbn [shp inverr_matrix] in EW. destruct (bshape _ _) as [o0|] eqn:EB; [|discriminate].
        injection EW as <-. cbn [shp]. rewrite (lastd_bshape _ _ _ _ EB), Nat.eqb_refl. auto. }
      destruct m as [m|]; [|discriminate]. intro E. apply bind_ok in E as (b & _ & E).
      apply bind_ok in E as (c & Hc & E). apply nnls_retry_len in Hc as (Hv & Hl & _); auto. rewrite HW in Hl.
      destruct (Nat.eqb_spec mc 0).
      * injection E as <- <-. cbn [out_c]. repeat split; auto. congruence.
      * apply bind_ok in E as ([[ms cs] cur1] & HL & E). injection E as <- <-. cbn [out_c].
        repeat split; auto. intros _. exists c, (of_cols nt cs). right. eexists; split; eauto.
        apply mc_loop_len in HL as [_ L]; auto. unfold of_cols; cbn. congruence.
    + unfold bin in EW. destruct (bshape _ _); [discriminate|]. injection EW as <-.
      intro E. injection E as <- <-. destruct (Nat.eqb_spec mc 0); cbn [out_c full dat].
      * rewrite repeat_length. unfold vec, full; cbn. rewrite repeat_length, Nat.mul_1_r. repeat split; auto. congruence.
      * rewrite repeat_length. unfold vec, full; cbn. rewrite repeat_length, Nat.mul_1_r. repeat split; eauto.
Qed.

Lemma fit_rows_shape T (N : Num T) nnls rng (F : fitter T) m iv mc : forall zs cur i cs cms mms cur',
  fit_rows nnls rng F m iv mc cur i zs = Ok (cs, cms, mms, cur') ->
  length cs = length zs /\ rect (f_nsed F) cs /\ (mc = 0 -> nnls_shape nnls -> cur' = cur) /\
  (mc <> 0 -> length cms = length zs /\ length mms = length zs /\
              rect (f_nsed F * mc) cms /\ rect (length (f_resp F) * mc) mms).
Proof.
  induction zs as [|z zs IH]; intros cur i cs cms mms cur' H; cbn [fit_rows] in H.
  - injection H as <- <- <- <-. cbn. repeat split; auto; constructor.
  - apply bind_ok in H as ([[[c cm] mm] cur1] & H1 & H).
    apply bind_ok in H as ([[[cs1 cms1] mms1] cur2] & H2 & H). injection H as <- <- <- <-.
    apply IH in H2 as (L & R & C0 & C1). unfold fit_row in H1.
    destruct m as [m|], iv as [iv|]; try discriminate.
    apply bind_ok in H1 as ([o cur3] & Ho & H1). cbn [length].
    destruct (Nat.eqb_spec mc 0) as [->|Hmc].
    + destruct o as [c0| |]; try discriminate.
      apply bind_ok in H1 as (c1 & Hc & H1). injection H1 as <- <- <- <-.
      apply bto_length in Hc. unfold size in Hc; cbn in Hc. rewrite Nat.mul_1_r in Hc.
      split; [congruence|]. split; [constructor; auto|]. split; [|congruence].
      intros _ Hs. rewrite C0 by auto. eapply fit1_bare in Ho; eauto. destruct Ho; auto.
    + destruct o as [|? ?|c0 cm0 mm0]; try discriminate.
      apply bind_ok in H1 as (c1 & Hc & H1). apply bind_ok in H1 as (cm1 & Hcm & H1).
      apply bind_ok in H1 as (mm1 & Hmm & H1). injection H1 as <- <- <- <-.
      apply bto_length in Hc, Hcm, Hmm. unfold size in Hc, Hcm, Hmm; cbn in Hc, Hcm, Hmm.
      rewrite Nat.mul_1_r in Hc, Hcm, Hmm.
      split; [congruence|]. split; [constructor; auto|]. split; [congruence|].
      intro H. destruct (C1 H) as (A1 & A2 & A3 & A4). repeat split; try congruence; constructor; auto.
Qed.

(** For every input accepted with mc=0: a number gives [nt] coefficients, n numbers give [n, nt], also for
    n=0 and n=1; the random stream is not touched. *)
Lemma L_C26_shape :
  forall (T : Type) (N : Num T) nnls rng (F : fitter T) A nb nt z m iv cur o cur',
    nnls_shape nnls -> ready F A nb nt -> wf z ->
    fit_coeffs nnls rng F (Some z) m iv 0 cur = Ok (o, cur') ->
    cur' = cur /\ exists c, o = Bare c /\ wf c /\
      ((shp z = [] /\ shp c = [nt]) \/ (exists n, shp z = [n] /\ shp c = [n; nt])).
Proof.
  intros T N nnls rng F A nb nt z m iv cur o cur' Hs H Hwz E. pose proof H as (HA & Hb & Hn & Ht).
  unfold fit_coeffs, fit_after in E. apply bind_ok in E as (p & Hp & E).
  apply process_inputs_inv in Hp as (Ez & Hz). rewrite Ez in E.
  destruct Hz as [(Hz & Ha & Hq)|(n & Hz & Ha & Hq)]; rewrite Ha, Hq in E.
  - cbn [Nat.eqb] in E. apply bind_ok in E as ([r cur1] & Hf & E).
    unfold wf in Hwz. rewrite Hz in Hwz. destruct z as [sz lz]; cbn [shp dat] in *. subst sz.
    destruct lz as [|t [|]]; try discriminate. change (squeeze (map1 cst (mk [] [t]))) with (scal (cst t)) in Hf.
    assert (X : cur1 = cur /\ exists c, r = Bare c) by (eapply fit1_bare; eauto); destruct X as (-> & c & ->).
    apply (fit1_coeffs_shape _ _ _ _ _ _ _ _ _ _ _ _ _ _ _ Hs H) in Hf as (Hv & Hl & _). cbn [out_c] in *.
    injection E as <- <-. split; auto. exists c. split; auto. rewrite Hv. split; [apply wf_vec|].
    left. split; auto. unfold vec; cbn. congruence.
  - destruct (Nat.eqb_spec n 1) as [->|Hn1].
    + apply bind_ok in E as ([r cur1] & Hf & E).
      unfold wf in Hwz. rewrite Hz in Hwz. destruct z as [sz lz]; cbn [shp dat] in *. subst sz.
      destruct lz as [|t [|]]; try discriminate. change (squeeze (map1 cst (mk [1] [t]))) with (scal (cst t)) in Hf.
      assert (X : cur1 = cur /\ exists c, r = Bare c) by (eapply fit1_bare; eauto); destruct X as (-> & c & ->).
      apply (fit1_coeffs_shape _ _ _ _ _ _ _ _ _ _ _ _ _ _ _ Hs H) in Hf as (Hv & Hl & _). cbn [out_c] in *.
      cbn [Nat.eqb] in E. rewrite Hv in E. unfold len, vec, reshape in E; cbn [bind shp dat] in E.
      apply bind_ok in E as (c' & Hc & E). injection E as <- <-. split; auto. exists c'. split; auto.
      destruct (Nat.eqb _ _); [|discriminate]. injection Hc as <-.
      unfold wf, size; cbn [shp dat fold_right]. split; [lia|]. right. exists 1. rewrite Hl. auto.
    + apply bind_ok in E as ([[[cs cms] mms] cur1] & Hf & E). cbn [Nat.eqb] in E. injection E as <- <-.
      apply fit_rows_shape in Hf as (L & R & C0 & _). split; auto.
      eexists; split; [reflexivity|]. cbn [shp]. rewrite Hn in *.
      assert (Hlen : length (dat (map1 cst z)) = n).
      { unfold map1; cbn [dat]. rewrite map_length, Hwz, Hz. unfold size; cbn. lia. }
      split; [|right; eauto]. unfold wf, size; cbn [shp dat fold_right]. rewrite (length_table R), L, Hlen. lia.
Qed.
Lemma E_C26_shape :
  exists c, fit_coeffs ex_nnls (fun _ => 0%Q) q_fitter (Some (vec [0; 1; 5]%Q)) (Some (table 2 [[1; 2]; [3; 4]; [5; 6]]%Q))
                       (Some (table 2 [[1; 1]; [1; 1]; [1; 1]]%Q)) 0 7 = Ok (Bare c, 7) /\ shp c = [3; 3] /\
            dat c = [1; 2; 0; 3; 4; 0; 0; 0; 0]%Q.
Proof. eexists. vm_compute. auto. Qed.

(** C27.  A batch (of any size but one, any mc) is the sequence of the single calls: same values (rounded by the
    store into the float32 output), same first exception, same use of the random stream. *)
Lemma L_C27_batch_is_sequence_of_single_calls :
  forall (T : Type) (N : Num T) nnls rng (F : fitter T) A nb nt mc objs cur,
    nnls_shape nnls -> no_ab F -> ready F A nb nt -> nb <> 1 -> Forall (obj_ok nb) objs -> length objs <> 1 ->
    fit_objects nnls rng F nb mc objs cur =
    match run_each (fit_object nnls rng F mc) objs cur with
    | Ok (outs, cur') =>
      let c := mk [length objs; nt] (concat (map (fun o => map cst (dat (out_c o))) outs)) in
      Ok (if Nat.eqb mc 0 then Bare c
          else Three c (mk [length objs; nt; mc] (concat (map (fun o => dat (out_cmc o)) outs)))
                       (mk [length objs; nb; mc] (concat (map (fun o => dat (out_mmc o)) outs))), cur')
    | Raise e => Raise e
    end.
Proof. intros. apply fit_batch with (A := A); auto. Qed.
Lemma E_C27_batch_is_sequence_of_single_calls :
  ready q_fitter q_tab 2 3 /\ Forall (obj_ok 2) [q_obj 0 1 2; q_obj (1 # 2) 3 4] /\
  run_each (fit_object ex_nnls (fun _ => 0%Q) q_fitter 0) [q_obj 0 1 2; q_obj (1 # 2) 3 4] 0 =
  Ok ([Bare (vec [1; 8; 0]%Q); Bare (vec [3; 16; 0]%Q)], 0).
Proof. split; [apply q_ready|]. split; [repeat constructor|]. vm_compute. reflexivity. Qed.

(** Without Monte Carlo: row i is the single fit of object i, which depends on nothing else. *)
Lemma run_each_nth A B (call : A -> nat -> res (B * nat)) :
  forall l cur bs cur', (forall a k b k', call a k = Ok (b, k') -> k' = k) ->
  run_each call l cur = Ok (bs, cur') -> length bs = length l /\ cur' = cur /\
    forall i a b, nth_error l i = Some a -> nth_error bs i = Some b -> call a cur = Ok (b, cur).
Proof.
  induction l as [|a l IH]; intros cur bs cur' Hc H; cbn in H.
  - injection H as <- <-. repeat split; auto. intros i a b H; destruct i; discriminate.
  - destruct (call a cur) as [[b cur1]|] eqn:E; [|discriminate]. pose proof (Hc _ _ _ _ E) as ->.
    destruct (run_each call l cur) as [[bs1 cur2]|] eqn:E2; [|discriminate]. injection H as <- <-.
    apply IH in E2 as (L & -> & Hi); auto. cbn [length]. repeat split; [congruence|].
    intros i a0 b0 Ha Hb. destruct i; cbn in Ha, Hb.
    + injection Ha as <-. injection Hb as <-. auto.
    + eapply Hi; eauto.
Qed.

Lemma fit_object_bare T (N : Num T) nnls rng (F : fitter T) A nb nt o cur r cur' : nnls_shape nnls ->
  ready F A nb nt -> fit_object nnls rng F 0 o cur = Ok (r, cur') ->
  cur' = cur /\ exists c, r = Bare c /\ wf c /\ shp c = [nt].
Proof.
  intros Hs H E. apply (L_C26_shape _ _ _ _ _ _ _ _ _ _ _ _ _ _ Hs H) in E; [|apply wf_scal].
  destruct E as (-> & c & -> & Hw & [(_ & Hc)|(n & Hz & _)]); [|discriminate]. split; auto. exists c; auto.
Qed.

Lemma L_C27_rows :
  forall (T : Type) (N : Num T) nnls rng (F : fitter T) A nb nt objs cur c cur',
    nnls_shape nnls -> no_ab F -> ready F A nb nt -> nb <> 1 -> Forall (obj_ok nb) objs -> length objs <> 1 ->
    fit_objects nnls rng F nb 0 objs cur = Ok (Bare c, cur') ->
    forall i o, nth_error objs i = Some o ->
      exists ci, fit_object nnls rng F 0 o cur = Ok (Bare ci, cur) /\ row i c = map1 cst ci.
Proof.
  intros T N nnls rng F A nb nt objs cur c cur' Hs Hab H H1 Hok Hn E i o Ho.
  rewrite (fit_batch rng 0 cur Hs Hab H H1 Hok Hn) in E.
  destruct (run_each (fit_object nnls rng F 0) objs cur) as [[outs cur1]|] eqn:ER; [|discriminate].
  cbn [Nat.eqb] in E. injection E as <- <-.
  apply run_each_nth in ER as (L & -> & Hi).
  2:{ intros a k b k' Hcall. eapply fit_object_bare in Hcall; eauto. destruct Hcall; auto. }
  assert (Hlt : i < length outs). { rewrite L. apply nth_error_Some. congruence. }
  destruct (nth_error outs i) as [r|] eqn:Er; [|apply nth_error_None in Er; lia].
  pose proof (Hi i o r Ho Er) as Hcall. pose proof (fit_object_bare _ _ _ _ _ _ _ _ _ _ _ _ Hs H Hcall) as (_ & ci & -> & Hw & Hsh).
  exists ci. split; auto.
  assert (HR : rect nt (map (fun o => map cst (dat (out_c o))) outs)).
  { unfold rect. rewrite Forall_map. apply Forall_forall. intros r Hr.
    apply In_nth_error in Hr as [k Hk].
    assert (Hk2 : k < length objs). { rewrite <- L. apply nth_error_Some. congruence. }
    destruct (nth_error objs k) as [ok|] eqn:Ek; [|apply nth_error_None in Ek; lia].
    pose proof (Hi k ok r Ek Hk) as Hc2.
    apply (fit_object_bare _ _ _ _ _ _ _ _ _ _ _ _ Hs H) in Hc2 as (_ & c2 & -> & Hw2 & Hs2).
    cbn [out_c]. rewrite map_length, Hw2, Hs2. unfold size; cbn. lia. }
  replace (length objs) with (length (map (fun o => map cst (dat (out_c o))) outs)) by (rewrite map_length; auto).
  fold (table nt (map (fun o => map cst (dat (out_c o))) outs)).
  rewrite row_table; auto; [|rewrite map_length; auto].
  erewrite nth_error_nth; [|apply map_nth_error; eauto]. unfold map1; cbn [out_c]. rewrite Hsh. auto.
Qed.
Lemma E_C27_rows :
  nnls_shape (T := Q) ex_nnls /\ no_ab q_fitter /\ ready q_fitter q_tab 2 3 /\ Forall (obj_ok 2) [q_obj 0 1 2; q_obj 9 3 4] /\
  fit_objects ex_nnls (fun _ => 0%Q) q_fitter 2 0 [q_obj 0 1 2; q_obj 9 3 4] 0 =
  Ok (Bare (mk [2; 3] [1; 8; 0; 0; 0; 0]%Q), 0).
Proof. split; [apply ex_nnls_shape|]. split; [left; reflexivity|]. split; [apply q_ready|]. split; [repeat constructor|]. vm_compute. reflexivity. Qed.

(** A batch of one. *)
Lemma L_C27_batch_of_one :
  forall (T : Type) (N : Num T) nnls rng (F : fitter T) A nb nt o cur,
    nnls_shape nnls -> no_ab F -> ready F A nb nt -> nb <> 1 -> obj_ok nb o ->
    fit_objects nnls rng F nb 0 [o] cur =
    match fit_object nnls rng F 0 o cur with
    | Ok (r, cur') => Ok (Bare (mk [1; nt] (dat (out_c r))), cur')
    | Raise e => Raise e
    end.
Proof. intros. apply fit_one with (A := A); auto. Qed.
Lemma E_C27_batch_of_one :
  nnls_shape (T := Q) ex_nnls /\ no_ab q_fitter /\ ready q_fitter q_tab 2 3 /\ obj_ok 2 (q_obj 0 1 2) /\
  fit_objects ex_nnls (fun _ => 0%Q) q_fitter 2 0 [q_obj 0 1 2] 0 = Ok (Bare (mk [1; 3] [1; 8; 0]%Q), 0).
Proof. split; [apply ex_nnls_shape|]. split; [left; reflexivity|]. split; [apply q_ready|]. split; [repeat constructor|]. vm_compute. reflexivity. Qed.

(** With one band, the call for one object (number or array of one) raises unless its redshift is out of range. *)
Lemma nnls_retry_0d T (N : Num T) nnls (A b : nd T) : ndim b <> 1 -> nnls_retry nnls A b = Raise ValueError.
Proof.
  intro H. apply Nat.eqb_neq in H. unfold nnls_retry, nnls_call. rewrite H.
  destruct (forallb nfin (dat A)), (forallb nfin (dat b)), (Nat.eqb (ndim A) 2); reflexivity.
Qed.

Lemma fit1_one_band T (N : Num T) nnls rng (F : fitter T) A nt t m iv mc cur :
  ready F A 1 nt -> out_of (a_x A) t = false ->
  fit1 nnls rng F (scal t) (Some (scal m)) (Some (scal iv)) mc cur = Raise ValueError.
Proof.
  intros H HO. pose proof H as (HA & Hb & Hn & Ht). unfold fit1. rewrite HA, Hn, (acall_scal t Ht), HO.
  cbn [bind]. unfold bin at 1. unfold inverr_matrix, map1, scal; cbn [shp dat map length].
  rewrite bshape_refl. change (bshape [] []) with (Some (@nil nat)). unfold bin; cbn [shp dat].
  change (bshape [] []) with (Some (@nil nat)). cbn [bind]. rewrite nnls_retry_0d; auto.
Qed.

Lemma L_C27_one_band_raises :
  forall (T : Type) (N : Num T) nnls rng (F : fitter T) A nt o mc cur,
    no_ab F -> ready F A 1 nt -> obj_ok 1 o -> ~ outside A (cst (o_z o)) ->
    fit_object nnls rng F mc o cur = Raise ValueError /\
    fit_objects nnls rng F 1 mc [o] cur = Raise ValueError.
Proof.
  intros T N nnls rng F A nt [z m iv] mc cur Hab H [Hm Hi] HO. cbn [o_m o_iv o_z] in *.
  pose proof H as (HA & Hb & Hn & Ht).
  assert (HO' : out_of (a_x A) (cst z) = false).
  { unfold out_of. unfold outside in HO. destruct (nltb (cst z) (nth 0 (a_x A) n0)); [tauto|].
    destruct (nltb (last (a_x A) n0) (cst z)); [tauto|auto]. }
  destruct m as [|m [|]]; try discriminate. destruct iv as [|iv [|]]; try discriminate.
  split; unfold fit_object, fit_objects, fit_coeffs, fit_after, objs_z, objs_m, objs_iv, table, vec;
    cbn [map o_z o_m o_iv concat app length].
  - rewrite process_inputs_ok; auto.
    2:{ left. rewrite Hb, Hn. repeat split; auto; intros a E; try discriminate; injection E as <-; auto. }
    cbn [bind plain_pin q_n q_array q_z q_m q_iv option_map ndim shp Nat.eqb length scal].
    match goal with |- bind (fit1 _ _ _ ?a ?b ?c _ _) _ = _ =>
      change a with (scal (cst z)); change b with (Some (scal (cst m))); change c with (Some (scal (cst iv))) end.
    rewrite (fit1_one_band _ _ nnls rng F A nt) by auto. auto.
  - rewrite process_inputs_ok; auto.
    2:{ right. exists 1. rewrite Hb, Hn. repeat split; auto; intros a E; try discriminate; injection E as <-; auto. }
    cbn [bind plain_pin q_n q_array q_z q_m q_iv option_map ndim shp Nat.eqb length size fold_right Nat.mul Nat.add].
    match goal with |- bind (fit1 _ _ _ ?a ?b ?c _ _) _ = _ =>
      change a with (scal (cst z)); change b with (Some (scal (cst m))); change c with (Some (scal (cst iv))) end.
    rewrite (fit1_one_band _ _ nnls rng F A nt) by auto. auto.
Qed.
Lemma E_C27_one_band_raises :
  no_ab q1_fitter /\ ready q1_fitter q1_tab 1 1 /\ obj_ok 1 {| o_z := (1 # 2)%Q; o_m := [3%Q]; o_iv := [4%Q] |} /\ ~ outside q1_tab (cst (1 # 2)%Q).
Proof. split; [left; reflexivity|]. split; [apply q1_ready|]. split; [repeat constructor|]. intros [H|H]; vm_compute in H; discriminate. Qed.

(** So "an object can be fitted on its own iff it can be fitted in a batch" is false: in a batch of two the same
    one-band object is fitted. *)
Lemma L_C27_one_band_vectorisation_refuted :
  exists (F : fitter Q) A (o : obj Q) c, no_ab F /\ ready F A 1 1 /\ obj_ok 1 o /\
    fit_object ex_nnls (fun _ => 0%Q) F 0 o 0 = Raise ValueError /\
    fit_objects ex_nnls (fun _ => 0%Q) F 1 0 [o] 0 = Raise ValueError /\
    fit_objects ex_nnls (fun _ => 0%Q) F 1 0 [o; o] 0 = Ok (Bare (mk [2; 1] [c; c]), 0).
Proof.
  exists q1_fitter, q1_tab, {| o_z := (1 # 2)%Q; o_m := [3%Q]; o_iv := [1%Q] |}. eexists.
  split; [left; reflexivity|]. split; [apply q1_ready|]. split; [split; reflexivity|].
  repeat split; vm_compute; reflexivity.
Qed.

(** C30.  Redshifts outside the grid. *)
Lemma outside_iff T (N : Num T) (A : atab T) t : out_of (a_x A) t = true <-> outside A t.
Proof. unfold out_of, outside. apply orb_true_iff. Qed.

Lemma L_C30_out_of_range_gives_zero :
  forall (T : Type) (N : Num T) nnls rng (F : fitter T) A nb nt o cur,
    no_ab F -> ready F A nb nt -> nb <> 1 -> obj_ok nb o -> outside A (cst (o_z o)) ->
    fit_object nnls rng F 0 o cur = Ok (Bare (vec (repeat n0 nt)), cur).
Proof.
  intros T N nnls rng F A nb nt o cur Hab H H1 Ho HO. apply outside_iff in HO.
  rewrite (single_eq nnls rng 0 cur Hab H H1 Ho). unfold fit1_spec. rewrite HO. cbn [Nat.eqb].
  unfold full, vec, size. cbn [fold_right]. rewrite repeat_length, Nat.mul_1_r. auto.
Qed.
Lemma E_C30_out_of_range_gives_zero :
  no_ab q_fitter /\ ready q_fitter q_tab 2 3 /\ obj_ok 2 (q_obj 3 1 2) /\ outside q_tab (cst (o_z (q_obj 3 1 2))).
Proof. split; [left; reflexivity|]. split; [apply q_ready|]. split; [repeat constructor|]. right. vm_compute. reflexivity. Qed.

(** In a batch that object's row is zero and the other rows are the single fits (C27). *)
Lemma L_C30_out_of_range_row :
  forall (T : Type) (N : Num T) nnls rng (F : fitter T) A nb nt objs cur c cur',
    nnls_shape nnls -> no_ab F -> ready F A nb nt -> nb <> 1 -> Forall (obj_ok nb) objs -> length objs <> 1 ->
    fit_objects nnls rng F nb 0 objs cur = Ok (Bare c, cur') ->
    forall i o, nth_error objs i = Some o -> outside A (cst (o_z o)) -> row i c = vec (repeat (cst n0) nt).
Proof.
  intros T N nnls rng F A nb nt objs cur c cur' Hs Hab H H1 Hok Hn E i o Ho HO.
  destruct (L_C27_rows _ _ _ _ _ _ _ _ _ _ _ _ Hs Hab H H1 Hok Hn E i o Ho) as (ci & Hc & ->).
  rewrite (L_C30_out_of_range_gives_zero _ _ _ _ _ _ _ _ _ _ Hab H H1) in Hc; auto.
  2:{ rewrite Forall_forall in Hok. apply Hok. eapply nth_error_In; eauto. }
  injection Hc as <-. unfold map1, vec; cbn [shp dat]. rewrite !repeat_length. f_equal. clear. induction nt; cbn; congruence.
Qed.
Lemma E_C30_out_of_range_row :
  nnls_shape (T := Q) ex_nnls /\ no_ab q_fitter /\ ready q_fitter q_tab 2 3 /\ Forall (obj_ok 2) [q_obj 0 1 2; q_obj 9 3 4] /\
  fit_objects ex_nnls (fun _ => 0%Q) q_fitter 2 0 [q_obj 0 1 2; q_obj 9 3 4] 0 =
  Ok (Bare (mk [2; 3] [1; 8; 0; 0; 0; 0]%Q), 0) /\ outside q_tab (cst (o_z (q_obj 9 3 4))).
Proof.
  split; [apply ex_nnls_shape|]. split; [left; reflexivity|]. split; [apply q_ready|]. split; [repeat constructor|].
  split; [vm_compute; reflexivity|]. right. vm_compute. reflexivity.
Qed.

(** With Monte Carlo the same object makes the call raise: ValueError for the single call, and no batch that
    contains it returns anything. *)
Lemma L_C30_out_of_range_mc_raises :
  forall (T : Type) (N : Num T) nnls rng (F : fitter T) A nb nt objs o mc cur,
    nnls_shape nnls -> no_ab F -> ready F A nb nt -> nb <> 1 -> Forall (obj_ok nb) objs -> length objs <> 1 ->
    mc <> 0 -> In o objs -> outside A (cst (o_z o)) ->
    fit_object nnls rng F mc o cur = Raise ValueError /\
    exists e, fit_objects nnls rng F nb mc objs cur = Raise e.
Proof.
  intros T N nnls rng F A nb nt objs o mc cur Hs Hab H H1 Hok Hn Hmc Hin HO. apply outside_iff in HO.
  assert (Ho : obj_ok nb o) by (rewrite Forall_forall in Hok; auto).
  assert (E : forall k, fit_object nnls rng F mc o k = Raise ValueError).
  { intro k. rewrite (single_eq nnls rng mc k Hab H H1 Ho). unfold fit1_spec. rewrite HO.
    destruct (Nat.eqb_spec mc 0); [congruence|]. auto. }
  split; auto. rewrite (fit_batch rng mc cur Hs Hab H H1 Hok Hn).
  assert (G : exists e, run_each (fit_object nnls rng F mc) objs cur = Raise e).
  { clear - Hin E. revert cur. induction objs as [|a l IH]; [destruct Hin|]. intro cur. cbn [run_each].
    destruct Hin as [->|Hin].
    - rewrite E. eauto.
    - destruct (fit_object nnls rng F mc a cur) as [[b k]|e]; [|eauto].
      destruct (IH Hin k) as [e He]. rewrite He. eauto. }
  destruct G as [e ->]. eauto.
Qed.
Lemma E_C30_out_of_range_mc_raises :
  fit_objects ex_nnls (fun _ => 1%Q) q_fitter 2 2 [q_obj 0 1 2; q_obj 9 3 4] 0 = Raise ValueError /\
  fit_objects ex_nnls (fun _ => 1%Q) q_fitter 2 0 [q_obj 0 1 2; q_obj 9 3 4] 0 =
  Ok (Bare (mk [2; 3] [1; 8; 0; 0; 0; 0]%Q), 0).
Proof. vm_compute. auto. Qed.

(** reconstruct raises exactly when some shifted redshift is outside the grid; there is no extrapolation. *)
Lemma L_C30_reconstruct_range :
  forall (T : Type) (N : Num T) (F : fitter T) A nb nt (objs : list (T * list T)) bs,
    ready F A nb nt -> Forall (fun zc => length (snd zc) = nt) objs ->
    let r := reconstruct F (Some (vec (map fst objs))) (Some (table nt (map snd objs))) bs in
    ((exists zc, In zc objs /\ outside A (nsub (nmul (nadd n1 (cst (fst zc))) (nadd n1 bs)) n1)) ->
     r = Raise ValueError) /\
    ((forall zc, In zc objs -> ~ outside A (nsub (nmul (nadd n1 (cst (fst zc))) (nadd n1 bs)) n1)) ->
     exists m, r = Ok m /\ shp m = [length objs; nb] /\ wf m).
Proof.
  intros T N F A nb nt objs bs H Hok r. pose proof H as (HA & Hb & Hn & Ht). unfold r, reconstruct. rewrite HA.
  rewrite (reconstruct_vec F bs Hn Ht Hok).
  split; intro E.
  - destruct E as (zc & Hin & HO). apply outside_iff in HO.
    assert (X : existsb (fun zc => out_of (a_x A) (shifted bs (cst (fst zc)))) objs = true).
    { apply existsb_exists. eauto. }
    rewrite X. auto.
  - assert (X : existsb (fun zc => out_of (a_x A) (shifted bs (cst (fst zc)))) objs = false).
    { apply not_true_is_false. intro X. apply existsb_exists in X as (zc & Hin & HO).
      apply outside_iff in HO. eapply E; eauto. }
    rewrite X. eexists; split; [reflexivity|]. cbn [shp table]. unfold table; cbn [shp]. rewrite map_length.
    split; auto. unfold wf, size; cbn [shp dat fold_right].
    rewrite (length_table (w := nb)), map_length; [lia|].
    unfold rect. rewrite Forall_map. apply Forall_forall. intros; unfold recon1. rewrite map_length, length_chunks; auto.
Qed.
Lemma E_C30_reconstruct_range :
  reconstruct q_fitter (Some (vec [0; 1]%Q)) (Some (table 3 [[1; 0; 0]; [0; 1; 0]]%Q)) 0%Q =
  Ok (mk [2; 2] [1; 4; 3; 6]%Q) /\
  reconstruct q_fitter (Some (vec [0; 1]%Q)) (Some (table 3 [[1; 0; 0]; [0; 1; 0]]%Q)) 1%Q = Raise ValueError.
Proof. vm_compute. auto. Qed.

(** C31. *)
Lemma L_C31_batch_of_one_mc_never_returns :
  forall (T : Type) (N : Num T) nnls rng (F : fitter T) A nb nt o mc cur,
    nnls_shape nnls -> no_ab F -> ready F A nb nt -> obj_ok nb o -> mc <> 0 ->
    (exists e, fit_objects nnls rng F nb mc [o] cur = Raise e) /\
    (forall r, fit_object nnls rng F mc o cur = Ok r -> fit_objects nnls rng F nb mc [o] cur = Raise ValueError).
Proof.
  intros T N nnls rng F A nb nt o mc cur Hs Hab H Ho Hmc.
  destruct (Nat.eq_dec nb 1) as [->|H1].
  - destruct (out_of (a_x A) (cst (o_z o))) eqn:HO.
    + destruct o as [z m iv]. pose proof H as (HA & Hb & Hn & Ht). cbn [o_z] in HO. destruct Ho as [Hm Hi].
      cbn [o_m o_iv] in *. destruct m as [|m [|]]; try discriminate. destruct iv as [|iv [|]]; try discriminate.
      assert (E : fit_objects nnls rng F 1 mc [{| o_z := z; o_m := [m]; o_iv := [iv] |}] cur = Raise ValueError).
      { unfold fit_objects, fit_coeffs, fit_after, objs_z, objs_m, objs_iv, table, vec; cbn [map o_z o_m o_iv concat app length].
        rewrite process_inputs_ok; auto.
        2:{ right. exists 1. rewrite Hb, Hn. repeat split; auto; intros a E; try discriminate; injection E as <-; auto. }
        cbn [bind plain_pin q_n q_array q_z q_m q_iv option_map ndim shp Nat.eqb length size fold_right Nat.mul Nat.add].
        change (squeeze (map1 cst (mk [1] [z]))) with (scal (cst z)).
        unfold fit1. cbn [option_map]. rewrite HA, (acall_scal _ Ht), HO. cbn [bind].
        destruct (Nat.eqb_spec mc 0); [congruence|]. auto. }
      rewrite E. split; eauto.
    + destruct (L_C27_one_band_raises _ _ nnls rng F A nt o mc cur Hab H Ho) as [_ E].
      { intro X. apply outside_iff in X. congruence. }
      rewrite E. split; eauto.
  - pose proof H as (HA & Hb & Hn & Ht). pose proof Ho as [Hm Hi].
    assert (E : fit_objects nnls rng F nb mc [o] cur =
                match fit_object nnls rng F mc o cur with Ok _ => Raise ValueError | Raise e => Raise e end).
    { rewrite (single_eq nnls rng mc cur Hab H H1 Ho).
      unfold fit_objects, fit_coeffs, fit_after. rewrite process_inputs_ok; auto.
      2:{ right. exists 1. unfold objs_z, objs_m, objs_iv, vec, table. rewrite Hb, Hn. cbn [shp map length].
          repeat split; intros a E; try discriminate; injection E as <-; auto. }
      unfold objs_z, objs_m, objs_iv, vec, table, plain_pin, map1;
        cbn [bind q_n q_array q_z q_m q_iv option_map ndim shp Nat.eqb length size fold_right map concat
             Nat.mul Nat.add dat map1].
      rewrite !app_nil_r. rewrite squeeze_one, !squeeze_row by auto.
      rewrite (fit1_vec nnls rng (A := A) (nb := nb) (nt := nt)); rewrite ?map_length; auto.
      destruct (fit1_spec nnls rng F A nb nt (cst (o_z o)) (map cst (o_m o)) (map cst (o_iv o)) mc cur) as [[r cur1]|e] eqn:E;
        cbn [bind]; auto.
      apply fit1_spec_shape in E as (Hv & Hl & H0 & Hn0); rewrite ?map_length; auto.
      destruct (Nat.eqb_spec mc 0); [congruence|].
      destruct (Hn0 Hmc) as [(c & cm & ->)|(c & cm & mm & -> & S1 & W1 & S2 & W2)]; auto.
      cbn [out_c] in *. rewrite Hv. unfold len, vec; cbn [shp bind dat]. unfold reshape at 1; cbn [shp].
      unfold size; cbn [fold_right]. rewrite Nat.mul_1_l, Nat.eqb_refl. cbn [bind shp].
      unfold reshape. rewrite S1, S2. unfold size; cbn [fold_right].
      destruct (Nat.eqb_spec (1 * (1 * (mc * 1))) (nt * (mc * 1))); cbn [bind]; auto.
      destruct (Nat.eqb_spec (1 * (1 * (mc * 1))) (nb * (mc * 1))) as [X|]; cbn [bind]; auto.
      exfalso. apply H1. apply Nat.mul_cancel_r with (p := mc); lia. }
    rewrite E. split.
    + destruct (fit_object nnls rng F mc o cur); eauto.
    + intros r Hr. rewrite Hr. auto.
Qed.
Lemma E_C31_batch_of_one_mc_never_returns :
  (exists r, fit_object ex_nnls (fun _ => 1%Q) q_fitter 2 (q_obj 0 1 2) 0 = Ok r) /\
  (exists r, fit_objects ex_nnls (fun _ => 1%Q) q_fitter 2 2 [q_obj 0 1 2; q_obj 0 1 2] 0 = Ok r) /\
  fit_objects ex_nnls (fun _ => 1%Q) q_fitter 2 2 [q_obj 0 1 2] 0 = Raise ValueError.
Proof. split; [eexists; vm_compute; reflexivity|]. split; [eexists; vm_compute; reflexivity|]. vm_compute. auto. Qed.

(** C32.  The draws: in band b of draw i, the maggies plus a standard normal variate divided by the inverse error
    where the latter is positive, the unchanged maggies elsewhere.  [k] good bands use k variates per draw, band by
    band, so every variate from position cur on is used exactly once.  The central coefficients are those of the
    call without Monte Carlo. *)
Lemma L_C32_draws :
  forall (T : Type) (N : Num T) nnls rng (F : fitter T) A nb nt mc o cur r cur',
    nnls_shape nnls -> no_ab F -> ready F A nb nt -> nb <> 1 -> obj_ok nb o -> mc <> 0 ->
    fit_object nnls rng F mc o cur = Ok (r, cur') ->
    let inverr := map (fun v => nsqrt (cst v)) (o_iv o) in
    let goods := fun l => length (filter (fun e => nltb n0 e) l) in
    let k := goods inverr in
    exists c cm mm, r = Three c cm mm /\ fit_object nnls rng F 0 o cur = Ok (Bare c, cur) /\
      shp cm = [nt; mc] /\ wf cm /\ shp mm = [nb; mc] /\ wf mm /\ cur' = cur + mc * k /\
      forall b i, b < nb -> i < mc ->
        let m := cst (cst (nth b (o_m o) n0)) in
        let e := nth b inverr n0 in
        nth (b * mc + i) (dat mm) n0 =
        if nltb n0 e then cst (nadd m (nmul (rng (cur + i * k + goods (firstn b inverr))) (ndiv n1 e))) else m.
Proof.
  intros T N nnls rng F A nb nt mc o cur r cur' Hs Hab H H1 Ho Hmc E inverr goods k.
  destruct (fit_object_mc rng cur Hs Hab H H1 Ho Hmc E) as
    (c & cm & mm & -> & H0 & _ & _ & S1 & W1 & S2 & W2 & Hcur & _ & Hi).
  assert (Ei : map nsqrt (map cst (o_iv o)) = inverr) by (unfold inverr; rewrite map_map; auto).
  rewrite Ei in Hcur, Hi. exists c, cm, mm. repeat (split; auto). intros b i Hb Hlt m e.
  destruct (Hi i Hlt) as [Hcol _].
  assert (X : nth b (column nb mc i mm) n0 = nth (b * mc + i) (dat mm) n0).
  { unfold column. rewrite nth_seq_map by auto. auto. }
  rewrite <- X, Hcol. destruct Ho as [Hm Hiv]. rewrite nth_draw_spec.
  - unfold m, e. rewrite nth_indep with (l := map cst (o_m o)) (d' := cst n0) by (rewrite map_length; lia).
    rewrite map_nth. unfold goods, good, k, goods. auto.
  - unfold inverr. rewrite !map_length. congruence.
  - rewrite map_length. lia.
Qed.
Lemma E_C32_draws :
  let o := {| o_z := 0%Q; o_m := [5; 6]%Q; o_iv := [0; 1]%Q |} in
  exists c cm, fit_object ex_nnls (fun n => inject_Z (Z.of_nat n)) q_fitter 3 o 10 =
               Ok (Three c cm (mk [2; 3] [5; 5; 5; 16; 17; 18]%Q), 13).
Proof. do 2 eexists. vm_compute. reflexivity. Qed.

(** Each column of coeffs_mc is the fit of the corresponding column of maggies_mc. *)
Lemma L_C32_coeffs_mc :
  forall (T : Type) (N : Num T) nnls rng (F : fitter T) A nb nt mc o cur c cm mm cur',
    nnls_shape nnls -> no_ab F -> ready F A nb nt -> nb <> 1 -> obj_ok nb o -> mc <> 0 ->
    (forall x : T, cst (cst x) = cst x) ->
    fit_object nnls rng F mc o cur = Ok (Three c cm mm, cur') ->
    forall i k, i < mc ->
      exists ci, fit_object nnls rng F 0 {| o_z := o_z o; o_m := column nb mc i mm; o_iv := o_iv o |} k = Ok (Bare ci, k) /\
                 column nt mc i cm = map cst (dat ci).
Proof.
  intros T N nnls rng F A nb nt mc o cur c cm mm cur' Hs Hab H H1 Ho Hmc Hid E i k Hlt.
  destruct (fit_object_mc rng cur Hs Hab H H1 Ho Hmc E) as
    (c1 & cm1 & mm1 & Er & H0 & _ & _ & S1 & W1 & S2 & W2 & Hcur & HO & Hi). injection Er as <- <- <-.
  destruct (Hi i Hlt) as (Hcol & ci & Hc & Hcc). destruct Ho as [Hm Hiv].
  exists ci. split; auto.
  assert (Hl : length (column nb mc i mm) = nb) by (unfold column; rewrite map_length, seq_length; auto).
  rewrite (single_eq nnls rng 0 k Hab H H1); [|split; auto]. cbn [o_z o_m o_iv].
  unfold fit1_spec. rewrite HO.
  assert (Em : map cst (column nb mc i mm) = column nb mc i mm).
  { rewrite Hcol. generalize (cur + i * length (good (map nsqrt (map cst (o_iv o))))).
    generalize (map nsqrt (map cst (o_iv o))) as e. generalize (map cst (o_m o)) as l. clear - Hid.
    induction l as [|x l IH]; intros [|y e] n; cbn [draw_spec map]; auto.
    destruct (nltb n0 y); cbn [map]; rewrite IH, Hid; auto. }
  rewrite Em, Hc. auto.
Qed.
Lemma E_C32_coeffs_mc :
  nnls_shape (T := Q) ex_nnls /\ no_ab q_fitter /\ ready q_fitter q_tab 2 3 /\ obj_ok 2 (q_obj 0 1 2) /\ (forall x : Q, cst (cst x) = cst x) /\
  exists c cm mm cur', fit_object ex_nnls (fun n => inject_Z (Z.of_nat n)) q_fitter 3 (q_obj 0 1 2) 10 = Ok (Three c cm mm, cur').
Proof.
  split; [apply ex_nnls_shape|]. split; [left; reflexivity|]. split; [apply q_ready|]. split; [repeat constructor|]. split; [reflexivity|].
  do 4 eexists. vm_compute. reflexivity.
Qed.
