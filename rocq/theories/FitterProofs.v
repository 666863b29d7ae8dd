(** Lemmas about the fitter model, for any arithmetic. *)
From Coq Require Import String List Arith Bool Lia.
From Verif Require Import Base BaseLemmas Num Interp Utils Sed Response RespDict Fitter FitSpec.
Import ListNotations.
Set Implicit Arguments.

(** * Arrays *)
Lemma zip_concat_repeat A B C (f : A -> B -> C) w es rows : rect w rows -> length es = length rows ->
  zip f (concat (map (fun e => repeat e w) es)) (concat rows) = concat (zip (fun e r => map (f e) r) es rows).
Proof.
  revert rows; induction es as [|e es IH]; intros [|r rows] Hr Hl; try discriminate; auto.
  cbn [map concat zip] in *. inversion Hr; subst. rewrite zip_app by (rewrite repeat_length; auto).
  f_equal; [|apply IH; auto]. clear. induction r; simpl; f_equal; auto.
Qed.

Lemma rect_chunks A n w (l : list A) : length l = n * w -> rect w (chunks n w l).
Proof. intro H. apply Forall_forall. intros r Hr. eapply chunks_rows; eauto. Qed.

Lemma rect_nth A w (rows : list (list A)) i : rect w rows -> i < length rows -> length (nth i rows []) = w.
Proof. intros H Hi. unfold rect in H. rewrite Forall_forall in H. apply H, nth_In; auto. Qed.

Lemma length_table A w (rows : list (list A)) : rect w rows -> length (concat rows) = length rows * w.
Proof. intro H. unfold rect in H. apply length_concat_const. rewrite Forall_forall in H; auto. Qed.

Lemma rect_map A B (f : A -> B) w rows : rect w rows -> rect w (map (map f) rows).
Proof. unfold rect. rewrite Forall_map. apply Forall_impl. intros; rewrite map_length; auto. Qed.

Lemma row_table A w (rows : list (list A)) i : rect w rows -> i < length rows ->
  row i (table w rows) = mk [w] (nth i rows []).
Proof.
  intros Hr Hi. unfold row, table; cbn [shp dat tl size fold_right]. f_equal.
  rewrite Nat.mul_1_r. revert i Hi; induction rows as [|r rows IH]; intros i Hi; simpl in Hi; [lia|].
  inversion Hr; subst. destruct i; cbn [concat nth Nat.mul].
  - rewrite skipn_O, firstn_app, firstn_all, Nat.sub_diag, firstn_O, app_nil_r; auto.
  - rewrite skipn_app, skipn_all2 by lia. cbn [app].
    replace (length r + i * length r - length r) with (i * length r) by lia. apply IH; auto; lia.
Qed.

Lemma map1_table A B (f : A -> B) w rows : map1 f (table w rows) = table w (map (map f) rows).
Proof. unfold map1, table; cbn. rewrite map_length, concat_map_map. auto. Qed.

Lemma lrows_table A w (rows : list (list A)) : rect w rows -> lrows (table w rows) = rows.
Proof.
  intro H. unfold lrows, table, lead, lastd; cbn. rewrite Nat.mul_1_r.
  unfold rect in H. apply chunks_concat. rewrite Forall_forall in H; auto.
Qed.

Lemma bto_vec A (d : A) n v : shp v = [n] -> length (dat v) = n -> bto d [n] v = Ok (dat v).
Proof. intros H1 H2. rewrite <- H1. apply bto_same. unfold wf. rewrite H1. cbn. lia. Qed.

Lemma bin_vec A B C (f : A -> B -> C) da db l1 l2 : length l1 = length l2 ->
  bin f da db (vec l1) (vec l2) = Ok (vec (zip f l1 l2)).
Proof.
  intro H. rewrite bin_same by (try apply wf_vec; cbn; congruence).
  unfold vec. cbn [shp dat]. rewrite length_zip, <- H, Nat.min_id. auto.
Qed.

Lemma squeeze_scal A (x : A) : squeeze (scal x) = scal x.
Proof. auto. Qed.
Lemma squeeze_one A (x : A) : squeeze (mk [1] [x]) = scal x.
Proof. auto. Qed.
Lemma squeeze_vec A n (l : list A) : n <> 1 -> squeeze (mk [n] l) = mk [n] l.
Proof. intro H. unfold squeeze; cbn. destruct (Nat.eqb_spec n 1); cbn; congruence. Qed.
Lemma squeeze_row A n (l : list A) : n <> 1 -> squeeze (mk [1; n] l) = mk [n] l.
Proof. intro H. unfold squeeze; cbn. destruct (Nat.eqb_spec n 1); cbn; congruence. Qed.

Section Gen.
  Context {T : Type} {N : Num T}.
  Variable nnls : option nat -> nat -> list (list T) -> list T -> option (list T).
  Variable rng : nat -> T.

  (** * _process_inputs *)
  Definition plain_pin (array : bool) (n : nat) (z : nd T) (m iv c : option (nd T)) : pin T :=
    {| q_array := array; q_n := n; q_z := map1 cst z; q_m := option_map (map1 cst) m;
       q_iv := option_map (map1 cst) iv; q_c := option_map (map1 cst) c |}.

  Lemma opt_shape_ok_iff array n w (o : option (nd T)) :
    opt_shape_ok array n w (option_map (map1 cst) o) = true <->
    is_shape o (if array then [n; w] else [w]).
  Proof.
    destruct o as [a|]; cbn.
    - unfold is_shape, shape_ok. cbn. split.
      + intros H b E; injection E as <-. destruct array.
        * destruct (shp a) as [|x [|y [|]]]; try discriminate.
          apply andb_prop in H as [H1 H2]. apply Nat.eqb_eq in H1, H2. subst; auto.
        * destruct (shp a) as [|x [|]]; try discriminate. apply Nat.eqb_eq in H. subst; auto.
      + intro H. rewrite (H a eq_refl). destruct array; rewrite ?Nat.eqb_refl; auto.
    - split; auto. intros _ a E; discriminate.
  Qed.

  Lemma process_inputs_ok (F : fitter T) z m iv c : no_ab F ->
    documented (length (f_resp F)) (f_nsed F) z m iv c ->
    process_inputs F (Some z) m iv c =
    Ok (plain_pin (Nat.eqb (ndim z) 1) (if Nat.eqb (ndim z) 1 then size (shp z) else 1) z m iv c).
  Proof.
    intros Hab H. unfold process_inputs.
    change (ndim (map1 cst z)) with (ndim z). change (shp (map1 cst z)) with (shp z).
    assert (E : forall p : pin T, (match f_abc F, option_map (map1 cst) m with
      | true, Some m0 => do r <- to_ab (f_kind F) m0 (option_map (map1 cst) iv);
         Ok {| q_array := q_array p; q_n := q_n p; q_z := q_z p; q_m := Some (fst r);
               q_iv := match option_map (map1 cst) iv with Some _ => snd r | None => None end; q_c := q_c p |}
      | _, _ => Ok {| q_array := q_array p; q_n := q_n p; q_z := q_z p; q_m := option_map (map1 cst) m;
                      q_iv := option_map (map1 cst) iv; q_c := q_c p |}
      end) = Ok {| q_array := q_array p; q_n := q_n p; q_z := q_z p; q_m := option_map (map1 cst) m;
                      q_iv := option_map (map1 cst) iv; q_c := q_c p |}).
    { intro p. destruct Hab as [-> | ->]; auto. destruct (f_abc F); auto. destruct m; auto. cbn.
      destruct iv; auto. }
    destruct H as [(Hz & Hm & Hi & Hc) | (n & Hz & Hm & Hi & Hc)].
    - assert (Hd : ndim z = 0) by (unfold ndim; rewrite Hz; auto). rewrite Hd. cbn [Nat.leb Nat.eqb].
      rewrite !(proj2 (opt_shape_ok_iff false _ _ _)) by auto.
      exact (E (plain_pin false 1 z m iv c)).
    - assert (Hd : ndim z = 1) by (unfold ndim; rewrite Hz; auto). rewrite Hd. cbn [Nat.leb Nat.eqb].
      rewrite Hz. cbn [size fold_right]. rewrite Nat.mul_1_r.
      rewrite !(proj2 (opt_shape_ok_iff true _ _ _)) by auto.
      exact (E (plain_pin true n z m iv c)).
  Qed.

  Lemma process_inputs_bad (F : fitter T) z m iv c :
    ~ documented (length (f_resp F)) (f_nsed F) z m iv c ->
    process_inputs F (Some z) m iv c = Raise (if Nat.leb (ndim z) 1 then ValueError else TypeError).
  Proof.
    intros H. unfold process_inputs.
    change (ndim (map1 cst z)) with (ndim z). change (shp (map1 cst z)) with (shp z).
    destruct (Nat.leb (ndim z) 1) eqn:Hd; auto.
    set (array := Nat.eqb (ndim z) 1).
    set (n := if array then size (shp z) else 1).
    destruct (opt_shape_ok array n (length (f_resp F)) (option_map (map1 cst) m)) eqn:E1; auto.
    destruct (opt_shape_ok array n (length (f_resp F)) (option_map (map1 cst) iv)) eqn:E2; auto.
    destruct (opt_shape_ok array n (f_nsed F) (option_map (map1 cst) c)) eqn:E3; auto.
    exfalso. apply H. apply opt_shape_ok_iff in E1, E2, E3. unfold array, n, ndim in *.
    destruct (shp z) as [|k [|]] eqn:Hz; cbn in *; try discriminate.
    - left; auto.
    - right. exists k. rewrite Nat.mul_1_r in *. auto.
  Qed.

  Lemma documented_num nb nt z (m iv : option (nd T)) c (x : T) : z = scal x ->
    is_shape m [nb] -> is_shape iv [nb] -> is_shape c [nt] -> documented nb nt z m iv c.
  Proof. intros -> ? ? ?. left; auto. Qed.

  (** * nnls *)
  Lemma nnls_call_len mi A b c : nnls_shape nnls -> nnls_call nnls mi A b = Ok c ->
    c = vec (dat c) /\ length (dat c) = lastd (shp A) /\ ndim b = 1.
  Proof.
    intros Hs. unfold nnls_call.
    repeat match goal with |- context [if ?x then _ else _] => destruct x eqn:?; try discriminate end.
    destruct (nnls mi (lastd (shp A)) (lrows A) (dat b)) as [x|] eqn:E; [|discriminate].
    intros H; injection H as <-. cbn. split; auto. split; [eapply Hs; eauto|]. apply Nat.eqb_eq; auto.
  Qed.
  Lemma nnls_retry_len A b c : nnls_shape nnls -> nnls_retry nnls A b = Ok c ->
    c = vec (dat c) /\ length (dat c) = lastd (shp A) /\ ndim b = 1.
  Proof.
    intros Hs H. unfold nnls_retry, catch in H.
    destruct (nnls_call nnls None A b) as [c0|e] eqn:E.
    - injection H as <-. eapply nnls_call_len; eauto.
    - destruct (exn_eqb e RuntimeError); [eapply nnls_call_len; eauto|discriminate].
  Qed.

  (** * Monte Carlo *)
  Lemma mc_loop_len ns A m e mc : nnls_shape nnls -> forall cur ms cs cur',
    mc_loop nnls rng ns A m e mc cur = Ok (ms, cs, cur') -> length ms = mc /\ length cs = mc.
  Proof.
    intro Hs. induction mc as [|mc IH]; intros cur ms cs cur' H; cbn [mc_loop] in H.
    - injection H as <- <- <-; auto.
    - destruct (draw rng m e cur) as [m1 cur1].
      apply bind_ok in H as (c & _ & H). apply bind_ok in H as (c' & _ & H).
      apply bind_ok in H as ([[ms1 cs1] cur2] & H1 & H). injection H as <- <- <-.
      apply IH in H1 as []. cbn; split; congruence.
  Qed.

  Lemma length_of_cols m (cols : list (list T)) : wf (of_cols m cols).
  Proof.
    unfold wf, of_cols; cbn [shp dat size fold_right]. rewrite Nat.mul_1_r.
    rewrite length_concat_const with (m := length cols).
    - rewrite map_length, seq_length; auto.
    - intros r Hr. apply in_map_iff in Hr as (k & <- & _). apply map_length.
  Qed.

  (** * fit1 *)
  Lemma lastd_bshape nb nt nb' nt' o : bshape [nb; nt] [nb'; nt'] = Some o ->
    lastd o = if Nat.eqb nt nt' then nt else if Nat.eqb nt 1 then nt' else nt.
  Proof.
    unfold bshape; cbn.
    destruct (Nat.eqb nb nb'), (Nat.eqb nb 1), (Nat.eqb nb' 1), (Nat.eqb nt nt'), (Nat.eqb nt 1), (Nat.eqb nt' 1);
      cbn; intro H; try discriminate; injection H as <-; auto.
  Qed.

  (** The result of a single fit: zeros, or coefficients of the right length. *)
  Lemma fit1_bare F z m iv cur o cur' : nnls_shape nnls ->
    fit1 nnls rng F z m iv 0 cur = Ok (o, cur') -> cur' = cur /\ exists c, o = Bare c.
  Proof.
    intros Hs. unfold fit1. destruct iv as [iv|]; [|discriminate].
    set (X := match f_A F with None => _ | Some A => _ end). destruct X as [A|e] eqn:EX.
    - destruct m as [m|]; [|discriminate]. intro H.
      apply bind_ok in H as (b & _ & H). apply bind_ok in H as (c & _ & H).
      cbn in H. injection H as <- <-. eauto.
    - destruct e; try discriminate. cbn. intro H; injection H as <- <-. eauto.
  Qed.
End Gen.

Section Ready.
  Context {T : Type} {N : Num T}.
  Variable nnls : option nat -> nat -> list (list T) -> list T -> option (list T).
  Variable rng : nat -> T.

  Lemma arow_len (A : atab T) nb nt t : tab_ok A nb nt -> length (arow A t) = nb * nt.
  Proof.
    intros (_ & Hl & H2 & Hr). unfold arow. rewrite length_zip.
    rewrite !(rect_nth Hr) by (rewrite Hl; lia). apply Nat.min_id.
  Qed.

  Lemma acall_scal (A : atab T) nb nt t : tab_ok A nb nt ->
    acall A (scal t) = if out_of (a_x A) t then Raise ValueError else Ok (mk [nb; nt] (arow A t)).
  Proof.
    intros H. pose proof H as (Hs & _). unfold acall. cbn [dat scal existsb shp app map concat].
    rewrite orb_false_r, Hs, app_nil_r. destruct (out_of (a_x A) t); auto.
  Qed.

  (** The weighted design matrix. *)
  Definition wmat (A : atab T) (nb nt : nat) (e : list T) (t : T) : nd T :=
    mk [nb; nt] (concat (zip (fun x r => map (nmul x) r) e (chunks nb nt (arow A t)))).

  Definition fit1_spec (F : fitter T) (A : atab T) (nb nt : nat) (t : T) (m iv : list T) (mc cur : nat)
    : res (fc_out T * nat) :=
    let e := map nsqrt iv in
    if out_of (a_x A) t
    then Ok (if Nat.eqb mc 0 then Bare (full [nt] n0) else Two (full [nt] n0) (full [nt; mc] n0), cur)
    else do c <- nnls_retry nnls (wmat A nb nt e t) (mk [nb] (zip nmul m e));
         if Nat.eqb mc 0 then Ok (Bare c, cur)
         else do r <- mc_loop nnls rng nt (wmat A nb nt e t) m e mc cur;
              let '(ms, cs, cur') := r in Ok (Three c (of_cols nt cs) (of_cols nb ms), cur').

  Lemma fit1_vec (F : fitter T) A nb nt t m iv mc cur : ready F A nb nt -> length m = nb -> length iv = nb ->
    fit1 nnls rng F (scal t) (Some (mk [nb] m)) (Some (mk [nb] iv)) mc cur = fit1_spec F A nb nt t m iv mc cur.
  Proof.
    intros H Hm Hi. pose proof H as (HA & Hb & Hn & Ht). unfold fit1, fit1_spec. rewrite HA, Hn.
    rewrite (acall_scal t Ht). destruct (out_of (a_x A) t); cbn [bind]; auto.
    assert (E : bin nmul n0 n0 (inverr_matrix nt (map1 nsqrt (mk [nb] iv))) (mk [nb; nt] (arow A t)) =
                Ok (wmat A nb nt (map nsqrt iv) t)).
    { pose proof (arow_len t Ht) as HL.
      assert (Hw : wf (inverr_matrix nt (map1 nsqrt (mk [nb] iv)))).
      { unfold wf, inverr_matrix, map1; cbn [shp dat]. unfold size; cbn [fold_right].
        rewrite length_concat_const with (m := nt), !map_length; [lia|].
        intros r Hr. apply in_map_iff in Hr as (x & <- & _). apply repeat_length. }
      assert (Hw2 : wf (mk [nb; nt] (arow A t))).
      { unfold wf; cbn [shp dat]. unfold size; cbn [fold_right]. lia. }
      rewrite bin_same; auto.
      - unfold inverr_matrix, wmat, map1; cbn [shp dat]. rewrite map_length, Hi. do 2 f_equal.
        rewrite <- (concat_chunks nb nt (arow A t)) at 1 by auto.
        apply zip_concat_repeat; [apply rect_chunks; auto|]. rewrite length_chunks, map_length; auto.
      - unfold inverr_matrix, map1; cbn. rewrite map_length, Hi; auto. }
    rewrite E. cbn [dat map1 shp].
    assert (Eb : bin nmul n0 n0 (mk [nb] m) (mk [nb] (map nsqrt iv)) = Ok (mk [nb] (zip nmul m (map nsqrt iv)))).
    { rewrite bin_same; auto; unfold wf; cbn [shp dat size fold_right]; rewrite ?map_length; lia. }
    unfold map1; cbn [shp dat]. rewrite Eb. cbn [bind]. rewrite Hm. auto.
  Qed.

  (** Shape of the result of a single fit. *)
  Lemma fit1_spec_shape F A nb nt t m iv mc cur o cur' : nnls_shape nnls -> length m = nb ->
    fit1_spec F A nb nt t m iv mc cur = Ok (o, cur') ->
    out_c o = vec (dat (out_c o)) /\ length (dat (out_c o)) = nt /\
    (mc = 0 -> exists c, o = Bare c) /\
    (mc <> 0 -> (exists c cm, o = Two c cm) \/
                (exists c cm mm, o = Three c cm mm /\ shp cm = [nt; mc] /\ wf cm /\ shp mm = [nb; mc] /\ wf mm)).
  Proof.
    intros Hs Hm H. unfold fit1_spec in H. destruct (out_of (a_x A) t).
    - injection H as <- <-. destruct (Nat.eqb_spec mc 0); cbn [out_c full dat shp];
        rewrite repeat_length; cbn; rewrite Nat.mul_1_r.
      + repeat split; auto; [unfold vec, full; cbn; rewrite repeat_length, Nat.mul_1_r; auto|eauto|congruence].
      + repeat split; auto; [unfold vec, full; cbn; rewrite repeat_length, Nat.mul_1_r; auto|congruence|eauto].
    - apply bind_ok in H as (c & Hc & H). apply nnls_retry_len in Hc as (Hv & Hl & _); auto.
      cbn [wmat shp lastd last] in Hl. change (lastd [nb; nt]) with nt in Hl.
      destruct (Nat.eqb_spec mc 0).
      + injection H as <- <-. cbn [out_c]. split; auto. split; auto. split; [eauto|congruence].
      + apply bind_ok in H as ([[ms cs] cur1] & Hr & H). injection H as <- <-. cbn [out_c].
        apply mc_loop_len in Hr as [L1 L2]; auto.
        split; auto. split; auto. split; [congruence|]. intros _. right. do 3 eexists; split; [reflexivity|].
        unfold of_cols at 1 3; cbn [shp]. rewrite L1, L2. repeat split; apply length_of_cols.
  Qed.

  (** * fit_coeffs of one object given as number and 1-D arrays *)
  Notation single := (fit_object nnls rng).

  Lemma single_eq (F : fitter T) A nb nt mc o cur : no_ab F -> ready F A nb nt -> nb <> 1 -> obj_ok nb o ->
    single F mc o cur =
    match fit1_spec F A nb nt (cst (o_z o)) (map cst (o_m o)) (map cst (o_iv o)) mc cur with
    | Ok (Two _ _, _) => Raise ValueError
    | r => r
    end.
  Proof.
    intros Hab H H1 [Hm Hi]. pose proof H as (HA & Hb & Hn & Hs & _).
    unfold fit_object, fit_coeffs, fit_after.
    rewrite process_inputs_ok; auto.
    2:{ left. rewrite Hb, Hn. repeat split; auto; intros a E; try discriminate; injection E as <-; cbn; congruence. }
    cbn [bind plain_pin q_n q_array q_z q_m q_iv option_map ndim scal shp Nat.eqb length].
    unfold map1 at 1; cbn [scal shp dat map]. change (mk [] [cst (o_z o)]) with (scal (cst (o_z o))).
    rewrite squeeze_scal. unfold vec, map1; cbn [shp dat]. rewrite Hm, Hi, !squeeze_vec by auto.
    rewrite (fit1_vec (A := A) (nb := nb) (nt := nt)); rewrite ?map_length; auto.
    unfold fit1_spec. destruct (out_of _ _).
    - cbn [bind]. destruct (Nat.eqb_spec mc 0); auto.
    - destruct (nnls_retry _ _ _); cbn [bind]; auto. destruct (Nat.eqb_spec mc 0); cbn [bind]; auto.
      destruct (mc_loop _ _ _ _ _ _ _ _) as [[[ms cs] c2]|]; cbn [bind]; auto.
  Qed.

  Lemma fit_rows_eq (F : fitter T) A nb nt mc (Hs : nnls_shape nnls) : no_ab F -> ready F A nb nt -> nb <> 1 ->
    forall suf pre cur, Forall (obj_ok nb) (pre ++ suf) ->
    fit_rows nnls rng F (Some (table nb (map (map cst) (map o_m (pre ++ suf)))))
             (Some (table nb (map (map cst) (map o_iv (pre ++ suf))))) mc cur (length pre) (map cst (map o_z suf)) =
    match run_each (single F mc) suf cur with
    | Ok (outs, cur') =>
      Ok (map (fun o => map cst (dat (out_c o))) outs,
          map (fun o => if Nat.eqb mc 0 then [] else dat (out_cmc o)) outs,
          map (fun o => if Nat.eqb mc 0 then [] else dat (out_mmc o)) outs, cur')
    | Raise e => Raise e
    end.
  Proof.
    intros Hab H H1. pose proof H as (HA & Hb & Hn & Hsh & _).
    induction suf as [|o suf IH]; intros pre cur Hok; auto.
    cbn [map fit_rows run_each].
    assert (Hrm : rect nb (map (map cst) (map o_m (pre ++ o :: suf)))).
    { apply rect_map. unfold rect. rewrite Forall_map. eapply Forall_impl; [|exact Hok]. intros a []; auto. }
    assert (Hri : rect nb (map (map cst) (map o_iv (pre ++ o :: suf)))).
    { apply rect_map. unfold rect. rewrite Forall_map. eapply Forall_impl; [|exact Hok]. intros a []; auto. }
    assert (Hlen : length pre < length (pre ++ o :: suf)) by (rewrite app_length; cbn; lia).
    assert (Ho : obj_ok nb o).
    { rewrite Forall_forall in Hok. apply Hok, in_elt. }
    rewrite (single_eq (A := A) (nb := nb) (nt := nt)) by auto.
    unfold fit_row at 1. rewrite Hn.
    rewrite !row_table; auto; try (rewrite !map_length; auto).
    assert (Em : nth (length pre) (map (map cst) (map o_m (pre ++ o :: suf))) [] = map cst (o_m o)).
    { rewrite map_map. erewrite nth_indep with (d' := map cst (o_m o)) by (rewrite map_length; auto).
      change (map cst (o_m o)) with ((fun x => map cst (o_m x)) o) at 1.
      rewrite map_nth. rewrite app_nth2, Nat.sub_diag; auto. }
    assert (Ei : nth (length pre) (map (map cst) (map o_iv (pre ++ o :: suf))) [] = map cst (o_iv o)).
    { rewrite map_map. erewrite nth_indep with (d' := map cst (o_iv o)) by (rewrite map_length; auto).
      change (map cst (o_iv o)) with ((fun x => map cst (o_iv x)) o) at 1.
      rewrite map_nth. rewrite app_nth2, Nat.sub_diag; auto. }
    rewrite Em, Ei. destruct Ho as [Hm Hi].
    rewrite (fit1_vec (A := A) (nb := nb) (nt := nt)); rewrite ?map_length; auto.
    destruct (fit1_spec F A nb nt (cst (o_z o)) (map cst (o_m o)) (map cst (o_iv o)) mc cur) as [[r cur1]|e] eqn:E;
      cbn [bind]; auto.
    pose proof E as E'. apply fit1_spec_shape in E' as (Hv & Hl & H0 & Hn0); rewrite ?map_length; auto.
    assert (IH' := IH (pre ++ [o])). rewrite <- app_assoc in IH'. cbn [app] in IH'.
    rewrite app_length in IH'. cbn [length] in IH'. rewrite Nat.add_1_r in IH'.
    assert (Hbt : bto n0 [nt] (map1 cst (out_c r)) = Ok (map cst (dat (out_c r)))).
    { rewrite bto_vec; auto; [rewrite Hv; unfold map1, vec; cbn; congruence|].
      unfold map1; cbn [dat]. rewrite map_length; auto. }
    destruct (Nat.eqb_spec mc 0) as [->|Hmc].
    - destruct (H0 eq_refl) as (c & ->). cbn [out_c] in Hbt. rewrite Hbt. cbn [bind].
      rewrite IH' by auto. destruct (run_each (single F 0) suf cur1) as [[outs cur2]|]; auto.
    - destruct (Hn0 Hmc) as [(c & cm & ->)|(c & cm & mm & -> & S1 & W1 & S2 & W2)]; auto.
      cbn [out_c] in Hbt. rewrite Hbt. cbn [bind]. rewrite Hb.
      rewrite <- S1, bto_same by auto. cbn [bind]. rewrite <- S2, bto_same by auto. cbn [bind].
      rewrite IH' by auto. destruct (run_each (single F mc) suf cur1) as [[outs cur2]|]; auto.
  Qed.

  Lemma fit_batch (F : fitter T) A nb nt mc objs cur (Hs : nnls_shape nnls) :
    no_ab F -> ready F A nb nt -> nb <> 1 -> Forall (obj_ok nb) objs -> length objs <> 1 ->
    fit_objects nnls rng F nb mc objs cur =
    match run_each (single F mc) objs cur with
    | Ok (outs, cur') =>
      let c := mk [length objs; nt] (concat (map (fun o => map cst (dat (out_c o))) outs)) in
      Ok (if Nat.eqb mc 0 then Bare c
          else Three c (mk [length objs; nt; mc] (concat (map (fun o => dat (out_cmc o)) outs)))
                       (mk [length objs; nb; mc] (concat (map (fun o => dat (out_mmc o)) outs))), cur')
    | Raise e => Raise e
    end.
  Proof.
    intros Hab H H1 Hok Hn1. pose proof H as (HA & Hb & Hn & Hsh & _).
    unfold fit_objects, fit_coeffs, fit_after. rewrite process_inputs_ok; auto.
    2:{ right. exists (length objs). unfold objs_z, objs_m, objs_iv, vec, table. rewrite Hb, Hn.
        cbn [shp]. rewrite map_length.
        repeat split; intros a E; try discriminate; injection E as <-; cbn; rewrite map_length; auto. }
    unfold objs_z, vec; cbn [bind plain_pin q_n q_array q_z q_m q_iv option_map ndim shp Nat.eqb length size fold_right].
    rewrite map_length, Nat.mul_1_r. destruct (Nat.eqb_spec (length objs) 1); [congruence|].
    unfold objs_m, objs_iv. rewrite !map1_table. unfold map1 at 1; cbn [dat].
    pose proof (fit_rows_eq mc Hs Hab H H1 objs [] cur Hok) as E. cbn [app length] in E. rewrite E.
    destruct (run_each (single F mc) objs cur) as [[outs cur']|]; cbn [bind]; auto.
    rewrite Hn, Hb. destruct (Nat.eqb_spec mc 0); auto.
  Qed.

  (** A batch of one. *)
  Lemma fit_one (F : fitter T) A nb nt o cur (Hs : nnls_shape nnls) :
    no_ab F -> ready F A nb nt -> nb <> 1 -> obj_ok nb o ->
    fit_objects nnls rng F nb 0 [o] cur =
    match single F 0 o cur with
    | Ok (r, cur') => Ok (Bare (mk [1; nt] (dat (out_c r))), cur')
    | Raise e => Raise e
    end.
  Proof.
    intros Hab H H1 Ho. pose proof H as (HA & Hb & Hn & Hsh & _). pose proof Ho as [Hm Hi].
    unfold fit_objects, fit_coeffs, fit_after. rewrite process_inputs_ok; auto.
    2:{ right. exists 1. unfold objs_z, objs_m, objs_iv, vec, table. rewrite Hb, Hn. cbn [shp map length].
        repeat split; intros a E; try discriminate; injection E as <-; auto. }
    rewrite (single_eq (A := A) (nb := nb) (nt := nt)) by auto.
    unfold objs_z, objs_m, objs_iv, vec, table, map1;
      cbn [bind plain_pin q_n q_array q_z q_m q_iv option_map ndim shp Nat.eqb length size fold_right map concat
           Nat.mul Nat.add dat map1].
    rewrite !app_nil_r. unfold plain_pin, map1; cbn [q_z q_m q_iv shp dat map option_map]. rewrite squeeze_one. rewrite !squeeze_row by auto.
    rewrite (fit1_vec (A := A) (nb := nb) (nt := nt)); rewrite ?map_length; auto.
    destruct (fit1_spec F A nb nt (cst (o_z o)) (map cst (o_m o)) (map cst (o_iv o)) 0 cur) as [[r cur1]|e] eqn:E;
      cbn [bind]; auto.
    apply fit1_spec_shape in E as (Hv & Hl & H0 & _); rewrite ?map_length; auto.
    destruct (H0 eq_refl) as (c & ->). cbn [out_c] in *. rewrite Hv. unfold len, vec; cbn [shp bind dat].
    unfold reshape; cbn [shp]. unfold size; cbn [fold_right]. rewrite Nat.mul_1_l, Nat.eqb_refl. cbn [bind dat]. congruence.
  Qed.
End Ready.
