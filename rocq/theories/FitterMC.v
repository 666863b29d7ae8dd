(** Lemmas about the Monte Carlo draws and about reconstruct, for any arithmetic. *)
From Coq Require Import String List Arith Bool Lia.
From Verif Require Import Base BaseLemmas Num Interp Utils Sed Response RespDict Fitter FitSpec FitterProofs.
Import ListNotations.
Set Implicit Arguments.

Lemma nth_seq_map A (f : nat -> A) n i d : i < n -> nth i (map f (seq 0 n)) d = f i.
Proof.
  intro H. rewrite nth_indep with (d' := f 0) by (rewrite map_length, seq_length; auto).
  rewrite map_nth, seq_nth by auto. auto.
Qed.

Lemma nth_concat_const A m (ls : list (list A)) b i d : (forall r, In r ls -> length r = m) ->
  b < length ls -> i < m -> nth (b * m + i) (concat ls) d = nth i (nth b ls []) d.
Proof.
  revert b; induction ls as [|r ls IH]; intros b H Hb Hi; simpl in Hb; [lia|].
  pose proof (H r (or_introl eq_refl)) as Hr. destruct b; cbn [concat nth Nat.mul Nat.add].
  - rewrite app_nth1 by lia. auto.
  - rewrite app_nth2 by lia. replace (m + b * m + i - length r) with (b * m + i) by lia.
    apply IH; auto; [|lia]. intros; apply H; right; auto.
Qed.

Section Draw.
  Context {T : Type} {N : Num T}.
  Variable nnls : option nat -> nat -> list (list T) -> list T -> option (list T).
  Variable rng : nat -> T.

  (** The draws one band at a time. *)
  Fixpoint draw_spec (m e : list T) (cur : nat) : list T :=
    match m, e with
    | x :: mr, y :: er =>
      if nltb n0 y then cst (nadd (cst x) (nmul (rng cur) (ndiv n1 y))) :: draw_spec mr er (S cur)
      else cst x :: draw_spec mr er cur
    | _, _ => []
    end.
  Definition good (e : list T) : list T := filter (fun y => nltb n0 y) e.

  Lemma gather_mask_good (e : list T) : gather (map (fun y => nltb n0 y) e) e = good e.
  Proof. induction e as [|y e IH]; cbn; auto. destruct (nltb n0 y); cbn; rewrite IH; auto. Qed.

  Lemma draw_eq m e cur : length m = length e ->
    draw rng m e cur = (draw_spec m e cur, cur + length (good e)).
  Proof.
    intro H. unfold draw. rewrite gather_mask_good. f_equal.
    revert e cur H; induction m as [|x m IH]; intros [|y e] cur H; try discriminate; auto.
    cbn [map gather scatter draw_spec good filter]. destruct (nltb n0 y) eqn:E.
    - cbn [length seq map zip scatter]. f_equal. unfold good in IH. apply IH. cbn in H; lia.
    - f_equal. unfold good in IH. apply IH. cbn in H; lia.
  Qed.

  Lemma length_draw_spec m e cur : length m = length e -> length (draw_spec m e cur) = length m.
  Proof.
    revert e cur; induction m as [|x m IH]; intros [|y e] cur H; try discriminate; auto.
    cbn [draw_spec]. destruct (nltb n0 y); cbn [length]; rewrite IH; cbn in H; lia.
  Qed.

  Lemma nth_draw_spec m e cur b d : length m = length e -> b < length m ->
    nth b (draw_spec m e cur) d =
    if nltb n0 (nth b e n0)
    then cst (nadd (cst (nth b m n0)) (nmul (rng (cur + length (good (firstn b e)))) (ndiv n1 (nth b e n0))))
    else cst (nth b m n0).
  Proof.
    revert e cur b; induction m as [|x m IH]; intros [|y e] cur b H Hb; try discriminate; cbn in Hb; [lia|].
    destruct b; cbn [draw_spec nth firstn good filter].
    - destruct (nltb n0 y); cbn [nth length]; rewrite ?Nat.add_0_r; auto.
    - destruct (nltb n0 y) eqn:E; cbn [nth]; rewrite IH by (cbn in H; lia).
      + cbn [length]. replace (S cur + length (good (firstn b e))) with (cur + S (length (good (firstn b e)))) by lia.
        auto.
      + auto.
  Qed.

  Lemma mc_loop_spec ns A m e mc : length m = length e -> forall cur ms cs cur',
    mc_loop nnls rng ns A m e mc cur = Ok (ms, cs, cur') ->
    length ms = mc /\ length cs = mc /\ cur' = cur + mc * length (good e) /\
    forall i, i < mc ->
      nth i ms [] = draw_spec m e (cur + i * length (good e)) /\
      exists c, nnls_retry nnls A (vec (zip nmul (nth i ms []) e)) = Ok c /\
                bto n0 [ns] (map1 cst c) = Ok (nth i cs []).
  Proof.
    intro Hl. induction mc as [|mc IH]; intros cur ms cs cur' H; cbn [mc_loop] in H.
    - injection H as <- <- <-. repeat split; auto; try lia.
    - rewrite draw_eq in H by auto.
      apply bind_ok in H as (c & Hc & H). apply bind_ok in H as (c' & Hc' & H).
      apply bind_ok in H as ([[ms1 cs1] cur2] & H1 & H). injection H as <- <- <-.
      apply IH in H1 as (L1 & L2 & Hcur & Hi). cbn [length]. repeat split; try lia.
      + destruct i; cbn [nth].
        * rewrite Nat.mul_0_l, Nat.add_0_r. auto.
        * assert (H' : i < mc) by lia. apply Hi in H' as (-> & _). f_equal. lia.
      + destruct i; cbn [nth]; eauto. apply Hi. lia.
  Qed.

  Lemma of_cols_column m mc (cols : list (list T)) i : length cols = mc -> i < mc ->
    length (nth i cols []) = m -> column m mc i (of_cols m cols) = nth i cols [].
  Proof.
    intros Hl Hi Hm. apply nth_ext with (d := n0) (d' := n0).
    - unfold column. rewrite map_length, seq_length; auto.
    - unfold column. rewrite map_length, seq_length. intros b Hb. rewrite nth_seq_map by auto.
      unfold of_cols; cbn [dat]. rewrite nth_concat_const.
      + rewrite nth_indep with (d' := map (fun c => nth 0 c n0) cols) by (rewrite map_length, seq_length; auto).
        rewrite (map_nth (fun k => map (fun c => nth k c n0) cols)). rewrite seq_nth by auto. cbn [Nat.add].
        rewrite nth_indep with (d' := nth b [] n0) by (rewrite map_length; lia).
        rewrite (map_nth (fun c => nth b c n0)). auto.
      + intros r Hr. apply in_map_iff in Hr as (k & <- & _). rewrite map_length; auto.
      + rewrite map_length, seq_length; auto.
      + auto.
  Qed.

  (** The Monte Carlo result of one object. *)
  Lemma fit_object_mc (F : fitter T) A nb nt mc o cur r cur' : nnls_shape nnls -> no_ab F -> ready F A nb nt ->
    nb <> 1 -> obj_ok nb o -> mc <> 0 -> fit_object nnls rng F mc o cur = Ok (r, cur') ->
    let m := map cst (o_m o) in
    let e := map nsqrt (map cst (o_iv o)) in
    exists c cm mm, r = Three c cm mm /\ fit_object nnls rng F 0 o cur = Ok (Bare c, cur) /\
      shp c = [nt] /\ wf c /\
      shp cm = [nt; mc] /\ wf cm /\ shp mm = [nb; mc] /\ wf mm /\
      cur' = cur + mc * length (good e) /\
      out_of (a_x A) (cst (o_z o)) = false /\
      forall i, i < mc ->
        column nb mc i mm = draw_spec m e (cur + i * length (good e)) /\
        exists c', nnls_retry nnls (wmat A nb nt e (cst (o_z o))) (mk [nb] (zip nmul (column nb mc i mm) e)) = Ok c' /\
                   column nt mc i cm = map cst (dat c').
  Proof.
    intros Hs Hab H H1 Ho Hmc E m e. pose proof Ho as [Hm Hi].
    rewrite (single_eq nnls rng mc cur Hab H H1 Ho) in E. rewrite (single_eq nnls rng 0 cur Hab H H1 Ho).
    unfold fit1_spec in *. destruct (out_of (a_x A) (cst (o_z o))) eqn:EO.
    { destruct (Nat.eqb_spec mc 0); [congruence|discriminate]. }
    fold m e in E |- *. destruct (nnls_retry nnls (wmat A nb nt e (cst (o_z o))) (mk [nb] (zip nmul m e))) as [c|] eqn:EC;
      [|discriminate]. cbn [bind] in E |- *. destruct (Nat.eqb_spec mc 0) as [|_]; [congruence|].
    apply nnls_retry_len in EC as (Hv & Hlc & _); auto. change (lastd (shp (wmat A nb nt e (cst (o_z o))))) with nt in Hlc.
    destruct (mc_loop nnls rng nt (wmat A nb nt e (cst (o_z o))) m e mc cur) as [[[ms cs] cur1]|] eqn:EL;
      [|discriminate]. cbn [bind] in E. injection E as <- <-.
    assert (Hlm : length m = length e) by (unfold m, e; rewrite !map_length; congruence).
    apply mc_loop_spec in EL as (L1 & L2 & Hcur & Hii); auto.
    exists c, (of_cols nt cs), (of_cols nb ms). split; auto. split; auto.
    split. { rewrite Hv. unfold vec; cbn; congruence. }
    split. { rewrite Hv. apply wf_vec. }
    split. { unfold of_cols; cbn. congruence. }
    split. { apply length_of_cols. }
    split. { unfold of_cols; cbn. congruence. }
    split. { apply length_of_cols. }
    split; auto. split; auto. intros i Hlt. destruct (Hii i Hlt) as (Hd & c' & Hc' & Hb).
    assert (Hlen : length (nth i ms []) = nb).
    { rewrite Hd, length_draw_spec by auto. unfold m. rewrite map_length; auto. }
    rewrite of_cols_column by auto. split; auto. exists c'.
    assert (Hlz : length (zip nmul (nth i ms []) e) = nb).
    { rewrite length_zip, Hlen. unfold e. rewrite !map_length, Hi. apply Nat.min_id. }
    split. { rewrite <- Hc'. unfold vec. rewrite Hlz. auto. }
    apply nnls_retry_len in Hc' as (Hv' & Hl' & _); auto. change (lastd (shp (wmat A nb nt e (cst (o_z o))))) with nt in Hl'.
    rewrite bto_vec in Hb.
    - injection Hb as Hb. rewrite of_cols_column; auto. rewrite <- Hb, map_length. auto.
    - rewrite Hv'. unfold map1, vec; cbn. congruence.
    - unfold map1; cbn. rewrite map_length; auto.
  Qed.

  (** * reconstruct *)
  Definition shifted (bs z : T) : T := nsub (nmul (nadd n1 z) (nadd n1 bs)) n1.
  Definition recon1 (A : atab T) (nb nt : nat) (bs z : T) (c : list T) : list T :=
    map (fun a => ndiv (dotp a c) (nadd n1 bs)) (chunks nb nt (arow A (shifted bs z))).

  Lemma reconstruct_scal (F : fitter T) A nb nt z c bs : f_nsed F = nt -> tab_ok A nb nt -> length c = nt ->
    reconstruct_ F (Some A) (Some (scal z)) (Some (vec c)) bs =
    if out_of (a_x A) (shifted bs (cst z)) then Raise ValueError
    else Ok (mk [nb] (recon1 A nb nt bs (cst z) (map cst c))).
  Proof.
    intros Hn Ht Hc. unfold reconstruct_.
    assert (EP : process_inputs F (Some (scal z)) None None (Some (vec c)) =
                 Ok (plain_pin false 1 (scal z) None None (Some (vec c)))).
    { unfold process_inputs; cbn [ndim scal map1 shp map dat length Nat.leb Nat.eqb option_map opt_shape_ok].
      unfold shape_ok, vec, map1; cbn [shp]. rewrite Hc, Hn, Nat.eqb_refl. destruct (f_abc F); auto. }
    rewrite EP. cbn [bind plain_pin q_z q_array q_c option_map].
    unfold map1 at 1; cbn [scal shp dat map]. change (map1 cst (scal z)) with (scal (cst z)). cbn [shp dat map scal].
    change (mk [] [nsub (nmul (nadd n1 (cst z)) (nadd n1 bs)) n1]) with (scal (shifted bs (cst z))).
    rewrite (acall_scal _ Ht). destruct (out_of (a_x A) (shifted bs (cst z))); cbn [bind]; auto.
    cbn [shp dat lead lastd removelast last]. change (lastd [nb; nt]) with nt. change (lastd [nb]) with nb.
    rewrite Hn, Nat.eqb_refl. cbn [bind].
    unfold map1, recon1, vec; cbn [shp dat]. rewrite map_map. auto.
  Qed.

  Definition cobj_ok (nt : nat) (zc : T * list T) : Prop := length (snd zc) = nt.

  Lemma chunks_app A n1 n2 w (l1 l2 : list A) : length l1 = n1 * w ->
    chunks (n1 + n2) w (l1 ++ l2) = chunks n1 w l1 ++ chunks n2 w l2.
  Proof.
    revert l1; induction n1 as [|k IH]; intros l1 H; cbn [Nat.add chunks app].
    - destruct l1; auto. discriminate.
    - cbn in H. rewrite firstn_app, skipn_app.
      replace (w - length l1) with 0 by lia. cbn [firstn skipn]. rewrite app_nil_r.
      f_equal. apply IH. rewrite skipn_length. lia.
  Qed.

  Lemma reconstruct_vec (F : fitter T) A nb nt objs bs : f_nsed F = nt -> tab_ok A nb nt ->
    Forall (cobj_ok nt) objs ->
    reconstruct_ F (Some A) (Some (vec (map fst objs))) (Some (table nt (map snd objs))) bs =
    if existsb (fun zc => out_of (a_x A) (shifted bs (cst (fst zc)))) objs then Raise ValueError
    else Ok (table nb (map (fun zc => recon1 A nb nt bs (cst (fst zc)) (map cst (snd zc))) objs)).
  Proof.
    intros Hn Ht Hok. unfold reconstruct_.
    assert (EP : process_inputs F (Some (vec (map fst objs))) None None (Some (table nt (map snd objs))) =
                 Ok (plain_pin true (length objs) (vec (map fst objs)) None None (Some (table nt (map snd objs))))).
    { unfold process_inputs, vec, table; cbn [ndim map1 shp length Nat.leb Nat.eqb option_map opt_shape_ok].
      unfold shape_ok; cbn [shp size fold_right]. rewrite !map_length, Hn, Nat.mul_1_r, !Nat.eqb_refl. cbn [andb].
      unfold plain_pin, map1; cbn [option_map shp dat]. destruct (f_abc F); auto. }
    rewrite EP. cbn [bind plain_pin q_z q_array q_c q_n option_map].
    rewrite map1_table. rewrite lrows_table.
    2:{ apply rect_map. unfold rect. rewrite Forall_map. auto. }
    unfold acall, map1, vec; cbn [shp dat].
    rewrite !map_map.
    assert (EO : existsb (out_of (a_x A)) (map (fun x => nsub (nmul (nadd n1 (cst (fst x))) (nadd n1 bs)) n1) objs)
                 = existsb (fun zc => out_of (a_x A) (shifted bs (cst (fst zc)))) objs).
    { clear. induction objs as [|zc l IH]; cbn; auto. rewrite IH. auto. }
    rewrite EO. destruct (existsb _ objs); cbn [negb bind]; auto.
    pose proof Ht as (Hs & _). rewrite Hs. cbn [shp dat app]. cbn [lead removelast]. change (lastd [length (map fst objs); nb]) with nb.
    change (lastd [length (map fst objs); nb; nt]) with nt. rewrite Hn, Nat.eqb_refl. cbn [bind shp dat].
    f_equal. unfold table. rewrite map_length. f_equal.
    (* data *)
    rewrite concat_map_map. f_equal.
    revert Hok; clear EP EO. induction objs as [|zc l IH]; intro Hok; cbn [length map concat chunks zip]; auto.
    inversion Hok; subst. pose proof (arow_len (shifted bs (cst (fst zc))) Ht) as HL.
    fold (shifted bs (cst (fst zc))).
    rewrite firstn_app, HL, Nat.sub_diag, firstn_O, app_nil_r, firstn_all2 by lia.
    rewrite skipn_app, HL, Nat.sub_diag, skipn_O, skipn_all2 by lia. cbn [app].
    f_equal; [|apply IH; auto]. unfold recon1. rewrite map_map. auto.
  Qed.
End Draw.
