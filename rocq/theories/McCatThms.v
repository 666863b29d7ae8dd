(** Monte Carlo catalogues (C118): the proofs. *)
From Coq Require Import String List Arith Lia Bool ZArith QArith.
From Verif Require Import Base BaseLemmas Num Toy Spec Interp Utils Sed Response RespDict Fitter FitSpec FitEx McCatSpec.
Import ListNotations.
Local Open Scope nat_scope.
(* STATEMENTS *)
From Verif Require Import FitterProofs FitterMC FitterThms.

Lemma run_each_app A B (call : A -> nat -> res (B * nat)) a : forall b cur,
  run_each call (a ++ b) cur =
  match run_each call a cur with
  | Raise e => Raise e
  | Ok (xs, k) => match run_each call b k with Raise e => Raise e | Ok (ys, k') => Ok (xs ++ ys, k') end
  end.
Proof.
  induction a as [|x a IH]; intros b cur; cbn.
  - destruct (run_each call b cur) as [[ys k]|]; auto.
  - destruct (call x cur) as [[y k]|]; auto. rewrite IH. destruct (run_each call a k) as [[xs k1]|]; auto.
    destruct (run_each call b k1) as [[ys k2]|]; auto.
Qed.
Lemma run_each_length A B (call : A -> nat -> res (B * nat)) l : forall cur bs k, run_each call l cur = Ok (bs, k) -> length bs = length l.
Proof.
  induction l as [|x l IH]; intros cur bs k H; cbn in H; [injection H as <- <-; auto|].
  destruct (call x cur) as [[y k1]|]; [|discriminate]. destruct (run_each call l k1) as [[ys k2]|] eqn:E; [|discriminate].
  injection H as <- <-. cbn. f_equal. eapply IH; eauto.
Qed.

(** C118.  A catalogue cut into two, neither of them a single object, and fitted one after the other gives the arrays of the
    whole catalogue, with and without Monte Carlo: the coefficients and the draws put together, with the random stream where
    the whole leaves it.  The whole raises what the first part that fails raises. *)
Lemma L_C118_split :
  forall (T : Type) (N : Num T) nnls rng (F : fitter T) A nb nt mc a b cur,
    nnls_shape nnls -> no_ab F -> ready F A nb nt -> nb <> 1 -> Forall (obj_ok nb) (a ++ b) ->
    length a <> 1 -> length b <> 1 ->
    let fit := fit_objects nnls rng F nb mc in
    (forall x k y k', fit a cur = Ok (x, k) -> fit b k = Ok (y, k') -> fit (a ++ b) cur = Ok (stack_out x y, k')) /\
    (forall e, fit a cur = Raise e -> fit (a ++ b) cur = Raise e) /\
    (forall x k e, fit a cur = Ok (x, k) -> fit b k = Raise e -> fit (a ++ b) cur = Raise e).
Proof.
  intros T N nnls rng F A nb nt mc a b cur Hs Hab H H1 Hok La Lb fit.
  pose proof Hok as Hok2. apply Forall_app in Hok2 as [Ha Hb].
  assert (EA : forall k, fit a k = _) by (intro k; apply (fit_batch rng mc k Hs Hab H H1 Ha La)).
  assert (EB : forall k, fit b k = _) by (intro k; apply (fit_batch rng mc k Hs Hab H H1 Hb Lb)).
  assert (EAB : fit (a ++ b) cur = _) by (apply (fit_batch rng mc cur Hs Hab H H1 Hok); rewrite app_length; lia).
  rewrite EAB, run_each_app, (EA cur). clear EAB EA.
  destruct (run_each (fit_object nnls rng F mc) a cur) as [[xs ka]|e1] eqn:EX.
  2:{ split; [discriminate|]. split; [auto|discriminate]. }
  split; [|split; [discriminate|]].
  - intros x k y k' E1 E2. injection E1 as <- <-. rewrite EB in E2.
    destruct (run_each (fit_object nnls rng F mc) b ka) as [[ys kb]|e2] eqn:EY; [|discriminate]. injection E2 as <- <-.
    rewrite !map_app, !concat_app, app_length. destruct (Nat.eqb mc 0); reflexivity.
  - intros x k e E1 E2. injection E1 as <- <-. rewrite EB in E2.
    destruct (run_each (fit_object nnls rng F mc) b ka) as [[ys kb]|e2] eqn:EY; [discriminate|]. injection E2 as <-. reflexivity.
Qed.
Lemma E_C118_split : exists x y k k',
  let a := [q_obj 0 1 2; q_obj 1 3 4] in let b := [q_obj 1 5 6; q_obj 0 7 8] in let rng := fun n => inject_Z (Z.of_nat n) in
  nnls_shape (T := Q) ex_nnls /\ no_ab q_fitter /\ ready q_fitter q_tab 2 3 /\ Forall (obj_ok 2) (a ++ b) /\
  fit_objects ex_nnls rng q_fitter 2 2 a 10 = Ok (x, k) /\ fit_objects ex_nnls rng q_fitter 2 2 b k = Ok (y, k') /\
  fit_objects ex_nnls rng q_fitter 2 2 (a ++ b) 10 = Ok (stack_out x y, k') /\ k = 18 /\ k' = 26.
Proof.
  do 4 eexists. cbv zeta. split; [apply E_C27_rows|]. split; [left; reflexivity|]. split; [apply q_ready|]. split; [repeat constructor|].
  split; [vm_compute; reflexivity|]. split; [vm_compute; reflexivity|]. split; [vm_compute; reflexivity|]. split; reflexivity.
Qed.

Section Rows.
  Context {T : Type} {N : Num T}.
  Variable nnls : option nat -> nat -> list (list T) -> list T -> option (list T).
  Variable rng : nat -> T.
  Variable F : fitter T.
  Variable A : atab T.
  Variables nb nt mc : nat.
  Hypothesis Hs : nnls_shape nnls.
  Hypothesis Hab : no_ab F.
  Hypothesis H : ready F A nb nt.
  Hypothesis H1 : nb <> 1.
  Hypothesis Hmc : mc <> 0.

  Lemma run_rows objs : forall cur outs cur', Forall (obj_ok nb) objs -> run_each (fit_object nnls rng F mc) objs cur = Ok (outs, cur') ->
    length outs = length objs /\ cur' = cur + mc * measured_all objs /\
    forall i o, nth_error objs i = Some o -> exists c cm mm,
      nth_error outs i = Some (Three c cm mm) /\
      fit_object nnls rng F mc o (cur + mc * measured_all (firstn i objs)) =
        Ok (Three c cm mm, cur + mc * measured_all (firstn i objs) + mc * measured o) /\
      shp c = [nt] /\ wf c /\ shp cm = [nt; mc] /\ wf cm /\ shp mm = [nb; mc] /\ wf mm.
  Proof.
    induction objs as [|o objs IH]; intros cur outs cur' Hok E; cbn [run_each] in E.
    - injection E as <- <-. split; auto. split; [unfold measured_all; cbn; lia|]. intros i o Hi. destruct i; discriminate.
    - inversion Hok as [|? ? Ho Hr]; subst. destruct (fit_object nnls rng F mc o cur) as [[r k1]|] eqn:EO; [|discriminate].
      destruct (run_each _ objs k1) as [[rs k2]|] eqn:ER; [|discriminate]. injection E as <- <-.
      destruct (L_C32_draws _ _ _ _ _ _ _ _ _ _ _ _ _ Hs Hab H H1 Ho Hmc EO) as (c & cm & mm & -> & E0 & S1 & W1 & S2 & W2 & -> & _).
      destruct (fit_object_bare _ _ _ _ _ _ _ _ _ _ _ _ Hs H E0) as (_ & c1 & Ec & Wc & Sc). injection Ec as <-.
      fold (measured o) in EO, ER.
      apply IH in ER as (L & -> & Hi); auto. split; [cbn; congruence|].
      assert (M : measured_all (o :: objs) = measured o + measured_all objs) by reflexivity.
      split; [rewrite M; lia|]. intros i o1 H0. destruct i as [|i]; cbn [nth_error] in *.
      + injection H0 as <-. exists c, cm, mm. cbn [firstn]. unfold measured_all; cbn [map list_sum fold_right]. rewrite Nat.mul_0_r, Nat.add_0_r.
        split; [reflexivity|]. split; [exact EO|]. auto 10.
      + destruct (Hi i o1 H0) as (c' & cm' & mm' & G1 & G2 & G3). exists c', cm', mm'. split; auto. cbn [firstn].
        assert (M' : measured_all (o :: firstn i objs) = measured o + measured_all (firstn i objs)) by reflexivity.
        rewrite M', Nat.mul_add_distr_l, Nat.add_assoc. split; auto.
  Qed.
End Rows.

Lemma row_blocks A (s : list nat) n (ls : list (list A)) i l : Forall (fun r => length r = size s) ls -> n = length ls ->
  nth_error ls i = Some l -> row i (mk (n :: s) (concat ls)) = mk s l.
Proof.
  intros HL -> Hi. unfold row. cbn [shp dat tl]. f_equal.
  assert (i < length ls) by (apply nth_error_Some; congruence).
  apply nth_error_split in Hi as (l1 & l2 & -> & Li). rewrite concat_app. cbn [concat].
  apply Forall_app in HL as [H1 H2]. inversion H2 as [|? ? H3 H4]; subst.
  assert (E : length (concat l1) = length l1 * size s). { apply length_concat_const. apply Forall_forall. exact H1. }
  rewrite <- E, skipn_app, skipn_all, Nat.sub_diag. cbn [app skipn]. rewrite <- H3. rewrite firstn_app, firstn_all, Nat.sub_diag. cbn. apply app_nil_r.
Qed.

(** In a Monte Carlo catalogue object i gets what it gets alone when the random stream is where the objects before it leave it:
    mc variates for each of their measured bands further on. *)
Lemma L_C118_offset :
  forall (T : Type) (N : Num T) nnls rng (F : fitter T) A nb nt mc objs cur r cur',
    nnls_shape nnls -> no_ab F -> ready F A nb nt -> nb <> 1 -> mc <> 0 -> Forall (obj_ok nb) objs -> length objs <> 1 ->
    fit_objects nnls rng F nb mc objs cur = Ok (r, cur') ->
    exists c cm mm, r = Three c cm mm /\ cur' = cur + mc * measured_all objs /\
      forall i o, nth_error objs i = Some o ->
        let k := cur + mc * measured_all (firstn i objs) in
        exists ci cmi mmi, fit_object nnls rng F mc o k = Ok (Three ci cmi mmi, k + mc * measured o) /\
          row i c = map1 cst ci /\ row i cm = cmi /\ row i mm = mmi.
Proof.
  intros T N nnls rng F A nb nt mc objs cur r cur' Hs Hab H H1 Hmc Hok Hn E.
  rewrite (fit_batch rng mc cur Hs Hab H H1 Hok Hn) in E.
  destruct (run_each (fit_object nnls rng F mc) objs cur) as [[outs k]|] eqn:ER; [|discriminate].
  destruct (Nat.eqb_spec mc 0) as [|_]; [contradiction|]. injection E as <- <-.
  destruct (run_rows _ _ _ _ _ _ _ Hs Hab H H1 Hmc objs cur outs k Hok ER) as (L & -> & Hi).
  do 3 eexists. split; [reflexivity|]. split; [reflexivity|]. intros i o Ho k.
  destruct (Hi i o Ho) as (c & cm & mm & En & Eo & Sc & Wc & Scm & Wcm & Smm & Wmm).
  exists c, cm, mm. split; [exact Eo|].
  assert (ALL : Forall (fun r => length (map cst (dat (out_c r))) = size [nt] /\ length (dat (out_cmc r)) = size [nt; mc] /\ length (dat (out_mmc r)) = size [nb; mc]) outs).
  { apply Forall_forall. intros x Hx. apply In_nth_error in Hx as [j Hj].
    assert (j < length objs) by (rewrite <- L; apply nth_error_Some; congruence).
    destruct (nth_error objs j) as [oj|] eqn:Ej; [|apply nth_error_None in Ej; lia].
    destruct (Hi j oj Ej) as (c' & cm' & mm' & En' & _ & Sc' & Wc' & Scm' & Wcm' & Smm' & Wmm').
    rewrite Hj in En'. injection En' as ->. cbn [out_c out_cmc out_mmc]. rewrite map_length, Wc', Wcm', Wmm', Sc', Scm', Smm'. auto. }
  split; [|split].
  - erewrite row_blocks with (ls := map (fun o => map cst (dat (out_c o))) outs); [| |rewrite map_length; auto|rewrite nth_error_map, En; reflexivity].
    + unfold map1. rewrite Sc. reflexivity.
    + apply Forall_map. eapply Forall_impl; [|exact ALL]. cbn beta. tauto.
  - erewrite row_blocks with (ls := map (fun o => dat (out_cmc o)) outs); [| |rewrite map_length; auto|rewrite nth_error_map, En; reflexivity].
    + cbn [out_cmc]. rewrite <- Scm. destruct cm; reflexivity.
    + apply Forall_map. eapply Forall_impl; [|exact ALL]. cbn beta. tauto.
  - erewrite row_blocks with (ls := map (fun o => dat (out_mmc o)) outs); [| |rewrite map_length; auto|rewrite nth_error_map, En; reflexivity].
    + cbn [out_mmc]. rewrite <- Smm. destruct mm; reflexivity.
    + apply Forall_map. eapply Forall_impl; [|exact ALL]. cbn beta. tauto.
Qed.
Lemma E_C118_offset : exists c cm mm ci cmi mmi,
  let objs := [q_obj 0 1 2; {| o_z := 1; o_m := [3; 4]; o_iv := [0; 1] |}; q_obj 1 5 6]%Q in let rng := fun n => inject_Z (Z.of_nat n) in
  fit_objects ex_nnls rng q_fitter 2 2 objs 10 = Ok (Three c cm mm, 20) /\ measured_all (firstn 2 objs) = 3 /\
  fit_object ex_nnls rng q_fitter 2 (q_obj 1 5 6) 16 = Ok (Three ci cmi mmi, 20) /\ row 2 mm = mmi.
Proof. do 6 eexists. cbv zeta. split; [vm_compute; reflexivity|]. split; [vm_compute; reflexivity|]. split; [vm_compute; reflexivity|]. vm_compute. reflexivity. Qed.

(** So what an object gets in a Monte Carlo catalogue depends on the other objects only through the number of measured bands of
    those before it: other fluxes, errors and redshifts of these, and whatever comes after, change nothing. *)
Lemma L_C118_others :
  forall (T : Type) (N : Num T) nnls rng (F : fitter T) A nb nt mc objs objs' cur c cm mm k c' cm' mm' k' i o,
    nnls_shape nnls -> no_ab F -> ready F A nb nt -> nb <> 1 -> mc <> 0 ->
    Forall (obj_ok nb) objs -> length objs <> 1 -> Forall (obj_ok nb) objs' -> length objs' <> 1 ->
    fit_objects nnls rng F nb mc objs cur = Ok (Three c cm mm, k) -> fit_objects nnls rng F nb mc objs' cur = Ok (Three c' cm' mm', k') ->
    nth_error objs i = Some o -> nth_error objs' i = Some o ->
    measured_all (firstn i objs) = measured_all (firstn i objs') ->
    row i c = row i c' /\ row i cm = row i cm' /\ row i mm = row i mm'.
Proof.
  intros T N nnls rng F A nb nt mc objs objs' cur c cm mm k c' cm' mm' k' i o Hs Hab H H1 Hmc O1 L1 O2 L2 E1 E2 I1 I2 M.
  destruct (L_C118_offset _ _ _ _ _ _ _ _ _ _ _ _ _ Hs Hab H H1 Hmc O1 L1 E1) as (c1 & cm1 & mm1 & X1 & _ & G1). injection X1 as <- <- <-.
  destruct (L_C118_offset _ _ _ _ _ _ _ _ _ _ _ _ _ Hs Hab H H1 Hmc O2 L2 E2) as (c2 & cm2 & mm2 & X2 & _ & G2). injection X2 as <- <- <-.
  destruct (G1 i o I1) as (d1 & dm1 & m1 & Y1 & -> & -> & ->). destruct (G2 i o I2) as (d2 & dm2 & m2 & Y2 & -> & -> & ->).
  rewrite M in Y1. rewrite Y1 in Y2. injection Y2 as -> -> ->. auto.
Qed.
Lemma E_C118_others : exists r r' k,
  let objs := [q_obj 0 1 2; q_obj 1 5 6; q_obj 0 9 9] in let objs' := [q_obj 1 7 7; q_obj 1 5 6] in let rng := fun n => inject_Z (Z.of_nat n) in
  fit_objects ex_nnls rng q_fitter 2 2 objs 10 = Ok (r, 22) /\ fit_objects ex_nnls rng q_fitter 2 2 objs' 10 = Ok (r', k) /\
  measured_all (firstn 1 objs) = measured_all (firstn 1 objs') /\ row 1 (out_mmc r) = row 1 (out_mmc r') /\ row 0 (out_mmc r) <> row 0 (out_mmc r').
Proof.
  do 3 eexists. cbv zeta. split; [vm_compute; reflexivity|]. split; [vm_compute; reflexivity|]. split; [vm_compute; reflexivity|].
  split; [vm_compute; reflexivity|]. vm_compute. discriminate.
Qed.
