(** Response.fromdat on files without a column (C67): the proofs. *)
From Coq Require Import String List Arith Lia Bool ZArith QArith Qreals Reals Lra Sorting.Sorted Permutation.
From Verif Require Import Base BaseLemmas Num Toy Interp InterpReal Spec Sed Response RespDict LinInterp ResponseEx Persist RespCols.
Import ListNotations.
Local Open Scope R_scope.
(* STATEMENTS *)
From Verif Require Import ResponseObj ResponseThms RespDictThms FitterProofs PersistThms.

Lemma no_column (T : Type) (N : Num T) dat name : (forall a, ~ In (name, a) dat) -> @column T dat name = Raise KeyError.
Proof.
  intro H. unfold column. destruct (find _ _) as [[n a]|] eqn:E; auto. apply find_some in E as [E1 E2]. cbn [fst] in E2.
  apply String.eqb_eq in E2. subst n. elim (H _ E1).
Qed.

(** C67.  Response.fromdat of a table with the columns 'lambda' and 'pass' reads them, wherever they are and whatever other
    columns there are; without 'lambda' it raises KeyError and the response object keeps what it had. *)
Lemma L_C67_columns :
  forall (T : Type) (N : Num T) cub bq sun vega (r : resp T) dat w y,
    find (fun c => String.eqb (fst c) "lambda") dat = Some ("lambda"%string, w) ->
    find (fun c => String.eqb (fst c) "pass") dat = Some ("pass"%string, y) -> length y = length w ->
    fromdat_table cub bq sun vega r (Some (Ok dat)) = fromdat cub bq sun vega r (Some (Ok (w, y))) /\
    forall dat', (forall a, ~ In ("lambda"%string, a) dat') ->
      fromdat_table cub bq sun vega r (Some (Ok dat')) = (r, Some KeyError).
Proof.
  intros T N cub bq sun vega r dat w y Hw Hy L. split.
  - unfold fromdat_table, column, fromdat. rewrite Hw, Hy. cbn [snd fst bind]. destruct (sort_pair w y) as [wr|e] eqn:E; [reflexivity|].
    exfalso. unfold sort_pair in E.
    assert (forallb (fun k => Nat.ltb k (length y)) (argsort w) = true) as X; [|rewrite X in E; discriminate].
    apply forallb_forall. intros k Hk. apply Nat.ltb_lt. rewrite L.
    apply (Permutation_in _ (argsort_perm w)) in Hk. apply in_seq in Hk. lia.
  - intros dat' H. unfold fromdat_table. rewrite no_column by auto. reflexivity.
Qed.
Lemma E_C67_columns : let dat := [("id", [7; 8; 9]); ("lambda", [3; 1; 2]); ("pass", [30; 10; 20])]%Z%string in
  find (fun c => String.eqb (fst c) "lambda") dat = Some ("lambda", [3; 1; 2]%Z)%string /\
  find (fun c => String.eqb (fst c) "pass") dat = Some ("pass", [30; 10; 20]%Z)%string /\
  forall a, ~ In ("lambda", a)%string [("pass", [30; 10; 20]%Z)%string].
Proof. repeat split. intros a [H|[]]. discriminate. Qed.

(** C67.  Response.fromdat of a table with the wavelengths but without the column 'pass' raises KeyError, and the object is
    left with the wavelengths of the file, sorted, beside the response curve and the derived attributes it had.  If there
    are as many of them as there were, tofits then writes the new wavelengths with the old response and does not notice. *)
Lemma L_C67_no_pass :
  forall cub bq sun vega (r : resp R) dat w,
    find (fun c => String.eqb (fst c) "lambda") dat = Some ("lambda"%string, w) -> (forall a, ~ In ("pass"%string, a) dat) ->
    exists r' w', fromdat_table cub bq sun vega r (Some (Ok dat)) = (r', Some KeyError) /\
      p_wave r' = Some w' /\ Permutation w' w /\ StronglySorted Rle w' /\
      p_resp r' = p_resp r /\ p_interp r' = p_interp r /\ p_leff r' = p_leff r /\ p_solar r' = p_solar r /\
      p_vega2ab r' = p_vega2ab r /\ p_fwhm r' = p_fwhm r /\
      forall y, p_resp r = Some y -> length y = length w -> (2 <= length w)%nat ->
        resp_tofits r' = Ok [HNum {| h_name := ""%string; h_cols := [("wave"%string, mk [1; length w]%nat w');
                                                                       ("response"%string, mk [1; length w]%nat y)] |}].
Proof.
  intros cub bq sun vega r dat w Hw Hp. set (w' := map (fun k => nth k w n0) (argsort w)).
  assert (P : Permutation w' w). { unfold w'. rewrite (Permutation_map _ (argsort_perm w)), map_nth_seq. apply Permutation_refl. }
  exists (with_wave r w'), w'. split; [|split; [reflexivity|]].
  - unfold fromdat_table. rewrite (no_column _ _ _ _ Hp). unfold column. rewrite Hw. reflexivity.
  - split; [exact P|]. split; [apply argsort_sorted|]. repeat split. intros y Hy L L2.
    pose proof (Permutation_length P) as LP. unfold resp_tofits. cbn [p_wave p_resp with_wave]. rewrite Hy, LP, L.
    destruct (length w) as [|[|n]] eqn:E; try lia. cbn [Nat.eqb negb]. rewrite Nat.eqb_refl. reflexivity.
Qed.
Lemma E_C67_no_pass : exists r,
  Response lin bq0 sun0 sun0 [1;2;3;4] [0;1;1;0] = Ok r /\ p_resp r = Some [0;1;1;0] /\ p_wave r = Some [1;2;3;4] /\
  let dat := [("lambda", [9; 7; 8; 6])]%string in
  find (fun c => String.eqb (fst c) "lambda") dat = Some ("lambda"%string, [9; 7; 8; 6]) /\ forall a, ~ In ("pass"%string, a) dat.
Proof.
  destruct trapezium_band as [r Hr]. exists r. destruct Hr as (_ & H1 & H3 & H4 & _). split; [exact H1|].
  split; [exact H4|]. split; [exact H3|]. cbn. split; [reflexivity|]. intros a [H|[]]. discriminate.
Qed.
