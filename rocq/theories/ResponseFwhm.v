(** set_fwhm_limits over the reals. *)
From Coq Require Import List Arith Lia Bool ZArith QArith Qreals Reals Lra Sorting.Sorted Sorting.Permutation.
From Verif Require Import Base BaseLemmas Num Interp InterpReal Spec Utils Sed Response ResponseProofs ResponseObj.
Import ListNotations.
Local Open Scope R_scope.

Lemma fold_max_spec (l : list R) : forall a,
  let m := fold_left (fun m x => if Rltb m x then x else m) l a in
  (m = a \/ In m l) /\ a <= m /\ forall u, In u l -> u <= m.
Proof.
  induction l as [|x l IH]; intro a; cbn [fold_left].
  - repeat split; auto; [lra|intros u []].
  - destruct (IH (if Rltb a x then x else a)) as (H1 & H2 & H3). cbn zeta.
    destruct (Rltb a x) eqn:E; [apply Rltb_iff in E | apply Rltb_niff in E].
    + repeat split; [right; destruct H1 as [->|]; [left|right]; auto|lra|].
      intros u [->|Hu]; auto.
    + repeat split; auto; [destruct H1; auto; right; right; auto|]. intros u [->|Hu]; [lra|auto].
Qed.
Lemma nmax_spec (l : list R) : l <> [] -> In (nmax l) l /\ forall u, In u l -> u <= nmax l.
Proof.
  destruct l as [|a l]; intro H; [contradiction|]. unfold nmax. cbn [tl hd]. rcbn.
  destruct (fold_max_spec l a) as (H1 & H2 & H3). split.
  - destruct H1 as [->|H1]; [left|right]; auto.
  - intros u [->|Hu]; auto.
Qed.

Lemma nth_sorted_le (w : list R) i j : StronglySorted Rlt w -> (i <= j < length w)%nat -> nth i w 0 <= nth j w 0.
Proof.
  intros Hs H. destruct (Nat.eq_dec i j) as [->|Hn]; [lra|].
  assert (E1 : nth_error w i = Some (nth i w 0)) by (apply nth_error_nth'; lia).
  assert (E2 : nth_error w j = Some (nth j w 0)) by (apply nth_error_nth'; lia).
  apply Rlt_le. apply (sorted_nth w i j _ _ Hs E1 E2). lia.
Qed.
Lemma nth_sorted_lt (w : list R) i j : StronglySorted Rlt w -> (i < length w)%nat -> (j < length w)%nat ->
  nth i w 0 < nth j w 0 <-> (i < j)%nat.
Proof.
  intros Hs H1 H2. apply sorted_nth with (l := w); auto; apply nth_error_nth'; auto.
Qed.
Lemma last_nth (w : list R) : last w 0 = nth (length w - 1) w 0.
Proof.
  induction w as [|x w IH]; auto. destruct w as [|y w]; auto.
  change (last (x :: y :: w) 0) with (last (y :: w) 0). rewrite IH. cbn [length].
  replace (S (S (length w)) - 1)%nat with (S (S (length w) - 1)) by lia. reflexivity.
Qed.

Lemma fwhm_spec_gen cub bq (w yy : list R) M (Q : R -> Prop) : StronglySorted Rlt w -> w <> [] ->
  let c := spline cub w yy in
  (exists t, In t w /\ c t = M) -> (forall t, In t w -> c t <= M) -> 0 < M ->
  (forall f a b, (forall x, f x = c x / M - 1 / 2) -> In a w -> In b w -> a < b ->
     (forall u, In u w -> u <= a \/ b <= u) -> f a * f b <= 0 ->
     exists x, bq f a b = Ok x /\ a <= x <= b /\ Q x) ->
  exists lo hi, fwhm_limits cub bq w {| ix := w; iys := [yy] |} = Ok (lo, hi, hi - lo) /\
    nth 0 w 0 <= lo <= hi /\ hi <= last w 0 /\
    (lo <> nth 0 w 0 -> Q lo) /\ (hi <> last w 0 -> Q hi) /\
    (forall t, In t w -> t < lo -> c t <= M / 2) /\ (forall t, In t w -> hi < t -> c t < M / 2).
Proof.
  intros Hs Hne c (tm & Htm & Hcm) Hmax HM Hbq.
  assert (Hre : forall x, reval cub {| ix := w; iys := [yy] |} x = c x).
  { intro x. unfold reval. cbn [ix iys hd]. apply spline_eval. }
  unfold fwhm_limits. rewrite (map_ext _ _ Hre).
  assert (Hlen : (0 < length w)%nat) by (destruct w; [contradiction|cbn; lia]).
  assert (Hl0 : Nat.eqb (length w) 0 = false) by (apply Nat.eqb_neq; lia). rewrite Hl0. cbn [negb].
  assert (Emx : nmax (map c w) = M).
  { destruct (nmax_spec (map c w)) as [H1 H2]; [destruct w; [contradiction|discriminate]|].
    apply in_map_iff in H1 as (t & Ht & Hin). apply Rle_antisym.
    - rewrite <- Ht. apply Hmax; auto.
    - apply H2. rewrite <- Hcm. apply in_map; auto. }
  rewrite Emx. rewrite map_map, map_map, map_map, map_length. unfold half. rcbn.
  replace (Q2R (1 # 2)) with (1 / 2) by (unfold Q2R; simpl; lra).
  set (f := fun x => reval cub {| ix := w; iys := [yy] |} x / M - 1 / 2).
  assert (Hf : forall x, f x = c x / M - 1 / 2) by (intro x; unfold f; rewrite Hre; auto).
  set (mu := map (fun x => Rltb (1 / 2) (c x / M)) w). set (ml := map (fun x => Rleb (1 / 2) (c x / M)) w).
  assert (Imu : forall i, In i (where_ mu) <-> (i < length w)%nat /\ 0 < f (nth i w 0)).
  { intro i. rewrite where_in. unfold mu. destruct (Nat.ltb_spec i (length w)).
    - rewrite (nth_indep _ false ((fun x => Rltb (1 / 2) (c x / M)) 0)) by (rewrite map_length; auto).
      rewrite (map_nth (fun x => Rltb (1 / 2) (c x / M))), Rltb_iff, Hf. split; [intro; split; auto; lra|lra].
    - rewrite nth_overflow by (rewrite map_length; auto). split; [discriminate|lia]. }
  assert (Iml : forall i, In i (where_ ml) <-> (i < length w)%nat /\ 0 <= f (nth i w 0)).
  { intro i. rewrite where_in. unfold ml. destruct (Nat.ltb_spec i (length w)).
    - rewrite (nth_indep _ false ((fun x => Rleb (1 / 2) (c x / M)) 0)) by (rewrite map_length; auto).
      rewrite (map_nth (fun x => Rleb (1 / 2) (c x / M))), Rleb_iff, Hf. split; [intro; split; auto; lra|lra].
    - rewrite nth_overflow by (rewrite map_length; auto). split; [discriminate|lia]. }
  assert (Hle : forall x, f x <= 0 -> c x <= M / 2).
  { intros x Hx. rewrite Hf in Hx. replace (c x) with (c x / M * M) by (field; lra).
    replace (M / 2) with (1 / 2 * M) by lra. apply Rmult_le_compat_r; lra. }
  assert (Hlt : forall x, f x < 0 -> c x < M / 2).
  { intros x Hx. rewrite Hf in Hx. replace (c x) with (c x / M * M) by (field; lra).
    replace (M / 2) with (1 / 2 * M) by lra. apply Rmult_lt_compat_r; lra. }
  assert (Hmu : where_ mu <> []).
  { intro E. apply In_nth with (d := 0) in Htm as (i & Hi & Et).
    assert (Hin : In i (where_ mu)).
    { apply Imu. split; auto. rewrite Et, Hf, Hcm. replace (M / M) with 1 by (field; lra). lra. }
    rewrite E in Hin. destruct Hin. }
  assert (Hml : where_ ml <> []).
  { intro E. destruct (where_ mu) as [|i l] eqn:Em; [contradiction|].
    assert (Hin : In i (where_ ml)) by (apply Iml; destruct (proj1 (Imu i) (or_introl eq_refl)); split; auto; lra).
    rewrite E in Hin. destruct Hin. }
  destruct (hd_least _ (where_sorted mu) Hmu) as [Hu1 Hu2].
  destruct (last_greatest _ (where_sorted ml) Hml) as [Hl1 Hl2].
  destruct (where_ mu) as [|iu lu] eqn:Em; [contradiction|]. cbn [hd] in Hu1, Hu2.
  destruct (where_ ml) as [|il ll] eqn:El; [contradiction|]. set (jl := last (il :: ll) 0%nat) in *.
  apply Imu in Hu1 as [Hu1 Hfu]. apply Iml in Hl1 as [Hl1 Hfl].
  assert (Hul : (iu <= jl)%nat) by (apply Hl2, Iml; split; auto; lra).
  assert (Hbelow : forall i, (i < iu)%nat -> f (nth i w 0) <= 0).
  { intros i Hi. destruct (Rle_lt_dec (f (nth i w 0)) 0); auto. exfalso.
    assert (iu <= i)%nat by (apply Hu2, Imu; split; auto; lia). lia. }
  assert (Habove : forall i, (jl < i < length w)%nat -> f (nth i w 0) < 0).
  { intros i Hi. destruct (Rlt_le_dec (f (nth i w 0)) 0); auto. exfalso.
    assert (i <= jl)%nat by (apply Hl2, Iml; split; auto; lia). lia. }
  assert (Hlow : exists lo, (if Nat.eqb iu 0 then Ok (nth 0 w 0) else bq f (nth (iu - 1) w 0) (nth iu w 0)) = Ok lo /\
             nth 0 w 0 <= lo <= nth iu w 0 /\ (lo <> nth 0 w 0 -> Q lo)).
  { destruct (Nat.eqb_spec iu 0) as [->|Hn].
    - exists (nth 0 w 0). repeat split; try lra.
    - destruct (Hbq f (nth (iu - 1) w 0) (nth iu w 0) Hf) as (x & E & Hx & Hr); [apply nth_In; lia|apply nth_In; lia| | | |].
      + apply nth_sorted_lt; auto; lia.
      + intros u Hu. apply In_nth with (d := 0) in Hu as (i & Hi & <-).
        destruct (Nat.le_gt_cases i (iu - 1)); [left|right]; apply nth_sorted_le; auto; lia.
      + assert (f (nth (iu - 1) w 0) <= 0) by (apply Hbelow; lia). nra.
      + exists x. split; auto. split; [|auto].
        assert (nth 0 w 0 <= nth (iu - 1) w 0) by (apply nth_sorted_le; auto; lia). lra. }
  assert (Hhigh : exists hi, (if Nat.eqb jl (length w - 1) then Ok (last w 0) else bq f (nth jl w 0) (nth (jl + 1) w 0)) = Ok hi /\
             nth jl w 0 <= hi <= last w 0 /\ (hi <> last w 0 -> Q hi)).
  { destruct (Nat.eqb_spec jl (length w - 1)) as [E|Hn].
    - exists (last w 0). repeat split; try lra; rewrite E, last_nth; lra.
    - destruct (Hbq f (nth jl w 0) (nth (jl + 1) w 0) Hf) as (x & E & Hx & Hr); [apply nth_In; lia|apply nth_In; lia| | | |].
      + apply nth_sorted_lt; auto; lia.
      + intros u Hu. apply In_nth with (d := 0) in Hu as (i & Hi & <-).
        destruct (Nat.le_gt_cases i jl); [left|right]; apply nth_sorted_le; auto; lia.
      + assert (f (nth (jl + 1) w 0) < 0) by (apply Habove; lia). nra.
      + exists x. split; auto. split; [|auto].
        assert (nth (jl + 1) w 0 <= last w 0) by (rewrite last_nth; apply nth_sorted_le; auto; lia). lra. }
  destruct Hlow as (lo & -> & Hlo1 & Hlo2). cbn [bind]. rewrite map_map. fold ml. rewrite El. cbv beta iota zeta. fold jl. rewrite map_length. destruct Hhigh as (hi & -> & Hhi1 & Hhi2). cbn [bind].
  assert (nth iu w 0 <= nth jl w 0) by (apply nth_sorted_le; auto; lia).
  exists lo, hi. repeat split; auto; try lra.
  - intros t Ht Hlt'. apply In_nth with (d := 0) in Ht as (i & Hi & <-). apply Hle, Hbelow.
    apply (nth_sorted_lt w i iu); auto. lra.
  - intros t Ht Hlt'. apply In_nth with (d := 0) in Ht as (i & Hi & <-). apply Hlt, Habove. split; auto.
    apply (nth_sorted_lt w jl i); auto. lra.
Qed.
Lemma fwhm_spec cub bq (w yy : list R) M : StronglySorted Rlt w -> w <> [] ->
  let c := spline cub w yy in
  (exists t, In t w /\ c t = M) -> (forall t, In t w -> c t <= M) -> 0 < M ->
  (forall f a b, (forall x, f x = c x / M - 1 / 2) -> In a w -> In b w -> a < b -> f a * f b <= 0 ->
     exists x, bq f a b = Ok x /\ a <= x <= b /\ f x = 0) ->
  exists lo hi, fwhm_limits cub bq w {| ix := w; iys := [yy] |} = Ok (lo, hi, hi - lo) /\
    nth 0 w 0 <= lo <= hi /\ hi <= last w 0 /\
    (lo <> nth 0 w 0 -> c lo = M / 2) /\ (hi <> last w 0 -> c hi = M / 2) /\
    (forall t, In t w -> t < lo -> c t <= M / 2) /\ (forall t, In t w -> hi < t -> c t < M / 2).
Proof.
  intros Hs Hne c Hex Hmax HM Hbq. apply (fwhm_spec_gen cub bq w yy M (fun x => c x = M / 2)); auto.
  intros f a b Hf Ha Hb Hab _ Hs'. destruct (Hbq f a b Hf Ha Hb Hab Hs') as (x & E & Hx & Hr). exists x. repeat split; auto; try lra.
  rewrite Hf in Hr. unfold c. set (v := spline cub w yy x) in *. assert (H : v / M = 1 / 2) by lra.
  replace v with (v / M * M) by (field; lra). rewrite H. lra.
Qed.
