(** Theorems about KcorrectSDSS and KcorrectGST objects that have other numbers of bands than the AB correction expects
    (kcorrect.py:911-957, 1105-1157; utils.py:115-186). *)
From Coq Require Import String List Arith Lia Bool ZArith QArith.
From Verif Require Import Base BaseLemmas Num Toy Utils Sed Fitter FitSpec FitEx Kcorrect KSpec KEx WidthSpec.
Import ListNotations.
Local Open Scope nat_scope.
(* STATEMENTS *)
From Verif Require Import UtilsProofs FitterProofs AbProofs McProofs AbsmagProofs.

Section W.
  Context {T : Type} {N : Num T}.
  Lemma proc_raw (F : fitter T) z m iv c : f_abc F = true -> documented (length (f_resp F)) (f_nsed F) z (Some m) iv c ->
    process_inputs F (Some z) (Some m) iv c =
    match to_ab (f_kind F) (map1 cst m) (option_map (map1 cst) iv) with
    | Raise e => Raise e
    | Ok (m', iv') => Ok {| q_array := Nat.eqb (ndim z) 1; q_n := if Nat.eqb (ndim z) 1 then size (shp z) else 1%nat;
                            q_z := map1 cst z; q_m := Some m'; q_iv := match iv with Some _ => iv' | None => None end;
                            q_c := option_map (map1 cst) c |}
    end.
  Proof.
    intros Ha Hd. pose proof (@process_inputs_ok T N (without_ab F) z (Some m) iv c (or_introl eq_refl) Hd) as E0.
    unfold process_inputs in E0 |- *. rewrite Ha. cbn [f_abc without_ab f_resp] in E0. unfold f_nsed in *. cbn [without_ab f_sed] in E0.
    change (ndim (map1 cst z)) with (ndim z) in *. change (shp (map1 cst z)) with (shp z) in *.
    destruct (Nat.leb (ndim z) 1); [|discriminate].
    repeat match type of E0 with (if ?b then _ else _) = _ => destruct b; [|discriminate] end.
    cbn [option_map]. destruct (to_ab _ _ _) as [[m' iv']|e]; auto. cbn [bind fst snd]. destruct iv; auto.
  Qed.
  Lemma nd_same (a b : nd T) : shp a = shp b -> dat a = dat b -> a = b.
  Proof. destruct a, b; cbn. congruence. Qed.
  Lemma wf_cst (m : nd T) : wf m -> wf (map1 cst m).
  Proof. apply wf_map1. Qed.
  Lemma wf_default : wf (@default_abfix T N) /\ shp (@default_abfix T N) = [5].
  Proof. split; reflexivity. Qed.
  Lemma ab_single k (m : nd T) iv nb : shp m = [nb] -> (k = SDSS /\ nb <> 5 \/ k = GST /\ nb < 7) -> (forall v, iv = Some v -> shp v = [nb]) ->
    wf m -> to_ab k m iv = Raise TypeError.
  Proof.
    intros Hm Hk Hiv Wm. assert (Hne : shp m <> []) by (rewrite Hm; discriminate). destruct Hk as [[-> Hn]|[-> Hn]]; cbn [to_ab].
    - apply sdss_ab_correct_1d_bad; unfold ndim; rewrite Hm; auto.
    - unfold gst_to_ab. rewrite Hm. change (lastd [nb]) with nb.
      assert (E : exists b, take_last (sdss_cols nb) n0 m = Ok b /\ shp b = [length (sdss_cols nb)]).
      { unfold take_last. rewrite Hm. change (lastd [nb]) with nb.
        rewrite (proj2 (forallb_forall _ _)); [eexists; split; [reflexivity|reflexivity]|].
        intros x Hx. unfold sdss_cols in Hx. apply filter_In in Hx. tauto. }
      destruct E as (b & -> & Sb). cbn [bind]. destruct iv as [v|]; auto. rewrite (Hiv v eq_refl). change (lastd [nb]) with nb.
      assert (E : exists b', take_last (sdss_cols nb) n0 v = Ok b').
      { unfold take_last. rewrite (Hiv v eq_refl). change (lastd [nb]) with nb.
        rewrite (proj2 (forallb_forall _ _)); [eexists; reflexivity|].
        intros x Hx. unfold sdss_cols in Hx. apply filter_In in Hx. tauto. }
      destruct E as (b' & ->). cbn [bind]. rewrite sdss_ab_correct_1d_bad; auto; unfold ndim; rewrite Sb; auto.
      change (lastd [length (sdss_cols nb)]) with (length (sdss_cols nb)).
      do 7 (destruct nb as [|nb]; [cbn; lia|]). lia.
  Qed.
  Lemma ab_few k (m : nd T) v n nb : shp m = [n; nb] -> shp v = [n; nb] -> (k = SDSS /\ nb < 5 \/ k = GST /\ nb < 7) ->
    wf m -> to_ab k m (Some v) = Raise IndexError.
  Proof.
    intros Hm Hv Hk Wm. destruct wf_default as [Wd Sd]. destruct Hk as [[-> Hn]|[-> Hn]]; cbn [to_ab].
    - apply sdss_ab_correct_nd_short; auto; unfold ndim; rewrite ?Hm; cbn; auto. intros iv E. injection E as <-. congruence.
    - unfold gst_to_ab. rewrite Hm, Hv. change (lastd [n; nb]) with nb.
      assert (E : forall a : nd T, shp a = [n; nb] -> exists b, take_last (sdss_cols nb) n0 a = Ok b /\ shp b = [n; length (sdss_cols nb)]).
      { intros a Ha. unfold take_last. rewrite Ha. change (lastd [n; nb]) with nb.
        rewrite (proj2 (forallb_forall _ _)); [eexists; split; [reflexivity|reflexivity]|].
        intros x Hx. unfold sdss_cols in Hx. apply filter_In in Hx. tauto. }
      destruct (E m Hm) as (b & Eb & Sb). destruct (E v Hv) as (b' & Eb' & Sb').
      pose proof (wf_take_last _ _ _ Eb) as Wb. rewrite Eb. cbn [bind]. rewrite Eb'. cbn [bind].
      rewrite sdss_ab_correct_nd_short; auto; unfold ndim; rewrite ?Sb; cbn [length]; auto.
      + right. change (lastd [n; length (sdss_cols nb)]) with (length (sdss_cols nb)). do 7 (destruct nb as [|nb]; [cbn; lia|]). lia.
      + intros iv Ei. injection Ei as <-. congruence.
  Qed.
  (** Two arrays that agree in the first five columns. *)
  Lemma ab_agree (m v m' v' : nd T) n nb : 5 <= nb -> wf m -> wf v -> wf m' -> wf v' ->
    shp m = [n; nb] -> shp v = [n; nb] -> shp m' = [n; nb] -> shp v' = [n; nb] ->
    (forall i b, i < n -> b < 5 -> nth (i * nb + b) (dat m') n0 = nth (i * nb + b) (dat m) n0 /\
                                    nth (i * nb + b) (dat v') n0 = nth (i * nb + b) (dat v) n0) ->
    to_ab SDSS m' (Some v') = to_ab SDSS m (Some v) /\
    exists a w, to_ab SDSS m (Some v) = Ok (a, Some w) /\ shp a = [n; nb] /\ shp w = [n; nb] /\ wf a /\ wf w /\
      forall i b, i < n -> 5 <= b < nb -> nth (i * nb + b) (dat a) n0 = n0 /\ nth (i * nb + b) (dat w) n0 = n0.
  Proof.
    intros Hnb Wm Wv Wm' Wv' Sm Sv Sm' Sv' H. cbn [to_ab]. destruct wf_default as [Wd Sd].
    destruct (@sdss_ab_correct_spec T N m default_abfix (Some v)) as (a & aw & E & Sa & Wa & Na & Hw); auto.
    { rewrite Sm. exact Hnb. } { unfold ndim. rewrite Sm. discriminate. } { intros iv Ei. injection Ei as <-. split; congruence. }
    destruct Hw as (w & -> & Sw & Ww & Nw).
    destruct (@sdss_ab_correct_spec T N m' default_abfix (Some v')) as (a' & aw' & E' & Sa' & Wa' & Na' & Hw'); auto.
    { rewrite Sm'. exact Hnb. } { unfold ndim. rewrite Sm'. discriminate. } { intros iv Ei. injection Ei as <-. split; congruence. }
    destruct Hw' as (w' & -> & Sw' & Ww' & Nw'). rewrite E, E'. rewrite Sm' in *. rewrite Sm in *.
    change (lastd [n; nb]) with nb in *.
    assert (Sz : size [n; nb] = n * nb) by (cbn; lia). rewrite Sz in *.
    unfold wf in *. rewrite Sa, Sz in Wa. rewrite Sa', Sz in Wa'. rewrite Sw, Sz in Ww. rewrite Sw', Sz in Ww'.
    rewrite Sm, Sz in Wm. rewrite Sm', Sz in Wm'. rewrite Sv, Sz in Wv. rewrite Sv', Sz in Wv'.
    assert (Hdm : ndim m' = ndim m) by (unfold ndim; congruence).
    assert (Hj : forall j, j < n * nb -> j / nb < n /\ j mod nb < nb /\ j = j / nb * nb + j mod nb).
    { intros j Hj. split; [apply Nat.div_lt_upper_bound; lia|]. split; [apply Nat.mod_upper_bound; lia|]. rewrite (Nat.div_mod j nb) at 1 by lia. lia. }
    split.
    - do 2 f_equal; [|f_equal]; apply nd_same; try congruence; apply nth_error_ext; intro j.
      + destruct (Nat.lt_ge_cases j (n * nb)) as [L|L]; [|rewrite !(proj2 (nth_error_None _ _)) by lia; auto].
        rewrite Na, Na', Hdm by auto. destruct (Nat.ltb_spec (j mod nb) 5) as [L5|]; auto.
        destruct (Hj j L) as (J1 & J2 & J3). pose proof (proj1 (H (j / nb) (j mod nb) J1 L5)) as HH. rewrite <- J3 in HH.
        rewrite (nth_error_nth' (dat m) n0), (nth_error_nth' (dat m') n0), HH by lia. reflexivity.
      + destruct (Nat.lt_ge_cases j (n * nb)) as [L|L]; [|rewrite !(proj2 (nth_error_None _ _)) by lia; auto].
        rewrite Nw, Nw', Hdm by auto. destruct (Nat.ltb_spec (j mod nb) 5) as [L5|]; auto.
        destruct (Hj j L) as (J1 & J2 & J3). pose proof (proj2 (H (j / nb) (j mod nb) J1 L5)) as HH. rewrite <- J3 in HH.
        rewrite (nth_error_nth' (dat v) n0), (nth_error_nth' (dat v') n0), HH by lia. reflexivity.
    - exists a, w. do 5 (split; [congruence|]). intros i b Hi Hb.
      assert (L : i * nb + b < n * nb) by nia.
      assert (M : (i * nb + b) mod nb = b) by (rewrite Nat.add_comm, Nat.mod_add by lia; apply Nat.mod_small; lia).
      specialize (Na _ L). specialize (Nw _ L). rewrite M in Na, Nw. rewrite (proj2 (Nat.ltb_ge b 5)) in Na, Nw by lia.
      split; apply nth_error_nth; auto.
  Qed.
End W.

(** C114.  With abcorrect=True, a KcorrectSDSS that does not have five bands, or a KcorrectGST with fewer than seven, raises
    TypeError on every single object. *)
Lemma L_C114_single : forall (T : Type) (N : Num T) nnls rng distmod (K : kcor T) z m iv c mc cur bs d r l k,
  let F := k_fit K in let nb := length (f_resp F) in
  f_abc F = true -> f_kind F = SDSS /\ nb <> 5 \/ f_kind F = GST /\ nb < 7 ->
  shp z = [] -> wf m -> shp m = [nb] -> shp iv = [nb] -> shp c = [f_nsed F] ->
  fit_coeffs nnls rng F (Some z) (Some m) (Some iv) mc cur = Raise TypeError /\
  absmag distmod K (Some m) (Some iv) (Some z) (Some c) bs d r l k = Raise TypeError.
Proof.
  intros T N nnls rng distmod K z m iv c mc cur bs d r l k F nb Ha Hk Hz Wm Sm Si Sc.
  assert (E : to_ab (f_kind F) (map1 cst m) (option_map (map1 cst) (Some iv)) = Raise TypeError).
  { cbn [option_map]. apply ab_single with nb; auto using wf_cst. intros v Ev. injection Ev as <-. exact Si. }
  split.
  - unfold fit_coeffs. rewrite proc_raw, E; auto. left. repeat split; auto; intros a Ea; try discriminate; injection Ea as <-; auto.
  - unfold absmag. fold F. rewrite proc_raw, E; auto. left. repeat split; auto; intros a Ea; injection Ea as <-; auto.
Qed.
Lemma E_C114_single : let K := q_wide SDSS 4 in let z := scal 1%Q in let m := vec [1; 2; 3; 4]%Q in let c := vec [1; 2]%Q in
  f_abc (k_fit K) = true /\ (f_kind (k_fit K) = SDSS /\ length (f_resp (k_fit K)) <> 5 \/ f_kind (k_fit K) = GST /\ length (f_resp (k_fit K)) < 7) /\
  shp z = [] /\ wf m /\ shp m = [length (f_resp (k_fit K))] /\ shp c = [f_nsed (k_fit K)] /\
  fit_coeffs ex_nnls (fun _ => 0%Q) (k_fit K) (Some z) (Some m) (Some m) 0 0 = Raise TypeError /\
  absmag (fun _ => 0%Q) K (Some m) (Some m) (Some z) (Some c) 0%Q None false false false = Raise TypeError.
Proof. cbn zeta. repeat split; try (left; split; [reflexivity|discriminate]); vm_compute; reflexivity. Qed.

(** C114.  On a catalogue it raises IndexError when there are fewer bands than that. *)
Lemma L_C114_few : forall (T : Type) (N : Num T) nnls rng distmod (K : kcor T) n z m iv c mc cur bs d r l k,
  let F := k_fit K in let nb := length (f_resp F) in
  f_abc F = true -> f_kind F = SDSS /\ nb < 5 \/ f_kind F = GST /\ nb < 7 ->
  shp z = [n] -> wf m -> shp m = [n; nb] -> shp iv = [n; nb] -> shp c = [n; f_nsed F] ->
  fit_coeffs nnls rng F (Some z) (Some m) (Some iv) mc cur = Raise IndexError /\
  absmag distmod K (Some m) (Some iv) (Some z) (Some c) bs d r l k = Raise IndexError.
Proof.
  intros T N nnls rng distmod K n z m iv c mc cur bs d r l k F nb Ha Hk Hz Wm Sm Si Sc.
  assert (E : to_ab (f_kind F) (map1 cst m) (option_map (map1 cst) (Some iv)) = Raise IndexError).
  { cbn [option_map]. apply ab_few with n nb; auto using wf_cst. }
  split.
  - unfold fit_coeffs. rewrite proc_raw, E; auto. right. exists n. repeat split; auto; intros a Ea; try discriminate; injection Ea as <-; auto.
  - unfold absmag. fold F. rewrite proc_raw, E; auto. right. exists n. repeat split; auto; intros a Ea; injection Ea as <-; auto.
Qed.
Lemma E_C114_few : let K := q_wide GST 6 in let z := vec [1]%Q in let m := mk [1; 6] [1; 2; 3; 4; 5; 6]%Q in let c := mk [1; 2] [1; 2]%Q in
  f_abc (k_fit K) = true /\ (f_kind (k_fit K) = SDSS /\ length (f_resp (k_fit K)) < 5 \/ f_kind (k_fit K) = GST /\ length (f_resp (k_fit K)) < 7) /\
  shp z = [1] /\ wf m /\ shp m = [1; length (f_resp (k_fit K))] /\ shp c = [1; f_nsed (k_fit K)] /\
  fit_coeffs ex_nnls (fun _ => 0%Q) (k_fit K) (Some z) (Some m) (Some m) 0 0 = Raise IndexError /\
  absmag (fun _ => 0%Q) K (Some m) (Some m) (Some z) (Some c) 0%Q None false false false = Raise IndexError.
Proof. cbn zeta. repeat split; try (right; split; [reflexivity|cbn; lia]); vm_compute; reflexivity. Qed.

(** C114.  A KcorrectSDSS with more than five bands fits catalogues without complaint, but uses the photometry of the first five
    bands only: fit_coeffs and absmag return the same whatever is in the others. *)
Lemma L_C114_ignored : forall (T : Type) (N : Num T) nnls rng distmod (K : kcor T) n z m iv m' iv' c mc cur bs d r l k,
  let F := k_fit K in let nb := length (f_resp F) in
  f_abc F = true -> f_kind F = SDSS -> 5 < nb ->
  shp z = [n] -> wf m -> wf iv -> wf m' -> wf iv' -> shp m = [n; nb] -> shp iv = [n; nb] -> shp m' = [n; nb] -> shp iv' = [n; nb] ->
  shp c = [n; f_nsed F] ->
  (forall i b, i < n -> b < 5 -> nth (i * nb + b) (dat m') n0 = nth (i * nb + b) (dat m) n0 /\
                                  nth (i * nb + b) (dat iv') n0 = nth (i * nb + b) (dat iv) n0) ->
  fit_coeffs nnls rng F (Some z) (Some m') (Some iv') mc cur = fit_coeffs nnls rng F (Some z) (Some m) (Some iv) mc cur /\
  absmag distmod K (Some m') (Some iv') (Some z) (Some c) bs d r l k = absmag distmod K (Some m) (Some iv) (Some z) (Some c) bs d r l k.
Proof.
  intros T N nnls rng distmod K n z m iv m' iv' c mc cur bs d r l k F nb Ha Hk Hnb Hz Wm Wi Wm' Wi' Sm Si Sm' Si' Sc H.
  assert (Nt : forall (a a' : nd T) j, wf a -> wf a' -> shp a = [n; nb] -> shp a' = [n; nb] -> nth j (dat a') n0 = nth j (dat a) n0 ->
     nth j (dat (map1 cst a')) n0 = nth j (dat (map1 cst a)) n0).
  { intros a a' j Wa Wa' Sa Sa' E. cbn [map1 dat]. assert (La : length (dat a) = length (dat a')) by (unfold wf in *; congruence).
    destruct (Nat.lt_ge_cases j (length (dat a))) as [L|L].
    - rewrite !(nth_indep _ n0 (cst n0)) by (rewrite map_length; lia). rewrite !map_nth, E. reflexivity.
    - rewrite !nth_overflow by (rewrite map_length; lia). reflexivity. }
  destruct (ab_agree (map1 cst m) (map1 cst iv) (map1 cst m') (map1 cst iv') n nb) as [E _]; auto using wf_cst; try lia.
  { intros i b Hi Hb. destruct (H i b Hi Hb). split; apply Nt; auto. }
  assert (D : forall mm vv cc, shp mm = [n; nb] -> shp vv = [n; nb] -> (forall a, cc = Some a -> shp a = [n; f_nsed F]) ->
     documented nb (f_nsed F) z (Some mm) (Some vv) cc).
  { intros mm vv cc H1 H2 H3. right. exists n. repeat split; auto; intros a Ea; try (injection Ea as <-); auto. }
  split.
  - unfold fit_coeffs. rewrite !proc_raw; auto; try (apply D; auto; discriminate). cbn [option_map]. rewrite Hk, E. reflexivity.
  - unfold absmag. fold F. rewrite !proc_raw; auto; try (apply D; auto; intros a Ea; injection Ea as <-; auto). cbn [option_map]. rewrite Hk, E. reflexivity.
Qed.
Lemma E_C114_ignored : let K := q_wide SDSS 6 in let z := vec [1]%Q in let c := mk [1; 2] [1; 2]%Q in
  let m := mk [1; 6] [1; 2; 3; 4; 5; 6]%Q in let m' := mk [1; 6] [1; 2; 3; 4; 5; 60]%Q in
  let v := mk [1; 6] [1; 1; 1; 1; 1; 1]%Q in let v' := mk [1; 6] [1; 1; 1; 1; 1; 0]%Q in
  f_abc (k_fit K) = true /\ f_kind (k_fit K) = SDSS /\ 5 < length (f_resp (k_fit K)) /\ wf m /\ wf v /\ wf m' /\ wf v' /\
  (forall i b, i < 1 -> b < 5 -> nth (i * 6 + b) (dat m') n0 = nth (i * 6 + b) (dat m) n0 /\ nth (i * 6 + b) (dat v') n0 = nth (i * 6 + b) (dat v) n0) /\
  m <> m' /\ v <> v' /\
  exists r, fit_coeffs ex_nnls (fun _ => 0%Q) (k_fit K) (Some z) (Some m) (Some v) 0 0 = Ok r /\
            fit_coeffs ex_nnls (fun _ => 0%Q) (k_fit K) (Some z) (Some m') (Some v') 0 0 = Ok r.
Proof.
  cbn zeta. split; [reflexivity|]. split; [reflexivity|]. split; [cbn; lia|]. do 4 (split; [reflexivity|]).
  split. { intros i b Hi Hb. replace i with 0 by lia. do 5 (destruct b as [|b]; [split; reflexivity|]). lia. }
  split; [discriminate|]. split; [discriminate|].
  eexists. split; vm_compute; reflexivity.
Qed.

Lemma take_zero {T} {N : Num T} idx (a um : nd T) n nb i j : wf a -> shp a = [n; nb] -> take_last idx n0 a = Ok um ->
  (forall i b, i < n -> 5 <= b < nb -> nth (i * nb + b) (dat a) n0 = n0) -> i < n -> j < length idx -> 5 <= nth j idx 0 ->
  nth_error (dat um) (i * length idx + j) = Some n0.
Proof.
  intros Wa Sa E H Hi Hj Hb.
  assert (F : Forall (fun k => k < nb) idx).
  { unfold take_last in E. rewrite Sa in E. change (lastd [n; nb]) with nb in E. destruct (forallb _ idx) eqn:Ef; [|discriminate].
    apply Forall_forall. intros k Hk. rewrite forallb_forall in Ef. apply Nat.ltb_lt. auto. }
  destruct (@take_last_ok T idx n0 a) as (b & Eb & Sb & Wb & Nb); auto; [rewrite Sa; discriminate|lia|rewrite Sa; exact F|].
  rewrite E in Eb. injection Eb as <-. rewrite Sa in Nb. change (lastd [n; nb]) with nb in Nb.
  change (size (lead [n; nb])) with (n * 1) in Nb. rewrite Nat.mul_1_r in Nb.
  rewrite Nb by nia.
  assert (Q : (i * length idx + j) / length idx = i) by (rewrite Nat.div_add_l by lia; rewrite Nat.div_small by lia; lia).
  assert (M : (i * length idx + j) mod length idx = j) by (rewrite Nat.add_comm, Nat.mod_add by lia; apply Nat.mod_small; lia).
  rewrite Q, M. assert (Hk : nth j idx 0 < nb) by (rewrite Forall_forall in F; apply F, nth_In; auto).
  rewrite (nth_error_nth' (dat a) n0); [f_equal; apply H; lia|]. unfold wf in Wa. rewrite Wa, Sa. cbn. nia.
Qed.
(** C114.  The absolute magnitudes (and limits) that absmag derives from the further bands are all -9999, as if nothing had been
    measured there. *)
Lemma L_C114_sentinel : forall (T : Type) (N : Num T) distmod (K : kcor T) n z m iv c bs d r l k a,
  let F := k_fit K in let nb := length (f_resp F) in let no := length (k_imap K) in
  nleb (@n0 T N) n0 = true -> f_abc F = true -> f_kind F = SDSS -> 5 < nb ->
  shp z = [n] -> wf m -> wf iv -> shp m = [n; nb] -> shp iv = [n; nb] -> shp c = [n; f_nsed F] ->
  absmag distmod K (Some m) (Some iv) (Some z) (Some c) bs d r l k = Ok a ->
  forall i j, i < n -> j < no -> 5 <= nth j (k_imap K) 0 ->
    (forall am v, nth_error (parts a) 0 = Some am -> nth_error (dat am) (i * no + j) = Some v -> v = nlit (-(9999) # 1)) /\
    (l = true -> forall al v, nth_error (parts a) (if r then 2 else 1) = Some al -> nth_error (dat al) (i * no + j) = Some v ->
       v = nlit (-(9999) # 1)).
Proof.
  intros T N distmod K n z m iv c bs d r l k a F nb no H0 Ha Hk Hnb Hz Wm Wi Sm Si Sc E i j Hi Hj Hb.
  destruct (ab_agree (map1 cst m) (map1 cst iv) (map1 cst m) (map1 cst iv) n nb) as (_ & m' & v' & Eab & Sm' & Sv' & Wm' & Wv' & Z); auto using wf_cst; try lia.
  unfold absmag in E. fold F in E. rewrite proc_raw in E; auto.
  2:{ right. exists n. repeat split; auto; intros x Ex; injection Ex as <-; auto. }
  cbn [option_map] in E. rewrite Hk, Eab in E. cbn [bind] in E. unfold absmag_after in E.
  apply bind_ok in E as ([array dm] & _ & E). apply bind_ok in E as (kc & _ & E). cbn [q_m q_iv] in E.
  apply bind_ok in E as (um & Eum & E). apply bind_ok in E as (uiv & Euiv & E).
  destruct (shape_eqb (shp um) (shp kc)) eqn:Es; [|discriminate].
  destruct (Nat.eqb (length _) (length (dat kc))) eqn:El; [|discriminate].
  apply bind_ok in E as (rec & Erec & E).
  pose proof (take_zero _ _ _ n nb i j Wm' Sm' Eum (fun i b Hi Hb => proj1 (Z i b Hi Hb)) Hi Hj Hb) as Nm.
  pose proof (take_zero _ _ _ n nb i j Wv' Sv' Euiv (fun i b Hi Hb => proj2 (Z i b Hi Hb)) Hi Hj Hb) as Nv.
  fold no in Nm, Nv.
  pose proof (take_last_shp _ _ _ Eum) as Sum. pose proof (wf_take_last _ _ _ Eum) as Wum.
  assert (La : nth_error (combine (dat um) (dat uiv)) (i * no + j) = Some (n0, n0)) by (apply nth_error_combine; auto).
  set (dk := combine _ (dat kc)) in *.
  set (am := mk (shp um) (zip (fun (x : T * T) (y : T * T) => absmag1 (fst x) (snd x) (fst y) (snd y)) (combine (dat um) (dat uiv)) dk)) in *.
  set (al := mk (shp um) (zip (fun x (y : T * T) => abslim1 x (fst y) (snd y)) (dat uiv) dk)) in *.
  assert (Pa : parts a = am :: rec ++ (if l then [al] else []) ++ (if k then [kc] else [])).
  { destruct (rec ++ _ ++ _) eqn:Er in E; injection E as <-; cbn [parts]; rewrite Er; auto. }
  assert (Lr : length rec = if r then 1 else 0).
  { destruct r; [|injection Erec as <-; auto]. apply bind_ok in Erec as (om & _ & Erec). destruct (shape_eqb _ _) in Erec; [|discriminate]. injection Erec as <-. auto. }
  rewrite Pa. split.
  - intros am' v Ea Ev. injection Ea as <-. unfold am in Ev. cbn [dat] in Ev. rewrite nth_error_zip, La in Ev.
    destruct (nth_error dk _); [|discriminate]. injection Ev as <-. unfold absmag1. cbn [fst snd]. rewrite H0. auto.
  - intros -> al' v Ea Ev.
    assert (al' = al).
    { destruct r; destruct rec as [|r1 [|r2 rec]]; try discriminate; cbn in Ea; congruence. }
    subst al'. unfold al in Ev. cbn [dat] in Ev. rewrite nth_error_zip, Nv in Ev.
    destruct (nth_error dk _); [|discriminate]. injection Ev as <-. unfold abslim1. cbn [fst snd]. rewrite H0. auto.
Qed.
Lemma E_C114_sentinel : let K := q_wide SDSS 6 in let z := vec [1]%Q in let c := mk [1; 2] [1; 2]%Q in let m := mk [1; 6] [1; 2; 3; 4; 5; 6]%Q in
  f_abc (k_fit K) = true /\ f_kind (k_fit K) = SDSS /\ 5 < length (f_resp (k_fit K)) /\ wf m /\ 1 < length (k_imap K) /\ 5 <= nth 1 (k_imap K) 0 /\
  exists a v w, absmag (fun _ => 0%Q) K (Some m) (Some m) (Some z) (Some c) 0%Q None false true false = Ok (Tuple [mk [1; 2] [a; (-(9999) # 1)%Q]; mk [1; 2] [v; w]]) /\
    a <> (-(9999) # 1)%Q /\ v <> (-(9999) # 1)%Q /\ w = (-(9999) # 1)%Q.
Proof.
  cbn zeta. split; [reflexivity|]. split; [reflexivity|]. split; [cbn; lia|]. split; [reflexivity|]. split; [cbn; lia|]. split; [cbn; lia|].
  do 3 eexists. split; [vm_compute; reflexivity|]. split; [discriminate|]. split; [discriminate|reflexivity].
Qed.

(** C114.  So the natural expectation that fitting an object alone gives what fitting it in a catalogue gives fails for these
    objects: the catalogue is fitted, the object alone raises TypeError. *)
Lemma L_C114_alone_refuted : exists (nnls : _) (F : fitter Q) (z : Q) (m iv : list Q) r,
  f_kind F = SDSS /\ f_abc F = true /\ length m = length (f_resp F) /\ length iv = length (f_resp F) /\
  fit_coeffs nnls (fun _ => 0%Q) F (Some (vec [z])) (Some (mk [1; length m] m)) (Some (mk [1; length iv] iv)) 0 0 = Ok r /\
  fit_coeffs nnls (fun _ => 0%Q) F (Some (scal z)) (Some (vec m)) (Some (vec iv)) 0 0 = Raise TypeError.
Proof.
  exists ex_nnls, (k_fit (q_wide SDSS 6)), 1%Q, [1; 2; 3; 4; 5; 6]%Q, [1; 1; 1; 1; 1; 1]%Q.
  eexists. do 4 (split; [reflexivity|]). split; vm_compute; reflexivity.
Qed.
