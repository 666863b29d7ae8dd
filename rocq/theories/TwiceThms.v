(** Monte Carlo photometry of KcorrectSDSS objects that is corrected twice (C56): the proofs. *)
From Coq Require Import String List Arith Lia Bool ZArith QArith Qreals Reals Lra.
From Verif Require Import Base BaseLemmas Num Toy Spec Interp Utils Sed Response RespDict Fitter FitSpec
  FitEx Kcorrect KSpec KEx.
Import ListNotations.
Local Open Scope R_scope.
(* STATEMENTS *)
From Verif Require Import UtilsProofs UtilsReal FitterProofs FitterMC KcorrectProofs DerivedProofs McProofs AbsmagProofs AbProofs UtilsThms McThms AbThms ScriptsProofs.

Lemma table_slice (w i : nat) (t : list (list xr)) : rect w t -> (i < w)%nat -> get_last i n0 (table w t) = Ok (vec (map (fun r => nth i r n0) t)).
Proof.
  intros H Hi. change (table w t) with (arr [length t] w t). rewrite get_last_arr; auto; [|cbn; lia].
  unfold vec. rewrite map_length. reflexivity.
Qed.
Lemma slice_value {A} (d : A) a b n w i : shp a = [n; w] -> wf a -> (i < w)%nat -> get_last i d a = Ok b ->
  length (dat b) = n /\ forall j x, (j < n)%nat -> nth j (dat b) x = nth (j * w + i) (dat a) x.
Proof.
  intros Hs Hw Hi E. destruct (@get_last_ok A i d a Hw) as (b' & E' & Sb & Wb & HN); [rewrite Hs; exact Hi|].
  rewrite E in E'. injection E' as <-. rewrite Hs in HN, Sb. change (lastd [n; w]) with w in HN.
  assert (Z : size (lead [n; w]) = n) by (cbn; lia). rewrite Z in HN.
  assert (L : length (dat b) = n) by (rewrite Wb, Sb; exact Z). split; auto.
  intros j x Hj. specialize (HN j Hj). rewrite (nth_error_nth' _ x) in HN by lia. symmetry in HN.
  symmetry. apply nth_error_nth. exact HN.
Qed.

(** C56.  absmag_mc of a KcorrectSDSS object with abcorrect=True applied to photometry that is already in the AB system, as
    the maggies_mc of its fit_coeffs are (L_C56_draws): every measured magnitude of every draw is larger by the AB offset of
    its input band than absmag_mc of the same object without the correction makes it, and it raises whenever that does. *)
Lemma L_C56_twice :
  forall distmod (K : kcor xr) A Ao nt bs (wd : bool) z (M : list (list R)) (iv : list R) C d mc,
    kready K A Ao 5 5 nt -> f_kind (k_fit K) = SDSS -> f_abc (k_fit K) = true ->
    rect mc M -> length M = 5%nat -> length iv = 5%nat -> rect mc C -> length C = nt ->
    let call := fun K => absmag_mc distmod K (table mc (map (map Fin) M)) (Some (vec (map Fin iv))) (Some (scal z)) (table mc C) bs
                           (if wd then Some (scal d) else None) false false in
    match call (kwithout_ab K), call K with
    | Ok (Bare1 x), Ok (Bare1 y) =>
        shp x = [5%nat; mc] /\ shp y = [5%nat; mc] /\
        forall j i, (j < 5)%nat -> (i < mc)%nat ->
          let b := in_band K j in
          let flux := nth i (nth b M []) 0 in
          (0 < flux -> 0 < nth b iv 0 ->
             nth (j * mc + i) (dat y) NaN = nadd (nth (j * mc + i) (dat x) NaN) (Fin (nth b abfix 0))) /\
          (flux <= 0 \/ nth b iv 0 <= 0 ->
             nth (j * mc + i) (dat x) NaN = Fin (-9999) /\ nth (j * mc + i) (dat y) NaN = Fin (-9999))
    | Raise e, Raise e' => e = e'
    | _, _ => False
    end.
Proof.
  intros distmod K A Ao nt bs wd z M iv C d mc HK Hk Ha RM LM Li RC LC call.
  set (mm := table mc (map (map Fin) M)) in *. set (cm := table mc C) in *. set (zz := scal z) in *.
  set (dd := if wd then Some (scal d) else None) in *. set (ii := Some (vec (map Fin iv))) in *.
  assert (Smm : shp mm = [] ++ [5%nat; mc]) by (unfold mm, table; cbn [shp app]; rewrite map_length, LM; reflexivity).
  assert (Scm : shp cm = [] ++ [nt; mc]) by (unfold cm, table; cbn [shp app]; rewrite LC; reflexivity).
  assert (Wcm : wf cm) by (apply wf_table; auto).
  assert (RM' : rect mc (map (map Fin) M)).
  { unfold rect in *. apply Forall_map. eapply Forall_impl; [|exact RM]. cbn. intros r Hr. rewrite map_length. exact Hr. }
  assert (HK' : kready (kwithout_ab K) A Ao 5 5 nt) by exact HK.
  set (mi := fun i => map (fun r => nth i r 0) M). set (ci := fun i => map (fun r => nth i r n0) C).
  assert (SL : forall K i, (i < mc)%nat -> absmag_slice distmod K mm ii (Some zz) cm bs dd false false i =
    absmag_object distmod K bs wd false false false {| ko_z := z; ko_m := map Fin (mi i); ko_iv := map Fin iv; ko_c := ci i; ko_d := d |}).
  { intros K0 i Hi. unfold absmag_slice, mm, cm. rewrite !table_slice by auto. cbn [bind]. unfold absmag_object. cbn [ko_z ko_m ko_iv ko_c ko_d].
    replace (map (fun r => nth i r n0) (map (map Fin) M)) with (map Fin (mi i)); [reflexivity|].
    unfold mi. rewrite !map_map. apply map_ext. intro r. symmetry. apply (map_nth Fin). }
  assert (OFF : forall i, (i < mc)%nat ->
    match absmag_slice distmod (kwithout_ab K) mm ii (Some zz) cm bs dd false false i, absmag_slice distmod K mm ii (Some zz) cm bs dd false false i with
    | Ok (Bare1 x), Ok (Bare1 y) =>
        shp x = [5%nat] /\ shp y = [5%nat] /\
        forall j, (j < 5)%nat ->
          let b := in_band K j in
          (0 < nth b (mi i) 0 -> 0 < nth b iv 0 -> nth j (dat y) NaN = nadd (nth j (dat x) NaN) (Fin (nth b abfix 0))) /\
          (nth b (mi i) 0 <= 0 \/ nth b iv 0 <= 0 -> nth j (dat x) NaN = Fin (-9999) /\ nth j (dat y) NaN = Fin (-9999))
    | Raise e, Raise e' => e = e'
    | _, _ => False
    end).
  { intros i Hi. rewrite !SL by auto. apply (L_C66_offset distmod K A Ao 5 nt bs wd z (mi i) iv (ci i) d); auto; unfold mi, ci; rewrite map_length; auto. }
  (* all draws succeed, or the first failing one is the same *)
  assert (CASES : (forall i, (i < mc)%nat -> exists o, absmag_slice distmod (kwithout_ab K) mm ii (Some zz) cm bs dd false false i = Ok o) \/
    exists j e, (j < mc)%nat /\ (forall i, (i < j)%nat -> exists o, absmag_slice distmod (kwithout_ab K) mm ii (Some zz) cm bs dd false false i = Ok o) /\
      absmag_slice distmod (kwithout_ab K) mm ii (Some zz) cm bs dd false false j = Raise e).
  { clear OFF SL. generalize (absmag_slice distmod (kwithout_ab K) mm ii (Some zz) cm bs dd false false). intro f.
    clearbody mm cm. clear. induction mc as [|n IH]; [left; intros; lia|]. destruct IH as [IH|(j & e & Hj & IH)].
    - destruct (f n) as [o|e] eqn:E.
      + left. intros i Hi. destruct (Nat.eq_dec i n) as [->|]; [eauto|]. apply IH. lia.
      + right. exists n, e. split; [lia|]. split; auto.
    - right. exists j, e. split; [lia|]. exact IH. }
  assert (OK2 : forall i, (i < mc)%nat -> (exists o, absmag_slice distmod (kwithout_ab K) mm ii (Some zz) cm bs dd false false i = Ok o) ->
    exists o, absmag_slice distmod K mm ii (Some zz) cm bs dd false false i = Ok o).
  { intros i Hi (o & Ho). specialize (OFF i Hi). rewrite Ho in OFF. destruct (absmag_slice distmod K mm ii (Some zz) cm bs dd false false i); [eauto|].
    destruct o; contradiction. }
  assert (Wz : wf zz) by reflexivity.
  destruct CASES as [HO|(j & e & Hj & HO & He)].
  - destruct (L_C49_slices xr Num_xr distmod (kwithout_ab K) A Ao 5 nt [] zz mm cm ii bs dd false false mc mc rounding_xr HK' (or_introl eq_refl) eq_refl Wz Smm Scm Wcm HO)
      as (o1 & E1 & _ & B1 & Q1).
    destruct (L_C49_slices xr Num_xr distmod K A Ao 5 nt [] zz mm cm ii bs dd false false mc mc rounding_xr HK (or_introl eq_refl) eq_refl Wz Smm Scm Wcm)
      as (o2 & E2 & _ & B2 & Q2); [intros i Hi; apply OK2; auto|].
    destruct (B1 eq_refl) as [x ->]. destruct (B2 eq_refl) as [y ->]. unfold call. rewrite E1, E2.
    destruct (Q1 0%nat x eq_refl) as (Sx & Wx & HX & _). destruct (Q2 0%nat y eq_refl) as (Sy & Wy & HY & _).
    rewrite Smm in Sx, Sy. cbn [app] in Sx, Sy. cbv iota. split; [exact Sx|]. split; [exact Sy|]. intros j i Hj Hi. cbv zeta. set (b := in_band K j). set (flux := nth i (nth b M []) 0).
    specialize (OFF i Hi).
    destruct (HO i Hi) as [p1 P1]. destruct (OK2 i Hi (HO i Hi)) as [p2 P2].
    destruct (HX i p1 Hi P1) as (v1 & N1 & G1). destruct (HY i p2 Hi P2) as (v2 & N2 & G2).
    rewrite P1, P2 in OFF. destruct p1 as [a1|]; [|contradiction]. destruct p2 as [a2|]; [|contradiction].
    injection N1 as <-. injection N2 as <-. destruct OFF as (_ & _ & OFF). specialize (OFF j Hj). cbv zeta in OFF. fold b in OFF.
    destruct (slice_value _ _ _ _ _ _ Sx Wx Hi G1) as [_ V1]. destruct (slice_value _ _ _ _ _ _ Sy Wy Hi G2) as [_ V2].
    rewrite <- V1, <- V2 by auto. rewrite !map1_id by reflexivity.
    assert (Hb : (b < 5)%nat).
    { destruct HK as (_ & _ & _ & _ & HL & HF). rewrite Forall_forall in HF. apply HF. apply nth_In. lia. }
    replace flux with (nth b (mi i) 0); [exact OFF|]. unfold flux, mi.
    rewrite (nth_indep (map (fun r => nth i r 0) M) 0 ((fun r => nth i r 0) [])) by (rewrite map_length; lia).
    rewrite (map_nth (fun r => nth i r 0)). reflexivity.
  - unfold call.
    destruct (L_C49_failure xr Num_xr distmod (kwithout_ab K) A Ao 5 5 nt [] zz mm cm ii bs dd false false mc mc j e rounding_xr HK' (or_introl eq_refl) (or_introl eq_refl) eq_refl Wz Smm Scm Wcm Hj HO He) as [E1 _].
    assert (He2 : absmag_slice distmod K mm ii (Some zz) cm bs dd false false j = Raise e).
    { specialize (OFF j Hj). rewrite He in OFF. destruct (absmag_slice distmod K mm ii (Some zz) cm bs dd false false j); [contradiction|congruence]. }
    destruct (L_C49_failure xr Num_xr distmod K A Ao 5 5 nt [] zz mm cm ii bs dd false false mc mc j e rounding_xr HK (or_introl eq_refl) (or_introl eq_refl) eq_refl Wz Smm Scm Wcm Hj) as [E2 _]; auto.
    { intros i Hi. apply OK2; [lia|auto]. }
    rewrite E1, E2. reflexivity.
Qed.
Lemma E_C56_twice :
  kready x_kcor5 x_tab5 x_tab5 5 5 1 /\ f_kind (k_fit x_kcor5) = SDSS /\ f_abc (k_fit x_kcor5) = true /\
  rect 2 [[1; 2]; [2; 3]; [-3; 1]; [4; 4]; [5; 6]] /\ length [[1; 2]; [2; 3]; [-3; 1]; [4; 4]; [5; 6]] = 5%nat /\ rect 2 [[Fin 1; Fin 2]].
Proof. split; [apply x_kready5|]. repeat split; repeat constructor. Qed.
