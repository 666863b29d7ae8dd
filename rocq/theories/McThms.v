(** Properties of absmag_mc and derived_mc (C49, C52): the proofs.  Prop_Mc.v restates them. *)
From Coq Require Import String List Arith Lia Bool ZArith QArith.
From Verif Require Import Base BaseLemmas Num Toy Interp Utils Sed Response RespDict Fitter FitSpec FitterProofs FitterMC
  FitEx Kcorrect KSpec KEx KcorrectProofs DerivedProofs McProofs.
Import ListNotations.
Local Open Scope nat_scope.

Lemma mc_call_slice T (N : Num T) distmod (K : kcor T) mm iv z cm bs d r k i :
  mc_call distmod K mm iv z cm bs d r k i = do o <- absmag_slice distmod K mm iv z cm bs d r k i; Ok (parts o).
Proof.
  unfold mc_call, absmag_slice. destruct (get_last i n0 mm); auto. cbn [bind]. destruct (get_last i n0 cm); auto.
Qed.

Section S.
  Context (T : Type) (N : Num T) (distmod : T -> T) (K : kcor T) (A Ao : atab T) (nb no nt : nat) (sh : list nat) (z : nd T)
          (mm cm : nd T) (iv : option (nd T)) (bs : T) (d : option (nd T)) (r k : bool) (mc mc' : nat).
  Hypothesis (HR : rounding N) (HK : kready K A Ao nb no nt) (Hsh : batch_shape sh) (Hz : shp z = sh) (Wz : wf z)
    (Hmm : shp mm = sh ++ [nb; mc']) (Hcm : shp cm = sh ++ [nt; mc]) (Wcm : wf cm).

  Lemma cm_snoc : shp cm = (sh ++ [nt]) ++ [mc].
  Proof. rewrite Hcm, <- app_assoc. auto. Qed.
  Lemma mm_snoc : shp mm = (sh ++ [nb]) ++ [mc'].
  Proof. rewrite Hmm, <- app_assoc. auto. Qed.

  Lemma slice_shape i o : absmag_slice distmod K mm iv (Some z) cm bs d r k i = Ok o ->
    Forall (fun v => shp v = sh ++ [no] /\ wf v) (parts o) /\ length (parts o) = 1 + count r + count k /\ i < mc'.
  Proof.
    unfold absmag_slice. intro H. apply bind_ok in H as (m & Hm & H). apply bind_ok in H as (c & Hc & H).
    destruct (get_last_shp _ _ _ _ _ mm_snoc Hm) as [Sm Him]. destruct (get_last_shp _ _ _ _ _ cm_snoc Hc) as [Sc Hic].
    assert (Wc : wf c).
    { destruct (@get_last_ok T i n0 cm Wcm) as (b & E & _ & Wb & _); [rewrite cm_snoc, lastd_snoc; auto|]. congruence. }
    split; [|split; auto].
    - eapply absmag_shape with (K := K); eauto.
    - apply absmag_parts in H. unfold count. rewrite H. lia.
  Qed.

  Lemma repeat_goods n : goods (repeat (sh ++ [nb]) n) mc' (repeat (full (shp mm) n0) n).
  Proof.
    induction n; cbn; constructor; auto. rewrite mm_snoc. apply good_full.
  Qed.
  Lemma shaped_all (P : nd T -> Prop) vals n : (forall v, P v -> storable (sh ++ [nb]) v) -> Forall P vals -> length vals = n ->
    shaped (repeat (sh ++ [nb]) n) vals.
  Proof.
    intros HP HF <-. induction HF; cbn; constructor; auto.
  Qed.

  (** The general form: the stored value of a slice is its broadcast to the input bands. *)
  Lemma mc_general : (forall v : nd T, shp v = sh ++ [no] -> wf v -> storable (sh ++ [nb]) v) ->
    (forall i, i < mc -> exists o, absmag_slice distmod K mm iv (Some z) cm bs d r k i = Ok o) ->
    exists out, absmag_mc distmod K mm iv (Some z) cm bs d r k = Ok out /\
      length (parts out) = 1 + count r + count k /\ (r || k = false -> exists a, out = Bare1 a) /\
      forall q a, nth_error (parts out) q = Some a -> shp a = shp mm /\ wf a /\
        (forall i o, i < mc -> absmag_slice distmod K mm iv (Some z) cm bs d r k i = Ok o ->
           exists v, nth_error (parts o) q = Some v /\ shp v = sh ++ [no] /\ wf v /\
                     get_last i n0 a = Ok (stored (sh ++ [nb]) v)) /\
        (forall i, mc <= i < mc' -> get_last i n0 a = Ok (full (sh ++ [nb]) n0)).
  Proof.
    intros HS HO. rewrite (absmag_mc_eq _ _ _ _ _ _ _ _ _ _ _ _ cm_snoc).
    set (vals := fun i => match absmag_slice distmod K mm iv (Some z) cm bs d r k i with Ok o => parts o | Raise _ => [] end).
    set (n := 1 + (if r then 1 else 0) + (if k then 1 else 0)).
    assert (HC : forall t, 0 <= t < 0 + mc -> mc_call distmod K mm iv (Some z) cm bs d r k t = Ok (vals t) /\
                                shaped (repeat (sh ++ [nb]) n) (vals t)).
    { intros t Ht. destruct (HO t) as [o Ho]; [lia|]. rewrite mc_call_slice. unfold vals. rewrite Ho. split; auto.
      destruct (slice_shape t o Ho) as (F & L & _).
      eapply shaped_all; [|exact F|]; [|exact L]. intros v [V1 V2]. auto. }
    assert (HW : mc <= mc').
    { destruct (Nat.eq_dec mc 0); [lia|]. destruct (HO (mc - 1)) as [o Ho]; [lia|]. apply slice_shape in Ho. lia. }
    destruct (loop_ok mc' (repeat (sh ++ [nb]) n) (mc_call distmod K mm iv (Some z) cm bs d r k) vals mc 0 (repeat (full (shp mm) n0) n)) as (outs & E & G & Q); auto.
    { apply repeat_goods. }
    rewrite E. cbn [bind]. assert (LO : length outs = n).
    { apply Forall2_length' in G. rewrite repeat_length in G. auto. }
    exists (match outs with [a] => Bare1 a | l => Tuple l end).
    assert (EP : parts (match outs with [a] => Bare1 a | l => Tuple l end) = outs).
    { destruct outs as [|a [|b l]]; auto. }
    split; [destruct outs as [|a [|b l]]; auto|]. rewrite EP. split; [auto|]. split.
    { intro Hrk. assert (n = 1) by (unfold n; destruct r, k; auto; discriminate).
      destruct outs as [|a [|b l]]; cbn in LO; try lia. eauto. }
    intros q a Ha. destruct (Q q a Ha) as (a0 & sh1 & Ea0 & Es1 & HI & HO').
    assert (Esh : sh1 = sh ++ [nb]).
    { apply nth_error_In in Es1. apply repeat_spec in Es1. auto. }
    assert (Ea0' : a0 = full (shp mm) n0).
    { apply nth_error_In in Ea0. apply repeat_spec in Ea0. auto. }
    subst sh1 a0.
    assert (Ga : good (sh ++ [nb]) mc' a).
    { unfold goods in G. clear - G Ha Es1. revert G Es1 Ha. generalize (repeat (sh ++ [nb]) n) as shs. intros shs G. revert q.
      induction G; intros [|q] E1 E2; try discriminate; [injection E1 as ->; injection E2 as ->; auto|eauto]. }
    apply good_iff in Ga as [Sa Wa]. split; [rewrite mm_snoc; auto|]. split; auto. split.
    - intros i o Hi Ho. destruct (HI i) as (v & Ev & Eg); [lia|]. exists v.
      unfold vals in Ev. rewrite Ho in Ev. destruct (slice_shape i o Ho) as (F & L & _). rewrite Forall_forall in F.
      destruct (F v) as [V1 V2]; [eapply nth_error_In; eauto|]. auto.
    - intros i Hi. rewrite HO' by lia. rewrite mm_snoc. apply get_full. lia.
  Qed.

  Lemma mc_error j e : (forall v : nd T, shp v = sh ++ [no] -> wf v -> storable (sh ++ [nb]) v) -> j < mc ->
    (forall i, i < j -> exists o, absmag_slice distmod K mm iv (Some z) cm bs d r k i = Ok o) ->
    absmag_slice distmod K mm iv (Some z) cm bs d r k j = Raise e ->
    absmag_mc distmod K mm iv (Some z) cm bs d r k = Raise e.
  Proof.
    intros HS Hj HO He. rewrite (absmag_mc_eq _ _ _ _ _ _ _ _ _ _ _ _ cm_snoc).
    set (vals := fun i => match absmag_slice distmod K mm iv (Some z) cm bs d r k i with Ok o => parts o | Raise _ => [] end).
    set (n := 1 + (if r then 1 else 0) + (if k then 1 else 0)).
    assert (HC : forall t, 0 <= t < j -> t < mc' /\ mc_call distmod K mm iv (Some z) cm bs d r k t = Ok (vals t) /\
                                shaped (repeat (sh ++ [nb]) n) (vals t)).
    { intros t Ht. destruct (HO t) as [o Ho]; [lia|]. rewrite mc_call_slice. unfold vals. rewrite Ho.
      destruct (slice_shape t o Ho) as (F & L & W). split; auto. split; auto.
      eapply shaped_all; [|exact F|]; [|exact L]. intros v [V1 V2]. auto. }
    assert (HE : mc_call distmod K mm iv (Some z) cm bs d r k j = Raise e) by (rewrite mc_call_slice, He; auto).
    rewrite (loop_err mc' (repeat (sh ++ [nb]) n) (mc_call distmod K mm iv (Some z) cm bs d r k) vals e mc 0 _ j); auto; [apply repeat_goods|lia].
  Qed.
End S.
(* STATEMENTS *)

(** C49.  With as many output bands as input bands absmag_mc returns as many arrays as absmag without the limits, each of
    the shape of maggies_mc, and slice i of each is the array absmag returns for slice i of maggies_mc and coeffs_mc (as
    float32); it never fails when these calls succeed.  Draws of maggies_mc beyond the number of draws of coeffs_mc are
    0.  For all kinds of objects, with or without AB correction. *)
Lemma L_C49_slices :
  forall (T : Type) (N : Num T) distmod (K : kcor T) A Ao nb nt sh z mm cm iv bs d r k mc mc',
    rounding N -> kready K A Ao nb nb nt -> batch_shape sh -> shp z = sh -> wf z ->
    shp mm = sh ++ [nb; mc'] -> shp cm = sh ++ [nt; mc] -> wf cm ->
    (forall i, i < mc -> exists o, absmag_slice distmod K mm iv (Some z) cm bs d r k i = Ok o) ->
    exists out, absmag_mc distmod K mm iv (Some z) cm bs d r k = Ok out /\
      length (parts out) = 1 + count r + count k /\ (r || k = false -> exists a, out = Bare1 a) /\
      forall q a, nth_error (parts out) q = Some a -> shp a = shp mm /\ wf a /\
        (forall i o, i < mc -> absmag_slice distmod K mm iv (Some z) cm bs d r k i = Ok o ->
           exists v, nth_error (parts o) q = Some v /\ get_last i n0 a = Ok (map1 cst v)) /\
        (forall i, mc <= i < mc' -> get_last i n0 a = Ok (full (sh ++ [nb]) n0)).
Proof.
  intros T N distmod K A Ao nb nt sh z mm cm iv bs d r k mc mc' HR HK Hsh Hz Wz Hmm Hcm Wcm HO.
  destruct (mc_general T N distmod K A Ao nb nb nt sh z mm cm iv bs d r k mc mc' HR HK Hsh Hz Wz Hmm Hcm Wcm)
    as (out & E & L & B & Q); auto.
  { intros v Sv Wv. apply stored_same; auto. }
  exists out. split; auto. split; auto. split; auto. intros q a Ha. destruct (Q q a Ha) as (Sa & Wa & HI & HZ).
  split; auto. split; auto. split; auto. intros i o Hi Ho. destruct (HI i o Hi Ho) as (v & Ev & Sv & Wv & Eg).
  exists v. split; auto. rewrite Eg. f_equal. apply stored_same; auto.
Qed.
Lemma E_C49_slices :
  kready q_kcor q_tab q_out 2 2 3 /\
  absmag_mc (fun z : Q => z) q_kcor (mk [2; 3] [1; 2; 9; 4; 5; 9]%Q) (Some (vec [1; 1]%Q)) (Some (scal 1%Q))
    (mk [3; 2] [1; 0; 0; 1; 0; 0]%Q) 0%Q None false false =
    match absmag_slice (fun z : Q => z) q_kcor (mk [2; 3] [1; 2; 9; 4; 5; 9]%Q) (Some (vec [1; 1]%Q)) (Some (scal 1%Q))
           (mk [3; 2] [1; 0; 0; 1; 0; 0]%Q) 0%Q None false false 0,
          absmag_slice (fun z : Q => z) q_kcor (mk [2; 3] [1; 2; 9; 4; 5; 9]%Q) (Some (vec [1; 1]%Q)) (Some (scal 1%Q))
           (mk [3; 2] [1; 0; 0; 1; 0; 0]%Q) 0%Q None false false 1 with
    | Ok (Bare1 a), Ok (Bare1 b) => Ok (Bare1 (mk [2; 3] [nth 0 (dat a) 0; nth 0 (dat b) 0; 0; nth 1 (dat a) 0; nth 1 (dat b) 0; 0]%Q))
    | _, _ => Raise Unmodelled
    end.
Proof. split; [apply q_kready|]. vm_compute. reflexivity. Qed.

(** The exception of the first slice for which absmag fails is raised.  Fewer draws of maggies than of coefficients are an
    IndexError. *)
Lemma L_C49_failure :
  forall (T : Type) (N : Num T) distmod (K : kcor T) A Ao nb no nt sh z mm cm iv bs d r k mc mc' j e,
    rounding N -> kready K A Ao nb no nt -> no = nb \/ no = 1 -> batch_shape sh -> shp z = sh -> wf z ->
    shp mm = sh ++ [nb; mc'] -> shp cm = sh ++ [nt; mc] -> wf cm -> j < mc ->
    (forall i, i < j -> exists o, absmag_slice distmod K mm iv (Some z) cm bs d r k i = Ok o) ->
    absmag_slice distmod K mm iv (Some z) cm bs d r k j = Raise e ->
    absmag_mc distmod K mm iv (Some z) cm bs d r k = Raise e /\ (mc' <= j -> e = IndexError /\ j = mc').
Proof.
  intros T N distmod K A Ao nb no nt sh z mm cm iv bs d r k mc mc' j e HR HK Hno Hsh Hz Wz Hmm Hcm Wcm Hj HO He. split.
  - eapply mc_error with (j := j); eauto. intros v Sv Wv. destruct Hno as [-> | ->].
    + apply stored_same; auto.
    + eexists. apply bto_one; auto. apply wf_map1; auto.
  - intro Hj'. assert (Ej : j = mc').
    { destruct (Nat.eq_dec j mc') as [|Hne]; auto. destruct (HO mc') as [o Ho]; [lia|].
      eapply slice_shape in Ho; eauto. lia. }
    split; auto. unfold absmag_slice in He. rewrite get_last_err in He; [injection He; auto|].
    right. rewrite Hmm. change [nb; mc'] with ([nb] ++ [mc']). rewrite app_assoc, lastd_snoc. lia.
Qed.
Lemma E_C49_failure :
  absmag_mc (fun z : Q => z) q_kcor (mk [2; 1] [1; 4]%Q) (Some (vec [1; 1]%Q)) (Some (scal 1%Q))
    (mk [3; 2] [1; 0; 0; 1; 0; 0]%Q) 0%Q None true true = Raise IndexError.
Proof. vm_compute. reflexivity. Qed.

(** With one output band and several input bands the value of that band is repeated for every input band. *)
Lemma L_C49_single_output :
  forall (T : Type) (N : Num T) distmod (K : kcor T) A Ao nb nt sh z mm cm iv bs d r k mc mc',
    rounding N -> kready K A Ao nb 1 nt -> batch_shape sh -> shp z = sh -> wf z ->
    shp mm = sh ++ [nb; mc'] -> shp cm = sh ++ [nt; mc] -> wf cm ->
    (forall i, i < mc -> exists o, absmag_slice distmod K mm iv (Some z) cm bs d r k i = Ok o) ->
    exists out, absmag_mc distmod K mm iv (Some z) cm bs d r k = Ok out /\ length (parts out) = 1 + count r + count k /\
      forall q a, nth_error (parts out) q = Some a -> shp a = shp mm /\
        (forall i o, i < mc -> absmag_slice distmod K mm iv (Some z) cm bs d r k i = Ok o ->
           exists v, nth_error (parts o) q = Some v /\ shp v = sh ++ [1] /\
                     get_last i n0 a = Ok (replicated sh nb (map1 cst v))).
Proof.
  intros T N distmod K A Ao nb nt sh z mm cm iv bs d r k mc mc' HR HK Hsh Hz Wz Hmm Hcm Wcm HO.
  assert (B1 : forall v : nd T, shp v = sh ++ [1] -> wf v -> bto n0 (sh ++ [nb]) (map1 cst v) = Ok (dat (replicated sh nb (map1 cst v)))).
  { intros v Sv Wv. apply bto_one; auto. apply wf_map1; auto. }
  destruct (mc_general T N distmod K A Ao nb 1 nt sh z mm cm iv bs d r k mc mc' HR HK Hsh Hz Wz Hmm Hcm Wcm)
    as (out & E & L & B & Q); auto.
  { intros v Sv Wv. eexists. apply B1; auto. }
  exists out. split; auto. split; auto. intros q a Ha. destruct (Q q a Ha) as (Sa & Wa & HI & HZ).
  split; auto. intros i o Hi Ho. destruct (HI i o Hi Ho) as (v & Ev & Sv & Wv & Eg).
  exists v. split; auto. split; auto. rewrite Eg. f_equal. unfold stored. rewrite B1 by auto. reflexivity.
Qed.
Lemma E_C49_single_output :
  kready q_kcor1 q_tab q_out1 2 1 3 /\
  match absmag_mc (fun z : Q => z) q_kcor1 (mk [2; 1] [2; 4]%Q) (Some (vec [1; 1]%Q)) (Some (scal 1%Q))
          (mk [3; 1] [1; 0; 0]%Q) 0%Q None false false,
        absmag_slice (fun z : Q => z) q_kcor1 (mk [2; 1] [2; 4]%Q) (Some (vec [1; 1]%Q)) (Some (scal 1%Q))
          (mk [3; 1] [1; 0; 0]%Q) 0%Q None false false 0 with
  | Ok (Bare1 a), Ok (Bare1 v) => shp v = [1] /\ dat a = dat v ++ dat v
  | _, _ => False
  end.
Proof. split; [apply q_kready1|]. vm_compute. auto. Qed.

(** With any other numbers of bands it raises ValueError, if absmag works for the first draw. *)
Lemma L_C49_mismatch :
  forall (T : Type) (N : Num T) distmod (K : kcor T) A Ao nb no nt sh z mm cm iv bs d r k mc mc' o,
    rounding N -> kready K A Ao nb no nt -> no <> nb -> no <> 1 -> batch_shape sh -> shp z = sh -> wf z ->
    shp mm = sh ++ [nb; mc'] -> shp cm = sh ++ [nt; mc] -> wf cm -> 1 <= mc ->
    absmag_slice distmod K mm iv (Some z) cm bs d r k 0 = Ok o ->
    absmag_mc distmod K mm iv (Some z) cm bs d r k = Raise ValueError.
Proof.
  intros T N distmod K A Ao nb no nt sh z mm cm iv bs d r k mc mc' o HR HK H1 H2 Hsh Hz Wz Hmm Hcm Wcm Hmc Ho.
  rewrite (absmag_mc_eq _ _ _ _ _ _ _ _ _ _ _ _ (cm_snoc T nt sh cm mc Hcm)).
  destruct (slice_shape T N distmod K A Ao nb no nt sh z mm cm iv bs d r k mc mc' HR HK Hsh Hz Wz Hmm Hcm Wcm 0 o Ho) as (F & L & W).
  destruct mc as [|mc]; [lia|]. cbn [seq foldM]. rewrite mc_call_slice, Ho. cbn [bind].
  destruct (parts o) as [|v vs] eqn:EP; [discriminate|]. inversion F as [|? ? [Sv Wv] _]; subst.
  cbn [Nat.add repeat]. unfold store_all. cbn [combine mapM fst snd].
  rewrite (store_bad (shp z ++ [nb]) mc' 0 v (full (shp mm) n0) ValueError); auto.
  - rewrite Hmm. change [nb; mc'] with ([nb] ++ [mc']). rewrite app_assoc. apply good_full.
  - eapply bto_mismatch; eauto.
Qed.
Lemma E_C49_mismatch :
  let K := {| k_fit := q_fitter; k_tmpl := k_tmpl q_kcor; k_out := ["y"; "x"; "y"]%string; k_map := ["u"; "g"; "u"]%string;
              k_Aout := Some {| a_x := [0; 1; 2]%Q; a_rows := [[1; 1; 1; 1; 1; 1; 1; 1; 1]; [1; 2; 1; 1; 2; 1; 1; 2; 1];
                                  [1; 1; 1; 1; 1; 1; 1; 1; 1]]%Q; a_shape := [3; 3] |};
              k_imap := [0; 1; 0]; k_rr := (0, 2)%Q |} in
  (exists o, absmag_slice (fun z : Q => z) K (mk [2; 1] [2; 4]%Q) (Some (vec [1; 1]%Q)) (Some (scal 1%Q))
          (mk [3; 1] [1; 0; 0]%Q) 0%Q None false false 0 = Ok o) /\
  absmag_mc (fun z : Q => z) K (mk [2; 1] [2; 4]%Q) (Some (vec [1; 1]%Q)) (Some (scal 1%Q))
          (mk [3; 1] [1; 0; 0]%Q) 0%Q None false false = Raise ValueError.
Proof. split; [eexists; vm_compute; reflexivity|]. vm_compute. reflexivity. Qed.

(** C52.  derived_mc returns the quantities derived returns, each with an axis for the draws: slice i is the value derived
    returns for slice i of coeffs_mc (as float32).  It never fails when the calls of derived succeed. *)
Lemma L_C52_slices :
  forall (T : Type) (N : Num T) distmod dict (K : kcor T) A Ao nb no nt sh z cm bs d mc,
    kready K A Ao nb no nt -> batch_shape sh -> shp z = sh -> wf z -> shp cm = sh ++ [nt; mc] -> wf cm ->
    (forall x, d = Some x -> wf x) -> 1 <= mc ->
    (forall i, i < mc -> exists o, derived_slice distmod dict K (Some z) cm bs d i = Ok o) ->
    exists out, derived_mc distmod dict K (Some z) cm bs d = Ok (Some out) /\
      forall i o, i < mc -> derived_slice distmod dict K (Some z) cm bs d i = Ok o ->
        map fst out = map fst o /\
        forall q key a, nth_error out q = Some (key, a) ->
          exists v, nth_error o q = Some (key, v) /\ shp a = shp v ++ [mc] /\ get_last i n0 a = Ok (map1 cst v).
Proof.
  intros T N distmod dict K A Ao nb no nt sh z cm bs d mc HK Hsh Hz Wz Hcm Wcm Wd Hmc HO.
  assert (Hcm' : shp cm = (sh ++ [nt]) ++ [mc]) by (rewrite Hcm, <- app_assoc; auto).
  set (shs := [sh; sh; sh ++ [no]; sh; sh; sh; sh]).
  assert (HD : forall i o, derived_slice distmod dict K (Some z) cm bs d i = Ok o -> map fst o = der_keys /\
    Forall2 (fun sh v => shp v = sh /\ wf v) shs (map snd o)).
  { intros i o H. unfold derived_slice in H. apply bind_ok in H as (c & Hc & H).
    destruct (get_last_shp _ _ _ _ _ Hcm' Hc) as [Sc Hi].
    assert (Wc : wf c).
    { destruct (@get_last_ok T i n0 cm Wcm) as (b & E & _ & Wb & _); [rewrite Hcm', lastd_snoc; auto|]. congruence. }
    eapply derived_shape; eauto. }
  set (vals := fun i => match derived_slice distmod dict K (Some z) cm bs d i with Ok o => map snd o | Raise _ => [] end).
  assert (HC : forall t, 0 <= t < 0 + mc -> dmc_call distmod dict K (Some z) cm bs d t = Ok (vals t) /\ shaped shs (vals t)).
  { intros t Ht. destruct (HO t) as [o Ho]; [lia|]. unfold dmc_call, vals. rewrite Ho. split; auto.
    destruct (HD t o Ho) as [_ F]. unfold shaped. clear - F. induction F as [|? ? ? ? [S W] F IH]; constructor; auto.
    apply stored_same; auto. }
  destruct (HO 0) as [o0 Ho0]; [lia|]. destruct (HD 0 o0 Ho0) as [Hk0 F0].
  set (init := map (fun v => full (shp v ++ [mc]) (n0 : T)) (map snd o0)).
  assert (GI : goods shs mc init).
  { unfold goods, init. clear - F0. induction F0 as [|? ? ? ? [S W] F IH]; cbn; constructor; auto. rewrite S. apply good_full. }
  destruct (loop_ok mc shs (dmc_call distmod dict K (Some z) cm bs d) vals mc 0 init ltac:(lia) GI HC) as (outs & E & G & Q).
  assert (LI : length init = 7). { apply Forall2_length' in GI. auto. }
  assert (EM : forall n i outs0, length outs0 = 7 -> i + n <= mc ->
    foldM (derived_mc_step distmod dict K (Some z) cm bs d mc) (seq i n) (Some (combine der_keys outs0)) =
    (do l <- foldM (fun outs t => do vs <- dmc_call distmod dict K (Some z) cm bs d t; store_all t outs vs) (seq i n) outs0;
     Ok (Some (combine der_keys l)))).
  { induction n as [|n IH]; intros i outs0 L0 Hi; cbn [seq foldM]; auto.
    destruct (HO i) as [o Ho]; [lia|]. destruct (HD i o Ho) as [Hk F].
    rewrite (dmc_step _ _ _ _ _ _ _ _ _ _ _ Ho Hk L0). unfold dmc_call at 1. rewrite Ho. cbn [bind].
    destruct (store_all i outs0 (map snd o)) as [l|] eqn:EL; cbn [bind]; auto. apply IH; [|lia].
    unfold store_all in EL. apply mapM_ok_length in EL. rewrite EL, combine_length, L0, map_length.
    rewrite <- (map_length fst), Hk. auto. }
  exists (combine der_keys outs).
  assert (LO : length outs = 7). { apply Forall2_length' in G. auto. }
  split.
  - unfold derived_mc. rewrite Hcm', snoc_match, lastd_snoc.
    destruct mc as [|m]; [lia|]. cbn [seq foldM]. rewrite (dmc_first _ _ _ _ _ _ _ _ _ _ Ho0 Hk0). fold init.
    specialize (EM (S m) 0 init LI ltac:(lia)). cbn [seq foldM] in EM. rewrite EM. cbn [seq foldM] in E. rewrite E. auto.
  - intros i o Hi Ho. destruct (HD i o Ho) as [Hk F]. split.
    { rewrite Hk. clear - LO. destruct (seven _ LO) as (? & ? & ? & ? & ? & ? & ? & ->). reflexivity. }
    intros q key a Hq.
    assert (Hqa : nth_error der_keys q = Some key /\ nth_error outs q = Some a).
    { clear - Hq. revert outs q Hq. generalize der_keys. intro l. induction l as [|x l IH]; intros [|y outs] [|q] H; try discriminate.
      - injection H as -> ->. auto.
      - cbn. apply IH; auto. }
    destruct Hqa as [Hkey Hqa]. destruct (Q q a Hqa) as (a0 & sh1 & Ea0 & Es1 & HI & _).
    destruct (HI i) as (v & Ev & Eg); [lia|]. unfold vals in Ev. rewrite Ho in Ev.
    exists v. rewrite <- Hk in Hkey. rewrite nth_error_map in Ev, Hkey.
    destruct (nth_error o q) as [[k1 v1]|] eqn:Eo; [|discriminate]. cbn in Ev, Hkey. injection Ev as ->. injection Hkey as ->.
    split; auto.
    assert (SV : shp v = sh1 /\ wf v).
    { assert (Ev : nth_error (map snd o) q = Some v) by (rewrite nth_error_map, Eo; auto). clear - F Es1 Ev. revert q Es1 Ev.
      induction F; intros [|q] E1 E2; try discriminate; [injection E1 as ->; injection E2 as ->; auto|eauto]. }
    assert (Ga : good sh1 mc a).
    { clear - G Hqa Es1. revert q Es1 Hqa. unfold goods in G.
      induction G; intros [|q] E1 E2; try discriminate; [injection E1 as ->; injection E2 as ->; auto|eauto]. }
    apply good_iff in Ga as [Sa _]. destruct SV as [SV WV]. split; [congruence|]. rewrite Eg. f_equal. apply stored_same; auto.
Qed.
Lemma E_C52_slices :
  let dict := q_solar in
  let cm := mk [3; 2] [1; 0; 0; 1; 0; 2]%Q in
  match derived_mc (fun z : Q => z) dict q_kcor (Some (scal 1%Q)) cm 0%Q None,
        derived_slice (fun z : Q => z) dict q_kcor (Some (scal 1%Q)) cm 0%Q None 0,
        derived_slice (fun z : Q => z) dict q_kcor (Some (scal 1%Q)) cm 0%Q None 1 with
  | Ok (Some ((k0, a) :: _)), Ok ((k1, v) :: _), Ok ((k2, w) :: _) =>
      k0 = "mremain"%string /\ k1 = k0 /\ k2 = k0 /\ a = vec (dat v ++ dat w) /\ dat v <> dat w
  | _, _, _ => False
  end.
Proof. vm_compute. repeat split; try reflexivity. discriminate. Qed.

(** Without draws it returns None, and the exception of the first failing draw is raised. *)
Lemma L_C52_no_draws :
  forall (T : Type) (N : Num T) distmod dict (K : kcor T) z cm bs d s,
    shp cm = s ++ [0] -> derived_mc distmod dict K z cm bs d = Ok None.
Proof.
  intros T N distmod dict K z cm bs d s H. unfold derived_mc. rewrite H, snoc_match, lastd_snoc. reflexivity.
Qed.
Lemma E_C52_no_draws :
  derived_mc (fun z : Q => z) [] q_kcor (Some (scal 1%Q)) (mk [3; 0] []) 0%Q None = Ok None.
Proof. reflexivity. Qed.

Lemma L_C52_failure :
  forall (T : Type) (N : Num T) distmod dict (K : kcor T) A Ao nb no nt sh z cm bs d mc j e,
    kready K A Ao nb no nt -> batch_shape sh -> shp z = sh -> wf z -> shp cm = sh ++ [nt; mc] -> wf cm ->
    (forall x, d = Some x -> wf x) -> j < mc ->
    (forall i, i < j -> exists o, derived_slice distmod dict K (Some z) cm bs d i = Ok o) ->
    derived_slice distmod dict K (Some z) cm bs d j = Raise e ->
    derived_mc distmod dict K (Some z) cm bs d = Raise e.
Proof.
  intros T N distmod dict K A Ao nb no nt sh z cm bs d mc j e HK Hsh Hz Wz Hcm Wcm Wd Hj HO He.
  assert (Hcm' : shp cm = (sh ++ [nt]) ++ [mc]) by (rewrite Hcm, <- app_assoc; auto).
  set (shs := [sh; sh; sh ++ [no]; sh; sh; sh; sh]).
  assert (HD : forall i o, derived_slice distmod dict K (Some z) cm bs d i = Ok o -> map fst o = der_keys /\
    Forall2 (fun sh v => shp v = sh /\ wf v) shs (map snd o)).
  { intros i o H. unfold derived_slice in H. apply bind_ok in H as (c & Hc & H).
    destruct (get_last_shp _ _ _ _ _ Hcm' Hc) as [Sc Hi].
    assert (Wc : wf c).
    { destruct (@get_last_ok T i n0 cm Wcm) as (b & E & _ & Wb & _); [rewrite Hcm', lastd_snoc; auto|]. congruence. }
    eapply derived_shape; eauto. }
  assert (ES : forall out, derived_mc_step distmod dict K (Some z) cm bs d mc out j = Raise e).
  { intro out. unfold derived_mc_step. unfold derived_slice in He. destruct (get_last j n0 cm); cbn [bind] in *; [|injection He as ->; auto].
    rewrite He. auto. }
  unfold derived_mc. rewrite Hcm', snoc_match, lastd_snoc.
  assert (EM : forall n i outs0, goods shs mc outs0 -> i <= j < i + n -> i + n <= mc ->
    foldM (derived_mc_step distmod dict K (Some z) cm bs d mc) (seq i n) (Some (combine der_keys outs0)) = Raise e).
  { induction n as [|n IH]; intros i outs0 G0 Hi Hm; [lia|]. cbn [seq foldM].
    destruct (Nat.eq_dec i j) as [->|Hne]; [rewrite ES; auto|].
    destruct (HO i) as [o Ho]; [lia|]. destruct (HD i o Ho) as [Hk F].
    assert (L0 : length outs0 = 7) by (apply Forall2_length' in G0; auto).
    rewrite (dmc_step _ _ _ _ _ _ _ _ _ _ _ Ho Hk L0).
    assert (SHD : shaped shs (map snd o)).
    { unfold shaped. clear - F. induction F as [|? ? ? ? [S W] F IH]; constructor; auto. apply stored_same; auto. }
    destruct (store_all_ok mc i shs ltac:(lia) outs0 G0 _ SHD) as (o1 & E1 & G1 & _).
    rewrite E1. cbn [bind]. apply IH; auto; lia. }
  destruct mc as [|m]; [lia|]. destruct j as [|j].
  - cbn [seq foldM]. rewrite ES. auto.
  - destruct (HO 0) as [o0 Ho0]; [lia|]. destruct (HD 0 o0 Ho0) as [Hk0 F0]. cbn [seq foldM].
    rewrite (dmc_first _ _ _ _ _ _ _ _ _ _ Ho0 Hk0).
    set (init := map (fun v => full (shp v ++ [S m]) (n0 : T)) (map snd o0)).
    assert (GI : goods shs (S m) init).
    { unfold goods, init. clear - F0. induction F0 as [|? ? ? ? [S W] F IH]; cbn; constructor; auto. rewrite S. apply good_full. }
    specialize (EM (S m) 0 init GI ltac:(lia) ltac:(lia)). cbn [seq foldM] in EM. rewrite EM. auto.
Qed.
Lemma E_C52_failure :
  derived_mc (fun z : Q => z) [] q_kcor (Some (scal 1%Q)) (mk [3; 2] [1; 0; 0; 1; 0; 2]%Q) 0%Q None = Raise KeyError.
Proof. vm_compute. reflexivity. Qed.
