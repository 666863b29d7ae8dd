(** Property theorems; proofs are in McThms.v.  Generated by tools/gen_prop.py. *)
From Coq Require Import String List Arith Lia Bool ZArith QArith.
From Verif Require Import Base BaseLemmas Num Toy Interp Utils Sed Response RespDict Fitter FitSpec FitterProofs FitterMC
  FitEx Kcorrect KSpec KEx KcorrectProofs DerivedProofs McProofs.
Import ListNotations.
Local Open Scope nat_scope.

Lemma mc_call_slice T (N : Num T) distmod (K : kcor T) mm iv z cm bs d r k i :
  mc_call distmod K mm iv z cm bs d r k i = do o <- absmag_slice distmod K mm iv z cm bs d r k i; Ok (parts o).
Proof.
  unfold mc_call, absmag_slice. destruct (get_last i n0 mm); auto. cbn [bind]. destruct (get_last i n0 cm); auto.
Qed.

Section S.
  Context (T : Type) (N : Num T) (distmod : T -> T) (K : kcor T) (A Ao : atab T) (nb no nt : nat) (sh : list nat) (z : nd T)
          (mm cm : nd T) (iv : option (nd T)) (bs : T) (d : option (nd T)) (r k : bool) (mc mc' : nat).
  Hypothesis (HR : rounding N) (HK : kready K A Ao nb no nt) (Hsh : batch_shape sh) (Hz : shp z = sh) (Wz : wf z)
    (Hmm : shp mm = sh ++ [nb; mc']) (Hcm : shp cm = sh ++ [nt; mc]) (Wcm : wf cm).

  Lemma cm_snoc : shp cm = (sh ++ [nt]) ++ [mc].
  Proof. rewrite Hcm, <- app_assoc. auto. Qed.
  Lemma mm_snoc : shp mm = (sh ++ [nb]) ++ [mc'].
  Proof. rewrite Hmm, <- app_assoc. auto. Qed.

  Lemma slice_shape i o : absmag_slice distmod K mm iv (Some z) cm bs d r k i = Ok o ->
    Forall (fun v => shp v = sh ++ [no] /\ wf v) (parts o) /\ length (parts o) = 1 + count r + count k /\ i < mc'.
  Proof.
    unfold absmag_slice. intro H. apply bind_ok in H as (m & Hm & H). apply bind_ok in H as (c & Hc & H).
    destruct (get_last_shp _ _ _ _ _ mm_snoc Hm) as [Sm Him]. destruct (get_last_shp _ _ _ _ _ cm_snoc Hc) as [Sc Hic].
    assert (Wc : wf c).
    { destruct (@get_last_ok T i n0 cm Wcm) as (b & E & _ & Wb & _); [rewrite cm_snoc, lastd_snoc; auto|]. congruence. }
    split; [|split; auto].
    - eapply absmag_shape with (K := K); eauto.
    - apply absmag_parts in H. unfold count. rewrite H. lia.
  Qed.

  Lemma repeat_goods n : goods (repeat (sh ++ [nb]) n) mc' (repeat (full (shp mm) n0) n).
  Proof.
    induction n; cbn; constructor; auto. rewrite mm_snoc. apply good_full.
  Qed.
  Lemma shaped_all (P : nd T -> Prop) vals n : (forall v, P v -> storable (sh ++ [nb]) v) -> Forall P vals -> length vals = n ->
    shaped (repeat (sh ++ [nb]) n) vals.
  Proof.
    intros HP HF <-. induction HF; cbn; constructor; auto.
  Qed.

  (** The general form: the stored value of a slice is its broadcast to the input bands. *)
  Lemma mc_general : (forall v : nd T, shp v = sh ++ [no] -> wf v -> storable (sh ++ [nb]) v) ->
    (forall i, i < mc -> exists o, absmag_slice distmod K mm iv (Some z) cm bs d r k i = Ok o) ->
    exists out, absmag_mc distmod K mm iv (Some z) cm bs d r k = Ok out /\
      length (parts out) = 1 + count r + count k /\ (r || k = false -> exists a, out = Bare1 a) /\
      forall q a, nth_error (parts out) q = Some a -> shp a = shp mm /\ wf a /\
        (forall i o, i < mc -> absmag_slice distmod K mm iv (Some z) cm bs d r k i = Ok o ->
           exists v, nth_error (parts o) q = Some v /\ shp v = sh ++ [no] /\ wf v /\
                     get_last i n0 a = Ok (stored (sh ++ [nb]) v)) /\
        (forall i, mc <= i < mc' -> get_last i n0 a = Ok (full (sh ++ [nb]) n0)).
  Proof.
    intros HS HO. rewrite (absmag_mc_eq _ _ _ _ _ _ _ _ _ _ _ _ cm_snoc).
    set (vals := fun i => match absmag_slice distmod K mm iv (Some z) cm bs d r k i with Ok o => parts o | Raise _ => [] end).
    set (n := 1 + (if r then 1 else 0) + (if k then 1 else 0)).
    assert (HC : forall t, 0 <= t < 0 + mc -> mc_call distmod K mm iv (Some z) cm bs d r k t = Ok (vals t) /\
                                shaped (repeat (sh ++ [nb]) n) (vals t)).
    { intros t Ht. destruct (HO t) as [o Ho]; [lia|]. rewrite mc_call_slice. unfold vals. rewrite Ho. split; auto.
      destruct (slice_shape t o Ho) as (F & L & _).
      eapply shaped_all; [|exact F|]; [|exact L]. intros v [V1 V2]. auto. }
    assert (HW : mc <= mc').
    { destruct (Nat.eq_dec mc 0); [lia|]. destruct (HO (mc - 1)) as [o Ho]; [lia|]. apply slice_shape in Ho. lia. }
    destruct (loop_ok mc' (repeat (sh ++ [nb]) n) (mc_call distmod K mm iv (Some z) cm bs d r k) vals mc 0 (repeat (full (shp mm) n0) n)) as (outs & E & G & Q); auto.
    { apply repeat_goods. }
    rewrite E. cbn [bind]. assert (LO : length outs = n).
    { apply Forall2_length' in G. rewrite repeat_length in G. auto. }
    exists (match outs with [a] => Bare1 a | l => Tuple l end).
    assert (EP : parts (match outs with [a] => Bare1 a | l => Tuple l end) = outs).
    { destruct outs as [|a [|b l]]; auto. }
    split; [destruct outs as [|a [|b l]]; auto|]. rewrite EP. split; [auto|]. split.
    { intro Hrk. assert (n = 1) by (unfold n; destruct r, k; auto; discriminate).
      destruct outs as [|a [|b l]]; cbn in LO; try lia. eauto. }
    intros q a Ha. destruct (Q q a Ha) as (a0 & sh1 & Ea0 & Es1 & HI & HO').
    assert (Esh : sh1 = sh ++ [nb]).
    { apply nth_error_In in Es1. apply repeat_spec in Es1. auto. }
    assert (Ea0' : a0 = full (shp mm) n0).
    { apply nth_error_In in Ea0. apply repeat_spec in Ea0. auto. }
    subst sh1 a0.
    assert (Ga : good (sh ++ [nb]) mc' a).
    { unfold goods in G. clear - G Ha Es1. revert G Es1 Ha. generalize (repeat (sh ++ [nb]) n) as shs. intros shs G. revert q.
      induction G; intros [|q] E1 E2; try discriminate; [injection E1 as ->; injection E2 as ->; auto|eauto]. }
    apply good_iff in Ga as [Sa Wa]. split; [rewrite mm_snoc; auto|]. split; auto. split.
    - intros i o Hi Ho. destruct (HI i) as (v & Ev & Eg); [lia|]. exists v.
      unfold vals in Ev. rewrite Ho in Ev. destruct (slice_shape i o Ho) as (F & L & _). rewrite Forall_forall in F.
      destruct (F v) as [V1 V2]; [eapply nth_error_In; eauto|]. auto.
    - intros i Hi. rewrite HO' by lia. rewrite mm_snoc. apply get_full. lia.
  Qed.

  Lemma mc_error j e : (forall v : nd T, shp v = sh ++ [no] -> wf v -> storable (sh ++ [nb]) v) -> j < mc ->
    (forall i, i < j -> exists o, absmag_slice distmod K mm iv (Some z) cm bs d r k i = Ok o) ->
    absmag_slice distmod K mm iv (Some z) cm bs d r k j = Raise e ->
    absmag_mc distmod K mm iv (Some z) cm bs d r k = Raise e.
  Proof.
    intros HS Hj HO He. rewrite (absmag_mc_eq _ _ _ _ _ _ _ _ _ _ _ _ cm_snoc).
    set (vals := fun i => match absmag_slice distmod K mm iv (Some z) cm bs d r k i with Ok o => parts o | Raise _ => [] end).
    set (n := 1 + (if r then 1 else 0) + (if k then 1 else 0)).
    assert (HC : forall t, 0 <= t < j -> t < mc' /\ mc_call distmod K mm iv (Some z) cm bs d r k t = Ok (vals t) /\
                                shaped (repeat (sh ++ [nb]) n) (vals t)).
    { intros t Ht. destruct (HO t) as [o Ho]; [lia|]. rewrite mc_call_slice. unfold vals. rewrite Ho.
      destruct (slice_shape t o Ho) as (F & L & W). split; auto. split; auto.
      eapply shaped_all; [|exact F|]; [|exact L]. intros v [V1 V2]. auto. }
    assert (HE : mc_call distmod K mm iv (Some z) cm bs d r k j = Raise e) by (rewrite mc_call_slice, He; auto).
    rewrite (loop_err mc' (repeat (sh ++ [nb]) n) (mc_call distmod K mm iv (Some z) cm bs d r k) vals e mc 0 _ j); auto; [apply repeat_goods|lia].
  Qed.
End S.
From Verif Require Import McThms.

(** C49.  With as many output bands as input bands absmag_mc returns as many arrays as absmag without the limits, each of
    the shape of maggies_mc, and slice i of each is the array absmag returns for slice i of maggies_mc and coeffs_mc (as
    float32); it never fails when these calls succeed.  Draws of maggies_mc beyond the number of draws of coeffs_mc are
    0.  For all kinds of objects, with or without AB correction. *)
Theorem C49_slices :
  forall (T : Type) (N : Num T) distmod (K : kcor T) A Ao nb nt sh z mm cm iv bs d r k mc mc',
    rounding N -> kready K A Ao nb nb nt -> batch_shape sh -> shp z = sh -> wf z ->
    shp mm = sh ++ [nb; mc'] -> shp cm = sh ++ [nt; mc] -> wf cm ->
    (forall i, i < mc -> exists o, absmag_slice distmod K mm iv (Some z) cm bs d r k i = Ok o) ->
    exists out, absmag_mc distmod K mm iv (Some z) cm bs d r k = Ok out /\
      length (parts out) = 1 + count r + count k /\ (r || k = false -> exists a, out = Bare1 a) /\
      forall q a, nth_error (parts out) q = Some a -> shp a = shp mm /\ wf a /\
        (forall i o, i < mc -> absmag_slice distmod K mm iv (Some z) cm bs d r k i = Ok o ->
           exists v, nth_error (parts o) q = Some v /\ get_last i n0 a = Ok (map1 cst v)) /\
        (forall i, mc <= i < mc' -> get_last i n0 a = Ok (full (sh ++ [nb]) n0)).
Proof. exact L_C49_slices. Qed.
Print Assumptions C49_slices.

Example ex_C49_slices :
  kready q_kcor q_tab q_out 2 2 3 /\
  absmag_mc (fun z : Q => z) q_kcor (mk [2; 3] [1; 2; 9; 4; 5; 9]%Q) (Some (vec [1; 1]%Q)) (Some (scal 1%Q))
    (mk [3; 2] [1; 0; 0; 1; 0; 0]%Q) 0%Q None false false =
    match absmag_slice (fun z : Q => z) q_kcor (mk [2; 3] [1; 2; 9; 4; 5; 9]%Q) (Some (vec [1; 1]%Q)) (Some (scal 1%Q))
           (mk [3; 2] [1; 0; 0; 1; 0; 0]%Q) 0%Q None false false 0,
          absmag_slice (fun z : Q => z) q_kcor (mk [2; 3] [1; 2; 9; 4; 5; 9]%Q) (Some (vec [1; 1]%Q)) (Some (scal 1%Q))
           (mk [3; 2] [1; 0; 0; 1; 0; 0]%Q) 0%Q None false false 1 with
    | Ok (Bare1 a), Ok (Bare1 b) => Ok (Bare1 (mk [2; 3] [nth 0 (dat a) 0; nth 0 (dat b) 0; 0; nth 1 (dat a) 0; nth 1 (dat b) 0; 0]%Q))
    | _, _ => Raise Unmodelled
    end.
Proof. exact E_C49_slices. Qed.

(** The exception of the first slice for which absmag fails is raised.  Fewer draws of maggies than of coefficients are an
    IndexError. *)
Theorem C49_failure :
  forall (T : Type) (N : Num T) distmod (K : kcor T) A Ao nb no nt sh z mm cm iv bs d r k mc mc' j e,
    rounding N -> kready K A Ao nb no nt -> no = nb \/ no = 1 -> batch_shape sh -> shp z = sh -> wf z ->
    shp mm = sh ++ [nb; mc'] -> shp cm = sh ++ [nt; mc] -> wf cm -> j < mc ->
    (forall i, i < j -> exists o, absmag_slice distmod K mm iv (Some z) cm bs d r k i = Ok o) ->
    absmag_slice distmod K mm iv (Some z) cm bs d r k j = Raise e ->
    absmag_mc distmod K mm iv (Some z) cm bs d r k = Raise e /\ (mc' <= j -> e = IndexError /\ j = mc').
Proof. exact L_C49_failure. Qed.
Print Assumptions C49_failure.

Example ex_C49_failure :
  absmag_mc (fun z : Q => z) q_kcor (mk [2; 1] [1; 4]%Q) (Some (vec [1; 1]%Q)) (Some (scal 1%Q))
    (mk [3; 2] [1; 0; 0; 1; 0; 0]%Q) 0%Q None true true = Raise IndexError.
Proof. exact E_C49_failure. Qed.

(** With one output band and several input bands the value of that band is repeated for every input band. *)
Theorem C49_single_output :
  forall (T : Type) (N : Num T) distmod (K : kcor T) A Ao nb nt sh z mm cm iv bs d r k mc mc',
    rounding N -> kready K A Ao nb 1 nt -> batch_shape sh -> shp z = sh -> wf z ->
    shp mm = sh ++ [nb; mc'] -> shp cm = sh ++ [nt; mc] -> wf cm ->
    (forall i, i < mc -> exists o, absmag_slice distmod K mm iv (Some z) cm bs d r k i = Ok o) ->
    exists out, absmag_mc distmod K mm iv (Some z) cm bs d r k = Ok out /\ length (parts out) = 1 + count r + count k /\
      forall q a, nth_error (parts out) q = Some a -> shp a = shp mm /\
        (forall i o, i < mc -> absmag_slice distmod K mm iv (Some z) cm bs d r k i = Ok o ->
           exists v, nth_error (parts o) q = Some v /\ shp v = sh ++ [1] /\
                     get_last i n0 a = Ok (replicated sh nb (map1 cst v))).
Proof. exact L_C49_single_output. Qed.
Print Assumptions C49_single_output.

Example ex_C49_single_output :
  kready q_kcor1 q_tab q_out1 2 1 3 /\
  match absmag_mc (fun z : Q => z) q_kcor1 (mk [2; 1] [2; 4]%Q) (Some (vec [1; 1]%Q)) (Some (scal 1%Q))
          (mk [3; 1] [1; 0; 0]%Q) 0%Q None false false,
        absmag_slice (fun z : Q => z) q_kcor1 (mk [2; 1] [2; 4]%Q) (Some (vec [1; 1]%Q)) (Some (scal 1%Q))
          (mk [3; 1] [1; 0; 0]%Q) 0%Q None false false 0 with
  | Ok (Bare1 a), Ok (Bare1 v) => shp v = [1] /\ dat a = dat v ++ dat v
  | _, _ => False
  end.
Proof. exact E_C49_single_output. Qed.

(** With any other numbers of bands it raises ValueError, if absmag works for the first draw. *)
Theorem C49_mismatch :
  forall (T : Type) (N : Num T) distmod (K : kcor T) A Ao nb no nt sh z mm cm iv bs d r k mc mc' o,
    rounding N -> kready K A Ao nb no nt -> no <> nb -> no <> 1 -> batch_shape sh -> shp z = sh -> wf z ->
    shp mm = sh ++ [nb; mc'] -> shp cm = sh ++ [nt; mc] -> wf cm -> 1 <= mc ->
    absmag_slice distmod K mm iv (Some z) cm bs d r k 0 = Ok o ->
    absmag_mc distmod K mm iv (Some z) cm bs d r k = Raise ValueError.
Proof. exact L_C49_mismatch. Qed.
Print Assumptions C49_mismatch.

Example ex_C49_mismatch :
  let K := {| k_fit := q_fitter; k_tmpl := k_tmpl q_kcor; k_out := ["y"; "x"; "y"]%string; k_map := ["u"; "g"; "u"]%string;
              k_Aout := Some {| a_x := [0; 1; 2]%Q; a_rows := [[1; 1; 1; 1; 1; 1; 1; 1; 1]; [1; 2; 1; 1; 2; 1; 1; 2; 1];
                                  [1; 1; 1; 1; 1; 1; 1; 1; 1]]%Q; a_shape := [3; 3] |};
              k_imap := [0; 1; 0]; k_rr := (0, 2)%Q |} in
  (exists o, absmag_slice (fun z : Q => z) K (mk [2; 1] [2; 4]%Q) (Some (vec [1; 1]%Q)) (Some (scal 1%Q))
          (mk [3; 1] [1; 0; 0]%Q) 0%Q None false false 0 = Ok o) /\
  absmag_mc (fun z : Q => z) K (mk [2; 1] [2; 4]%Q) (Some (vec [1; 1]%Q)) (Some (scal 1%Q))
          (mk [3; 1] [1; 0; 0]%Q) 0%Q None false false = Raise ValueError.
Proof. exact E_C49_mismatch. Qed.

(** C52.  derived_mc returns the quantities derived returns, each with an axis for the draws: slice i is the value derived
    returns for slice i of coeffs_mc (as float32).  It never fails when the calls of derived succeed. *)
Theorem C52_slices :
  forall (T : Type) (N : Num T) distmod dict (K : kcor T) A Ao nb no nt sh z cm bs d mc,
    kready K A Ao nb no nt -> batch_shape sh -> shp z = sh -> wf z -> shp cm = sh ++ [nt; mc] -> wf cm ->
    (forall x, d = Some x -> wf x) -> 1 <= mc ->
    (forall i, i < mc -> exists o, derived_slice distmod dict K (Some z) cm bs d i = Ok o) ->
    exists out, derived_mc distmod dict K (Some z) cm bs d = Ok (Some out) /\
      forall i o, i < mc -> derived_slice distmod dict K (Some z) cm bs d i = Ok o ->
        map fst out = map fst o /\
        forall q key a, nth_error out q = Some (key, a) ->
          exists v, nth_error o q = Some (key, v) /\ shp a = shp v ++ [mc] /\ get_last i n0 a = Ok (map1 cst v).
Proof. exact L_C52_slices. Qed.
Print Assumptions C52_slices.

Example ex_C52_slices :
  let dict := q_solar in
  let cm := mk [3; 2] [1; 0; 0; 1; 0; 2]%Q in
  match derived_mc (fun z : Q => z) dict q_kcor (Some (scal 1%Q)) cm 0%Q None,
        derived_slice (fun z : Q => z) dict q_kcor (Some (scal 1%Q)) cm 0%Q None 0,
        derived_slice (fun z : Q => z) dict q_kcor (Some (scal 1%Q)) cm 0%Q None 1 with
  | Ok (Some ((k0, a) :: _)), Ok ((k1, v) :: _), Ok ((k2, w) :: _) =>
      k0 = "mremain"%string /\ k1 = k0 /\ k2 = k0 /\ a = vec (dat v ++ dat w) /\ dat v <> dat w
  | _, _, _ => False
  end.
Proof. exact E_C52_slices. Qed.

(** Without draws it returns None, and the exception of the first failing draw is raised. *)
Theorem C52_no_draws :
  forall (T : Type) (N : Num T) distmod dict (K : kcor T) z cm bs d s,
    shp cm = s ++ [0] -> derived_mc distmod dict K z cm bs d = Ok None.
Proof. exact L_C52_no_draws. Qed.
Print Assumptions C52_no_draws.

Example ex_C52_no_draws :
  derived_mc (fun z : Q => z) [] q_kcor (Some (scal 1%Q)) (mk [3; 0] []) 0%Q None = Ok None.
Proof. exact E_C52_no_draws. Qed.

Theorem C52_failure :
  forall (T : Type) (N : Num T) distmod dict (K : kcor T) A Ao nb no nt sh z cm bs d mc j e,
    kready K A Ao nb no nt -> batch_shape sh -> shp z = sh -> wf z -> shp cm = sh ++ [nt; mc] -> wf cm ->
    (forall x, d = Some x -> wf x) -> j < mc ->
    (forall i, i < j -> exists o, derived_slice distmod dict K (Some z) cm bs d i = Ok o) ->
    derived_slice distmod dict K (Some z) cm bs d j = Raise e ->
    derived_mc distmod dict K (Some z) cm bs d = Raise e.
Proof. exact L_C52_failure. Qed.
Print Assumptions C52_failure.

Example ex_C52_failure :
  derived_mc (fun z : Q => z) [] q_kcor (Some (scal 1%Q)) (mk [3; 2] [1; 0; 0; 1; 0; 2]%Q) 0%Q None = Raise KeyError.
Proof. exact E_C52_failure. Qed.
