(** Exceptions for missing or malformed arguments, and what is rounded to float32 (C74-C77 and additions): the proofs.
    Prop_Error.v restates them. *)
From Coq Require Import String List Arith Lia Bool ZArith QArith Qreals Reals Lra.
From Verif Require Import Base BaseLemmas Num Toy Interp Spec Utils Sed Response RespDict ResponseObj
  Fitter FitSpec FitterProofs FitterMC FitEx FitterThms Kcorrect KSpec KcorrectProofs KEx Persist PersistSpec AbsmagProofs.
Import ListNotations.
Local Open Scope nat_scope.

(* STATEMENTS *)
Section Aux.
  Context {T : Type} {N : Num T}.
  Lemma rows_missing nnls rng (F : fitter T) m iv mc : m = None \/ iv = None ->
    forall zs cur i, zs <> [] -> fit_rows nnls rng F m iv mc cur i zs = Raise TypeError.
  Proof.
    intros H [|z zs] cur i Hz; [congruence|]. cbn [fit_rows fit_row].
    destruct m as [m|]; destruct iv as [iv|]; try reflexivity. destruct H; discriminate.
  Qed.
  Lemma map_cst_fix (l : list T) : rounding N -> Forall (fun v => cst v = v) (map cst l).
  Proof. intros [H _]. apply Forall_forall. intros v Hv. apply in_map_iff in Hv as (x & <- & _). apply H. Qed.
  Lemma nth_fix (l : list T) k : rounding N -> Forall (fun v => cst v = v) l -> cst (nth k l n0) = nth k l n0.
  Proof.
    intros [_ H0] H. destruct (Nat.lt_ge_cases k (length l)) as [Hk|Hk].
    - rewrite Forall_forall in H. apply H, nth_In, Hk.
    - rewrite nth_overflow by auto. exact H0.
  Qed.
  Lemma bto_fix o v (l : list T) : rounding N -> Forall (fun v => cst v = v) (dat v) -> bto n0 o v = Ok l ->
    Forall (fun v => cst v = v) l.
  Proof.
    intros R H. unfold bto. destruct (bshape _ _) as [o'|]; [|discriminate]. destruct (shape_eqb _ _); [|discriminate].
    intro E. injection E as <-. apply Forall_forall. intros x Hx. apply in_map_iff in Hx as (j & <- & _).
    unfold bget. cbn [dat]. apply nth_fix; auto.
  Qed.
  Lemma of_cols_fix m (cols : list (list T)) : rounding N -> Forall (Forall (fun v => cst v = v)) cols ->
    Forall (fun v => cst v = v) (dat (of_cols m cols)).
  Proof.
    intros R H. unfold of_cols. cbn [dat]. apply Forall_forall. intros x Hx. apply in_concat in Hx as (r & Hr & Hx).
    apply in_map_iff in Hr as (k & <- & _). apply in_map_iff in Hx as (c & <- & Hc). rewrite Forall_forall in H.
    apply nth_fix; auto.
  Qed.
  Lemma scatter_fix mask : forall (old new : list T), Forall (fun v => cst v = v) old -> Forall (fun v => cst v = v) new ->
    Forall (fun v => cst v = v) (scatter mask old new).
  Proof.
    induction mask as [|b mask IH]; intros [|x old] new H1 H2; cbn [scatter]; auto.
    inversion H1; subst. destruct b.
    - destruct new as [|y new]; [constructor; auto|]. inversion H2; subst. constructor; auto.
    - constructor; auto.
  Qed.
  Lemma draw_fix rng (m e : list T) cur : rounding N -> Forall (fun v => cst v = v) (fst (draw rng m e cur)).
  Proof.
    intro R. unfold draw. cbn [fst]. apply scatter_fix; [apply map_cst_fix, R|].
    generalize (gather (map (fun e0 => nltb n0 e0) e) (map cst m)) as l1.
    generalize (zip nmul (map rng (seq cur (length (gather (map (fun e0 => nltb n0 e0) e) e))))
                         (map (fun e0 => ndiv n1 e0) (gather (map (fun e0 => nltb n0 e0) e) e))) as l2.
    intros l2 l1. revert l2. induction l1 as [|a l1 IH]; intros [|b l2]; cbn [zip]; constructor; auto. apply R.
  Qed.
  Lemma mc_loop_fix nnls rng nsed A (m e : list T) mc : rounding N -> forall cur ms cs cur',
    mc_loop nnls rng nsed A m e mc cur = Ok (ms, cs, cur') ->
    Forall (Forall (fun v => cst v = v)) ms /\ Forall (Forall (fun v => cst v = v)) cs.
  Proof.
    intro R. induction mc as [|mc IH]; intros cur ms cs cur' H; cbn [mc_loop] in H.
    - injection H as <- <- <-. auto.
    - destruct (draw rng m e cur) as [d cur1] eqn:ED. pose proof (draw_fix rng m e cur R) as HD. rewrite ED in HD. cbn [fst] in HD.
      destruct (nnls_retry nnls A _) as [c|]; [|discriminate]. cbn [bind] in H.
      destruct (bto n0 [nsed] (map1 cst c)) as [c'|] eqn:EB; [|discriminate]. cbn [bind] in H.
      destruct (mc_loop nnls rng nsed A m e mc cur1) as [[[ms1 cs1] cur2]|] eqn:EM; [|discriminate]. cbn [bind] in H.
      injection H as <- <- <-. apply IH in EM as [H1 H2]. split; constructor; auto.
      apply (bto_fix [nsed] (map1 cst c)); auto. apply map_cst_fix, R.
  Qed.
  Lemma fit1_three_fix nnls rng (F : fitter T) z m iv mc cur c cm mm cur' : rounding N ->
    fit1 nnls rng F z m iv mc cur = Ok (Three c cm mm, cur') ->
    Forall (fun v => cst v = v) (dat cm) /\ Forall (fun v => cst v = v) (dat mm).
  Proof.
    intros R. unfold fit1. destruct iv as [iv|]; [|discriminate].
    destruct (match f_A F with None => _ | Some A => _ end) as [A|[]]; try discriminate; try (destruct (Nat.eqb mc 0); discriminate).
    destruct m as [m|]; [|discriminate]. destruct (bin nmul n0 n0 m _) as [b|]; [|discriminate]. cbn [bind].
    destruct (nnls_retry nnls A b) as [c0|]; [|discriminate]. cbn [bind]. destruct (Nat.eqb mc 0); [discriminate|].
    destruct (mc_loop _ _ _ _ _ _ _ _) as [[[ms cs] cur2]|] eqn:EM; [|discriminate]. cbn [bind]. intro H. injection H as _ <- <- _.
    apply (mc_loop_fix _ _ _ _ _ _ _ R) in EM as [H1 H2]. split; apply of_cols_fix; auto.
  Qed.
  Lemma fit_row_fix nnls rng (F : fitter T) m iv mc cur i z c cm mm cur' : rounding N ->
    fit_row nnls rng F m iv mc cur i z = Ok (c, cm, mm, cur') ->
    Forall (fun v => cst v = v) c /\ Forall (fun v => cst v = v) cm /\ Forall (fun v => cst v = v) mm.
  Proof.
    intros R. unfold fit_row. destruct m as [m|]; [|discriminate]. destruct iv as [iv|]; [|discriminate].
    destruct (fit1 _ _ _ _ _ _ _ _) as [[o cur1]|] eqn:E1; [|discriminate]. cbn [bind].
    destruct (Nat.eqb mc 0).
    - destruct o as [c0| |]; try discriminate. destruct (bto _ _ _) as [c'|] eqn:EB; [|discriminate]. cbn [bind].
      intro H. injection H as <- <- <- _. split; [|auto]. apply (bto_fix _ _ _ R) in EB; auto. apply map_cst_fix, R.
    - destruct o as [|c0|c0 cm0 mm0]; try discriminate.
      destruct (bto n0 [f_nsed F] (map1 cst c0)) as [c'|] eqn:EB; [|discriminate]. cbn [bind].
      destruct (bto n0 [f_nsed F; mc] cm0) as [cm'|] eqn:EC; [|discriminate]. cbn [bind].
      destruct (bto n0 [length (f_resp F); mc] mm0) as [mm'|] eqn:EM; [|discriminate]. cbn [bind].
      intro H. injection H as <- <- <- _. apply (fit1_three_fix nnls rng F _ _ _ _ _ _ _ _ _ R) in E1 as [H1 H2].
      apply (bto_fix _ _ _ R) in EB; [|apply map_cst_fix, R]. apply (bto_fix _ _ _ R) in EC; auto. apply (bto_fix _ _ _ R) in EM; auto.
  Qed.
  Lemma fit_rows_fix nnls rng (F : fitter T) m iv mc : rounding N -> forall zs cur i cs cms mms cur',
    fit_rows nnls rng F m iv mc cur i zs = Ok (cs, cms, mms, cur') ->
    Forall (Forall (fun v => cst v = v)) cs /\ Forall (Forall (fun v => cst v = v)) cms /\ Forall (Forall (fun v => cst v = v)) mms.
  Proof.
    intro R. induction zs as [|z zs IH]; intros cur i cs cms mms cur' H; cbn [fit_rows] in H.
    - injection H as <- <- <- _. auto.
    - destruct (fit_row _ _ _ _ _ _ _ _ _) as [[[[c cm] mm] cur1]|] eqn:E1; [|discriminate]. cbn [bind] in H.
      destruct (fit_rows _ _ _ _ _ _ _ _ _) as [[[[cs1 cms1] mms1] cur2]|] eqn:E2; [|discriminate]. cbn [bind] in H.
      injection H as <- <- <- _. apply (fit_row_fix nnls rng F _ _ _ _ _ _ _ _ _ _ R) in E1 as (A1 & A2 & A3).
      apply IH in E2 as (B1 & B2 & B3). auto.
  Qed.
  Lemma Forall_concat' {A} (P : A -> Prop) (l : list (list A)) : Forall (Forall P) l -> Forall P (concat l).
  Proof. induction 1 as [|r l H _ IH]; cbn; [constructor|]. apply Forall_app; auto. Qed.
  Lemma zip_fix {B C} (f : B -> C -> T) : (forall b c, cst (f b c) = f b c) -> forall l1 l2, Forall (fun v => cst v = v) (zip f l1 l2).
  Proof. intros H l1. induction l1 as [|a l1 IH]; intros [|b l2]; cbn [zip]; constructor; auto. Qed.
  Lemma mapM_In {A B} (f : A -> res B) l out : mapM f l = Ok out -> Forall (fun b => exists a, In a l /\ f a = Ok b) out.
  Proof.
    revert out. induction l as [|a l IH]; intros out H; cbn [mapM] in H; [injection H as <-; constructor|].
    destruct (f a) as [b|] eqn:E; [|discriminate]. cbn [bind] in H. destruct (mapM f l) as [bs|]; [|discriminate]. cbn [bind] in H.
    injection H as <-. constructor; [exists a; cbn; auto|]. eapply Forall_impl; [|apply IH; reflexivity].
    intros x (a' & H1 & H2). exists a'. cbn; auto.
  Qed.
  Lemma not_outside (A : atab T) t : ~ outside A t -> out_of (a_x A) t = false.
  Proof. intro H. destruct (out_of (a_x A) t) eqn:E; auto. apply outside_iff in E. contradiction. Qed.
End Aux.

(** C74.  fit_coeffs without inverse variances raises TypeError, for one object and for batches. *)
Lemma L_C74_no_ivar :
  forall (T : Type) (N : Num T) nnls rng (F : fitter T) z m mc cur,
    no_ab F -> documented (length (f_resp F)) (f_nsed F) z m None None -> wf z -> shp z <> [0] ->
    fit_coeffs nnls rng F (Some z) m None mc cur = Raise TypeError.
Proof.
  intros T N nnls rng F z m mc cur Hab HD Hw Hz. unfold fit_coeffs. rewrite process_inputs_ok by auto. cbn [bind]. unfold fit_after.
  cbn [q_n plain_pin q_iv q_m option_map q_z]. destruct HD as [(Ez & _)|(n & Ez & _)]; unfold ndim; rewrite Ez.
  - reflexivity.
  - cbn [length Nat.eqb size fold_right]. rewrite Nat.mul_1_r. destruct (Nat.eqb n 1) eqn:E1; [reflexivity|].
    rewrite rows_missing; auto. intro E0. apply Hz. rewrite Ez. f_equal. unfold wf in Hw. rewrite Ez in Hw. cbn in Hw.
    cbn [map1 dat] in E0. destruct (dat z); [cbn in Hw; lia|discriminate].
Qed.
Lemma E_C74_no_ivar : no_ab q_fitter /\ documented 2 3 (vec [0; 1]%Q) (Some (table 2 [[1; 2]; [3; 4]]%Q)) None None /\
  fit_coeffs ex_nnls (fun _ => 0%Q) q_fitter (Some (vec [0; 1]%Q)) (Some (table 2 [[1; 2]; [3; 4]]%Q)) None 0 0 = Raise TypeError.
Proof.
  split; [right; reflexivity|]. split; [|reflexivity]. right. exists 2. repeat split; intros a H; try discriminate; injection H as <-; reflexivity.
Qed.

(** Without maggies the exception is TypeError, except that for one object (mc=0) the out-of-range redshift is noticed first:
    then the answer is zero coefficients and no exception. *)
Lemma L_C74_no_maggies :
  forall (T : Type) (N : Num T) nnls rng (F : fitter T) A nb nt z iv mc cur,
    no_ab F -> ready F A nb nt -> nb <> 1 -> length iv = nb ->
    (~ outside A (cst z) -> fit_coeffs nnls rng F (Some (scal z)) None (Some (vec iv)) mc cur = Raise TypeError) /\
    (outside A (cst z) -> fit_coeffs nnls rng F (Some (scal z)) None (Some (vec iv)) 0 cur = Ok (Bare (vec (repeat n0 nt)), cur)).
Proof.
  intros T N nnls rng F A nb nt z iv mc cur Hab HR H1 Hiv. pose proof HR as (HA & Hb & Ht & Htab).
  assert (HD : documented (length (f_resp F)) (f_nsed F) (scal z) None (Some (vec iv)) None).
  { left. repeat split; intros a E; try discriminate. injection E as <-. unfold vec. cbn. congruence. }
  assert (E : forall mc, fit_coeffs nnls rng F (Some (scal z)) None (Some (vec iv)) mc cur =
    if out_of (a_x A) (cst z) then fit_coeffs nnls rng F (Some (scal z)) None (Some (vec iv)) mc cur else Raise TypeError).
  { intro mc'. destruct (out_of (a_x A) (cst z)) eqn:EO; auto. unfold fit_coeffs. rewrite process_inputs_ok by auto. cbn [bind].
    unfold fit_after. cbn [q_n plain_pin q_iv q_m option_map q_z Nat.eqb].
    change (Nat.eqb (ndim (scal z)) 1) with false. cbn [Nat.eqb]. change (squeeze (map1 cst (scal z))) with (scal (cst z)). unfold fit1. rewrite HA.
    rewrite (acall_scal _ Htab), EO. cbn [bind]. rewrite Ht. unfold map1, vec. cbn [shp dat].
    rewrite squeeze_vec by (rewrite ?map_length; congruence). cbn [dat shp inverr_matrix].
    unfold inverr_matrix, bin. cbn [shp dat]. rewrite !map_length, Hiv.
    destruct (bshape [nb; nt] [nb; nt]) as [o|] eqn:EB; [reflexivity|]. exfalso.
    unfold bshape in EB. cbn in EB. rewrite !Nat.eqb_refl in EB. discriminate. }
  split.
  - intro HO. rewrite E. destruct (out_of (a_x A) (cst z)) eqn:EO; auto. exfalso. apply HO, outside_iff, EO.
  - intro HO. apply outside_iff in HO. unfold fit_coeffs. rewrite process_inputs_ok by auto. cbn [bind].
    unfold fit_after. cbn [q_n plain_pin q_iv q_m option_map q_z q_array Nat.eqb].
    change (Nat.eqb (ndim (scal z)) 1) with false. cbn [Nat.eqb]. change (squeeze (map1 cst (scal z))) with (scal (cst z)). unfold fit1. rewrite HA.
    rewrite (acall_scal _ Htab), HO. cbn [bind Nat.eqb]. rewrite Ht. unfold full, vec, size. cbn [fold_right].
    rewrite repeat_length, Nat.mul_1_r. reflexivity.
Qed.
Lemma E_C74_no_maggies : ~ outside q_tab 1%Q /\ outside q_tab 5%Q /\
  fit_coeffs ex_nnls (fun _ => 0%Q) q_fitter (Some (scal 1%Q)) None (Some (vec [1; 1]%Q)) 0 0 = Raise TypeError /\
  fit_coeffs ex_nnls (fun _ => 0%Q) q_fitter (Some (scal 5%Q)) None (Some (vec [1; 1]%Q)) 0 0 = Ok (Bare (vec [0; 0; 0]%Q), 0).
Proof.
  split; [intro H; apply outside_iff in H; vm_compute in H; discriminate|].
  split; [apply outside_iff; vm_compute; reflexivity|]. split; vm_compute; reflexivity.
Qed.

(** A batch of two or more without maggies always raises; an empty batch never does, with or without photometry. *)
Lemma L_C74_batches :
  forall (T : Type) (N : Num T) nnls rng (F : fitter T) z m iv mc cur,
    no_ab F -> documented (length (f_resp F)) (f_nsed F) z m iv None -> wf z ->
    (forall n, shp z = [n] -> 2 <= n -> m = None -> fit_coeffs nnls rng F (Some z) m iv mc cur = Raise TypeError) /\
    (shp z = [0] -> fit_coeffs nnls rng F (Some z) m iv 0 cur = Ok (Bare (mk [0; f_nsed F] []), cur)).
Proof.
  intros T N nnls rng F z m iv mc cur Hab HD Hw. unfold fit_coeffs. rewrite process_inputs_ok by auto. cbn [bind]. unfold fit_after.
  cbn [q_n plain_pin q_iv q_m option_map q_z]. split.
  - intros n Ez Hn Hm. subst m. unfold ndim. rewrite Ez. cbn [length Nat.eqb size fold_right]. rewrite Nat.mul_1_r.
    destruct (Nat.eqb n 1) eqn:E1; [apply Nat.eqb_eq in E1; lia|]. rewrite rows_missing; auto.
    unfold wf in Hw. rewrite Ez in Hw. cbn in Hw. destruct z as [s [|x l]]; cbn in *; [lia|discriminate].
  - intros Ez. unfold ndim. rewrite Ez. cbn [length Nat.eqb size fold_right Nat.mul].
    unfold wf in Hw. rewrite Ez in Hw. cbn in Hw. destruct z as [s [|x l]]; cbn in *; [reflexivity|discriminate].
Qed.
Lemma E_C74_batches : fit_coeffs ex_nnls (fun _ => 0%Q) q_fitter (Some (vec [5; 5]%Q)) None (Some (table 2 [[1; 2]; [3; 4]]%Q)) 0 0
    = Raise TypeError /\
  fit_coeffs ex_nnls (fun _ => 0%Q) q_fitter (Some (vec (@nil Q))) None None 0 7 = Ok (Bare (mk [0; 3] []), 7).
Proof. split; vm_compute; reflexivity. Qed.

(** absmag without maggies, or without inverse variances, raises TypeError once the K-corrections can be computed. *)
Lemma L_C74_absmag :
  forall (T : Type) (N : Num T) distmod (K : kcor T) z m iv c bs d r l k kc,
    no_ab (k_fit K) -> documented (length (f_resp (k_fit K))) (f_nsed (k_fit K)) z m iv (Some c) ->
    match d with None => True | Some x => shp x = shp z end -> rounding N ->
    kcorrect K (Some z) (Some c) bs = Ok kc -> Forall (fun i => i < length (f_resp (k_fit K))) (k_imap K) ->
    m = None \/ iv = None ->
    absmag distmod K m iv (Some z) (Some c) bs d r l k = Raise TypeError.
Proof.
  intros T N distmod K z m iv c bs d r l k kc Hab HD Hd HR HK HI Hmi.
  assert (Ez : map1 cst (map1 cst z) = map1 cst z).
  { unfold map1. cbn. rewrite map_map. f_equal. apply map_ext. apply HR. }
  assert (Ec : map1 cst (map1 cst c) = map1 cst c).
  { unfold map1. cbn. rewrite map_map. f_equal. apply map_ext. apply HR. }
  assert (HDc : documented (length (f_resp (k_fit K))) (f_nsed (k_fit K)) z None None (Some c)).
  { destruct HD as [(A & B & C & D)|(n & A & B & C & D)]; [left|right; exists n]; repeat split; auto; intros a E; discriminate. }
  assert (HDcc : documented (length (f_resp (k_fit K))) (f_nsed (k_fit K)) (map1 cst z) None None (Some (map1 cst c))).
  { destruct HDc as [(A & B & C & D)|(n & A & B & C & D)]; [left|right; exists n]; repeat split; auto; try (intros a E; discriminate);
      intros a E; injection E as <-; exact (D c eq_refl). }
  assert (HK' : kcorrect K (Some (map1 cst z)) (Some (map1 cst c)) bs = Ok kc).
  { rewrite <- HK. unfold kcorrect. rewrite !process_inputs_ok by auto. cbn [bind plain_pin q_z q_c q_array option_map].
    rewrite Ez, Ec. reflexivity. }
  unfold absmag. rewrite process_inputs_ok by auto. cbn [bind]. unfold absmag_after. cbn [q_z q_c q_m q_iv q_array plain_pin option_map].
  destruct d as [x|].
  - assert (HDx : documented (length (f_resp (k_fit K))) (f_nsed (k_fit K)) x None None (Some (map1 cst c))).
    { destruct HDcc as [(A & B & C & D)|(n & A & B & C & D)]; [left|right; exists n]; repeat split; auto; rewrite Hd; exact A. }
    rewrite process_inputs_ok by auto. cbn [bind]. rewrite HK'. cbn [bind].
    destruct m as [m|]; [|reflexivity]. cbn [option_map]. destruct Hmi as [Hmi|Hmi]; [discriminate|]. subst iv. cbn [option_map].
    assert (EM : exists x, take_last (k_imap K) n0 (map1 cst m) = Ok x).
    { unfold take_last. cbn [map1 shp]. assert (EL : lastd (shp m) = length (f_resp (k_fit K)) /\ shp m <> []).
      { destruct HD as [(A & B & _)|(n & A & B & _)]; rewrite (B m eq_refl); split; try reflexivity; discriminate. }
      destruct EL as [EL EN]. rewrite EL. destruct (shp m); [congruence|].
      replace (forallb _ _) with true; [eexists; reflexivity|]. symmetry. apply forallb_forall. intros i Hi.
      rewrite Forall_forall in HI. apply Nat.ltb_lt, HI, Hi. }
    destruct EM as [um EM]. rewrite EM. reflexivity.
  - cbn [bind]. rewrite HK'. cbn [bind].
    destruct m as [m|]; [|reflexivity]. cbn [option_map]. destruct Hmi as [Hmi|Hmi]; [discriminate|]. subst iv. cbn [option_map].
    assert (EM : exists x, take_last (k_imap K) n0 (map1 cst m) = Ok x).
    { unfold take_last. cbn [map1 shp]. assert (EL : lastd (shp m) = length (f_resp (k_fit K)) /\ shp m <> []).
      { destruct HD as [(A & B & _)|(n & A & B & _)]; rewrite (B m eq_refl); split; try reflexivity; discriminate. }
      destruct EL as [EL EN]. rewrite EL. destruct (shp m); [congruence|].
      replace (forallb _ _) with true; [eexists; reflexivity|]. symmetry. apply forallb_forall. intros i Hi.
      rewrite Forall_forall in HI. apply Nat.ltb_lt, HI, Hi. }
    destruct EM as [um EM]. rewrite EM. reflexivity.
Qed.
Lemma E_C74_absmag : (exists kc, kcorrect q_kcor (Some (scal 1%Q)) (Some (vec [1; 0; 2]%Q)) 0%Q = Ok kc) /\
  absmag (fun z => z) q_kcor None (Some (vec [1; 1]%Q)) (Some (scal 1%Q)) (Some (vec [1; 0; 2]%Q)) 0%Q None false false false
    = Raise TypeError /\
  absmag (fun z => z) q_kcor (Some (vec [1; 1]%Q)) None (Some (scal 1%Q)) (Some (vec [1; 0; 2]%Q)) 0%Q None true true true
    = Raise TypeError.
Proof. split; [eexists; vm_compute; reflexivity|]. split; vm_compute; reflexivity. Qed.

(** Without coefficients, at redshifts within the range: TypeError for one object, AttributeError for arrays (also empty ones). *)
Lemma L_C74_no_coeffs :
  forall (T : Type) (N : Num T) (F : fitter T) A nb nt bs,
    tab_ok A nb nt ->
    (forall z, ~ outside A (nsub (nmul (nadd n1 (cst z)) (nadd n1 bs)) n1) -> reconstruct_ F (Some A) (Some (scal z)) None bs = Raise TypeError) /\
    (forall zs, (forall z, In z zs -> ~ outside A (nsub (nmul (nadd n1 (cst z)) (nadd n1 bs)) n1)) ->
       reconstruct_ F (Some A) (Some (vec zs)) None bs = Raise AttributeError).
Proof.
  intros T N F A nb nt bs Ht. split.
  - intros z Hz. unfold reconstruct_.
    replace (process_inputs F (Some (scal z)) None None None) with (Ok (plain_pin false 1 (scal z) None None None))
      by (unfold process_inputs; cbn; destruct (f_abc F); reflexivity).
    cbn [bind plain_pin q_z q_c q_array option_map]. unfold acall, plain_pin, scal, map1. cbn [q_z q_c q_array shp dat map existsb].
    rewrite (not_outside _ _ Hz). cbn [orb negb bind]. reflexivity.
  - intros zs Hz. unfold reconstruct_.
    replace (process_inputs F (Some (vec zs)) None None None) with (Ok (plain_pin true (length zs) (vec zs) None None None))
      by (unfold process_inputs, vec; cbn; rewrite Nat.mul_1_r; destruct (f_abc F); reflexivity).
    cbn [bind plain_pin q_z q_c q_array option_map]. unfold acall, plain_pin, vec, map1. cbn [q_z q_c q_array shp dat].
    replace (existsb _ _) with false; [reflexivity|]. symmetry. apply not_true_is_false. intro E. apply existsb_exists in E as (x & Hx & E).
    rewrite map_map in Hx. apply in_map_iff in Hx as (z & <- & Hin). specialize (Hz z Hin). apply not_outside in Hz. congruence.
Qed.
Lemma E_C74_no_coeffs : reconstruct q_fitter (Some (scal 1%Q)) None 0%Q = Raise TypeError /\
  reconstruct q_fitter (Some (vec [1; 2]%Q)) None 0%Q = Raise AttributeError /\ tab_ok q_tab 2 3.
Proof. split; [vm_compute; reflexivity|]. split; [vm_compute; reflexivity|]. apply q_ready. Qed.

(** C74.  derived without coefficients raises AttributeError, for one object and for catalogues, with and without AB correction,
    whatever the templates, unless the redshift or the distance has more than one dimension: TypeError. *)
Lemma L_C74_derived :
  forall (T : Type) (N : Num T) distmod dict (K : kcor T) z bs d,
    derived distmod dict K (Some z) None bs d =
    Raise (if Nat.leb (ndim z) 1 && match d with None => true | Some x => Nat.leb (ndim x) 1 end then AttributeError else TypeError).
Proof.
  intros T N distmod dict K z bs d.
  assert (P : forall a, process_inputs (k_fit K) (Some a) None None None =
    if Nat.leb (ndim a) 1 then Ok (plain_pin (Nat.eqb (ndim a) 1) (if Nat.eqb (ndim a) 1 then size (shp a) else 1) a None None None)
    else Raise TypeError).
  { intro a. unfold process_inputs. change (ndim (map1 cst a)) with (ndim a). destruct (Nat.leb (ndim a) 1); auto.
    cbn [option_map opt_shape_ok]. destruct (f_abc (k_fit K)); reflexivity. }
  unfold derived. rewrite P. destruct (Nat.leb (ndim z) 1); [|reflexivity]. cbn [bind plain_pin q_c option_map andb].
  destruct d as [x|]; [|reflexivity]. rewrite P. destruct (Nat.leb (ndim x) 1); reflexivity.
Qed.
Lemma E_C74_derived : derived (fun z => z) [] q_kcor (Some (vec [1; 2]%Q)) None 0%Q None = Raise AttributeError /\
  derived (fun z => z) [] q_kcor (Some (scal 1%Q)) None 0%Q (Some (mk [1; 1] [1%Q])) = Raise TypeError.
Proof. split; reflexivity. Qed.

(** C64.  The object left by a failing fromfits (C64_missing_response) has the templates and names of the file and its old
    tables.  When the numbers of templates differ, reconstruct raises ValueError at every redshift, for valid coefficients. *)
Lemma L_C64_mixed_reconstruct :
  forall (T : Type) (N : Num T) (F : fitter T) A nb nt z (c : list T) bs,
    tab_ok A nb nt -> f_nsed F <> nt -> length c = f_nsed F ->
    reconstruct_ F (Some A) (Some (scal z)) (Some (vec c)) bs = Raise ValueError /\
    reconstruct_ F (Some A) (Some (vec [z])) (Some (table (f_nsed F) [c])) bs = Raise ValueError.
Proof.
  intros T N F A nb nt z c bs Ht Hn Hc. pose proof Ht as (Hs & _). split; unfold reconstruct_.
  - rewrite (process_zc_scal F z c eq_refl Hc). cbn [bind plain_pin q_z q_c q_array option_map map1 scal shp dat map].
    destruct (acall A _) as [M|e] eqn:EA; cbn [bind].
    + unfold acall in EA. destruct (negb _); [|discriminate]. injection EA as <-. cbn [shp app]. rewrite Hs. unfold lastd. cbn [last].
      destruct (Nat.eqb_spec nt (f_nsed F)); [congruence|]. reflexivity.
    + unfold acall in EA. destruct (negb _); [discriminate|]. congruence.
  - pose proof (process_zc_vec F [(z, c)] eq_refl) as EP. cbn [map fst snd length] in EP. rewrite EP.
    cbn [bind plain_pin q_z q_c q_array option_map]. unfold plain_pin. cbn [q_z q_c q_array].
    destruct (acall A _) as [M|e] eqn:EA; cbn [bind].
    + unfold acall in EA. destruct (negb _); [|discriminate]. injection EA as <-. cbn [shp app]. rewrite Hs. unfold lastd. cbn [last app map1 vec shp].
      destruct (Nat.eqb_spec nt (f_nsed F)); [congruence|]. reflexivity.
    + unfold acall in EA. destruct (negb _); [discriminate|]. congruence.
Qed.
Lemma E_C64_mixed_reconstruct : let F := ex_fitter Plain false ["u"; "g"]%string 2 [0; 1; 2]%Q [] in
  tab_ok q_tab 2 3 /\ f_nsed F <> 3 /\ length [5; 6]%Q = f_nsed F /\
  reconstruct_ F (Some q_tab) (Some (scal 1%Q)) (Some (vec [5; 6]%Q)) 0%Q = Raise ValueError.
Proof. cbv zeta. split; [apply q_ready|]. split; [discriminate|]. split; [reflexivity|].  vm_compute. reflexivity. Qed.
(** ... and fit_coeffs (mc=0), which takes the failure of the multiplication by the table for an out-of-range redshift,
    answers with zero coefficients for any photometry at any redshift (unless one of the two has a single template). *)
Lemma L_C64_mixed_fit :
  forall (T : Type) (N : Num T) nnls rng (F : fitter T) A nb nt z (m iv : list T) cur,
    no_ab F -> f_A F = Some A -> tab_ok A nb nt -> f_nsed F <> nt -> f_nsed F <> 1 -> nt <> 1 ->
    length (f_resp F) <> 1 -> length m = length (f_resp F) -> length iv = length (f_resp F) ->
    fit_coeffs nnls rng F (Some (scal z)) (Some (vec m)) (Some (vec iv)) 0 cur = Ok (Bare (vec (repeat n0 (f_nsed F))), cur).
Proof.
  intros T N nnls rng F A nb nt z m iv cur Hab HA Ht Hn H1 H1' Hb Hm Hiv. pose proof Ht as (Hs & _).
  unfold fit_coeffs. rewrite process_inputs_ok; auto.
  2:{ left. repeat split; intros a E; try discriminate; injection E as <-; unfold vec; cbn; congruence. }
  cbn [bind]. unfold fit_after. cbn [q_n plain_pin q_iv q_m option_map q_z q_array Nat.eqb].
  change (Nat.eqb (ndim (scal z)) 1) with false. cbn [Nat.eqb]. change (squeeze (map1 cst (scal z))) with (scal (cst z)).
  unfold fit1. rewrite HA. rewrite (acall_scal _ Ht). destruct (out_of (a_x A) (cst z)); cbn [bind].
  - unfold full, vec, size. cbn [fold_right]. rewrite repeat_length, Nat.mul_1_r. reflexivity.
  - unfold bin. cbn [shp inverr_matrix]. unfold bshape, inverr_matrix. cbn [rev app shp].
    assert (E : forall a b, bshape_rev (f_nsed F :: a) (nt :: b) = None).
    { intros a b. cbn [bshape_rev]. destruct (bshape_rev a b); auto.
      destruct (Nat.eqb_spec (f_nsed F) nt); [congruence|]. destruct (Nat.eqb_spec (f_nsed F) 1); [congruence|].
      destruct (Nat.eqb_spec nt 1); [congruence|]. auto. }
    rewrite E. cbn [option_map]. unfold full, vec, size. cbn [fold_right]. rewrite repeat_length, Nat.mul_1_r. reflexivity.
Qed.
Lemma E_C64_mixed_fit : let F := ex_fitter Plain false ["u"; "g"]%string 2 [0; 1; 2]%Q [] in
  let F' := {| f_kind := Plain; f_abc := false; f_resp := f_resp F; f_sed := f_sed F; f_zs := f_zs F; f_A := Some q_tab |} in
  fit_coeffs ex_nnls (fun _ => 0%Q) F' (Some (scal 1%Q)) (Some (vec [5; 6]%Q)) (Some (vec [1; 1]%Q)) 0 0
    = Ok (Bare (vec [0; 0]%Q), 0) /\
  reconstruct F' (Some (scal 1%Q)) (Some (vec [5; 6]%Q)) 0%Q = Raise ValueError /\
  fit_coeffs ex_nnls (fun _ => 0%Q) q_fitter (Some (scal 1%Q)) (Some (vec [5; 6]%Q)) (Some (vec [1; 1]%Q)) 0 0
    = Ok (Bare (vec [5; 6; 0]%Q), 0).
Proof. cbv zeta. split; [vm_compute; reflexivity|]. split; vm_compute; reflexivity. Qed.

(** C39.  The grid depends on the redshift range only through its float32 rounding. *)
Lemma L_C39_range_rounded :
  forall (T : Type) (N : Num T) (r0 r1 r0' r1' : T) n,
    cst r0 = cst r0' -> cst r1 = cst r1' -> redshift_grid r0 r1 n = redshift_grid r0' r1' n.
Proof. intros T N r0 r1 r0' r1' n E0 E1. unfold redshift_grid. rewrite E0, E1. reflexivity. Qed.
Lemma E_C39_range_rounded : rounding Num_floor /\ @redshift_grid Q Num_floor (1 # 2) (5 # 2) 3 = [0; 1; 2]%Q.
Proof.
  split; [split; [intro x; cbn [cst Num_floor]; rewrite Qround.Qfloor_Z; auto|reflexivity]|]. vm_compute. reflexivity.
Qed.

(** C55.  KcorrectGST.to_ab of a number raises IndexError. *)
Lemma L_C55_scalar : forall (T : Type) (N : Num T) (x : T) iv, to_ab GST (scal x) iv = Raise IndexError.
Proof. reflexivity. Qed.

(** C09.  maggies2flambda of a number raises IndexError. *)
Lemma L_C09_scalar : forall (T : Type) (N : Num T) (leff : list T) (x : T) iv, maggies2flambda_core leff (scal x) iv = Raise IndexError.
Proof. reflexivity. Qed.

(** C14.  A file with a one-dimensional FLUX image is read as a single spectrum. *)
Lemma L_C14_one_dimensional :
  forall (T : Type) (N : Num T) (wave flux : list T) ext, 2 <= length wave -> length flux = length wave ->
    exists s, sed_fromfits [ {| h_name := "WAVE"; h_cols := [(""%string, vec wave)] |};
                             {| h_name := "FLUX"; h_cols := [(""%string, vec flux)] |} ] ext false = Ok s /\
      s_rwave s = wave /\ s_rflux s = mk [1; length wave] flux /\ s_wave s = wave /\ s_flux s = s_rflux s /\ s_nsed s = 1 /\
      s_bin s = true.
Proof.
  intros T N wave flux ext H2 Hl. eexists. split.
  - unfold sed_fromfits. cbn [has_hdu find_hdu find h_name String.eqb Ascii.eqb Bool.eqb andb get_hdu bind col h_cols fst snd].
    unfold vec at 1 2 3. unfold reshape. cbn. rewrite squeeze_vec by lia. cbn [len shp bind].
    replace (Nat.eqb _ _) with true by (symmetry; apply Nat.eqb_eq; lia). cbn. reflexivity.
  - cbn. auto 10.
Qed.
Lemma E_C14_one_dimensional : 2 <= length [1; 2; 3]%Z /\ length [4; 5; 6]%Z = length [1; 2; 3]%Z.
Proof. cbn. lia. Qed.

Lemma bin_row {T : Type} {N : Num T} (f : T -> T -> T) (a b : list T) : length a = length b ->
  bin f n0 n0 (mk [1; length b] a) (vec b) = Ok (mk [1; length b] (zip f a b)).
Proof.
  intro H. unfold bin. cbn [shp vec]. change [1; length b] with ([1] ++ [length b]).
  assert (E : bshape ([1] ++ [length b]) [length b] = Some ([1] ++ [length b])).
  { unfold bshape. cbn. rewrite Nat.eqb_refl. reflexivity. }
  rewrite E. f_equal. f_equal.
  replace (size ([1] ++ [length b])) with (length b) by (cbn; lia).
  apply nth_error_ext. intro i. rewrite nth_error_map, nth_error_seq, nth_error_zip. cbn [Nat.add].
  destruct (Nat.ltb_spec i (length b)) as [Hi|Hi].
  - cbn [option_map]. assert (Hia : i < length a) by lia.
    rewrite (nth_error_nth_lt _ n0 Hi), (nth_error_nth_lt _ n0 Hia).
    unfold bget. cbn [shp dat vec rev app bpos_rev]. destruct (Nat.eqb_spec (length b) 1) as [E1|E1].
    + assert (i = 0) by lia. subst i. rewrite E1. reflexivity.
    + rewrite Nat.mod_small by auto. cbn [Nat.eqb]. rewrite !Nat.mul_0_r, !Nat.add_0_r. cbn. rewrite ?Nat.mul_0_r, ?Nat.add_0_r. reflexivity.
  - cbn [option_map]. destruct (nth_error a i) eqn:EA; [|reflexivity]. rewrite (proj2 (nth_error_None b i)) by auto. reflexivity.
Qed.
(** C11.  The float32 roundings in the set-up of the solar and Vega spectra: the wavelengths, the converted fluxes and the
    scaled fluxes. *)
Lemma L_C11_rounding :
  forall (T : Type) (N : Num T) (scale : T) (wave : list T) (u : basel_unit T),
    length (b_flux T u) = length wave ->
    basel_sed scale (wave, [u]) =
    SED (map (fun w => cst (nmul w (nlit 10))) wave)
        (mk [1; length wave]
            (zip (fun f w => let l := cst (nmul w (nlit 10)) in
                    cst (nmul (cst (ndiv (nmul (nmul (nmul npi (nlit 4)) f) (nlit (299792 * 10000000000000))) (nmul l l))) scale))
                 (b_flux T u) wave)) true.
Proof.
  intros T N scale wave u Hl. unfold basel_sed. cbn [fst snd length seq foldM map concat]. rewrite app_nil_r.
  unfold basel_step. unfold map1 at 1. cbn [shp dat tl].
  assert (Hw : length (basel_wave wave) = length wave) by (unfold basel_wave; apply map_length).
  assert (Hw2 : length (map nsq (basel_wave wave)) = length wave) by (rewrite map_length; auto).
  pose proof (bin_row ndiv (map (fun f => nmul (nmul (nmul npi (nlit 4)) f) (nlit (299792 * 10000000000000))) (b_flux T u))
                (map nsq (basel_wave wave))) as E.
  rewrite Hw2, map_length in E. rewrite E by auto. cbn [bind].
  assert (EB : forall l : list T, length l = length wave -> bto n0 [length wave] (mk [1; length wave] l) = Ok l).
  { intros l H. unfold bto. cbn [shp length Nat.sub strip1 dat].
    pose proof (@bto_same T n0 (mk [length wave] l)) as EE. unfold bto in EE. cbn [shp length Nat.sub strip1 dat] in EE.
    apply EE. unfold wf. cbn. lia. }
  rewrite EB by (rewrite length_zip, map_length, Hw2, Hl; apply Nat.min_id). cbn [bind].
  unfold lrows. cbn [shp dat lead lastd removelast last size fold_right]. change (1 * 1) with 1. cbn [chunks upd concat].
  rewrite app_nil_r. unfold map1. cbn [shp dat]. unfold basel_wave. f_equal. f_equal.
  rewrite !map_map. rewrite map_zip. rewrite zip_map_l, zip_map_r. reflexivity.
Qed.
Lemma E_C11_rounding :
  let u := {| b_modelno := 1; b_teff := 1; b_logg := 1; b_mh := 1; b_vturb := 1; b_xh := 1; b_flux := [1;1;1;1] |}%Z in
  length (b_flux Z u) = length [1; 2; 3; 4]%Z.
Proof. reflexivity. Qed.

(** C75.  Response.project(wave=, flux=) checks its arguments in this order, whatever the response. *)
Lemma L_C75_checks :
  forall (T : Type) (N : Num T) cub (r : resp T) (wave flux : nd T),
    (length (shp wave) <> 1 -> project_arr cub r wave flux = Raise ValueError) /\
    forall n, shp wave = [n] ->
      (shp flux = [] -> project_arr cub r wave flux = Raise IndexError) /\
      (shp flux <> [] -> last (shp flux) 0 <> n -> project_arr cub r wave flux = Raise ValueError) /\
      (2 < length (shp flux) -> project_arr cub r wave flux = Raise ValueError) /\
      (shp flux <> [] -> length (dat wave) = n -> n < 4 -> project_arr cub r wave flux = Raise ValueError).
Proof.
  intros T N cub r wave flux. unfold project_arr, ndim. cbn [map1 shp dat]. split.
  - intro H. destruct (Nat.eqb_spec (length (shp wave)) 1); [contradiction|reflexivity].
  - intros n E. rewrite E. cbn [length Nat.eqb hd].
    split; [intro Ef; rewrite Ef; reflexivity|].
    split; [intros Ef Hl; destruct (shp flux) as [|a s] eqn:Es; [congruence|]; cbn [length Nat.eqb negb];
            unfold lastd; destruct (Nat.eqb_spec (last (a :: s) 0) n); [contradiction|reflexivity]|].
    split.
    + intro H. destruct (shp flux) as [|a s] eqn:Es; [cbn in H; lia|]. cbn [length Nat.eqb negb].
      destruct (Nat.eqb _ n); [|reflexivity]. destruct (Nat.leb_spec (length (a :: s)) 2) as [H'|H']; [cbn in *; lia|].
      cbn [length] in *. destruct (Nat.leb_spec (S (length s)) 2); [lia|reflexivity].
    + intros Ef Hw Hn. destruct (shp flux) as [|a s] eqn:Es; [congruence|]. cbn [length Nat.eqb negb].
      destruct (Nat.eqb _ n); [|reflexivity]. destruct (Nat.leb _ 2); [|reflexivity].
      unfold mk_cubic, ndim. cbn [map1 shp dat]. rewrite Es. cbn [length Nat.eqb negb]. rewrite map_length, Hw.
      destruct (Nat.eqb _ n); [|reflexivity]. destruct (Nat.leb_spec 4 n); [lia|reflexivity].
Qed.
Lemma E_C75_checks :
  project_arr q_lin q_resp (scal 1%Q) (scal 1%Q) = Raise ValueError /\
  project_arr q_lin q_resp (vec [1; 2; 3; 4]%Q) (scal 1%Q) = Raise IndexError /\
  project_arr q_lin q_resp (vec [1; 2; 3; 4]%Q) (vec [1; 2; 3]%Q) = Raise ValueError /\
  project_arr q_lin q_resp (vec [1; 2; 3; 4]%Q) (mk [1; 1; 4] [1; 2; 3; 4]%Q) = Raise ValueError /\
  project_arr q_lin q_resp (vec [1; 2; 3]%Q) (vec [1; 2; 3]%Q) = Raise ValueError.
Proof. repeat split; vm_compute; reflexivity. Qed.

(** What it returns for accepted arguments is a number, or, for a two-dimensional flux with a number of rows other than 1 and an
    overlap with the band, one number per row. *)
Lemma L_C75_shape :
  forall (T : Type) (N : Num T) cub (r : resp T) (wave flux : nd T) v,
    project_arr cub r wave flux = Ok v ->
    length (shp wave) = 1 /\ (shp v = [] \/ exists n m, shp flux = [n; m] /\ n <> 1 /\ shp v = [n]).
Proof.
  intros T N cub r wave flux v. unfold project_arr, ndim. cbn [map1 shp dat].
  destruct (Nat.eqb_spec (length (shp wave)) 1) as [E1|]; [|discriminate].
  destruct (shp flux) as [|n s] eqn:Ef; [discriminate|]. cbn [length Nat.eqb negb].
  destruct (Nat.eqb _ _); [|discriminate]. destruct (Nat.leb_spec (S (length s)) 2) as [Hs|]; [|discriminate].
  destruct (mk_cubic _ _) as [it|]; [|discriminate]. cbn [bind].
  destruct (p_wave r) as [rw|]; [|discriminate]. unfold project_core.
  destruct (where_ _); [intro H; injection H as <-; auto|].
  destruct (p_interp r) as [rint|]; [|discriminate].
  match goal with |- (if Nat.eqb ?x 1 then _ else _) = _ -> _ => destruct (Nat.eqb_spec x 1) as [En|En] end;
    intro H; injection H as <-; [auto|].
  split; auto. right. destruct s as [|m [|? ?]]; cbn in *; [congruence| |lia]. exists n, m. auto.
Qed.
Lemma E_C75_shape : exists v, project_arr q_lin q_resp (vec [1; 2; 3; 4; 6]%Q) (mk [2; 5] [1; 1; 1; 1; 1; 2; 3; 4; 5; 6]%Q) = Ok v /\ shp v = [2].
Proof. eexists. split; [vm_compute; reflexivity|reflexivity]. Qed.

(** C76.  fit_coeffs of two or more objects returns float32 values only. *)
Lemma L_C76_fit_batch :
  forall (T : Type) (N : Num T) nnls rng (F : fitter T) z m iv mc cur o cur' n,
    rounding N -> shp z = [n] -> n <> 1 -> fit_coeffs nnls rng F (Some z) m iv mc cur = Ok (o, cur') ->
    Forall (fun v => cst v = v) (dat (out_c o)) /\ Forall (fun v => cst v = v) (dat (out_cmc o)) /\
    Forall (fun v => cst v = v) (dat (out_mmc o)).
Proof.
  intros T N nnls rng F z m iv mc cur o cur' n R Hz Hn. unfold fit_coeffs.
  destruct (process_inputs F (Some z) m iv None) as [p|] eqn:EP; [|discriminate]. cbn [bind].
  assert (Eq : q_n p = n).
  { unfold process_inputs in EP. unfold ndim in EP. cbn [map1 shp] in EP. rewrite Hz in EP. cbn [length Nat.leb Nat.eqb size fold_right] in EP.
    rewrite Nat.mul_1_r in EP.
    destruct (opt_shape_ok _ _ _ _); [|discriminate]. destruct (opt_shape_ok _ _ _ _); [|discriminate].
    destruct (opt_shape_ok _ _ _ _); [|discriminate].
    destruct (f_abc F); [destruct (option_map (map1 cst) m) as [m'|];
      [destruct (to_ab _ _ _); [|discriminate]; cbn [bind] in EP|]|]; injection EP as <-; reflexivity. }
  unfold fit_after. rewrite Eq. destruct (Nat.eqb_spec n 1); [contradiction|].
  destruct (fit_rows _ _ _ _ _ _ _ _ _) as [[[[cs cms] mms] cur2]|] eqn:ER; [|discriminate]. cbn [bind].
  apply (fit_rows_fix nnls rng F _ _ _ R) in ER as (H1 & H2 & H3).
  destruct (Nat.eqb mc 0); intro H; injection H as <- <-; cbn [out_c out_cmc out_mmc dat]; auto using Forall_concat'.
Qed.
Lemma E_C76_fit_batch : exists c,
  @fit_coeffs Q Num_floor (fun _ n _ _ => Some (repeat (3 # 2) n)) (fun _ => 0%Q) q_fitter (Some (vec [0; 1]%Q))
    (Some (table 2 [[1; 2]; [3; 4]]%Q)) (Some (table 2 [[1; 1]; [1; 1]]%Q)) 0 0 = Ok (Bare c, 0) /\ dat c = [1; 1; 1; 1; 1; 1]%Q.
Proof. eexists. split; [vm_compute; reflexivity|reflexivity]. Qed.

(** The coefficients of a single object are not rounded: the row of a batch can differ from the fit of the object. *)
Lemma L_C76_fit_single_refuted :
  exists (N : Num Q) nnls (F : fitter Q) z m iv c,
    rounding N /\ fit_coeffs nnls (fun _ => 0%Q) F (Some (scal z)) (Some (vec m)) (Some (vec iv)) 0 0 = Ok (Bare (vec c), 0) /\
    map cst c <> c /\
    fit_coeffs nnls (fun _ => 0%Q) F (Some (vec [z; z])) (Some (table 2 [m; m])) (Some (table 2 [iv; iv])) 0 0
      = Ok (Bare (table 3 [map cst c; map cst c]), 0).
Proof.
  exists Num_floor, (fun _ n _ _ => Some (repeat (3 # 2) n)), q_fitter, 1%Q, [1; 2]%Q, [1; 1]%Q, [3 # 2; 3 # 2; 3 # 2].
  split; [split; [intro x; cbn [cst Num_floor]; rewrite Qround.Qfloor_Z; auto|reflexivity]|].
  split; [vm_compute; reflexivity|]. split; [vm_compute; discriminate|vm_compute; reflexivity].
Qed.

(** kcorrect of an array returns float32 values only. *)
Lemma L_C76_kcorrect_batch :
  forall (T : Type) (N : Num T) (K : kcor T) z c bs k n,
    rounding N -> shp z = [n] -> kcorrect K (Some z) c bs = Ok k -> Forall (fun v => cst v = v) (dat k).
Proof.
  intros T N K z c bs k n R Hz. unfold kcorrect.
  destruct (process_inputs _ (Some z) None None c) as [p|] eqn:EP; [|discriminate]. cbn [bind].
  assert (Eq : q_array p = true).
  { unfold process_inputs in EP. unfold ndim in EP. cbn [map1 shp] in EP. rewrite Hz in EP. cbn [length Nat.leb Nat.eqb option_map] in EP.
    cbn [opt_shape_ok] in EP. destruct (opt_shape_ok _ _ _ _); [|discriminate].
    destruct (f_abc (k_fit K)); injection EP as <-; reflexivity. }
  destruct (reconstruct _ _ _ _) as [mi|]; [|discriminate]. cbn [bind].
  destruct (reconstruct_out _ _ _ _) as [mo|]; [|discriminate]. cbn [bind].
  destruct (q_c p) as [c'|]; [|discriminate]. rewrite Eq.
  destruct (mapM _ _) as [rows|] eqn:EM; [|discriminate]. cbn [bind]. intro H. injection H as <-. cbn [dat].
  apply Forall_concat'. apply mapM_In in EM. eapply Forall_impl; [|exact EM]. intros row ((ci & (a & b)) & _ & E).
  destruct (nltb n0 (nsum ci)).
  - destruct (kc_row K a b) as [v|]; [|discriminate]. cbn [bind] in E. injection E as <-. apply map_cst_fix, R.
  - injection E as <-. apply Forall_forall. intros x Hx. apply repeat_spec in Hx. subst x. apply R.
Qed.
Lemma E_C76_kcorrect_batch : exists k, kcorrect q_kcor (Some (vec [1; 0]%Q)) (Some (table 3 [[1; 0; 2]; [0; 0; 1]]%Q)) 0%Q = Ok k /\
  shp k = [2; 2].
Proof. eexists. split; [vm_compute; reflexivity|reflexivity]. Qed.

(** absmag returns float32 values, for single objects also (the K-corrections of kcorrect=True excepted). *)
Lemma L_C76_absmag :
  forall (T : Type) (N : Num T) distmod (K : kcor T) m iv z c bs d r l o,
    rounding N -> cst (nlit (-(9999) # 1)) = (nlit (-(9999) # 1) : T) -> cst (nadd n0 (nlit (-(9999) # 1))) = (nadd n0 (nlit (-(9999) # 1)) : T) ->
    absmag distmod K m iv z c bs d r l false = Ok o ->
    match o with
    | Bare1 a => Forall (fun v => cst v = v) (dat a)
    | Tuple t => Forall (fun a => Forall (fun v => cst v = v) (dat a)) t
    end.
Proof.
  intros T N distmod K m iv z c bs d r l o R HS HS0. unfold absmag.
  destruct (process_inputs _ _ _ _ _) as [p|]; [|discriminate]. cbn [bind]. unfold absmag_after.
  destruct (match d with Some _ => _ | None => _ end) as [[array dm]|]; [|discriminate]. cbn [bind].
  destruct (kcorrect _ _ _ _) as [k|]; [|discriminate]. cbn [bind].
  destruct (q_m p) as [pm|]; [|discriminate]. destruct (take_last _ _ pm) as [um|]; [|discriminate]. cbn [bind].
  destruct (q_iv p) as [pi|]; [|discriminate]. destruct (take_last _ _ pi) as [ui|]; [|discriminate]. cbn [bind].
  destruct (shape_eqb _ _); [|discriminate]. destruct (Nat.eqb _ _); [|discriminate].
  assert (H1 : forall a b e f : T, cst (absmag1 a b e f) = absmag1 a b e f).
  { intros. unfold absmag1. destruct (nleb a n0 || nleb b n0); [exact HS|]. destruct (nltb n0 a && nltb n0 b); apply R. }
  assert (H2 : forall a b e : T, cst (absrec1 a b e) = absrec1 a b e).
  { intros. unfold absrec1. destruct (nleb a n0); [exact HS|]. destruct (nltb n0 a); [apply R|exact HS0]. }
  assert (H3 : forall a b e : T, cst (abslim1 a b e) = abslim1 a b e).
  { intros. unfold abslim1. destruct (nleb a n0); [exact HS|]. destruct (nltb n0 a); [apply R|exact HS0]. }
  destruct r.
  - destruct (reconstruct_out _ _ _ _) as [om|]; [|discriminate]. cbn [bind]. destruct (shape_eqb _ _); [|discriminate]. cbn [bind].
    destruct l; cbn [app]; intro H; injection H as <-; repeat constructor; cbn [dat]; apply zip_fix; intros; auto.
  - cbn [bind]. destruct l; cbn [app]; intro H; injection H as <-; repeat constructor; cbn [dat]; apply zip_fix; intros; auto.
Qed.
Lemma E_C76_absmag : exists N : Num Q, rounding N /\ cst (nlit (-(9999) # 1)) = (nlit (-(9999) # 1) : Q) /\
  cst (nadd n0 (nlit (-(9999) # 1))) = (nadd n0 (nlit (-(9999) # 1)) : Q) /\ cst (1 # 2) <> 1 # 2 /\
  exists a b c, @absmag Q N (fun z => z) q_kcor (Some (vec [1; 2]%Q)) (Some (vec [1; 0]%Q)) (Some (scal 1%Q)) (Some (vec [1; 0; 2]%Q)) 0%Q None
    true true false = Ok (Tuple [a; b; c]).
Proof.
  exists Num_floor. split; [split; [intro x; cbn [cst Num_floor]; rewrite Qround.Qfloor_Z; auto|reflexivity]|].
  split; [reflexivity|]. split; [reflexivity|]. split; [discriminate|]. eexists; eexists; eexists. vm_compute. reflexivity.
Qed.

(** C77.  A response curve whose interpolation vanishes at all its samples has no half maximum: IndexError. *)
Lemma L_C77_dark :
  forall cub bq (wave : list xr) (it : interp1 xr),
    wave <> [] -> (forall w, In w wave -> ieval1 cub (ix it) (hd [] (iys it)) w = Fin 0) ->
    fwhm_limits cub bq wave it = Raise IndexError.
Proof.
  intros cub bq wave it Hw H0. unfold fwhm_limits.
  assert (E0 : map (reval cub it) wave = repeat (Fin 0) (length wave)).
  { clear Hw. induction wave as [|w wave IH]; cbn [map repeat length]; auto. rewrite IH by (intros; apply H0; cbn; auto).
    f_equal. unfold reval. apply H0. cbn; auto. }
  rewrite E0. destruct wave as [|w wave]; [congruence|]. cbn [length Nat.eqb negb].
  assert (EM : nmax (repeat (Fin 0) (S (length wave))) = Fin 0).
  { unfold nmax. cbn [repeat tl hd]. clear. induction (length wave) as [|n IH]; cbn [repeat fold_left]; auto.
    destruct (nltb (Fin 0) (Fin 0)); auto. }
  rewrite EM.
  assert (EI : map (fun v => ndiv v (Fin 0)) (repeat (Fin 0) (S (length wave))) = repeat NaN (S (length wave))).
  { rewrite map_repeat. f_equal. cbn [ndiv Num_xr]. unfold xdiv, Reqb, xsign_inf, Rltb.
    destruct (Req_EM_T 0 0); [|congruence]. destruct (Rlt_dec 0 0) as [H|]; [exfalso; exact (Rlt_irrefl _ H)|reflexivity]. }
  rewrite EI.
  assert (EW : where_ (map (fun v => nltb half v) (repeat NaN (S (length wave)))) = []).
  { rewrite map_repeat. unfold where_. cbn [nltb Num_xr]. rewrite repeat_length.
    assert (X : forall n k, filter (fun i => nth i (repeat false n) false) (seq k n) = []).
    { intros n k. generalize (seq k n). intro l. induction l as [|i l IH]; cbn [filter]; auto.
      replace (nth i (repeat false n) false) with false; auto. clear. revert i; induction n; intros [|i]; cbn; auto. }
    apply X. }
  rewrite EW. reflexivity.
Qed.
Lemma E_C77_dark : fwhm_limits (fun _ _ _ => Fin 0) (fun _ _ _ => Raise Unmodelled) [Fin 1; Fin 2]
    {| ix := [Fin 1; Fin 2]; iys := [[Fin 0; Fin 0]] |} = Raise IndexError.
Proof.
  apply L_C77_dark; [discriminate|]. intros w [<-|[<-|[]]]; unfold ieval1; destruct (out_of _ _); reflexivity.
Qed.

(** So no Response object can be made of a curve of zeros (when the spline through zeros is zero), whatever the wavelengths. *)
Lemma L_C77_dark_response :
  forall cub bq sun vega (wave y : list xr) r,
    (forall xs ys t, Forall (eq (Fin 0)) ys -> cub xs ys t = Fin 0) -> Forall (eq (Fin 0)) y ->
    Response cub bq sun vega wave y <> Ok r.
Proof.
  intros cub bq sun vega wave y r Hc Hy. unfold Response, sort_pair.
  destruct (forallb _ _) eqn:EF; [|discriminate]. cbn [bind fst snd].
  set (w := map (fun k => nth k wave n0) (argsort wave)). set (yy := map (fun k => nth k y n0) (argsort wave)).
  assert (Hyy : forall p, Forall (eq (Fin 0)) (map (fun k => nth k yy n0) p)).
  { intro p. apply Forall_forall. intros v Hv. apply in_map_iff in Hv as (k & <- & _). destruct (nth_in_or_default k yy n0) as [Hin|E];
      [|rewrite E; reflexivity]. unfold yy in Hin at 2. apply in_map_iff in Hin as (j & <- & _).
    destruct (nth_in_or_default j y n0) as [Hin|E]; [|rewrite E; reflexivity]. rewrite Forall_forall in Hy. apply Hy, Hin. }
  unfold resp_setup, with_curve. cbn [p_wave p_resp blank p_interp p_leff p_solar p_vega2ab p_fwhm].
  destruct (mk_cubic w (vec yy)) as [it|] eqn:EC; [|discriminate].
  destruct (ref_magnitude _ _ _ _) as [sm|]; [|discriminate].
  destruct (ref_magnitude _ _ _ _) as [vm|]; [|discriminate].
  assert (EI : w <> [] /\ forall t, ieval1 cub (ix it) (hd [] (iys it)) t = Fin 0).
  { unfold mk_cubic in EC. rewrite lrows_vec in EC. destruct (negb _); [|discriminate]. destruct (Nat.eqb _ _); [|discriminate].
    destruct (Nat.leb_spec 4 (length w)) as [H4|]; [|discriminate]. destruct (negb _); [|discriminate]. injection EC as <-.
    split; [intro E; rewrite E in H4; cbn in H4; lia|]. intro t. cbn [ix iys]. unfold ieval1. destruct (out_of _ _); [reflexivity|].
    apply Hc. cbn [map hd]. apply Hyy. }
  destruct EI as [Hw EI]. rewrite L_C77_dark; auto. discriminate.
Qed.
Lemma E_C77_dark_response : exists cub : list xr -> list xr -> xr -> xr,
  (forall xs ys t, Forall (eq (Fin 0)) ys -> cub xs ys t = Fin 0) /\ Forall (eq (Fin 0)) [Fin 0; Fin 0; Fin 0; Fin 0].
Proof. exists (fun _ ys _ => hd (Fin 0) ys). split; [|auto]. intros xs ys t H. destruct H; auto. Qed.

(** Missing files: Response.fromfits, Template and all_responses raise OSError and change nothing. *)
Lemma L_C77_missing :
  forall (T : Type) (N : Num T) cub bq sun vega (r : resp T) fs check_ d,
    resp_fromfits cub bq sun vega r None = (r, Some OSError) /\
    (forall interp, Template (@None (kfits T)) interp = Raise OSError) /\
    all_responses cub bq sun vega fs check_ None d = (d, Raise OSError).
Proof. intros. repeat split. Qed.

(** What absmag rounds to float32, in any arithmetic: the inputs, -2.5 log10 of the flux, and the result after the distance
    modulus and the K-correction have been subtracted; in the magnitudes, the reconstructed magnitudes and the limits. *)
Lemma L_C76_absmag_values :
  forall (T : Type) (N : Num T) distmod (K : kcor T) A Ao nb no nt bs o ks om,
    rounding N -> kready K A Ao nb no nt -> no_ab (k_fit K) -> kobj_ok nb nt o ->
    kcorrect K (Some (scal (ko_z o))) (Some (vec (ko_c o))) bs = Ok (vec ks) ->
    reconstruct_out K (Some (scal (ko_z o))) (Some (vec (ko_c o))) bs = Ok (vec om) ->
    exists a r l, absmag_object distmod K bs false true true false o = Ok (Tuple [vec a; vec r; vec l]) /\
      length a = no /\ length r = no /\ length l = no /\
      forall j d, j < no ->
        let mag := fun f => cst (nsub (nsub (cst (nmul (nlit (-(5) # 2)) (nlog10 f))) (distmod (cst (ko_z o)))) (nth j ks d)) in
        let m := cst (nth (in_band K j) (ko_m o) d) in
        let iv := cst (nth (in_band K j) (ko_iv o) d) in
        (nltb n0 m = true -> nltb n0 iv = true -> nleb m n0 = false -> nleb iv n0 = false -> nth_error a j = Some (mag m)) /\
        (nltb n0 (nth j om d) = true -> nleb (nth j om d) n0 = false -> nth_error r j = Some (mag (nth j om d))) /\
        (nltb n0 iv = true -> nleb iv n0 = false -> nth_error l j = Some (mag (ndiv n1 (nsqrt iv)))).
Proof.
  intros T N distmod K A Ao nb no nt bs o ks om HR HK Hab Ho Ek Eo. pose proof Ho as (Hm & Hi & Hc).
  pose proof HK as ((HA & Hb & Hn & Ht) & HAo & Hto & Hl & HiL & Hf).
  rewrite (kc_scal K A Ao nb no nt (ko_z o) (ko_c o) bs HR HK Hc) in Ek.
  unfold reconstruct_out in Eo. rewrite HAo, (@reconstruct_scal T N (k_fit K) Ao no nt (ko_z o) (ko_c o) bs Hn Hto Hc) in Eo.
  rewrite (obj_eq distmod K A Ao nb no nt bs false true true false o HR HK Hab Ho). unfold obj_res.
  destruct (kbad A Ao bs (ko_z o)); [discriminate|]. injection Ek as Lk Ek. subst ks.
  destruct (out_of (a_x Ao) (shifted bs (cst (ko_z o)))); [discriminate|]. injection Eo as Lm Eo. subst om.
  set (kk := kval1 K A Ao nb no nt bs (ko_z o) (ko_c o)) in *.
  set (om := recon1 Ao no nt bs (cst (ko_z o)) (map cst (ko_c o))) in *.
  set (dm := dm_val distmod false (ko_z o) (ko_d o)).
  destruct (am_row_nth K A Ao nb no nt (map cst (ko_m o)) (map cst (ko_iv o)) dm kk HK) as [L1 N1];
    [rewrite map_length; auto|rewrite map_length; auto|auto|].
  destruct (rec_row_nth no om dm kk) as [L2 N2]; auto.
  destruct (lim_row_nth K A Ao nb no nt (map cst (ko_iv o)) dm kk HK) as [L3 N3]; [rewrite map_length; auto|auto|].
  exists (am_row K (map cst (ko_m o)) (map cst (ko_iv o)) dm kk), (rec_row om dm kk), (lim_row K (map cst (ko_iv o)) dm kk).
  split. { unfold obj_out, vec. fold kk om dm. rewrite L1, L2, L3. reflexivity. }
  split; auto. split; auto. split; auto. intros j d Hj. cbv zeta. rewrite (N2 j d Hj).
  pose proof (N1 j (cst d) Hj) as P1. pose proof (N3 j (cst d) Hj) as P3. rewrite !map_nth in P1. rewrite !map_nth in P3.
  assert (Ej : nth j kk (cst d) = nth j kk d) by (apply nth_indep; lia). rewrite Ej in P1, P3.
  rewrite P1, P3. unfold absmag1, absrec1, abslim1. repeat split.
  - intros -> -> -> ->. reflexivity.
  - intros -> ->. reflexivity.
  - intros -> ->. reflexivity.
Qed.
Lemma E_C76_absmag_values : rounding Num_Q /\ kready q_kcor q_tab q_out 2 2 3 /\
  kobj_ok 2 3 {| ko_z := 1%Q; ko_m := [1; 2]%Q; ko_iv := [1; 1]%Q; ko_c := [1; 0; 2]%Q; ko_d := 0%Q |} /\
  (exists ks, kcorrect q_kcor (Some (scal 1%Q)) (Some (vec [1; 0; 2]%Q)) 0%Q = Ok (vec ks)) /\
  exists om, reconstruct_out q_kcor (Some (scal 1%Q)) (Some (vec [1; 0; 2]%Q)) 0%Q = Ok (vec om).
Proof.
  split; [split; intros; reflexivity|]. split; [apply q_kready|]. split; [repeat split|].
  split; [exists [(-95 # 6); (-25 # 6)]%Q|exists [3; 6]%Q]; vm_compute; reflexivity.
Qed.

(** C07.  error_floor with arrays that do not fit: a number has no bands (IndexError); a floor of another length or inverse
    variances of another shape are meant to be reported, but the code raises a string, which is itself a TypeError. *)
Lemma L_C07_shapes :
  forall (T : Type) (N : Num T) store (floor maggies ivar : nd T) n, shp floor = [n] ->
    (shp maggies = [] -> error_floor store floor maggies ivar = Raise IndexError) /\
    (shp maggies <> [] -> last (shp maggies) 0 <> n -> error_floor store floor maggies ivar = Raise TypeError) /\
    (shp maggies <> [] -> shp ivar <> shp maggies -> error_floor store floor maggies ivar = Raise TypeError).
Proof.
  intros T N store floor maggies ivar n Hf. unfold error_floor, ndim. rewrite Hf. cbn [length Nat.eqb].
  change (size [n]) with (n * 1). rewrite Nat.mul_1_r. split; [intros ->; reflexivity|].
  split.
  - intros Hs Hl. destruct (shp maggies) as [|a s] eqn:E; [congruence|]. unfold lastd.
    destruct (Nat.eqb_spec (last (a :: s) 0) n); [contradiction|]. reflexivity.
  - intros Hs Hl. destruct (shp maggies) as [|a s] eqn:E; [congruence|]. destruct (Nat.eqb _ _); [|reflexivity].
    assert (ES : shape_eqb (a :: s) (shp ivar) = false).
    { destruct (shape_eqb (a :: s) (shp ivar)) eqn:EE; auto. apply shape_eqb_eq in EE. congruence. }
    rewrite ES. reflexivity.
Qed.
Lemma E_C07_shapes : shp (vec [1; 2]%Q) = [2] /\
  error_floor (fun x => x) (vec [1; 2]%Q) (vec [1; 2; 3]%Q) (vec [1; 2; 3]%Q) = Raise TypeError.
Proof. split; reflexivity. Qed.

(** C04.  sdss_asinh_to_maggies with arrays that do not fit: magnitude errors or extinctions of another shape than the
    magnitudes, or other than five bands, raise TypeError (the code raises a string); a number raises IndexError. *)
Lemma L_C04_shapes :
  forall (T : Type) (N : Num T) (mag : nd T) err ext,
    ((exists e, err = Some e /\ shp e <> shp mag) \/ (exists e, ext = Some e /\ shp e <> shp mag) ->
       sdss_asinh_to_maggies mag err ext = Raise TypeError) /\
    ((forall e, err = Some e \/ ext = Some e -> shp e = shp mag) ->
       (shp mag = [] -> sdss_asinh_to_maggies mag err ext = Raise IndexError) /\
       (shp mag <> [] -> last (shp mag) 0 <> 5 -> sdss_asinh_to_maggies mag err ext = Raise TypeError)).
Proof.
  intros T N mag err ext.
  assert (EQ : forall e : nd T, shp e = shp mag -> shape_eqb (shp mag) (shp e) = true) by (intros e ->; apply shape_eqb_eq; reflexivity).
  assert (NE : forall e : nd T, shp e <> shp mag -> shape_eqb (shp mag) (shp e) = false).
  { intros e He. destruct (shape_eqb _ _) eqn:E; auto. apply shape_eqb_eq in E. congruence. }
  unfold sdss_asinh_to_maggies. cbn [map1 shp]. split.
  - intros [(e & -> & He) | (e & -> & He)].
    + cbn [option_map map1 shp]. rewrite (NE e He). reflexivity.
    + destruct err as [r|]; cbn [option_map map1 shp]; [destruct (shape_eqb _ (shp r)); [|reflexivity]|]; rewrite (NE e He); reflexivity.
  - intro H.
    assert (E1 : match option_map (map1 cst) err with Some e => shape_eqb (shp mag) (shp e) | None => true end = true)
      by (destruct err as [r|]; [cbn; apply EQ, H; auto|reflexivity]).
    assert (E2 : match option_map (map1 cst) ext with Some e => shape_eqb (shp mag) (shp e) | None => true end = true)
      by (destruct ext as [r|]; [cbn; apply EQ, H; auto|reflexivity]).
    rewrite E1, E2. cbn [negb]. split.
    + intros ->. reflexivity.
    + intros Hs Hl. destruct (shp mag) as [|a s] eqn:E; [congruence|]. unfold lastd.
      destruct (Nat.eqb_spec (last (a :: s) 0) 5); [contradiction|]. reflexivity.
Qed.
Lemma E_C04_shapes :
  sdss_asinh_to_maggies (vec [1; 2; 3; 4; 5]%Q) None (Some (vec [1; 1]%Q)) = Raise TypeError /\
  sdss_asinh_to_maggies (scal 1%Q) (Some (scal 1%Q)) None = Raise IndexError.
Proof. split; reflexivity. Qed.

(** C67.  tofits of a response of an empty curve raises IndexError, of a curve with different numbers of wavelengths and
    responses ValueError; except that a single response beside several wavelengths is written as a constant curve. *)
Lemma L_C67_bad_curve :
  forall (T : Type) (N : Num T) (r : resp T) w y, p_wave r = Some w -> p_resp r = Some y ->
    (w = [] \/ y = [] -> resp_tofits r = Raise IndexError) /\
    (w <> [] -> y <> [] -> length y <> length w -> length y <> 1%nat -> resp_tofits r = Raise ValueError) /\
    (forall x, (2 <= length w)%nat -> y = [x] ->
      resp_tofits r = Ok [HNum {| h_name := ""%string; h_cols := [("wave"%string, mk [1; length w]%nat w);
                                                                    ("response"%string, mk [1; length w]%nat (repeat x (length w)))] |}]).
Proof.
  intros T N r w y Hw Hy. unfold resp_tofits. rewrite Hw, Hy. split; [|split].
  - intros [-> | ->]; [reflexivity|]. destruct w; reflexivity.
  - intros H1 H2 H3 H4. destruct w as [|a w]; [congruence|]. destruct y as [|b y]; [congruence|].
    destruct (Nat.eqb_spec (length (b :: y)) (length (a :: w))); [congruence|]. destruct (Nat.eqb_spec (length (b :: y)) 1); [congruence|]. reflexivity.
  - intros x L ->. destruct w as [|a [|b w]]; cbn [length] in L; try lia. reflexivity.
Qed.
Lemma E_C67_bad_curve : exists r : resp Q, p_wave r = Some [1; 2; 3]%Q /\ p_resp r = Some [5]%Q /\ (2 <= length [1; 2; 3]%Q)%nat.
Proof. exists {| p_wave := Some [1; 2; 3]%Q; p_resp := Some [5]%Q; p_interp := None; p_leff := None; p_solar := None; p_vega2ab := None; p_fwhm := None |}. repeat split. cbn. lia. Qed.
