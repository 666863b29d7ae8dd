(** Catalogues (C109): the proofs.  Prop_Cat.v restates them. *)
From Coq Require Import String List Arith Lia Bool QArith Qreals Reals Lra.
From Verif Require Import Base BaseLemmas Num Toy Spec Interp Sed Response RespDict Fitter FitSpec FitEx Kcorrect KSpec KEx CatSpec.
Import ListNotations.
Local Open Scope nat_scope.
(* STATEMENTS *)
From Verif Require Import Utils UtilsProofs UtilsReal FitterProofs FitterThms KcorrectProofs AbsmagProofs AbsmagThms DerivedThms AbProofs AbThms.

Section Cat.
  Context {T : Type} {N : Num T}.
  Variables (nnls : option nat -> nat -> list (list T) -> list T -> option (list T)) (rng : nat -> T) (distmod : T -> T).
  Variables (K : kcor T) (A Ao : atab T) (nb no nt : nat).
  Hypotheses (Hx : forall x : T, cst x = x) (H1 : forall x : T, nmul x n1 = x) (Hs : nnls_shape nnls)
    (HK : kready K A Ao nb no nt) (Hab : no_ab (k_fit K)) (Hnb : nb <> 1).

  Lemma map_cst (l : list T) : map cst l = l.
  Proof using All. rewrite <- (map_id l) at 2. apply map_ext. auto. Qed.

  (** The coefficients of one object. *)
  Lemma one_coeffs o r cur : obj_ok nb o -> fit_object nnls rng (k_fit K) 0 o 0 = Ok (r, cur) ->
    cur = 0 /\ exists c, r = Bare (vec c) /\ length c = nt.
  Proof using All.
    intros Ho E. destruct HK as (HR & _).
    destruct (L_C26_shape T N nnls rng (k_fit K) A nb nt (scal (o_z o)) (Some (vec (o_m o))) (Some (vec (o_iv o))) 0 r cur Hs HR)
      as (-> & c & -> & Wc & Q); [reflexivity|exact E|]. split; auto.
    destruct Q as [[_ Q]|(n & Q & _)]; [|discriminate]. exists (dat c). split.
    - f_equal. destruct c as [s l]. cbn in *. subst s. unfold wf, size in Wc. cbn in Wc. unfold vec. f_equal. f_equal. lia.
    - unfold wf in Wc. rewrite Q in Wc. unfold size in Wc. cbn in Wc. lia.
  Qed.

  Lemma run_ok objs : Forall (obj_ok nb) objs -> forall cs,
    Forall2 (fun o c => fit_object nnls rng (k_fit K) 0 o 0 = Ok (Bare (vec c), 0)) objs cs ->
    run_each (fit_object nnls rng (k_fit K) 0) objs 0 = Ok (map (fun c => Bare (vec c)) cs, 0).
  Proof using All. intros _ cs F. induction F as [|o c os cs E F IH]; [reflexivity|]. cbn [run_each map]. rewrite E, IH. reflexivity. Qed.

  (** The coefficients of a catalogue. *)
  Lemma all_coeffs objs : Forall (obj_ok nb) objs -> forall cs,
    Forall2 (fun o c => fit_object nnls rng (k_fit K) 0 o 0 = Ok (Bare (vec c), 0)) objs cs ->
    fit_objects nnls rng (k_fit K) nb 0 objs 0 = Ok (Bare (table nt cs), 0).
  Proof using All.
    intros Ho cs F. destruct HK as (HR & _).
    assert (L : length objs = length cs) by (clear Ho; induction F; cbn; auto).
    destruct (Nat.eq_dec (length objs) 1) as [E1|E1].
    - destruct F as [|o c os cs E F]; [discriminate|]. destruct F; [|discriminate].
      rewrite (L_C27_batch_of_one T N nnls rng (k_fit K) A nb nt o 0 Hs Hab HR Hnb) by (inversion Ho; auto).
      rewrite E. unfold table. cbn [out_c length concat]. rewrite app_nil_r. reflexivity.
    - rewrite (L_C27_batch_is_sequence_of_single_calls T N nnls rng (k_fit K) A nb nt 0 objs 0 Hs Hab HR Hnb Ho E1).
      rewrite (run_ok objs Ho cs F). cbn [Nat.eqb]. unfold table. rewrite L. do 4 f_equal. f_equal. rewrite map_map.
      rewrite <- (map_id cs) at 2. apply map_ext. intro c. cbn [out_c dat vec]. apply map_cst.
  Qed.

  Lemma run_raise objs : forall e, run_each (fit_object nnls rng (k_fit K) 0) objs 0 = Raise e -> Forall (obj_ok nb) objs ->
    exists o, In o objs /\ fit_object nnls rng (k_fit K) 0 o 0 = Raise e.
  Proof using All.
    induction objs as [|o os IH]; intros e E Ho; [discriminate|]. cbn [run_each] in E. inversion Ho as [|? ? Ho1 Ho2]; subst.
    destruct (fit_object nnls rng (k_fit K) 0 o 0) as [[r cur]|e'] eqn:E1.
    - destruct (one_coeffs _ _ _ Ho1 E1) as (-> & _). destruct (run_each _ os 0) as [[? ?]|e''] eqn:E2; [discriminate|].
      injection E as <-. destruct (IH _ eq_refl Ho2) as (o' & Hin & E'). exists o'. split; [right; auto|auto].
    - injection E as <-. exists o. split; [left; auto|auto].
  Qed.

  (** Either all objects can be fit, or a catalogue with one that cannot fails as one of them. *)
  Lemma fits_or objs : Forall (obj_ok nb) objs ->
    (exists cs, Forall2 (fun o c => fit_object nnls rng (k_fit K) 0 o 0 = Ok (Bare (vec c), 0)) objs cs /\ Forall (fun c => length c = nt) cs) \/
    (exists o e, In o objs /\ fit_object nnls rng (k_fit K) 0 o 0 = Raise e).
  Proof using All.
    induction 1 as [|o os Ho Hos IH]; [left; exists []; split; constructor|].
    destruct (fit_object nnls rng (k_fit K) 0 o 0) as [[r cur]|e] eqn:E.
    - destruct (one_coeffs _ _ _ Ho E) as (-> & c & -> & Lc). destruct IH as [(cs & F & L)|(o' & e & Hin & E')].
      + left. exists (c :: cs). split; constructor; auto.
      + right. exists o', e. split; [right; auto|auto].
    - right. exists o, e. split; [left; auto|auto].
  Qed.

  Lemma fits_raise objs e : Forall (obj_ok nb) objs -> fit_objects nnls rng (k_fit K) nb 0 objs 0 = Raise e ->
    exists o, In o objs /\ fit_object nnls rng (k_fit K) 0 o 0 = Raise e.
  Proof using All.
    intros Ho E. destruct HK as (HR & _). destruct (Nat.eq_dec (length objs) 1) as [E1|E1].
    - destruct objs as [|o [|]]; try discriminate.
      rewrite (L_C27_batch_of_one T N nnls rng (k_fit K) A nb nt o 0 Hs Hab HR Hnb) in E by (inversion Ho; auto).
      exists o. split; [left; auto|]. destruct (fit_object _ _ _ _ _ _) as [[? ?]|]; [discriminate|exact E].
    - rewrite (L_C27_batch_is_sequence_of_single_calls T N nnls rng (k_fit K) A nb nt 0 objs 0 Hs Hab HR Hnb Ho E1) in E.
      apply run_raise; auto. destruct (run_each _ _ _) as [[? ?]|]; [discriminate|congruence].
  Qed.

  Lemma fits_fail objs o e : Forall (obj_ok nb) objs -> In o objs -> fit_object nnls rng (k_fit K) 0 o 0 = Raise e ->
    exists e', fit_objects nnls rng (k_fit K) nb 0 objs 0 = Raise e'.
  Proof using All.
    intros Ho Hin E. destruct HK as (HR & _).
    destruct (fit_objects nnls rng (k_fit K) nb 0 objs 0) as [[r cur]|e'] eqn:EF; [|eauto]. exfalso.
    destruct (Nat.eq_dec (length objs) 1) as [E1|E1].
    - destruct objs as [|o' [|]]; try discriminate. destruct Hin as [<-|[]].
      rewrite (L_C27_batch_of_one T N nnls rng (k_fit K) A nb nt o' 0 Hs Hab HR Hnb) in EF by (inversion Ho; auto).
      rewrite E in EF. discriminate.
    - apply In_nth_error in Hin as [i Hi]. 
      assert (B : exists c, r = Bare c /\ cur = 0).
      { destruct (L_C26_shape T N nnls rng (k_fit K) A nb nt (objs_z objs) (Some (objs_m nb objs)) (Some (objs_iv nb objs)) 0 r cur Hs HR)
          as (-> & c & -> & _); [apply wf_vec|exact EF|eauto]. }
      destruct B as (c & -> & ->).
      destruct (L_C27_rows T N nnls rng (k_fit K) A nb nt objs 0 c 0 Hs Hab HR Hnb Ho E1 EF i o Hi) as (ci & Q & _). congruence.
  Qed.

  Definition kobj_of (o : obj T) (c : list T) : kobj T := {| ko_z := o_z o; ko_m := o_m o; ko_iv := o_iv o; ko_c := c; ko_d := n0 |}.
  Lemma objects_absmag bs objs cs : Forall2 (fun (o : obj T) (c : list T) => True) objs cs ->
    absmag distmod K (Some (objs_m nb objs)) (Some (objs_iv nb objs)) (Some (objs_z objs)) (Some (table nt cs)) bs None true true true =
    absmag_objects distmod K nb nt bs false true true true (map (fun oc => kobj_of (fst oc) (snd oc)) (combine objs cs)).
  Proof using All.
    intro F. unfold absmag_objects, objs_m, objs_iv, objs_z.
    assert (E : map ko_m (map (fun oc => kobj_of (fst oc) (snd oc)) (combine objs cs)) = map o_m objs /\
                map ko_iv (map (fun oc => kobj_of (fst oc) (snd oc)) (combine objs cs)) = map o_iv objs /\
                map ko_z (map (fun oc => kobj_of (fst oc) (snd oc)) (combine objs cs)) = map o_z objs /\
                map ko_c (map (fun oc => kobj_of (fst oc) (snd oc)) (combine objs cs)) = cs).
    { induction F as [|o c os cs _ F IH]; [auto|]. destruct IH as (E1 & E2 & E3 & E4). cbn [combine map fst snd kobj_of ko_m ko_iv ko_z ko_c].
      rewrite E1, E2, E3, E4. auto. }
    destruct E as (E1 & E2 & E3 & E4). rewrite E1, E2, E3, E4. reflexivity.
  Qed.
  Lemma Forall2_true {A1 B1} (R : A1 -> B1 -> Prop) l l' : Forall2 R l l' -> Forall2 (fun _ _ => True) l l'.
  Proof using All. induction 1; constructor; auto. Qed.
  Lemma kobjs_ok objs cs : Forall (obj_ok nb) objs -> Forall (fun c : list T => length c = nt) cs ->
    Forall (kobj_ok nb nt) (map (fun oc => kobj_of (fst oc) (snd oc)) (combine objs cs)).
  Proof using All.
    revert cs. induction objs as [|o os IH]; intros [|c cs] Ho Hc; try constructor.
    - inversion Ho as [|? ? [? ?] ?]; subst. inversion Hc; subst. repeat split; auto.
    - inversion Ho; inversion Hc; subst. apply IH; auto.
  Qed.
  Lemma out_split objs outs bs : Forall (obj_ok nb) objs -> Forall2 (fun o out => alone nnls rng distmod K bs o = Ok out) objs outs ->
    exists cs ams, outs = combine (map vec cs) ams /\ length cs = length ams /\ Forall (fun c => length c = nt) cs /\
      Forall2 (fun o c => fit_object nnls rng (k_fit K) 0 o 0 = Ok (Bare (vec c), 0)) objs cs /\
      Forall2 (fun o a => absmag_object distmod K bs false true true true o = Ok a) (map (fun oc => kobj_of (fst oc) (snd oc)) (combine objs cs)) ams.
  Proof using All.
    intros Ho F. induction F as [|o out os outs E F IH]; [exists [], []; repeat split; constructor|].
    inversion Ho as [|? ? Ho1 Ho2]; subst. destruct (IH Ho2) as (cs & ams & -> & L & LC & F1 & F2).
    unfold alone in E. apply bind_ok in E as ([r cur] & Ef & E). destruct (one_coeffs _ _ _ Ho1 Ef) as (-> & c & -> & Lc).
    cbn [out_c fst] in E. apply bind_ok in E as (a & Ea & E). injection E as <-.
    exists (c :: cs), (a :: ams). cbn [map combine length]. repeat split; auto.
  Qed.
  Lemma part_length bs o a p row : kobj_ok nb nt o -> absmag_object distmod K bs false true true true o = Ok a ->
    nth_error (parts a) p = Some (vec row) -> length row = no.
  Proof using All.
    intros Ho E Hp. rewrite (obj_eq distmod K A Ao nb no nt bs false true true true o) in E; auto; [|split; auto; intros; rewrite !Hx; auto].
    unfold obj_res in E. destruct (kbad _ _ _ _); [discriminate|]. destruct (_ && _); [discriminate|]. injection E as <-.
    unfold obj_out in Hp. apply am_pack_nth in Hp as [[Q _]|[[Q _]|[[Q _]|[Q _]]]]; unfold vec in Q; injection Q; auto.
  Qed.
End Cat.

(** C109.  A catalogue processed at once (fit_coeffs, then absmag with everything it can return) gives for every object
    what processing the object alone gives: row i of the coefficients and of each of the four arrays is the result for
    object i.  It fails if and only if one of its objects fails alone, with the exception of one of these.  (Exact
    arithmetic with special values, at least two bands; with rounding the K-corrections of a catalogue are rounded first.) *)
Lemma L_C109_rows :
  forall (T : Type) (N : Num T) nnls rng distmod (K : kcor T) A Ao nb no nt bs objs,
    (forall x : T, cst x = x) -> (forall x : T, nmul x n1 = x) -> nnls_shape nnls ->
    kready K A Ao nb no nt -> no_ab (k_fit K) -> nb <> 1 -> Forall (obj_ok nb) objs ->
    let one := alone nnls rng distmod K bs in
    let all := catalogue nnls rng distmod K nb bs objs in
    (forall outs, Forall2 (fun o out => one o = Ok out) objs outs ->
       exists cs a, all = Ok (table nt cs, a) /\ Forall2 (fun out c => fst out = vec c /\ length c = nt) outs cs /\ length (parts a) = 4 /\
         forall p arr, nth_error (parts a) p = Some arr ->
           exists rows, arr = table no rows /\ Forall2 (fun out row => nth_error (parts (snd out)) p = Some (vec row) /\ length row = no) outs rows) /\
    (forall o e, In o objs -> one o = Raise e -> exists e', all = Raise e') /\
    (forall e, all = Raise e -> exists o, In o objs /\ one o = Raise e).
Proof.
  intros T N nnls rng distmod K A Ao nb no nt bs objs Hx H1 Hs HK Hab Hnb Ho one all. split; [|split].
  - intros outs F. destruct (out_split nnls rng distmod K A Ao nb no nt Hx H1 Hs HK Hab Hnb objs outs bs Ho F) as (cs & ams & -> & L & LC & F1 & F2).
    destruct (L_C44_batch T N distmod K A Ao nb no nt bs false true true true _ Hx H1 HK Hab (kobjs_ok nnls rng distmod K A Ao nb no nt Hx H1 Hs HK Hab Hnb objs cs Ho LC)) as (B & _).
    destruct (B _ F2) as (a & Ea & La & R). exists cs, a. split; [|split; [|split]].
    + unfold all, catalogue. rewrite (all_coeffs nnls rng distmod K A Ao nb no nt Hx H1 Hs HK Hab Hnb objs Ho cs F1). cbn [bind fst out_c].
      rewrite (objects_absmag nnls rng distmod K A Ao nb no nt Hx H1 Hs HK Hab Hnb bs objs cs) by (eapply (Forall2_true nnls rng distmod K A Ao nb no nt Hx H1 Hs HK Hab Hnb); eauto). rewrite Ea. reflexivity.
    + clear - L LC. revert ams L. induction LC as [|c cs Hc LC IH]; intros [|am ams] L; try discriminate; constructor; auto.
    + exact La.
    + intros p arr Hp. destruct (R p arr Hp) as (rows & -> & FR). exists rows. split; auto.
      pose proof (kobjs_ok nnls rng distmod K A Ao nb no nt Hx H1 Hs HK Hab Hnb objs cs Ho LC) as OK. revert F2 OK L FR. clear - Hx H1 Hs HK Hab Hnb. generalize (map (fun oc : obj T * list T => kobj_of (fst oc) (snd oc)) (combine objs cs)).
      intros kos F2 OK L FR. revert cs rows L FR. induction F2 as [|ko am kos ams E F2 IH]; intros [|c cs] rows L FR; try discriminate; inversion FR; subst; constructor; inversion OK; subst; auto.
      split; auto. eapply part_length; eauto.
  - intros o e Hin E. unfold one, alone in E. unfold all, catalogue.
    destruct (fits_or nnls rng distmod K A Ao nb no nt Hx H1 Hs HK Hab Hnb objs Ho) as [(cs & F & LC)|(o' & e' & Hin' & E')].
    + rewrite (all_coeffs nnls rng distmod K A Ao nb no nt Hx H1 Hs HK Hab Hnb objs Ho cs F). cbn [bind fst out_c].
      rewrite (objects_absmag nnls rng distmod K A Ao nb no nt Hx H1 Hs HK Hab Hnb bs objs cs) by (eapply (Forall2_true nnls rng distmod K A Ao nb no nt Hx H1 Hs HK Hab Hnb); eauto).
      destruct (L_C44_batch T N distmod K A Ao nb no nt bs false true true true _ Hx H1 HK Hab (kobjs_ok nnls rng distmod K A Ao nb no nt Hx H1 Hs HK Hab Hnb objs cs Ho LC)) as (_ & B & _).
      assert (X : exists c, fit_object nnls rng (k_fit K) 0 o 0 = Ok (Bare (vec c), 0) /\ In (o, c) (combine objs cs)).
      { clear - F Hin. induction F as [|o' c os cs E F IH]; [destruct Hin|]. destruct Hin as [->|Hin].
        - exists c. split; [auto|left; auto].
        - destruct (IH Hin) as (c' & Q & I). exists c'. split; [auto|right; auto]. }
      destruct X as (c & Ec & Hc). rewrite Ec in E. cbn [bind fst out_c] in E.
      destruct (absmag distmod K (Some (vec (o_m o))) _ _ _ _ _ _ _ _) as [a|e'] eqn:Ea; [discriminate|].
      assert (M : In (kobj_of o c) (map (fun oc => kobj_of (fst oc) (snd oc)) (combine objs cs))) by (apply in_map_iff; exists (o, c); auto).
      destruct (B (kobj_of o c) e' M Ea) as (e'' & Q). exists e''. rewrite Q. reflexivity.
    + destruct (fits_fail nnls rng distmod K A Ao nb no nt Hx H1 Hs HK Hab Hnb objs o' e' Ho Hin' E') as (e'' & ->). exists e''. reflexivity.
  - intros e E. unfold all, catalogue in E. unfold one, alone.
    destruct (fits_or nnls rng distmod K A Ao nb no nt Hx H1 Hs HK Hab Hnb objs Ho) as [(cs & F & LC)|(o' & e' & Hin' & E')].
    + rewrite (all_coeffs nnls rng distmod K A Ao nb no nt Hx H1 Hs HK Hab Hnb objs Ho cs F) in E. cbn [bind fst out_c] in E.
      rewrite (objects_absmag nnls rng distmod K A Ao nb no nt Hx H1 Hs HK Hab Hnb bs objs cs) in E by (eapply (Forall2_true nnls rng distmod K A Ao nb no nt Hx H1 Hs HK Hab Hnb); eauto).
      destruct (absmag_objects _ _ _ _ _ _ _ _ _ _) as [a|e'] eqn:Ea; [discriminate|]. injection E as <-.
      destruct (L_C44_batch T N distmod K A Ao nb no nt bs false true true true _ Hx H1 HK Hab (kobjs_ok nnls rng distmod K A Ao nb no nt Hx H1 Hs HK Hab Hnb objs cs Ho LC)) as (_ & _ & B).
      destruct (B _ Ea) as (ko & Hin & Ek). apply in_map_iff in Hin as ((o & c) & <- & Hin). cbn [fst snd] in Ek.
      exists o. split; [eapply in_combine_l; eauto|].
      assert (X : fit_object nnls rng (k_fit K) 0 o 0 = Ok (Bare (vec c), 0)).
      { clear - F Hin. induction F as [|o' c' os cs E F IH]; [destruct Hin|]. destruct Hin as [Q|Hin]; [injection Q as -> ->; auto|auto]. }
      rewrite X. cbn [bind fst out_c]. unfold absmag_object in Ek. cbn [kobj_of ko_m ko_iv ko_z ko_c] in Ek. rewrite Ek. reflexivity.
    + destruct (fits_fail nnls rng distmod K A Ao nb no nt Hx H1 Hs HK Hab Hnb objs o' e' Ho Hin' E') as (e'' & E2). rewrite E2 in E. injection E as <-.
      destruct (fits_raise nnls rng distmod K A Ao nb no nt Hx H1 Hs HK Hab Hnb objs e'' Ho E2) as (o & Hin & Eo). exists o. split; auto. rewrite Eo. reflexivity.
Qed.
Lemma E_C109_rows : let one := alone ex_nnls (fun _ => 0%Q) (fun z => z) q_kcor 0%Q in
  kready q_kcor q_tab q_out 2 2 3 /\ no_ab (k_fit q_kcor) /\ nnls_shape (T := Q) ex_nnls /\ (forall x : Q, cst x = x) /\
  Forall (obj_ok 2) [q_obj 0 1 2; q_obj 1 3 4] /\
  (exists outs, Forall2 (fun o out => one o = Ok out) [q_obj 0 1 2; q_obj 1 3 4] outs) /\
  one (q_obj 9 3 4) = Raise ValueError /\
  catalogue ex_nnls (fun _ => 0%Q) (fun z => z) q_kcor 2 0%Q [q_obj 0 1 2; q_obj 9 3 4; q_obj 1 3 4] = Raise ValueError.
Proof.
  cbv zeta. split; [apply q_kready|]. split; [left; reflexivity|]. split; [apply ex_nnls_shape|]. split; [reflexivity|].
  split; [repeat constructor|]. split; [|split; vm_compute; reflexivity].
  eexists. constructor; [|constructor; [|constructor]]; vm_compute; reflexivity.
Qed.

(** All objects of a catalogue that can be processed can be processed alone. *)
Lemma all_alone T (N : Num T) nnls rng distmod (K : kcor T) A Ao nb no nt bs objs r :
  (forall x : T, cst x = x) -> (forall x : T, nmul x n1 = x) -> nnls_shape nnls ->
  kready K A Ao nb no nt -> no_ab (k_fit K) -> nb <> 1 -> Forall (obj_ok nb) objs ->
  catalogue nnls rng distmod K nb bs objs = Ok r -> forall objs', incl objs' objs ->
  exists outs, Forall2 (fun o out => alone nnls rng distmod K bs o = Ok out) objs' outs.
Proof.
  intros Hx H1 Hs HK Hab Hnb Ho E. destruct (L_C109_rows T N nnls rng distmod K A Ao nb no nt bs objs Hx H1 Hs HK Hab Hnb Ho) as (_ & B & _).
  induction objs' as [|o os IH]; intro Hi; [exists []; constructor|].
  destruct IH as [outs F]; [intros x Hx'; apply Hi; right; auto|].
  destruct (alone nnls rng distmod K bs o) as [out|e] eqn:Eo.
  - exists (out :: outs). constructor; auto.
  - destruct (B o e) as (e' & Q); [apply Hi; left; auto|exact Eo|]. rewrite E in Q. discriminate.
Qed.

Lemma Forall2_nth {A B} (R : A -> B -> Prop) l l' : Forall2 R l l' -> forall i a, nth_error l i = Some a -> exists b, nth_error l' i = Some b /\ R a b.
Proof.
  induction 1 as [|a b l l' Hab F IH]; intros i x Hi; [destruct i; discriminate|]. destruct i; cbn in *; [injection Hi as <-; eauto|auto].
Qed.
Lemma nth_error_lt {A} (l : list A) i x : nth_error l i = Some x -> i < length l.
Proof. intro H. apply nth_error_Some. congruence. Qed.

(** So the objects of a catalogue do not influence each other: any of them, in any order, repeated or not, make a
    catalogue whose rows are those of the first.  In particular a catalogue can be reordered, split and put together. *)
Lemma L_C109_selection :
  forall (T : Type) (N : Num T) nnls rng distmod (K : kcor T) A Ao nb no nt bs objs objs' c a,
    (forall x : T, cst x = x) -> (forall x : T, nmul x n1 = x) -> nnls_shape nnls ->
    kready K A Ao nb no nt -> no_ab (k_fit K) -> nb <> 1 -> Forall (obj_ok nb) objs -> incl objs' objs ->
    catalogue nnls rng distmod K nb bs objs = Ok (c, a) ->
    exists c' a', catalogue nnls rng distmod K nb bs objs' = Ok (c', a') /\ length (parts a) = 4 /\ length (parts a') = 4 /\
      forall i j o, nth_error objs i = Some o -> nth_error objs' j = Some o ->
        row j c' = row i c /\
        forall p x x', nth_error (parts a) p = Some x -> nth_error (parts a') p = Some x' -> row j x' = row i x.
Proof.
  intros T N nnls rng distmod K A Ao nb no nt bs objs objs' c a Hx H1 Hs HK Hab Hnb Ho Hi E.
  assert (Ho' : Forall (obj_ok nb) objs').
  { apply Forall_forall. intros o Hin. rewrite Forall_forall in Ho. auto. }
  destruct (all_alone T N nnls rng distmod K A Ao nb no nt bs objs _ Hx H1 Hs HK Hab Hnb Ho E objs (incl_refl _)) as (outs & F).
  destruct (all_alone T N nnls rng distmod K A Ao nb no nt bs objs _ Hx H1 Hs HK Hab Hnb Ho E objs' Hi) as (outs' & F').
  destruct (L_C109_rows T N nnls rng distmod K A Ao nb no nt bs objs Hx H1 Hs HK Hab Hnb Ho) as (B & _).
  destruct (L_C109_rows T N nnls rng distmod K A Ao nb no nt bs objs' Hx H1 Hs HK Hab Hnb Ho') as (B' & _).
  destruct (B _ F) as (cs & a1 & E1 & FC & L4 & R). rewrite E in E1. injection E1 as -> <-.
  destruct (B' _ F') as (cs' & a' & E' & FC' & L4' & R').
  exists (table nt cs'), a'. split; [exact E'|]. split; [exact L4|]. split; [exact L4'|].
  intros i j o Hoi Hoj. destruct (Forall2_nth _ _ _ F i o Hoi) as (out & Hu & Eo). destruct (Forall2_nth _ _ _ F' j o Hoj) as (out' & Hu' & Eo').
  rewrite Eo in Eo'. injection Eo' as <-. split.
  - destruct (Forall2_nth _ _ _ FC i out Hu) as (ci & Hc & Q & _). destruct (Forall2_nth _ _ _ FC' j out Hu') as (cj & Hc' & Q' & _).
    assert (ci = cj) by (rewrite Q in Q'; injection Q'; auto). subst cj.
    assert (RC : rect nt cs) by (clear - FC; induction FC as [|? ? ? ? [_ L] F IH]; constructor; auto).
    assert (RC' : rect nt cs') by (clear - FC'; induction FC' as [|? ? ? ? [_ L] F IH]; constructor; auto).
    rewrite !row_table by (eauto using nth_error_lt). f_equal.
    rewrite (nth_error_nth _ _ _ Hc), (nth_error_nth _ _ _ Hc'). reflexivity.
  - intros p x x' Hp Hp'. destruct (R p x Hp) as (rows & -> & FR). destruct (R' p x' Hp') as (rows' & -> & FR').
    destruct (Forall2_nth _ _ _ FR i out Hu) as (r & Hr & Q). destruct (Forall2_nth _ _ _ FR' j out Hu') as (r' & Hr' & Q').
    destruct Q as [Q _], Q' as [Q' _]. assert (r = r') by (rewrite Q in Q'; injection Q'; auto). subst r'.
    assert (RC : rect no rows) by (clear - FR; induction FR as [|? ? ? ? [_ L] F IH]; constructor; auto).
    assert (RC' : rect no rows') by (clear - FR'; induction FR' as [|? ? ? ? [_ L] F IH]; constructor; auto).
    rewrite !row_table by (eauto using nth_error_lt). f_equal.
    rewrite (nth_error_nth _ _ _ Hr), (nth_error_nth _ _ _ Hr'). reflexivity.
Qed.
Lemma E_C109_selection : exists c a,
  catalogue ex_nnls (fun _ => 0%Q) (fun z => z) q_kcor 2 0%Q [q_obj 0 1 2; q_obj 1 3 4] = Ok (c, a) /\
  incl [q_obj 1 3 4; q_obj 0 1 2; q_obj 1 3 4] [q_obj 0 1 2; q_obj 1 3 4] /\ row 1 c <> row 0 c.
Proof.
  do 2 eexists. split; [vm_compute; reflexivity|]. split; [intros x [<-|[<-|[<-|[]]]]; cbn; auto|]. vm_compute. discriminate.
Qed.

(** The same for the derived quantities of the fits, for as many output as input bands (or no output bands): every entry
    of the dictionary has one row per object, the one obtained for the object alone; the catalogue fails if and only if
    one of its objects does. *)
Lemma L_C109_derived :
  forall (T : Type) (N : Num T) nnls rng distmod solar (K : kcor T) A Ao nb no nt bs sols objs,
    (forall x : T, cst x = x) -> (forall x : T, nmul x n1 = x) -> nnls_shape nnls ->
    kready K A Ao nb no nt -> no_ab (k_fit K) -> nb <> 1 -> nb = no \/ no = 0 -> tmpl_shape K nt -> solars solar K sols ->
    Forall (obj_ok nb) objs ->
    let one := alone_derived nnls rng distmod solar K bs in
    let all := catalogue_derived nnls rng distmod solar K nb bs objs in
    (forall outs, Forall2 (fun o out => one o = Ok out) objs outs ->
       exists a, all = Ok a /\ length a = 7 /\
         forall q key arr, nth_error a q = Some (key, arr) ->
           (exists vals, arr = vec vals /\ Forall2 (fun o v => nth_error o q = Some (key, scal v)) outs vals) \/
           (exists rows, arr = table no rows /\ Forall2 (fun o row => nth_error o q = Some (key, vec row)) outs rows)) /\
    (forall o e, In o objs -> one o = Raise e -> exists e', all = Raise e') /\
    (forall e, all = Raise e -> exists o, In o objs /\ one o = Raise e).
Proof.
  intros T N nnls rng distmod solar K A Ao nb no nt bs sols objs Hx H1 Hs HK Hab Hnb Hno Ht Hsol Ho one all.
  assert (DO : forall cs, length cs = length objs ->
     derived distmod solar K (Some (objs_z objs)) (Some (table nt cs)) bs None = derived_objects distmod solar K nt bs (combine (map o_z objs) cs)).
  { intros cs L. unfold derived_objects, objs_z. assert (E : map fst (combine (map o_z objs) cs) = map o_z objs /\ map snd (combine (map o_z objs) cs) = cs).
    { clear - L. revert cs L. induction objs as [|o os IH]; intros [|c cs] L; try discriminate; auto. cbn [map combine fst snd] in *.
      destruct (IH cs) as [E1 E2]; auto. rewrite E1, E2. auto. }
    destruct E as [-> ->]. reflexivity. }
  assert (ZOK : forall cs, Forall (fun c : list T => length c = nt) cs -> Forall (zc_ok nt) (combine (map o_z objs) cs)).
  { intros cs LC. apply Forall_forall. intros [z c] Hin. apply in_combine_r in Hin. unfold zc_ok. rewrite Forall_forall in LC. apply LC; auto. }
  split; [|split].
  - intros outs F.
    assert (X : exists cs, Forall (fun c => length c = nt) cs /\
      Forall2 (fun o c => fit_object nnls rng (k_fit K) 0 o 0 = Ok (Bare (vec c), 0)) objs cs /\
      Forall2 (fun zc out => derived_object distmod solar K bs zc = Ok out) (combine (map o_z objs) cs) outs).
    { clear - F Ho HK Hs Hx H1 Hab Hnb. induction F as [|o out os outs E F IH]; [exists []; repeat split; constructor|].
      inversion Ho as [|? ? Ho1 Ho2]; subst. destruct (IH Ho2) as (cs & LC & F1 & F2).
      unfold one, alone_derived in E. apply bind_ok in E as ([r cur] & Ef & E).
      destruct (one_coeffs nnls rng distmod K A Ao nb no nt Hx H1 Hs HK Hab Hnb _ _ _ Ho1 Ef) as (-> & c & -> & Lc).
      exists (c :: cs). cbn [map combine]. split; [constructor; auto|]. split; constructor; auto. }
    destruct X as (cs & LC & F1 & F2). assert (L : length cs = length objs) by (clear - F1; induction F1; cbn; auto).
    destruct (L_C50_batch T N distmod solar K A Ao nb no nt bs sols _ Hx H1 HK Hno Ht Hsol (ZOK cs LC)) as (B & _).
    destruct (B _ F2) as (a & Ea & R). exists a. split; [|exact R].
    unfold all, catalogue_derived. rewrite (all_coeffs nnls rng distmod K A Ao nb no nt Hx H1 Hs HK Hab Hnb objs Ho cs F1). cbn [bind fst out_c].
    rewrite DO by auto. exact Ea.
  - intros o e Hin E. unfold one, alone_derived in E. unfold all, catalogue_derived.
    destruct (fits_or nnls rng distmod K A Ao nb no nt Hx H1 Hs HK Hab Hnb objs Ho) as [(cs & F & LC)|(o' & e' & Hin' & E')].
    + assert (L : length cs = length objs) by (clear - F; induction F; cbn; auto).
      rewrite (all_coeffs nnls rng distmod K A Ao nb no nt Hx H1 Hs HK Hab Hnb objs Ho cs F). cbn [bind fst out_c]. rewrite DO by auto.
      destruct (L_C50_batch T N distmod solar K A Ao nb no nt bs sols _ Hx H1 HK Hno Ht Hsol (ZOK cs LC)) as (_ & B & _).
      assert (X : exists c, fit_object nnls rng (k_fit K) 0 o 0 = Ok (Bare (vec c), 0) /\ In (o_z o, c) (combine (map o_z objs) cs)).
      { clear - F Hin. induction F as [|o' c os cs E F IH]; [destruct Hin|]. destruct Hin as [->|Hin].
        - exists c. split; [auto|left; auto].
        - destruct (IH Hin) as (c' & Q & I). exists c'. split; [auto|right; auto]. }
      destruct X as (c & Ec & Hc). rewrite Ec in E. cbn [bind fst out_c] in E. exists e. exact (B (o_z o, c) e Hc E).
    + destruct (fits_fail nnls rng distmod K A Ao nb no nt Hx H1 Hs HK Hab Hnb objs o' e' Ho Hin' E') as (e'' & ->). exists e''. reflexivity.
  - intros e E. unfold all, catalogue_derived in E. unfold one, alone_derived.
    destruct (fits_or nnls rng distmod K A Ao nb no nt Hx H1 Hs HK Hab Hnb objs Ho) as [(cs & F & LC)|(o' & e' & Hin' & E')].
    + assert (L : length cs = length objs) by (clear - F; induction F; cbn; auto).
      rewrite (all_coeffs nnls rng distmod K A Ao nb no nt Hx H1 Hs HK Hab Hnb objs Ho cs F) in E. cbn [bind fst out_c] in E. rewrite DO in E by auto.
      destruct (L_C50_batch T N distmod solar K A Ao nb no nt bs sols _ Hx H1 HK Hno Ht Hsol (ZOK cs LC)) as (_ & _ & B).
      destruct (B _ E) as ((z & c) & Hin & Ek).
      assert (X : exists o, In o objs /\ o_z o = z /\ fit_object nnls rng (k_fit K) 0 o 0 = Ok (Bare (vec c), 0)).
      { clear - F Hin. induction F as [|o' c' os cs E F IH]; [destruct Hin|]. destruct Hin as [Q|Hin].
        - injection Q as <- ->. exists o'. split; [left; auto|auto].
        - destruct (IH Hin) as (o & I & Q). exists o. split; [right; auto|auto]. }
      destruct X as (o & Ho' & <- & Ef). exists o. split; auto. rewrite Ef. exact Ek.
    + destruct (fits_fail nnls rng distmod K A Ao nb no nt Hx H1 Hs HK Hab Hnb objs o' e' Ho Hin' E') as (e'' & E2). rewrite E2 in E. injection E as <-.
      destruct (fits_raise nnls rng distmod K A Ao nb no nt Hx H1 Hs HK Hab Hnb objs e'' Ho E2) as (o & Hin & Eo). exists o. split; auto. rewrite Eo. reflexivity.
Qed.
Lemma E_C109_derived : exists a b,
  alone_derived ex_nnls (fun _ => 0%Q) (fun z => z) q_solar q_kcor 0%Q (q_obj 1 3 4) = Ok a /\
  catalogue_derived ex_nnls (fun _ => 0%Q) (fun z => z) q_solar q_kcor 2 0%Q [q_obj 0 1 2; q_obj 1 3 4] = Ok b /\
  tmpl_shape q_kcor 3 /\ catalogue_derived ex_nnls (fun _ => 0%Q) (fun z => z) q_solar q_kcor 2 7%Q [q_obj 0 1 2; q_obj 1 3 4] = Raise ValueError.
Proof.
  do 2 eexists. split; [vm_compute; reflexivity|]. split; [vm_compute; reflexivity|]. split; [repeat constructor|]. vm_compute. reflexivity.
Qed.

Section Ab.
Local Open Scope R_scope.

Lemma seq_from {B} (f : nat -> B) w n : forall s, map f (seq (w + s) n) = map (fun j => f (w + j)%nat) (seq s n).
Proof. induction n as [|n IH]; intro s; [reflexivity|]. cbn [seq map]. f_equal. rewrite <- IH. f_equal. f_equal. lia. Qed.

Lemma concat_cells (g : R -> nat -> R) w rows : (0 < w)%nat -> rect w rows ->
  map (fun j => g (nth j (concat rows) 0) (j mod w)%nat) (seq 0 (length rows * w)) =
  concat (map (fun r => map (fun k => g (nth k r 0) k) (seq 0 w)) rows).
Proof.
  intros Hw Hr. induction Hr as [|r rows Hl Hr IH]; [reflexivity|].
  cbn [length Nat.mul concat map]. rewrite seq_app, map_app. f_equal.
  - apply map_ext_in. intros k Hk. apply in_seq in Hk. rewrite app_nth1 by lia. rewrite Nat.mod_small by lia. reflexivity.
  - rewrite <- IH. cbn [Nat.add]. rewrite <- (Nat.add_0_r w) at 1. rewrite seq_from. apply map_ext_in. intros j Hj.
    rewrite app_nth2 by lia. rewrite Hl. replace (w + j - w)%nat with j by lia.
    replace (w + j)%nat with (j + 1 * w)%nat by lia. rewrite Nat.mod_add by lia. reflexivity.
Qed.

Lemma to_ab_real k s (m iv : list R) : k <> Plain -> ab_bands k (lastd s) -> s <> [] -> length m = size s -> length iv = size s ->
  to_ab k (rarr s m) (Some (rarr s iv)) =
  Ok (rarr s (map (fun j => nth j m 0 * pow10 (-0.4 * ab_offsets k (j mod lastd s))) (seq 0 (size s))),
      Some (rarr s (map (fun j => nth j iv 0 / pow10 (-0.4 * ab_offsets k (j mod lastd s)) ^ 2) (seq 0 (size s))))).
Proof.
  intros Hk Hb Hs Hm Hi. destruct k; [congruence| |]; cbn [to_ab ab_bands ab_offsets] in *.
  - change (@default_abfix xr _) with (vec (map Fin [-0.036; 0.012; 0.010; 0.028; 0.040])).
    rewrite sdss_ab_correct_real by auto. rewrite Hb. reflexivity.
  - rewrite gst_real by auto. do 2 f_equal; [|f_equal]; apply f_equal; apply map_ext; intro j; cbv zeta;
      destruct (_ && _)%bool; auto; rewrite Rmult_0_r, pow10_0; reflexivity.
Qed.

Lemma offset_rows k nb (rows : list (list R)) (g : R -> R -> R) : (0 < nb)%nat -> rect nb rows ->
  map (fun j => g (nth j (concat rows) 0) (ab_offsets k (j mod nb))) (seq 0 (length rows * nb)) =
  concat (map (fun r => map (fun i => g (nth i r 0) (ab_offsets k i)) (seq 0 (length r))) rows).
Proof.
  intros Hw Hr. rewrite (concat_cells (fun x i => g x (ab_offsets k i)) nb rows Hw Hr). f_equal.
  apply map_ext_in. intros r Hin. unfold rect in Hr. rewrite Forall_forall in Hr. rewrite (Hr r Hin). reflexivity.
Qed.
Lemma table_rarr nb rows : table nb (map (map Fin) rows) = rarr [length rows; nb] (concat rows).
Proof. unfold table, rarr. rewrite map_length, concat_map. reflexivity. Qed.
Lemma size_rows nb (rows : list (list R)) : rect nb rows -> length (concat rows) = size [length rows; nb].
Proof.
  intro Hr. unfold size. cbn [fold_right]. rewrite Nat.mul_1_r. induction Hr as [|r rows Hl Hr IH]; auto. cbn [concat length Nat.mul].
  rewrite app_length, IH, Hl. reflexivity.
Qed.

Lemma to_ab_table k nb (ms ivs : list (list R)) : k <> Plain -> ab_bands k nb -> rect nb ms -> rect nb ivs -> length ivs = length ms ->
  to_ab k (table nb (map (map Fin) ms)) (Some (table nb (map (map Fin) ivs))) =
  Ok (table nb (map (fun r => map Fin (map (fun i => nth i r 0 * pow10 (-0.4 * ab_offsets k i)) (seq 0 (length r)))) ms),
      Some (table nb (map (fun r => map Fin (map (fun i => nth i r 0 / pow10 (-0.4 * ab_offsets k i) ^ 2) (seq 0 (length r)))) ivs))).
Proof.
  intros Hk Hb Hm Hi L. assert (H0 : (0 < nb)%nat) by (destruct k; cbn in Hb; congruence || lia).
  pose proof (size_rows nb ms Hm) as Sm. pose proof (size_rows nb ivs Hi) as Si. rewrite L in Si.
  rewrite !table_rarr, L, to_ab_real; auto; [|discriminate]. change (lastd [length ms; nb]) with nb.
  replace (size [length ms; nb]) with (length ms * nb)%nat by (unfold size; cbn; lia).
  rewrite (offset_rows k nb ms (fun x o => x * pow10 (-0.4 * o))) by auto.
  rewrite <- L, (offset_rows k nb ivs (fun x o => x / pow10 (-0.4 * o) ^ 2)) by auto.
  rewrite <- (map_map (fun r => map (fun i => nth i r 0 * pow10 (-0.4 * ab_offsets k i)) (seq 0 (length r))) (map Fin)).
  rewrite <- (map_map (fun r => map (fun i => nth i r 0 / pow10 (-0.4 * ab_offsets k i) ^ 2) (seq 0 (length r))) (map Fin)).
  rewrite !table_rarr, !map_length, L. reflexivity.
Qed.
Lemma to_ab_vec k (m iv : list R) : k <> Plain -> ab_bands k (length m) -> length iv = length m ->
  to_ab k (vec (map Fin m)) (Some (vec (map Fin iv))) =
  Ok (vec (map Fin (map (fun i => nth i m 0 * pow10 (-0.4 * ab_offsets k i)) (seq 0 (length m)))),
      Some (vec (map Fin (map (fun i => nth i iv 0 / pow10 (-0.4 * ab_offsets k i) ^ 2) (seq 0 (length iv)))))).
Proof.
  intros Hk Hb L. assert (H0 : (0 < length m)%nat) by (destruct k; cbn in Hb; congruence || lia).
  assert (V : forall l : list R, vec (map Fin l) = rarr [length l] l) by (intro l; unfold vec, rarr; rewrite map_length; reflexivity).
  rewrite !V, L, !map_length, !seq_length. rewrite to_ab_real; auto; try discriminate; try (unfold size; cbn; lia).
  change (lastd [length m]) with (length m). replace (size [length m]) with (length m) by (unfold size; cbn; lia). 
  do 2 f_equal; [|f_equal]; f_equal; apply map_ext_in; intros j Hj; apply in_seq in Hj; rewrite Nat.mod_small by lia; reflexivity.
Qed.

Lemma some_shape {T} (a : nd T) s : shp a = s -> is_shape (Some a) s.
Proof. intros E b H. injection H as <-. exact E. Qed.
Lemma none_shape {T} s : @is_shape T None s.
Proof. intros b H. discriminate. Qed.

End Ab.

(** With the AB correction of KcorrectSDSS or KcorrectGST (and finite photometry), a catalogue, and an object alone, give
    what they give without the correction for photometry with the offsets of the bands applied; so the two theorems above
    hold for these classes too. *)
Lemma L_C109_abcorrect :
  forall nnls rng distmod (K : kcor xr) A Ao nb no nt bs (objs : list (xr * list R * list R)),
    nnls_shape nnls -> kready K A Ao nb no nt -> f_abc (k_fit K) = true -> f_kind (k_fit K) <> Plain -> ab_bands (f_kind (k_fit K)) nb ->
    Forall (fun o => length (snd (fst o)) = nb /\ length (snd o) = nb) objs ->
    let fin := fun o : xr * list R * list R => finite_obj (fst (fst o)) (snd (fst o)) (snd o) in
    let cor := fun o : xr * list R * list R => offset_obj (ab_offsets (f_kind (k_fit K))) (fst (fst o)) (snd (fst o)) (snd o) in
    catalogue nnls rng distmod K nb bs (map fin objs) = catalogue nnls rng distmod (kwithout_ab K) nb bs (map cor objs) /\
    Forall (fun o => alone nnls rng distmod K bs (fin o) = alone nnls rng distmod (kwithout_ab K) bs (cor o)) objs.
Proof.
  intros nnls rng distmod K A Ao nb no nt bs objs Hs HK Habc Hk Hb Ho fin cor.
  destruct HK as ((HA & Hr & Hn & Ht) & _).
  assert (Hx : forall x : xr, cst x = x) by reflexivity. split.
  - set (ms := map (fun o : xr * list R * list R => snd (fst o)) objs). set (ivs := map (fun o : xr * list R * list R => snd o) objs).
    assert (Rm : rect nb ms) by (unfold rect, ms; rewrite Forall_map; eapply Forall_impl; [|exact Ho]; cbn; tauto).
    assert (Ri : rect nb ivs) by (unfold rect, ivs; rewrite Forall_map; eapply Forall_impl; [|exact Ho]; cbn; tauto).
    assert (L : length ivs = length ms) by (unfold ivs, ms; rewrite !map_length; auto).
    assert (Em : objs_m nb (map fin objs) = table nb (map (map Fin) ms)) by (unfold objs_m, ms; rewrite !map_map; reflexivity).
    assert (Ei : objs_iv nb (map fin objs) = table nb (map (map Fin) ivs)) by (unfold objs_iv, ivs; rewrite !map_map; reflexivity).
    assert (Ez : objs_z (map fin objs) = objs_z (map cor objs)) by (unfold objs_z; rewrite !map_map; reflexivity).
    pose proof (to_ab_table (f_kind (k_fit K)) nb ms ivs Hk Hb Rm Ri L) as TA.
    match type of TA with _ = Ok (?a, Some ?b) => assert (Cm : objs_m nb (map cor objs) = a) by (unfold objs_m, ms; rewrite !map_map; reflexivity);
      assert (Ci : objs_iv nb (map cor objs) = b) by (unfold objs_iv, ivs; rewrite !map_map; reflexivity) end.
    rewrite <- Cm, <- Ci, <- Em, <- Ei in TA.
    assert (Sh : forall (f : xr * list R * list R -> list R), shp (table nb (map (fun o => map Fin (f o)) objs)) = [length objs; nb]) by (intro f; unfold table; cbn [shp]; rewrite map_length; auto).
    assert (S : shp (objs_z (map fin objs)) = [length objs] /\ shp (objs_m nb (map fin objs)) = [length objs; nb] /\ shp (objs_iv nb (map fin objs)) = [length objs; nb]).
    { unfold objs_z, objs_m, objs_iv, table, vec. cbn [shp]. rewrite !map_length. auto. }
    destruct S as (Sz & Sm & Si).
    assert (W : f_nsed (k_fit K) = nt /\ length (f_resp (k_fit K)) = nb) by auto.
    unfold catalogue. unfold fit_objects at 1.
    rewrite (L_C61_fit xr _ nnls rng (k_fit K) (objs_z (map fin objs)) (objs_m nb (map fin objs)) (Some (objs_iv nb (map fin objs))) 0 0 Hx Habc).
    2:{ right. exists (length objs). rewrite Sz, Hr, Hn. split; [reflexivity|]. repeat split; auto using some_shape, none_shape. }
    rewrite TA, Ez. fold (fit_objects nnls rng (without_ab (k_fit K)) nb 0 (map cor objs) 0).
    change (k_fit (kwithout_ab K)) with (without_ab (k_fit K)).
    destruct (fit_objects nnls rng (without_ab (k_fit K)) nb 0 (map cor objs) 0) as [[r cur]|e] eqn:EF; [|reflexivity].
    cbn [bind fst].
    destruct (L_C26_shape xr _ nnls rng (without_ab (k_fit K)) A nb nt (objs_z (map cor objs)) (Some (objs_m nb (map cor objs))) (Some (objs_iv nb (map cor objs))) 0 r cur Hs)
      as (-> & c & -> & Wc & Q); [repeat split; auto; apply Ht|apply wf_vec|exact EF|].
    cbn [out_c].
    rewrite (L_C61_absmag xr _ distmod K (objs_m nb (map fin objs)) (Some (objs_iv nb (map fin objs))) (objs_z (map cor objs)) (Some c) bs None true true true Hx Habc).
    2:{ rewrite <- Ez in Q. right. exists (length objs). rewrite <- Ez, Sz, Hr, Hn. destruct Q as [[Q _]|(n & Q & Q')]; [congruence|].
        rewrite Sz in Q. injection Q as <-. split; [reflexivity|]. repeat split; auto using some_shape, none_shape. }
    rewrite TA. reflexivity.
  - eapply Forall_impl; [|exact Ho]. intros [[z m] iv] [Lm Li]. cbn [fst snd] in Lm, Li. unfold fin, cor, alone. cbn [fst snd].
    unfold fit_object at 1. cbn [finite_obj o_z o_m o_iv offset_obj].
    pose proof (to_ab_vec (f_kind (k_fit K)) m iv Hk) as TA. rewrite Lm in TA. specialize (TA Hb (eq_trans Li (eq_refl))).
    rewrite (L_C61_fit xr _ nnls rng (k_fit K) (scal z) (vec (map Fin m)) (Some (vec (map Fin iv))) 0 0 Hx Habc).
    2:{ left. rewrite Hr, Hn. split; [reflexivity|]. repeat split; try apply none_shape; apply some_shape; unfold vec; cbn [shp]; rewrite map_length; congruence. }
    rewrite TA. unfold offset_obj, finite_obj. cbn [o_z o_m o_iv].
    change (k_fit (kwithout_ab K)) with (without_ab (k_fit K)). unfold fit_object. cbn [o_z o_m o_iv]. rewrite Lm.
    destruct (fit_coeffs _ _ _ _ _ _ _ _) as [[r cur]|e] eqn:EF; [|reflexivity]. cbn [bind fst].
    destruct (L_C26_shape xr _ nnls rng (without_ab (k_fit K)) A nb nt (scal z) _ _ 0 r cur Hs ltac:(repeat split; auto; apply Ht) eq_refl EF)
      as (-> & c & -> & Wc & Q).
    cbn [out_c].
    rewrite (L_C61_absmag xr _ distmod K (vec (map Fin m)) (Some (vec (map Fin iv))) (scal z) (Some c) bs None true true true Hx Habc).
    2:{ left. rewrite Hr, Hn. destruct Q as [[_ Q]|(n & Q & _)]; [|discriminate].
        split; [reflexivity|]. split; [|split; [|apply some_shape; exact Q]]; apply some_shape; unfold vec; cbn [shp]; rewrite map_length; congruence. }
    rewrite TA. reflexivity.
Qed.
Lemma E_C109_abcorrect :
  let A := {| a_x := [Fin 0; Fin 1]; a_rows := [map Fin [1; 2; 3; 4; 5]; map Fin [2; 3; 4; 5; 6]]; a_shape := [5; 1]%nat |}%R in
  let K := {| k_fit := ex_fitter SDSS true ["u"; "g"; "r"; "i"; "z"]%string 1%nat (a_x A) (a_rows A); k_tmpl := ex_tmpl [] [] [] [] [] [];
              k_out := ["g"]%string; k_map := ["g"]%string; k_imap := [1]%nat; k_rr := (Fin 0, Fin 1);
              k_Aout := Some {| a_x := a_x A; a_rows := [[Fin 1]; [Fin 2]]; a_shape := [1; 1]%nat |} |}%R in
  kready K A {| a_x := a_x A; a_rows := [[Fin 1]; [Fin 2]]; a_shape := [1; 1]%nat |}%R 5 1 1 /\ f_abc (k_fit K) = true /\
  ab_bands (f_kind (k_fit K)) 5 /\ Forall (fun o : xr * list R * list R => length (snd (fst o)) = 5 /\ length (snd o) = 5)
    [(Fin 0, [1; 2; 3; 4; 5], [1; 1; 1; 1; 1]); (Fin (1 / 2), [0; -1; 3; 4; 5], [0; 1; 1; 0; 1])]%R /\
  ab_offsets SDSS 0 = (-0.036)%R /\ ab_offsets GST 2 = (-0.036)%R.
Proof.
  cbv zeta. split; [unfold kready, ready, tab_ok, rect; cbn; repeat split; auto; repeat constructor|]. split; [reflexivity|].
  split; [reflexivity|]. split; [repeat constructor|]. split; reflexivity.
Qed.
