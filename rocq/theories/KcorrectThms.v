(** Properties of the Kcorrect class, first part (C40-C43, C48): the proofs.  Prop_Kcorrect.v restates them. *)
From Coq Require Import String List Arith Lia Bool ZArith QArith Qreals Reals Lra.
From Verif Require Import Base BaseLemmas Num Toy Interp InterpReal Utils Sed Response RespDict Fitter FitSpec FitterProofs FitterMC
  FitReal FitTable FitEx FitRealEx Kcorrect KSpec KTable KEx KcorrectProofs XrAlg.
Import ListNotations.
Local Open Scope R_scope.
(* STATEMENTS *)

(** C40.  Whenever construction succeeds, responses_out and responses_map (by default responses) have the same length
    and entry j of the index array is the first position of responses_map[j] in responses. *)
Lemma L_C40_mapping :
  forall (T : Type) (N : Num T) cub bq sun vega fs d k abc responses s t out map_ (r0 r1 : T) nz d' s' K,
    Kcorrect cub bq sun vega fs d k abc responses s t out map_ r0 r1 nz = (d', s', Ok K) ->
    let o := match out with Some l => l | None => responses end in
    let m := match map_ with Some l => l | None => responses end in
    k_out K = o /\ k_map K = m /\ length m = length o /\ length (k_imap K) = length o /\
    f_resp (k_fit K) = responses /\ f_kind (k_fit K) = k /\ f_abc (k_fit K) = abc /\ k_tmpl K = t /\
    k_rr K = (cst r0, cst r1) /\ f_zs (k_fit K) = redshift_grid r0 r1 nz /\
    (forall name, In name m -> In name responses) /\
    forall j name, nth_error m j = Some name ->
      exists i, nth_error (k_imap K) j = Some i /\ nth_error responses i = Some name /\
                forall i', (i' < i)%nat -> nth_error responses i' <> Some name.
Proof.
  intros T N cub bq sun vega fs d k abc responses s t out map_ r0 r1 nz d' s' K H o m. unfold Kcorrect in H.
  assert (HF : forall dd FF, set_Amatrix cub bq sun vega fs d (Fitter k abc responses s r0 r1 nz) = (dd, FF, None) ->
    f_kind FF = k /\ f_abc FF = abc /\ f_resp FF = responses /\ f_zs FF = redshift_grid r0 r1 nz).
  { intros dd FF HS. unfold set_Amatrix in HS. destruct (calc_A _ _ _ _ _ _ _ _ _) as [[? ?] [?|?]]; [|discriminate].
    injection HS as <- <-. cbn. auto. }
  destruct (set_Amatrix _ _ _ _ _ _ _) as [[d1 F1] [e|]]; [discriminate|]. destruct (HF d1 F1 eq_refl) as (F2 & F3 & F4 & F5).
  fold o m in H. destruct (Nat.eqb_spec (length m) (length o)) as [HL|]; [|discriminate]. cbn [negb] in H.
  destruct (if names_eqb o responses then _ else _) as [[d2 s2] A]. injection H as <- <- H.
  apply bind_ok in H as (A' & _ & H). apply bind_ok in H as (im & Him & H). injection H as <-. cbn [k_out k_map k_imap k_fit k_tmpl k_rr f_resp f_kind f_abc f_zs].
  destruct (make_imap_ok _ _ _ Him) as [L Hj].
  assert (Hj' : forall j name, nth_error m j = Some name ->
      exists i, nth_error im j = Some i /\ nth_error responses i = Some name /\
                forall i', (i' < i)%nat -> nth_error responses i' <> Some name).
  { intros j name E. destruct (Hj j name E) as (i & Hi & E'). exists i. split; auto. apply index_of_spec; auto. }
  repeat split; auto; try congruence.
  intros name Hin. apply In_nth_error in Hin as [j Hin]. destruct (Hj' j name Hin) as (i & _ & E & _).
  eapply nth_error_In; eauto.
Qed.
Lemma E_C40_mapping : exists d' s' K, q_build (Some ["g"; "g"; "u"]%string) (Some ["g"; "u"; "u"]%string) = (d', s', Ok K) /\
  k_imap K = [1; 0; 0]%nat /\ exists d'' s'' K', q_build None None = (d'', s'', Ok K') /\ k_imap K' = [0; 1]%nat.
Proof. eexists; eexists; eexists. split; [vm_compute; reflexivity|]. split; [reflexivity|].
  eexists; eexists; eexists. split; [vm_compute; reflexivity|reflexivity]. Qed.

(** With different lengths, or a name in responses_map that is not in responses, construction always raises; once the
    input design matrix (and, for the second case, the output one) has been built, ValueError. *)
Lemma L_C40_rejected :
  forall (T : Type) (N : Num T) cub bq sun vega fs d k abc responses s t out map_ (r0 r1 : T) nz,
    let o := match out with Some l => l | None => responses end in
    let m := match map_ with Some l => l | None => responses end in
    let call := Kcorrect cub bq sun vega fs d k abc responses s t out map_ r0 r1 nz in
    length m <> length o \/ (exists name, In name m /\ ~ In name responses) ->
    (exists e, snd call = Raise e) /\
    forall d1 F1, set_Amatrix cub bq sun vega fs d (Fitter k abc responses s r0 r1 nz) = (d1, F1, None) ->
      length m <> length o \/ o = responses \/
      (exists d2 s2 A, calc_A cub bq sun vega fs o (f_zs F1) d1 (f_sed F1) = (d2, s2, Ok A)) ->
      snd call = Raise ValueError.
Proof.
  intros T N cub bq sun vega fs d k abc responses s t out map_ r0 r1 nz o m call Hbad. unfold call, Kcorrect.
  fold o m.
  destruct (set_Amatrix cub bq sun vega fs d (Fitter k abc responses s r0 r1 nz)) as [[d1 F1] [e|]] eqn:ES.
  - split; [eexists; reflexivity|]. intros; discriminate.
  - assert (HA : exists A, f_A F1 = Some A).
    { unfold set_Amatrix in ES. destruct (calc_A _ _ _ _ _ _ _ _ _) as [[? ?] [A|?]]; [|discriminate].
      injection ES as <- <-. eexists; reflexivity. }
    destruct HA as [A0 HA].
    destruct (Nat.eqb_spec (length m) (length o)) as [HL|HL]; cbn [negb].
    2:{ split; [eexists; reflexivity|auto]. }
    destruct Hbad as [|(name & Hin & Hnot)]; [contradiction|].
    pose proof (make_imap_bad _ _ _ Hin Hnot) as EM.
    split.
    + destruct (if names_eqb o responses then _ else _) as [[d2 s2] [A|e]]; cbn [snd bind]; [rewrite EM; cbn|]; eexists; reflexivity.
    + intros d1' F1' E [|Hok]; [contradiction|]. injection E as <- <-.
      destruct (names_eqb o responses) eqn:En; cbn [snd].
      * rewrite HA; cbn [bind]. rewrite EM; auto.
      * destruct Hok as [Heq|(d2 & s2 & A & EC)]; [apply names_eqb_eq in Heq; congruence|].
        rewrite EC. cbn [snd bind]. rewrite EM; auto.
Qed.
Lemma E_C40_rejected : snd (q_build (Some ["g"]%string) None) = Raise ValueError /\
  snd (q_build None (Some ["u"; "r"]%string)) = Raise ValueError /\
  snd (q_build (Some ["g"]%string) (Some ["r"]%string)) = Raise ValueError.
Proof. repeat split; reflexivity. Qed.

(** Conversely, construction succeeds when the design matrices can be built, the lengths agree and every name of
    responses_map is in responses. *)
Lemma L_C40_accepted :
  forall (T : Type) (N : Num T) cub bq sun vega fs d k abc responses s t out map_ (r0 r1 : T) nz,
    let o := match out with Some l => l | None => responses end in
    let m := match map_ with Some l => l | None => responses end in
    forall d1 F1, set_Amatrix cub bq sun vega fs d (Fitter k abc responses s r0 r1 nz) = (d1, F1, None) ->
      length m = length o -> (forall name, In name m -> In name responses) ->
      o = responses \/ (exists d2 s2 A, calc_A cub bq sun vega fs o (f_zs F1) d1 (f_sed F1) = (d2, s2, Ok A)) ->
      exists K, snd (Kcorrect cub bq sun vega fs d k abc responses s t out map_ r0 r1 nz) = Ok K.
Proof.
  intros T N cub bq sun vega fs d k abc responses s t out map_ r0 r1 nz o m d1 F1 ES HL Hin Hok. unfold Kcorrect.
  rewrite ES. fold o m. rewrite HL, Nat.eqb_refl. cbn [negb].
  assert (HA : exists A, f_A F1 = Some A).
  { unfold set_Amatrix in ES. destruct (calc_A _ _ _ _ _ _ _ _ _) as [[? ?] [A|?]]; [|discriminate].
    injection ES as <- <-. eexists; reflexivity. }
  destruct HA as [A0 HA]. destruct (make_imap_good _ _ Hin) as [im EM].
  destruct (names_eqb o responses) eqn:En; cbn [snd].
  - rewrite HA; cbn [bind]. rewrite EM. eexists; reflexivity.
  - destruct Hok as [Heq|(d2 & s2 & A & EC)]; [apply names_eqb_eq in Heq; congruence|].
    rewrite EC. cbn [snd bind]. rewrite EM. eexists; reflexivity.
Qed.
Lemma E_C40_accepted : exists K, snd (q_build (Some ["g"; "u"]%string) None) = Ok K /\ k_imap K = [0; 1]%nat /\
  k_out K = ["g"; "u"]%string.
Proof. eexists. split; [vm_compute; reflexivity|split; reflexivity]. Qed.

(** A constructed object satisfies what the theorems below assume of a Kcorrect object ([kready]): both interpolators
    are on the redshift grid; with the default output bands the output table is the input table; with default
    responses_map and no repeated name, output band j uses input band j. *)
Lemma L_C40_ready :
  forall (T : Type) (N : Num T) cub bq sun vega fs d k abc responses s t out map_ (r0 r1 : T) nz d' s' K w rows,
    Kcorrect cub bq sun vega fs d k abc responses s t out map_ r0 r1 nz = (d', s', Ok K) ->
    s_rflux s = table w rows -> in_order (redshift_grid r0 r1 nz) -> (2 <= nz)%nat ->
    exists A Ao, kready K A Ao (length responses) (length (k_out K)) (length rows) /\
      a_x A = redshift_grid r0 r1 nz /\ a_x Ao = redshift_grid r0 r1 nz /\
      (k_out K = responses -> Ao = A) /\
      (k_map K = responses -> NoDup responses -> k_imap K = seq 0 (length responses)).
Proof.
  intros T N cub bq sun vega fs d k abc responses s t out map_ r0 r1 nz d' s' K w rows H Hf Ho H2. unfold Kcorrect in H.
  set (o := match out with Some l => l | None => responses end) in *.
  set (m := match map_ with Some l => l | None => responses end) in *.
  assert (Lz : (2 <= length (redshift_grid r0 r1 nz))%nat) by (unfold redshift_grid; rewrite map_length, seq_length; auto).
  destruct (set_Amatrix _ _ _ _ _ _ _) as [[d1 F1] [e|]] eqn:ES; [discriminate|].
  unfold set_Amatrix in ES. cbn [f_resp f_zs f_sed Fitter f_kind f_abc] in ES.
  destruct (calc_A cub bq sun vega fs responses (redshift_grid r0 r1 nz) d s) as [[d0 s0] [A|?]] eqn:EC; [|discriminate].
  injection ES as <- <-. cbn [f_sed f_A f_zs f_kind f_abc f_resp] in H.
  destruct (calc_A_ok cub bq sun vega fs _ _ _ _ _ _ _ _ _ Hf Ho Lz EC) as (T1 & X1 & R1).
  destruct (Nat.eqb_spec (length m) (length o)) as [HL|]; [|discriminate]. cbn [negb] in H.
  destruct (if names_eqb o responses then _ else _) as [[d2 s2] [Ao|e]] eqn:EO; [|discriminate]. injection H as <- <- H.
  cbn [bind] in H. apply bind_ok in H as (im & Him & H). injection H as <-.
  destruct (make_imap_ok _ _ _ Him) as [L Hj]. cbn [k_out k_map k_imap].
  assert (X : tab_ok Ao (length o) (length rows) /\ a_x Ao = redshift_grid r0 r1 nz /\ s_rflux s2 = s_rflux s /\ (o = responses -> Ao = A)).
  { destruct (names_eqb o responses) eqn:En.
    - apply names_eqb_eq in En. injection EO as <- <- <-. rewrite En. auto.
    - rewrite Hf in R1. destruct (calc_A_ok cub bq sun vega fs _ _ _ _ _ _ _ _ _ R1 Ho Lz EO) as (T2 & X2 & R2).
      repeat split; auto; try apply T2; [congruence|]. intro E. apply names_eqb_eq in E. congruence. }
  destruct X as (T2 & X2 & R2 & EA). exists A, Ao. split; [|split; [|split; [|split]]]; auto.
  - unfold kready, ready. cbn [k_fit k_Aout k_out k_imap f_A f_resp]. repeat split; auto; try apply T1; try apply T2; try congruence.
    + unfold f_nsed, s_nsed; cbn [f_sed]. rewrite R2, Hf. reflexivity.
    + eapply make_imap_lt; eauto.
  - intros Em Hd. rewrite Em in Him. apply make_imap_self; auto.
Qed.
Lemma E_C40_ready : s_rflux (q_sed false) = table 5 [[1; 1; 1; 1; 1]; [2; 3; 4; 5; 6]]%Q /\
  in_order (redshift_grid 0 1 2)%Q /\ exists d' s' K, q_build (Some ["g"]%string) (Some ["u"]%string) = (d', s', Ok K).
Proof. split; [reflexivity|]. split; [repeat constructor|]. eexists; eexists; eexists. vm_compute. reflexivity. Qed.

(** C41.  For one object at a redshift with 0 * z = 0 (every finite one): kcorrect fails exactly as reconstruct at the
    redshift or reconstruct_out at redshift 0 fails; otherwise band j is -2.5 log10 of the ratio of band imap[j] of the
    first to band j of the second if the (float32) coefficients have positive sum, and 0 if not. *)
Lemma L_C41_definition :
  forall (T : Type) (N : Num T) (K : kcor T) A Ao nb no nt z c bs,
    rounding N -> kready K A Ao nb no nt -> length c = nt -> nmul (nlit 0) (cst z) = (n0 : T) ->
    let k := kcorrect K (Some (scal z)) (Some (vec c)) bs in
    let mi := reconstruct (k_fit K) (Some (scal z)) (Some (vec c)) n0 in
    let mo := reconstruct_out K (Some (scal n0)) (Some (vec c)) bs in
    (forall e, mi = Raise e -> k = Raise e) /\
    (forall x e, mi = Ok x -> mo = Raise e -> k = Raise e) /\
    (forall x y, mi = Ok x -> mo = Ok y ->
       exists v, k = Ok (vec v) /\ length v = no /\
       forall j, (j < no)%nat -> exists xj yj,
         nth_error (dat x) (in_band K j) = Some xj /\ nth_error (dat y) j = Some yj /\
         nth_error v j = Some (if nltb n0 (nsum (map cst c)) then nmul (nlit (-(5) # 2)) (nlog10 (ndiv xj yj)) else n0)).
Proof.
  intros T N K A Ao nb no nt z c bs HR HK Hc Hz k mi mo.
  pose proof HK as ((HA & Hb & Hn & Ht) & HAo & Hto & Ho & Hi & Hf).
  assert (Ek : k = if kbad A Ao bs z then Raise ValueError else Ok (mk [no] (kval1 K A Ao nb no nt bs z c))) by (apply kc_scal; auto).
  assert (Emi : mi = reconstruct_ (k_fit K) (Some A) (Some (scal z)) (Some (vec c)) n0) by (unfold mi, reconstruct; rewrite HA; auto).
  assert (Emo : mo = reconstruct_ (k_fit K) (Some Ao) (Some (scal n0)) (Some (vec c)) bs) by (unfold mo, reconstruct_out; rewrite HAo; auto).
  rewrite (reconstruct_scal _ _ _ _ Hn Ht Hc) in Emi. rewrite (reconstruct_scal _ _ _ _ Hn Hto Hc) in Emo.
  destruct HR as [R1 R2]. unfold kbad, zero_of in Ek. rewrite Hz, R2 in Ek. rewrite R2 in Emo.
  destruct (out_of (a_x A) (shifted n0 (cst z))); cbn [orb] in Ek.
  - rewrite Emi, Ek. repeat split; [congruence|intros; discriminate|intros; discriminate].
  - destruct (out_of (a_x Ao) (shifted bs n0)).
    + rewrite Emi, Emo, Ek. repeat split; [intros; discriminate|intros; congruence|intros; discriminate].
    + rewrite Emi, Emo, Ek. repeat split; [intros; discriminate|intros; discriminate|].
      intros x y Ex Ey. injection Ex as <-. injection Ey as <-. cbn [dat].
      assert (Lv : length (kval1 K A Ao nb no nt bs z c) = no). { unfold kval1. rewrite kval_len; rewrite recon1_len; auto. }
      eexists. split; [unfold vec; rewrite Lv; reflexivity|]. split; auto.
      intros j Hj.
      assert (Hij : nth_error (k_imap K) j = Some (in_band K j)) by (apply nth_error_nth_lt; lia).
      assert (Hlt : (in_band K j < nb)%nat). { rewrite Forall_forall in Hf. apply Hf. eapply nth_error_In; eauto. }
      destruct (nth_error_lt (recon1 A nb nt n0 (cst z) (map cst c)) (i := in_band K j)) as [xj Hxj]; [rewrite recon1_len; auto|].
      destruct (nth_error_lt (recon1 Ao no nt bs n0 (map cst c)) (i := j)) as [yj Hyj]; [rewrite recon1_len; auto|].
      exists xj, yj. split; auto. split; auto. unfold kval1, kval, zero_of. rewrite Hz, R2.
      destruct (nltb n0 (nsum (map cst c))).
      * rewrite nth_error_zip, Hyj. rewrite nth_error_map, Hij. cbn [option_map]. rewrite (nth_error_nth _ _ _ Hxj). reflexivity.
      * rewrite nth_error_repeat, recon1_len. destruct (Nat.ltb_spec j no); [auto|lia].
Qed.
Lemma E_C41_definition : kready q_kcor q_tab q_out 2 2 3 /\
  kcorrect q_kcor (Some (scal 1%Q)) (Some (vec [1; 0; 2]%Q)) 0%Q = Ok (vec [(-95 # 6); (-25 # 6)]%Q) /\
  kcorrect q_kcor (Some (scal 1%Q)) (Some (vec [1; -3; 2]%Q)) 0%Q = Ok (vec [0; 0]%Q) /\
  kcorrect q_kcor (Some (scal 1%Q)) (Some (vec [1; 0; 2]%Q)) 3%Q = Raise ValueError.
Proof. split; [apply q_kready|]. repeat split; vm_compute; reflexivity. Qed.

(** Row i of a batch is the float32 value of the call for object i; a batch raises if and only if a call for one of its
    objects does. *)
Lemma L_C41_batch :
  forall (T : Type) (N : Num T) (K : kcor T) A Ao nb no nt objs bs,
    rounding N -> kready K A Ao nb no nt -> Forall (zc_ok nt) objs ->
    let one := fun zc : T * list T => kcorrect K (Some (scal (fst zc))) (Some (vec (snd zc))) bs in
    let all := kcorrect K (Some (vec (map fst objs))) (Some (table nt (map snd objs))) bs in
    (forall ks, Forall2 (fun zc k => one zc = Ok (vec k)) objs ks -> all = Ok (table no (map (map cst) ks))) /\
    (forall zc e, In zc objs -> one zc = Raise e -> all = Raise ValueError) /\
    (forall e, all = Raise e -> e = ValueError /\ exists zc, In zc objs /\ one zc = Raise ValueError).
Proof.
  intros T N K A Ao nb no nt objs bs HR HK Hok one all. unfold all. rewrite (kc_vec K A Ao nb no nt objs bs HR HK Hok).
  assert (E1 : forall zc, In zc objs -> one zc =
     if kbad A Ao bs (fst zc) then Raise ValueError else Ok (mk [no] (kval1 K A Ao nb no nt bs (fst zc) (snd zc)))).
  { intros zc Hin. unfold one. apply kc_scal; auto. rewrite Forall_forall in Hok. apply Hok; auto. }
  assert (EB : existsb (fun zc => out_of (a_x A) (shifted n0 (cst (fst zc)))) objs ||
       existsb (fun zc => out_of (a_x Ao) (shifted bs (zero_of (fst zc)))) objs = existsb (fun zc => kbad A Ao bs (fst zc)) objs).
  { clear. unfold kbad. induction objs as [|a l IH]; cbn; auto. rewrite <- IH.
    destruct (out_of (a_x A) _), (out_of (a_x Ao) _), (existsb _ l), (existsb _ l); reflexivity. }
  rewrite EB. clear EB. split; [|split].
  - intros ks H2.
    assert (X : existsb (fun zc => kbad A Ao bs (fst zc)) objs = false /\
                map (fun zc => kval1 K A Ao nb no nt bs (fst zc) (snd zc)) objs = ks).
    { clear all Hok. induction H2 as [|zc k objs ks H H2 IH]; [auto|]. cbn [existsb map].
      rewrite E1 in H by (cbn; auto). destruct (kbad A Ao bs (fst zc)); [discriminate|]. injection H as _ <-.
      destruct IH as [-> ->]; auto. intros; apply E1; cbn; auto. }
    destruct X as [-> <-]. rewrite map_map. auto.
  - intros zc e Hin H. rewrite E1 in H by auto. destruct (kbad A Ao bs (fst zc)) eqn:EK; [|discriminate].
    replace (existsb _ objs) with true; auto. symmetry. apply existsb_exists. eauto.
  - intros e H. destruct (existsb _ objs) eqn:EX; [|discriminate]. injection H as <-. split; auto.
    apply existsb_exists in EX as (zc & Hin & HB). exists zc. split; auto. rewrite E1, HB; auto.
Qed.
Lemma E_C41_batch : rounding Num_Q /\ kready q_kcor q_tab q_out 2 2 3 /\
  kcorrect q_kcor (Some (vec [0; 1]%Q)) (Some (table 3 [[1; 1; 1]; [1; 0; 2]]%Q)) 0%Q =
    Ok (table 2 [[(-25 # 2); (-5 # 2)]; [(-95 # 6); (-25 # 6)]]%Q) /\
  kcorrect q_kcor (Some (vec [0; 5]%Q)) (Some (table 3 [[1; 1; 1]; [1; 0; 2]]%Q)) 0%Q = Raise ValueError.
Proof. split; [apply rounding_Q|]. split; [apply q_kready|]. split; vm_compute; reflexivity. Qed.

(** C42.  Multiplying the coefficients of an object by a positive number leaves its K-corrections unchanged, special
    values included; in a batch the factor may differ between objects. *)
Lemma L_C42_scale :
  forall (K : kcor xr) A Ao nb no nt z c bs a,
    kready K A Ao nb no nt -> length c = nt -> 0 < a ->
    kcorrect K (Some (scal z)) (Some (vec (map (nmul (Fin a)) c))) bs = kcorrect K (Some (scal z)) (Some (vec c)) bs.
Proof.
  intros K A Ao nb no nt z c bs a HK Hc Ha.
  rewrite !(kc_scal K A Ao nb no nt) by (auto using rounding_xr; rewrite map_length; auto).
  rewrite (kval1_scale K A Ao nb no nt bs z c a Ha). auto.
Qed.
Lemma E_C42_scale : kready x_kcor x_tab x_tab 2 2 1 /\ length [Fin 3] = 1%nat /\ 0 < 2.
Proof. split; [apply x_kready|]. split; [reflexivity|lra]. Qed.

Lemma L_C42_scale_batch :
  forall (K : kcor xr) A Ao nb no nt objs bs,
    kready K A Ao nb no nt -> Forall (fun o => length (snd (snd o)) = nt /\ 0 < fst o) objs ->
    kcorrect K (Some (vec (map (fun o => fst (snd o)) objs)))
               (Some (table nt (map (fun o : R * (xr * list xr) => map (nmul (Fin (fst o))) (snd (snd o))) objs))) bs =
    kcorrect K (Some (vec (map (fun o => fst (snd o)) objs))) (Some (table nt (map (fun o => snd (snd o)) objs))) bs.
Proof.
  intros K A Ao nb no nt objs bs HK Hok.
  pose proof (kc_vec K A Ao nb no nt (map (fun o : R * (xr * list xr) => (fst (snd o), map (nmul (Fin (fst o))) (snd (snd o)))) objs) bs rounding_xr HK) as E1.
  pose proof (kc_vec K A Ao nb no nt (map snd objs) bs rounding_xr HK) as E2.
  rewrite !map_map in E1, E2. cbn [fst snd] in E1, E2. rewrite E1, E2; clear E1 E2.
  - rewrite !existsb_map. cbn [fst]. destruct (existsb _ objs || existsb _ objs); auto. do 2 f_equal.
    apply map_ext_in. intros o Ho. rewrite Forall_forall in Hok. destruct (Hok o Ho) as [_ Ha].
    rewrite (kval1_scale K A Ao nb no nt bs _ _ _ Ha). auto.
  - apply Forall_map. eapply Forall_impl; [|exact Hok]. intros o [H _]. exact H.
  - apply Forall_map. eapply Forall_impl; [|exact Hok]. intros o [H _]. unfold zc_ok; cbn. rewrite map_length; auto.
Qed.
Lemma E_C42_scale_batch : kready x_kcor x_tab x_tab 2 2 1 /\
  Forall (fun o => length (snd (snd o)) = 1%nat /\ 0 < fst o) [(2, (Fin 0, [Fin 3])); (3, (Fin (1/2), [NaN]))].
Proof. split; [apply x_kready|]. repeat constructor; cbn; lra. Qed.

(** C43.  When the output bands are the input bands in the same order and band_shift is the redshift, the K-correction
    is -2.5 log10(1+z) in every band with positive reconstructed flux, whatever the (nonnegative or not) coefficients of
    positive sum are. *)
Lemma L_C43_same_band :
  forall (K : kcor R) A nb nt z c m,
    kready K A A nb nb nt -> k_imap K = seq 0 nb -> length c = nt -> -1 < z -> in_range (a_x A) z -> 0 < fold_right Rplus 0 c ->
    reconstruct (k_fit K) (Some (scal z)) (Some (vec c)) 0 = Ok (vec m) ->
    exists k, kcorrect K (Some (scal z)) (Some (vec c)) z = Ok (vec k) /\ length k = nb /\
      forall j, (j < nb)%nat -> 0 < nth j m 0 -> nth_error k j = Some (-5 / 2 * log10 (1 + z)).
Proof.
  intros K A nb nt z c m HK Hi Hc Hz Hr Hs Hm. pose proof HK as ((HA & Hb & Hn & Ht) & HAo & Hto & Ho & HiL & Hf).
  rewrite (model_eq _ A nb nt z c (proj1 HK) Hc Hr) in Hm. injection Hm as _ Hm.
  rewrite (kc_scal K A A nb nb nt z c z rounding_R HK Hc).
  assert (Z0 : zero_of z = 0). { unfold zero_of; rcbn. rewrite RMicromega.Q2R_0. lra. }
  assert (Sh : shifted z 0 = z). { unfold shifted; rcbn. lra. }
  unfold kbad. rewrite Z0. change (@n0 R Num_R) with 0. rcbn. rewrite shifted_0, Sh. apply out_of_range in Hr. rewrite Hr. cbn [orb].
  assert (Lv : length (kval1 K A A nb nb nt z z c) = nb). { unfold kval1. rewrite kval_len; rewrite recon1_len; auto. }
  eexists. split; [unfold vec; rewrite Lv; reflexivity|]. split; auto. intros j Hj Hpos.
  unfold kval1, kval. rewrite Z0. rcbn. rewrite map_id, nsum_R, recon1_0, recon1_shift, Sh, Hm.
  rewrite (proj2 (Rltb_iff _ _) Hs), Hi. assert (Lm : length m = nb). { rewrite <- Hm. unfold mulmv. rewrite map_length, length_chunks. auto. }
  rewrite nth_error_zip, !nth_error_map, nth_error_seq. rewrite (nth_error_nth_lt m 0) by lia.
  destruct (Nat.ltb_spec j nb); [|lia]. cbn [option_map Nat.add]. f_equal. unfold m25; rcbn.
  replace (Q2R (-(5) # 2)) with (-5/2) by (unfold Q2R; cbn; lra). f_equal. f_equal. field. lra.
Qed.
Lemma E_C43_same_band : kready r_kcor r_tab r_tab 2 2 1 /\ k_imap r_kcor = seq 0 2 /\ in_range (a_x r_tab) 1 /\
  reconstruct (k_fit r_kcor) (Some (scal 1)) (Some (vec [2])) 0 = Ok (vec [6; 8]).
Proof.
  split; [apply r_kready|]. split; [reflexivity|]. assert (HR : in_range (a_x r_tab) 1) by (unfold in_range; cbn; lra).
  split; auto. change (k_fit r_kcor) with r_fitter. rewrite (model_eq r_fitter r_tab 2 1 1 [2] r_ready eq_refl HR).
  rewrite (arow_between r_tab 2 1 0 1 (proj2 (proj2 (proj2 r_ready))) r_grid) by (cbn; lia || lra).
  cbn [a_x r_tab a_rows nth chunks firstn skipn zip map]. unfold mulmv, dot; cbn [map zip fold_right].
  do 3 f_equal; [field|]. f_equal. field.
Qed.

(** In particular at redshift 0 without band shift it is 0. *)
Lemma L_C43_zero :
  forall (K : kcor R) A nb nt c m,
    kready K A A nb nb nt -> k_imap K = seq 0 nb -> length c = nt -> in_range (a_x A) 0 -> 0 < fold_right Rplus 0 c ->
    reconstruct (k_fit K) (Some (scal 0)) (Some (vec c)) 0 = Ok (vec m) -> Forall (Rlt 0) m ->
    kcorrect K (Some (scal 0)) (Some (vec c)) 0 = Ok (vec (repeat 0 nb)).
Proof.
  intros K A nb nt c m HK Hi Hc Hr Hs Hm Hpos.
  destruct (L_C43_same_band K A nb nt 0 c m HK Hi Hc ltac:(lra) Hr Hs Hm) as (k & -> & Lk & Hk).
  rewrite (model_eq _ A nb nt 0 c (proj1 HK) Hc Hr) in Hm. injection Hm as _ Hm.
  assert (Lm : length m = nb). { rewrite <- Hm. unfold mulmv. rewrite map_length, length_chunks. auto. }
  do 2 f_equal. apply nth_error_ext. intro j. rewrite nth_error_repeat. destruct (Nat.ltb_spec j nb).
  - rewrite Hk; auto.
    + f_equal. rewrite Rplus_0_r. unfold log10. rewrite ln_1. lra.
    + rewrite Forall_forall in Hpos. apply Hpos. apply nth_In. lia.
  - apply nth_error_None. lia.
Qed.
Lemma E_C43_zero : kready r_kcor r_tab r_tab 2 2 1 /\ in_range (a_x r_tab) 0 /\
  reconstruct (k_fit r_kcor) (Some (scal 0)) (Some (vec [2])) 0 = Ok (vec [2; 4]).
Proof.
  split; [apply r_kready|]. assert (HR : in_range (a_x r_tab) 0) by (unfold in_range; cbn; lra).
  split; auto. change (k_fit r_kcor) with r_fitter. rewrite (model_eq r_fitter r_tab 2 1 0 [2] r_ready eq_refl HR).
  rewrite (arow_between r_tab 2 1 0 0 (proj2 (proj2 (proj2 r_ready))) r_grid) by (cbn; lia || lra).
  cbn [a_x r_tab a_rows nth chunks firstn skipn zip map]. unfold mulmv, dot; cbn [map zip fold_right].
  do 3 f_equal; [field|]. f_equal. field.
Qed.

(** C48.  For all inputs: the flags only append to the result.  Without a flag absmag returns a bare array am.  With
    flags it either returns the tuple am, reconstructed, limit, K-correction (those asked for, in this order), each of
    the shape of am, each the one obtained with that flag alone; or, only if reconstruct is among them, it raises. *)
Lemma L_C48_order :
  forall (T : Type) (N : Num T) distmod (K : kcor T) m iv z c bs dist r l k,
    let call := fun r l k => absmag distmod K m iv z c bs dist r l k in
    match call false false false with
    | Raise e => call r l k = Raise e
    | Ok (Tuple _) => False
    | Ok (Bare1 am) =>
      (r = false -> exists o, call r l k = Ok o) /\
      (forall e, call r l k = Raise e -> r = true /\ call true false false = Raise e) /\
      forall o, call r l k = Ok o -> exists lr ll lk,
        o = (if r || l || k then Tuple (am :: lr ++ ll ++ lk) else Bare1 am) /\
        length lr = count r /\ length ll = count l /\ length lk = count k /\
        Forall (fun a => shp a = shp am) (lr ++ ll ++ lk) /\
        (r = true -> call true false false = Ok (Tuple (am :: lr))) /\
        (l = true -> call false true false = Ok (Tuple (am :: ll))) /\
        (k = true -> call false false true = Ok (Tuple (am :: lk)))
    end.
Proof.
  intros T N distmod K m iv z c bs dist r l k. cbv zeta. unfold absmag, absmag_after.
  destruct (process_inputs (k_fit K) z m iv c) as [p|e]; cbn [bind]; auto.
  destruct (match dist with Some d => _ | None => _ end) as [[array dm]|e]; cbn [bind]; auto.
  destruct (kcorrect K (Some (q_z p)) (q_c p) bs) as [kk|e]; cbn [bind]; auto.
  destruct (q_m p) as [qm|]; cbn [bind]; auto.
  destruct (take_last (k_imap K) n0 qm) as [um|e]; cbn [bind]; auto.
  destruct (q_iv p) as [qi|]; cbn [bind]; auto.
  destruct (take_last (k_imap K) n0 qi) as [ui|e]; cbn [bind]; auto.
  destruct (shape_eqb (shp um) (shp kk)) eqn:ES; auto. apply shape_eqb_eq in ES.
  destruct (Nat.eqb _ _); auto. cbn [app].
  set (lim := mk (shp um) (zip (fun x (y : T * T) => abslim1 x (fst y) (snd y)) _ _)). set (am := mk (shp um) _).
  destruct r; cbn [bind].
  - destruct (do om <- reconstruct_out K (Some (q_z p)) (q_c p) bs; _) as [rec|e] eqn:ER; cbn [bind].
    + apply bind_ok in ER as (om & EO & ER). destruct (shape_eqb (shp om) (shp kk)) eqn:EOS; [|discriminate].
      apply shape_eqb_eq in EOS. injection ER as <-. 
      split; [intro; discriminate|]. split; [destruct l, k; intros; discriminate|].
      intros o Ho. exists [mk (shp om) (zip (fun x (y : T * T) => absrec1 x (fst y) (snd y)) (dat om)
             (combine (dm_entries array (length (k_out K)) dm) (dat kk)))], (if l then [lim] else []), (if k then [kk] else []).
      destruct l, k; cbn [app orb] in *; injection Ho as <-; repeat split; auto; try (intro; discriminate);
        repeat (apply Forall_cons || apply Forall_nil); cbn [shp am lim]; congruence.
    + split; [intro; discriminate|]. split; [intros e' H; injection H as <-; auto|]. intros; discriminate.
  - split; [intros _; destruct l, k; cbn; eexists; reflexivity|]. split; [destruct l, k; intros; discriminate|].
    intros o Ho. exists [], (if l then [lim] else []), (if k then [kk] else []).
    destruct l, k; cbn [app orb] in *; injection Ho as <-; repeat split; auto; try (intro; discriminate);
      repeat (apply Forall_cons || apply Forall_nil); cbn [shp am lim]; congruence.
Qed.
Lemma E_C48_order : exists am r l k,
  absmag (fun z => z) q_kcor (Some (vec [1; 2]%Q)) (Some (vec [1; 4]%Q)) (Some (scal 1%Q)) (Some (vec [1; 0; 2]%Q)) 0%Q None
         true true true = Ok (Tuple [am; r; l; k]) /\ am <> r /\ r <> l /\ am <> k /\
  absmag (fun z => z) q_kcor (Some (vec [1; 2]%Q)) (Some (vec [1; 4]%Q)) (Some (scal 1%Q)) (Some (vec [1; 0; 2]%Q)) 0%Q None
         false true true = Ok (Tuple [am; l; k]).
Proof.
  eexists; eexists; eexists; eexists. split; [vm_compute; reflexivity|]. repeat split; try discriminate.
Qed.

(** The K-correction returned is that of kcorrect for the same redshifts and coefficients, for one object and for a
    batch. *)
Lemma L_C48_kcorrect :
  forall (T : Type) (N : Num T) distmod (K : kcor T) A Ao nb no nt bs wd r l,
    rounding N -> kready K A Ao nb no nt -> no_ab (k_fit K) ->
    (forall o a, kobj_ok nb nt o -> absmag_object distmod K bs wd r l true o = Ok a ->
       exists front k, a = Tuple (front ++ [k]) /\
         kcorrect K (Some (scal (ko_z o))) (Some (vec (ko_c o))) bs = Ok k) /\
    (forall objs a, Forall (kobj_ok nb nt) objs -> absmag_objects distmod K nb nt bs wd r l true objs = Ok a ->
       exists front k, a = Tuple (front ++ [k]) /\
         kcorrect K (Some (vec (map ko_z objs))) (Some (table nt (map ko_c objs))) bs = Ok k).
Proof.
  intros T N distmod K A Ao nb no nt bs wd r l HR HK Hab. split.
  - intros o a Ho H. rewrite (am_scal distmod K A Ao nb no nt) in H by auto.
    rewrite (kc_scal K A Ao nb no nt) by (auto; apply Ho).
    destruct (kbad A Ao bs (ko_z o)); [discriminate|]. destruct (r && _); [discriminate|]. cbv zeta in H. injection H as <-.
    unfold am_pack. rewrite orb_true_r.
    set (a0 := mk [no] (am_row _ _ _ _ _)). set (a1 := mk [no] (rec_row _ _ _)). set (a2 := mk [no] (lim_row _ _ _ _)).
    exists (a0 :: (if r then [a1] else []) ++ (if l then [a2] else [])), (mk [no] (kval1 K A Ao nb no nt bs (ko_z o) (ko_c o))).
    split; auto. cbn [app]. rewrite app_assoc. auto.
  - intros objs a Ho H. rewrite (am_vec distmod K A Ao nb no nt) in H by auto.
    pose proof (kc_vec K A Ao nb no nt (map (fun o => (ko_z o, ko_c o)) objs) bs HR HK) as E. rewrite !map_map, !existsb_map in E.
    cbn [fst snd] in E. change (map (fun x : kobj T => ko_z x) objs) with (map ko_z objs) in E.
    change (map (fun x : kobj T => ko_c x) objs) with (map ko_c objs) in E. rewrite E; clear E.
    2:{ apply Forall_map. eapply Forall_impl; [|exact Ho]. intros o (_ & _ & Hc). exact Hc. }
    destruct (existsb _ objs || existsb _ objs); [discriminate|]. destruct (r && _); [discriminate|]. cbv zeta in H. injection H as <-.
    unfold am_pack. rewrite orb_true_r.
    match goal with |- exists front k, Tuple (?a0 :: (if r then [?a1] else []) ++ (if l then [?a2] else []) ++ [?kk]) = _ /\ _ =>
      exists (a0 :: (if r then [a1] else []) ++ (if l then [a2] else [])), kk end.
    split; auto. cbn [app]. rewrite app_assoc. auto.
Qed.
Lemma E_C48_kcorrect : rounding Num_Q /\ kready q_kcor q_tab q_out 2 2 3 /\ no_ab (k_fit q_kcor) /\
  exists a, absmag_object (fun z => z) q_kcor 0%Q false false false true
    {| ko_z := 1; ko_m := [1; 2]; ko_iv := [1; 4]; ko_c := [1; 0; 2]; ko_d := 0 |}%Q = Ok a.
Proof. split; [apply rounding_Q|]. split; [apply q_kready|]. split; [left; reflexivity|]. eexists. vm_compute. reflexivity. Qed.
