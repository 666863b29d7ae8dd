(** Properties of SED.plot (C82): the proofs. *)
From Coq Require Import String List Arith Lia Bool ZArith QArith Qreals Reals Lra.
From Verif Require Import Base BaseLemmas Num Toy Interp Sed FitSpec FitterProofs Plot PlotSpec.
Import ListNotations.
Local Open Scope R_scope.
(* STATEMENTS *)

Section Gen.
  Context {T : Type} {N : Num T}.
  Lemma flux_row_pick (s : sed T) w rows i : spectra s w rows ->
    flux_row s i = match pick rows i with Some r => Ok r | None => Raise IndexError end.
  Proof.
    intros (Hw & Hf & Hr). unfold flux_row, pick. rewrite Hf.
    rewrite lrows_table by auto. cbn [ndim shp table length Nat.eqb hd].
    destruct (Z.leb_spec 0 i) as [H|H].
    - assert (E : (i <? 0)%Z = false) by (apply Z.ltb_ge; lia). rewrite E.
      assert (E2 : (0 <=? i)%Z = true) by (apply Z.leb_le; lia). rewrite E2. cbn [andb].
      destruct (Z.ltb_spec i (Z.of_nat (length rows))) as [H1|H1].
      + destruct (nth_error rows (Z.to_nat i)) as [r|] eqn:En.
        * rewrite (nth_error_nth rows _ [] En). auto.
        * apply nth_error_None in En. lia.
      + destruct (nth_error rows (Z.to_nat i)) as [r|] eqn:En; auto.
        assert (nth_error rows (Z.to_nat i) <> None) as Hn by congruence. apply nth_error_Some in Hn. lia.
    - assert (E : (i <? 0)%Z = true) by (apply Z.ltb_lt; lia). rewrite E.
      destruct (Z.leb_spec (- Z.of_nat (length rows)) i) as [H1|H1].
      + assert (E2 : (0 <=? i + Z.of_nat (length rows))%Z = true) by (apply Z.leb_le; lia). rewrite E2.
        assert (E3 : (i + Z.of_nat (length rows) <? Z.of_nat (length rows))%Z = true) by (apply Z.ltb_lt; lia). rewrite E3. cbn [andb].
        rewrite (Z.add_comm (Z.of_nat _) i).
        destruct (nth_error rows (Z.to_nat (i + Z.of_nat (length rows)))) as [r|] eqn:En.
        * rewrite (nth_error_nth rows _ [] En). auto.
        * apply nth_error_None in En. lia.
      + assert (E2 : (0 <=? i + Z.of_nat (length rows))%Z = false) by (apply Z.leb_gt; lia). rewrite E2. auto.
  Qed.
  Lemma pick_in rows i (r : list T) : pick rows i = Some r -> In r rows.
  Proof.
    unfold pick. destruct (0 <=? i)%Z; [apply nth_error_In|]. destruct (_ <=? i)%Z; [apply nth_error_In|discriminate].
  Qed.

  Lemma curve_points (w r : list T) : length r = length w ->
    let ok := map (fun f => nltb n0 f) r in
    shows w (Curve (map nlog10 (gather ok w)) (map nlog10 (zip nmul (gather ok w) (gather ok r)))) r.
  Proof.
    intros HL ok. eexists _, _. split; [reflexivity|]. unfold ok, points. clear ok. revert r HL.
    induction w as [|x w IH]; intros [|f r] HL; try discriminate; [split; reflexivity|].
    specialize (IH r ltac:(cbn in HL; lia)). cbn [map gather combine filter snd fst].
    destruct (nltb n0 f); cbn [map zip length combine]; [|exact IH]. destruct IH as [I1 I2]. rewrite I1, I2. auto.
  Qed.
  Lemma curve_shows (s : sed T) w rows i r : spectra s w rows -> pick rows i = Some r ->
    exists c, plot_curve s i = Ok c /\ shows w c r.
  Proof.
    intros Hs Hp. pose proof Hs as (Hw & _ & Hr).
    assert (HL : length r = length w) by (unfold rect in Hr; rewrite Forall_forall in Hr; apply Hr; eapply pick_in; eauto).
    unfold plot_curve. rewrite (flux_row_pick s w rows i Hs), Hp. cbn [bind]. rewrite Hw, HL, Nat.eqb_refl.
    eexists. split; [reflexivity|]. apply curve_points; auto.
  Qed.
  Lemma curves_show (s : sed T) w rows l chosen : spectra s w rows -> Forall2 (fun k r => pick rows k = Some r) l chosen ->
    exists cs, plot_curves s l = (cs, None) /\ Forall2 (shows w) cs chosen.
  Proof.
    intros Hs. induction 1 as [|k r l chosen Hk HF (cs & IH & IH2)]; [exists []; split; auto|].
    destruct (curve_shows s w rows k r Hs Hk) as (c & Ec & Hc). exists (c :: cs). cbn [plot_curves]. rewrite Ec, IH. split; auto.
  Qed.
  Lemma rows_pick (s : sed T) w rows l chosen : spectra s w rows -> Forall2 (fun k r => pick rows k = Some r) l chosen ->
    mapM (flux_row s) l = Ok chosen.
  Proof.
    intros Hs. induction 1 as [|k r l chosen Hk HF IH]; cbn [mapM]; auto.
    rewrite (flux_row_pick s w rows k Hs), Hk. cbn [bind]. rewrite IH. auto.
  Qed.
End Gen.

(** C82.  plot draws, for each requested spectrum in turn, the points (log lambda, log lambda f_lambda) of the samples
    with positive flux, and labels the axes. *)
Lemma L_C82_curves :
  forall (T : Type) (N : Num T) (s : sed T) w rows l chosen,
    spectra s w rows -> Forall2 (fun k r => pick rows k = Some r) l chosen ->
    exists cs, plot s (Many l) None = (cs ++ [Labels], None) /\ Forall2 (shows w) cs chosen.
Proof.
  intros T N s w rows l chosen Hs HF. destruct (curves_show s w rows l chosen Hs HF) as (cs & E & H).
  exists cs. split; auto. unfold plot. cbn [plot_indices]. rewrite E. reflexivity.
Qed.
Lemma E_C82_curves :
  exists s, SED [1; 2; 3]%Z (mk [2; 3]%nat [4; 0; 5; 6; 7; 8]%Z) false = Ok s /\
  spectra s [1; 2; 3]%Z [[4; 0; 5]; [6; 7; 8]]%Z /\
  Forall2 (fun k r => pick [[4; 0; 5]; [6; 7; 8]]%Z k = Some r) [-1; 0]%Z [[6; 7; 8]; [4; 0; 5]]%Z /\
  plot s (Many [-1; 0]%Z) None =
  ([Curve (map nlog10 [1; 2; 3]%Z) (map nlog10 [6; 14; 24]%Z); Curve (map nlog10 [1; 3]%Z) (map nlog10 [4; 15]%Z); Labels], None).
Proof.
  eexists. split; [reflexivity|]. split; [split; [reflexivity|split; [reflexivity|repeat constructor]]|].
  split; [repeat constructor|reflexivity].
Qed.

(** Without [indx] all spectra are drawn, and an integer stands for a list of one. *)
Lemma L_C82_default :
  forall (T : Type) (N : Num T) (s : sed T) w rows lim,
    spectra s w rows -> s_nsed s = length rows ->
    (exists cs, plot s AllSeds None = (cs ++ [Labels], None) /\ Forall2 (shows w) cs rows) /\
    plot s AllSeds lim = plot s (Many (map Z.of_nat (seq 0 (length rows)))) lim /\
    forall i, plot s (One i) lim = plot s (Many [i]) lim.
Proof.
  intros T N s w rows lim Hs Hn.
  assert (E : forall lim, plot s AllSeds lim = plot s (Many (map Z.of_nat (seq 0 (length rows)))) lim).
  { intro. unfold plot, plot_indices. rewrite Hn. reflexivity. }
  split; [|split; [apply E|reflexivity]]. rewrite E. apply (L_C82_curves T N s w rows); auto.
  assert (G : forall pre post, rows = pre ++ post ->
    Forall2 (fun k r => pick rows k = Some r) (map Z.of_nat (seq (length pre) (length post))) post).
  { intros pre post. revert pre. induction post as [|r post IH]; intros pre Er; [constructor|]. cbn [length seq map]. constructor.
    - unfold pick. replace (0 <=? Z.of_nat (length pre))%Z with true by (symmetry; apply Z.leb_le; lia).
      rewrite Nat2Z.id, Er, nth_error_app2, Nat.sub_diag by lia. reflexivity.
    - specialize (IH (pre ++ [r])). rewrite app_length in IH. cbn [length] in IH.
      replace (S (length pre)) with (length pre + 1)%nat by lia. apply IH. rewrite Er, <- app_assoc. reflexivity. }
  apply (G [] rows). reflexivity.
Qed.
Lemma E_C82_default :
  exists s, SED [1; 2; 3]%Z (vec [4; 0; 5]%Z) false = Ok s /\ spectra s [1; 2; 3]%Z [[4; 0; 5]]%Z /\ s_nsed s = 1%nat.
Proof. eexists. split; [reflexivity|]. split; [split; [reflexivity|split; [reflexivity|repeat constructor]]|reflexivity]. Qed.

(** An index out of range raises IndexError after the spectra before it have been drawn. *)
Lemma L_C82_bad_index :
  forall (T : Type) (N : Num T) (s : sed T) w rows l chosen k more lim,
    spectra s w rows -> Forall2 (fun k r => pick rows k = Some r) l chosen -> pick rows k = None ->
    exists cs, plot s (Many (l ++ k :: more)) lim = (cs, Some IndexError) /\ Forall2 (shows w) cs chosen.
Proof.
  intros T N s w rows l chosen k more lim Hs HF Hk. unfold plot. cbn [plot_indices].
  assert (E : exists cs, plot_curves s (l ++ k :: more) = (cs, Some IndexError) /\ Forall2 (shows w) cs chosen).
  { induction HF as [|j r l chosen Hj HF (cs & IH & IH2)]; cbn [app plot_curves].
    - unfold plot_curve. rewrite (flux_row_pick s w rows k Hs), Hk. exists []. auto.
    - destruct (curve_shows s w rows j r Hs Hj) as (c & Ec & Hc). rewrite Ec, IH. exists (c :: cs). split; auto. }
  destruct E as (cs & -> & H). exists cs. auto.
Qed.
Lemma E_C82_bad_index :
  pick [[4; 0; 5]; [6; 7; 8]]%Z 2 = None /\ pick [[4; 0; 5]; [6; 7; 8]]%Z (-3) = None /\
  pick [[4; 0; 5]; [6; 7; 8]]%Z (-2) = Some [4; 0; 5]%Z.
Proof. repeat split. Qed.

(** * Limits *)
Lemma fold_min (l : list R) : forall x, let m := fold_left (fun a b => if Rltb b a then b else a) l x in
  m <= x /\ (forall y, In y l -> m <= y) /\ (m = x \/ In m l).
Proof.
  induction l as [|y l IH]; intros x; cbn [fold_left]; cbv zeta; [repeat split; auto; [lra|intros y []]|].
  unfold Rltb at 2 4 6 8. destruct (Rlt_dec y x) as [H|H].
  - destruct (IH y) as (H1 & H2 & H3). split; [lra|]. split; [intros z [<-|Hz]; auto|]. right. destruct H3; [left|right]; auto.
  - destruct (IH x) as (H1 & H2 & H3). split; [lra|]. split; [intros z [<-|Hz]; auto; lra|]. destruct H3; [left|right; right]; auto.
Qed.
Lemma fold_max (l : list R) : forall x, let m := fold_left (fun a b => if Rltb a b then b else a) l x in
  x <= m /\ (forall y, In y l -> y <= m) /\ (m = x \/ In m l).
Proof.
  induction l as [|y l IH]; intros x; cbn [fold_left]; cbv zeta; [repeat split; auto; [lra|intros y []]|].
  unfold Rltb at 2 4 6 8. destruct (Rlt_dec x y) as [H|H].
  - destruct (IH y) as (H1 & H2 & H3). split; [lra|]. split; [intros z [<-|Hz]; auto|]. right. destruct H3; [left|right]; auto.
  - destruct (IH x) as (H1 & H2 & H3). split; [lra|]. split; [intros z [<-|Hz]; auto; lra|]. destruct H3; [left|right; right]; auto.
Qed.

Lemma row_values (a b : R) : forall w r, length r = length w -> forall y,
  In y (gather (map (fun x => Rltb a x && Rltb x b) w) (zip Rmult r (map (Rmult 1) w))) <->
  exists l f, In (l, f) (combine w r) /\ a < l < b /\ y = l * f.
Proof.
  induction w as [|x w IH]; intros [|f r] HL y; try discriminate; cbn [map zip gather combine].
  - split; [intros []|intros (l & g & [] & _)].
  - specialize (IH r ltac:(cbn in HL; lia) y).
    destruct (Rltb a x && Rltb x b) eqn:E.
    + apply andb_true_iff in E as [E1 E2]. unfold Rltb in E1, E2. destruct (Rlt_dec a x); [|discriminate]. destruct (Rlt_dec x b); [|discriminate].
      cbn [In]. rewrite IH. split.
      * intros [<-|(l & g & H & H1 & H2)]; [exists x, f; repeat split; auto; lra|exists l, g; auto].
      * intros (l & g & [H|H] & H1 & H2); [injection H as <- <-; left; lra|right; exists l, g; auto].
    + rewrite IH. split; [intros (l & g & H & H1 & H2); exists l, g; cbn [In]; auto|].
      intros (l & g & [H|H] & H1 & H2); [|exists l, g; auto]. injection H as <- <-.
      unfold Rltb in E. destruct (Rlt_dec a x), (Rlt_dec x b); try discriminate; lra.
Qed.

Lemma values (a b : R) w rows : rect (length w) rows -> Forall (Rlt 0) w -> forall y,
  In y (filter (fun y => Rltb 0 y) (concat (map (fun r => gather (map (fun x => Rltb a x && Rltb x b) w) (zip Rmult r (map (Rmult 1) w))) rows))) <->
  exists l f, visible w rows a b l f /\ y = l * f.
Proof.
  intros Hr Hw y. rewrite filter_In, in_concat. split.
  - intros ((v & Hv & Hy) & Hp). apply in_map_iff in Hv as (r & <- & Hin).
    unfold rect in Hr. rewrite Forall_forall in Hr. apply row_values in Hy as (l & f & H1 & H2 & H3); [|apply Hr; auto].
    exists l, f. split; auto. exists r. repeat split; auto; try lra.
    unfold Rltb in Hp. destruct (Rlt_dec 0 y) as [Hy|]; [|discriminate]. subst y.
    rewrite Forall_forall in Hw. assert (0 < l) by (apply Hw; eapply in_combine_l; eauto).
    destruct (Rlt_dec 0 f); auto. exfalso. assert (0 <= l * - f) by (apply Rmult_le_pos; lra). lra.
  - intros (l & f & (r & Hin & H1 & H2 & H3) & ->).
    unfold rect in Hr. rewrite Forall_forall in Hr, Hw.
    assert (0 < l) by (apply Hw; eapply in_combine_l; eauto).
    split; [|apply Rltb_true; apply Rmult_lt_0_compat; auto].
    eexists. split; [apply in_map_iff; exists r; split; [reflexivity|auto]|]. apply row_values; [apply Hr; auto|]. exists l, f. auto.
Qed.

Lemma amin_spec (l : list R) : l <> [] -> exists m, amin l = Ok m /\ In m l /\ forall y, In y l -> m <= y.
Proof.
  destruct l as [|x l]; [congruence|]. intros _. exists (fold_left (fun a b => if Rltb b a then b else a) l x). split; [reflexivity|]. destruct (fold_min l x) as (H1 & H2 & H3).
  split; [destruct H3 as [E|]; [left; congruence|right; auto]|]. intros y [<-|Hy]; [exact H1|apply H2; auto].
Qed.
Lemma amax_spec (l : list R) : l <> [] -> exists m, amax l = Ok m /\ In m l /\ forall y, In y l -> y <= m.
Proof.
  destruct l as [|x l]; [congruence|]. intros _. exists (fold_left (fun a b => if Rltb a b then b else a) l x). split; [reflexivity|]. destruct (fold_max l x) as (H1 & H2 & H3).
  split; [destruct H3 as [E|]; [left; congruence|right; auto]|]. intros y [<-|Hy]; [exact H1|apply H2; auto].
Qed.
Lemma log10_le x y : 0 < x -> x <= y -> log10 x <= log10 y.
Proof. intros H [H1| ->]; [left; apply log10_incr; auto|lra]. Qed.

(** With wavelength limits that contain a sample with positive flux, every such sample is within the limits of the plot,
    which leave a margin of 0.1 above the brightest and below the faintest. *)
Lemma L_C82_limits :
  forall (s : sed R) w rows l chosen a b,
    spectra s w rows -> Forall (Rlt 0) w -> Forall2 (fun k r => pick rows k = Some r) l chosen ->
    (exists lam f, visible w chosen a b lam f) ->
    exists cs y0 y1,
      plot s (Many l) (Some [a; b]) = (cs ++ [XLim (log10 a) (log10 b); YLim y0 y1; Labels], None) /\
      Forall2 (shows w) cs chosen /\
      (forall lam f, visible w chosen a b lam f -> y0 + 1 / 10 <= log10 (lam * f) <= y1 - 1 / 10) /\
      (exists lam f, visible w chosen a b lam f /\ log10 (lam * f) = y0 + 1 / 10) /\
      (exists lam f, visible w chosen a b lam f /\ log10 (lam * f) = y1 - 1 / 10).
Proof.
  intros s w rows l chosen a b Hs Hw HF (la & fa & Hv). pose proof Hs as (Ew & _ & Hr).
  destruct (curves_show s w rows l chosen Hs HF) as (cs & E & H).
  assert (Hrc : rect (length w) chosen).
  { clear - HF Hr. unfold rect in *. rewrite Forall_forall in *. intros r Hin. apply Hr.
    induction HF as [|k q l ch Hk HF IH]; [destruct Hin|]. destruct Hin as [->|Hin]; auto. eapply pick_in; eauto. }
  unfold plot. cbn [plot_indices]. rewrite E. unfold plot_limits. rcbn. cbn [length Nat.eqb andb negb].
  rewrite (rows_pick s w rows l chosen Hs HF). cbn [bind]. rewrite Ew.
  set (V := filter _ _). assert (HV : forall y, In y V <-> exists l f, visible w chosen a b l f /\ y = l * f) by (apply values; auto).
  assert (Vne : V <> []). { intro Hn. assert (In (la * fa) V) by (apply HV; eauto). rewrite Hn in H0. destruct H0. }
  destruct (amin_spec V Vne) as (lo & E1 & I1 & M1). destruct (amax_spec V Vne) as (hi & E2 & I2 & M2).
  rewrite E1, E2. cbn [bind]. 
  assert (L10 : Q2R (1 # 10) = 1 / 10) by (unfold Q2R; cbn; lra).
  assert (P : forall y, In y V -> 0 < y).
  { intros y Hy. unfold V in Hy. apply filter_In in Hy as [_ Hy]. unfold Rltb in Hy. destruct (Rlt_dec 0 y); auto; discriminate. }
  eexists cs, _, _. split; [reflexivity|]. split; auto. rewrite L10. split; [|split].
  - intros lam f Hvis. assert (In (lam * f) V) by (apply HV; eauto).
    pose proof (log10_le lo (lam * f) (P _ I1) (M1 _ H0)). pose proof (log10_le (lam * f) hi (P _ H0) (M2 _ H0)). lra.
  - apply HV in I1 as (lam & f & Hvis & ->). exists lam, f. split; auto. lra.
  - apply HV in I2 as (lam & f & Hvis & ->). exists lam, f. split; auto. lra.
Qed.
Lemma E_C82_limits :
  exists s, SED [1; 10; 100] (vec [4; 5; 6]) false = Ok s /\ spectra s [1; 10; 100] [[4; 5; 6]] /\
  pick [[4; 5; 6]] 0%Z = Some [4; 5; 6] /\ visible [1; 10; 100] [[4; 5; 6]] 5 50 10 5.
Proof.
  eexists. split; [reflexivity|]. split; [split; [reflexivity|split; [reflexivity|repeat constructor]]|].
  split; [reflexivity|]. exists [4; 5; 6]. cbn. repeat split; auto; lra.
Qed.

(** If no spectrum has a positive flux between the limits, plot raises ValueError, after having drawn the spectra and set
    the wavelength limits. *)
Lemma L_C82_nothing_visible :
  forall (s : sed R) w rows l chosen a b,
    spectra s w rows -> Forall (Rlt 0) w -> Forall2 (fun k r => pick rows k = Some r) l chosen ->
    (forall lam f, ~ visible w chosen a b lam f) ->
    exists cs, plot s (Many l) (Some [a; b]) = (cs ++ [XLim (log10 a) (log10 b)], Some ValueError) /\
      Forall2 (shows w) cs chosen.
Proof.
  intros s w rows l chosen a b Hs Hw HF Hv. pose proof Hs as (Ew & _ & Hr).
  destruct (curves_show s w rows l chosen Hs HF) as (cs & E & H).
  assert (Hrc : rect (length w) chosen).
  { clear - HF Hr. unfold rect in *. rewrite Forall_forall in *. intros r Hin. apply Hr.
    induction HF as [|k q l ch Hk HF IH]; [destruct Hin|]. destruct Hin as [->|Hin]; auto. eapply pick_in; eauto. }
  unfold plot. cbn [plot_indices]. rewrite E. unfold plot_limits. rcbn. cbn [length Nat.eqb andb negb].
  rewrite (rows_pick s w rows l chosen Hs HF). cbn [bind]. rewrite Ew.
  set (V := filter _ _). assert (HV : forall y, In y V <-> exists l f, visible w chosen a b l f /\ y = l * f) by (apply values; auto).
  assert (EV : V = []).
  { destruct V as [|y V'] eqn:EV; auto. exfalso. destruct (proj1 (HV y) (or_introl eq_refl)) as (la & f & Hx & _). eapply Hv; eauto. }
  rewrite EV. exists cs. split; auto.
Qed.
Lemma E_C82_nothing_visible :
  forall lam f, ~ visible [1; 10; 100] [[4; 0; 6]] 5 50 lam f.
Proof.
  intros lam f (r & [<-|[]] & H & H1 & H2). cbn in H. destruct H as [H|[H|[H|[]]]]; injection H as <- <-; lra.
Qed.

(** Limits that are not two positive numbers. *)
Lemma L_C82_bad_limits :
  forall (T : Type) (N : Num T) (s : sed T) w rows l chosen lim,
    spectra s w rows -> Forall2 (fun k r => pick rows k = Some r) l chosen -> length lim <> 2%nat ->
    exists cs, plot s (Many l) (Some lim) = (cs, Some (if (length lim <? 2)%nat then IndexError else ValueError)) /\
      Forall2 (shows w) cs chosen.
Proof.
  intros T N s w rows l chosen lim Hs HF HL. destruct (curves_show s w rows l chosen Hs HF) as (cs & E & H).
  exists cs. split; auto. unfold plot. cbn [plot_indices]. rewrite E.
  destruct lim as [|a [|b [|c more]]]; cbn [plot_limits length Nat.eqb andb negb Nat.ltb Nat.leb]; rewrite ?app_nil_r; auto.
  exfalso. apply HL. reflexivity.
Qed.
Lemma E_C82_bad_limits : length [1; 2; 3]%Z <> 2%nat /\ length [1]%Z <> 2%nat.
Proof. cbn. split; lia. Qed.

(** Whatever the arithmetic: limits that are finite after rounding and taking the logarithm are set as such, others raise
    ValueError; afterwards either finite limits of the fluxes are set too, or ValueError is raised. *)
Lemma L_C82_finite_limits :
  forall (T : Type) (N : Num T) (s : sed T) w rows l chosen a b,
    spectra s w rows -> Forall2 (fun k r => pick rows k = Some r) l chosen ->
    let x0 := nlog10 (cst a) in let x1 := nlog10 (cst b) in
    exists cs, Forall2 (shows w) cs chosen /\
      (nfin x0 && nfin x1 = false -> plot s (Many l) (Some [a; b]) = (cs, Some ValueError)) /\
      (nfin x0 && nfin x1 = true ->
        plot s (Many l) (Some [a; b]) = (cs ++ [XLim x0 x1], Some ValueError) \/
        exists y0 y1, nfin y0 = true /\ nfin y1 = true /\ plot s (Many l) (Some [a; b]) = (cs ++ [XLim x0 x1; YLim y0 y1; Labels], None)).
Proof.
  intros T N s w rows l chosen a b Hs HF x0 x1. destruct (curves_show s w rows l chosen Hs HF) as (cs & E & H).
  exists cs. split; auto. unfold plot. cbn [plot_indices]. rewrite E. unfold plot_limits. cbn [length Nat.eqb andb]. fold x0 x1.
  split; intro Hx; rewrite Hx; cbn [negb].
  - rewrite app_nil_r. reflexivity.
  - rewrite (rows_pick s w rows l chosen Hs HF). cbn [bind].
    match goal with |- context [amin ?V] => destruct V as [|y ys] end; [left; reflexivity|]. cbn [amin amax bind].
    clear Hx. match goal with |- context [nfin ?A && nfin ?B] => destruct (nfin A && nfin B) eqn:Ef end; cbn [negb bind]; [|left; reflexivity]. apply andb_true_iff in Ef as [E0 E1].
    right. eexists _, _. split; [exact E0|]. split; [exact E1|]. reflexivity.
Qed.
Lemma E_C82_finite_limits :
  exists s : sed xr, SED [Fin 1; Fin 10] (vec [Fin 4; PInf]) false = Ok s /\ spectra s [Fin 1; Fin 10] [[Fin 4; PInf]] /\
    pick [[Fin 4; PInf]] 0%Z = Some [Fin 4; PInf] /\ nfin (nlog10 (cst (Fin 2))) && nfin (nlog10 (cst (Fin 20))) = true /\
    nfin (nlog10 (cst (Fin 0))) && nfin (nlog10 (cst (Fin 20))) = false.
Proof.
  eexists. split; [reflexivity|]. split; [split; [reflexivity|split; [reflexivity|repeat constructor]]|]. split; [reflexivity|].
  cbn [nlog10 Num_xr cst xlog nfin xfin]. unfold xlog. rewrite !(Rltb_false _ 0) by lra. rewrite (Reqb_false 2 0), (Reqb_false 20 0), (Reqb_true 0 0) by lra. split; reflexivity.
Qed.

(** Fluxes that are not an array of spectra on the wavelengths cannot be drawn. *)
Lemma L_C82_shapes :
  forall (T : Type) (N : Num T) (s : sed T) k l lim,
    (ndim (s_flux s) <> 2%nat -> plot s (Many (k :: l)) lim = ([], Some IndexError)) /\
    (forall w rows, s_flux s = table w rows -> rect w rows -> w <> length (s_wave s) -> plot s (Many (k :: l)) lim = ([], Some IndexError)).
Proof.
  intros T N s k l lim. split.
  - intro H. unfold plot. cbn [plot_indices plot_curves]. unfold plot_curve, flux_row.
    destruct (Nat.eqb_spec (ndim (s_flux s)) 2); [contradiction|reflexivity].
  - intros w rows Hf Hr Hw. unfold plot. cbn [plot_indices plot_curves]. unfold plot_curve.
    destruct (flux_row s k) as [r|e] eqn:E.
    + cbn [bind]. assert (L : length r = w).
      { unfold flux_row in E. rewrite Hf, lrows_table in E by auto. cbn [ndim shp table length Nat.eqb hd] in E.
        destruct (_ && _) eqn:Ek; [|discriminate]. apply andb_true_iff in Ek as [E1 E2]. apply Z.leb_le in E1. apply Z.ltb_lt in E2.
        injection E as <-. unfold rect in Hr. rewrite Forall_forall in Hr. apply Hr, nth_In. lia. }
      rewrite L. destruct (Nat.eqb_spec w (length (s_wave s))); [contradiction|reflexivity].
    + unfold flux_row in E. cbn [bind]. destruct (Nat.eqb _ 2); [|injection E as <-; reflexivity]. cbv zeta in E. destruct (_ && _); [discriminate|injection E as <-; reflexivity].
Qed.
Lemma E_C82_shapes : ndim (mk [1; 2; 2]%nat [1; 2; 3; 4]%Z) <> 2%nat /\ rect 2 [[1; 2]; [3; 4]]%Z.
Proof. split; [discriminate|repeat constructor]. Qed.

(** * Redshift *)
Section Shift.
  Variables (s s' : sed R) (z : R).
  Hypothesis Hz : 0 < 1 + z.
  Hypothesis Hw : Forall (Rlt 0) (s_wave s).
  Hypothesis Ew : s_wave s' = map (fun w => w * (1 + z)) (s_wave s).
  Hypothesis Ef : s_flux s' = map1 (fun f => f / (1 + z)) (s_flux s).
  Hypothesis En : s_nsed s' = s_nsed s.
  Notation d := (log10 (1 + z)).

  Lemma shift_row i : flux_row s' i = rmap (map (fun f => f / (1 + z))) (flux_row s i).
  Proof.
    unfold flux_row. rewrite Ef. unfold ndim. cbn [map1 shp]. rewrite lrows_map1.
    destruct (Nat.eqb _ 2); [|reflexivity].
    destruct (_ && _); [|reflexivity]. cbn [rmap]. f_equal. rewrite <- (map_nth (map (fun f => f / (1 + z)))). reflexivity.
  Qed.
  Lemma div_pos f : Rltb 0 (f / (1 + z)) = Rltb 0 f.
  Proof.
    unfold Rltb. destruct (Rlt_dec 0 f) as [H|H], (Rlt_dec 0 (f / (1 + z))) as [H1|H1]; auto; exfalso.
    - apply H1. apply Rdiv_lt_0_compat; auto.
    - apply H. replace f with (f / (1 + z) * (1 + z)) by (field; lra). apply Rmult_lt_0_compat; auto.
  Qed.
  Lemma scale_lt a w : Rltb (a * (1 + z)) (w * (1 + z)) = Rltb a w.
  Proof.
    unfold Rltb. destruct (Rlt_dec a w) as [H|H], (Rlt_dec (a * (1 + z)) (w * (1 + z))) as [H1|H1]; try reflexivity; exfalso.
    - apply H1. apply Rmult_lt_compat_r; auto.
    - apply H. apply (Rmult_lt_reg_r (1 + z)); auto.
  Qed.
  Lemma log_shift w : 0 < w -> log10 (w * (1 + z)) = d + log10 w.
  Proof. intro. rewrite log10_mult by auto. lra. Qed.

  Lemma gather_shift mask w : Forall (Rlt 0) w ->
    map log10 (gather mask (map (fun w => w * (1 + z)) w)) = map (Rplus d) (map log10 (gather mask w)).
  Proof.
    intro H. revert mask. induction H as [|x w Hx H IH]; intros [|b mask]; cbn [map gather]; auto.
    destruct b; cbn [map]; rewrite IH; auto. rewrite log_shift by auto. reflexivity.
  Qed.
  Lemma zip_shift : forall a b : list R, zip Rmult (map (fun w => w * (1 + z)) a) (map (fun f => f / (1 + z)) b) = zip Rmult a b.
  Proof. induction a as [|x a IH]; intros [|y b]; cbn [map zip]; auto. rewrite IH. f_equal. field. lra. Qed.

  Lemma shift_curve i : plot_curve s' i = rmap (shift_draw d) (plot_curve s i).
  Proof.
    unfold plot_curve. rewrite shift_row. destruct (flux_row s i) as [r|e]; cbn [rmap bind]; auto.
    rewrite map_length, Ew, map_length. destruct (Nat.eqb _ _); auto. cbn [rmap shift_draw]. rcbn.
    assert (EM : map (fun f => Rltb 0 f) (map (fun f => f / (1 + z)) r) = map (fun f => Rltb 0 f) r).
    { rewrite map_map. apply map_ext. intro. apply div_pos. }
    rewrite EM, gather_shift by auto. rewrite !gather_map, zip_shift. reflexivity.
  Qed.
  Lemma shift_curves l : plot_curves s' l = (map (shift_draw d) (fst (plot_curves s l)), snd (plot_curves s l)).
  Proof.
    induction l as [|i l IH]; cbn [plot_curves]; auto. rewrite shift_curve. destruct (plot_curve s i) as [c|e]; cbn [rmap]; auto.
    rewrite IH. destruct (plot_curves s l); reflexivity.
  Qed.
  Lemma shift_rows l : mapM (flux_row s') l = rmap (map (map (fun f => f / (1 + z)))) (mapM (flux_row s) l).
  Proof.
    induction l as [|i l IH]; cbn [mapM]; auto. rewrite shift_row. destruct (flux_row s i) as [r|e]; cbn [rmap bind]; auto.
    rewrite IH. destruct (mapM (flux_row s) l); reflexivity.
  Qed.
  Lemma shift_limits l lim : Forall (Rlt 0) lim ->
    plot_limits s' l (map (fun a => a * (1 + z)) lim) =
    (map (shift_draw d) (fst (plot_limits s l lim)), snd (plot_limits s l lim)).
  Proof.
    intro HL. destruct lim as [|a [|b more]]; cbn [map plot_limits]; auto. rcbn.
    rewrite map_length. destruct (negb _); auto. rewrite Ew, shift_rows.
    assert (Ei : map (fun w => Rltb (a * (1 + z)) w && Rltb w (b * (1 + z))) (map (fun w => w * (1 + z)) (s_wave s)) =
                 map (fun w => Rltb a w && Rltb w b) (s_wave s)).
    { rewrite map_map. apply map_ext. intro. rewrite !scale_lt. auto. }
    rewrite Ei. inversion HL as [|? ? Ha HL']; subst. inversion HL' as [|? ? Hb _]; subst. rewrite !log_shift by auto.
    destruct (mapM (flux_row s) l) as [rows|e]; cbn [rmap bind]; auto.
    assert (EV : map (fun r => gather (map (fun w => Rltb a w && Rltb w b) (s_wave s)) (zip Rmult r (map (Rmult 1) (map (fun w => w * (1 + z)) (s_wave s)))))
                  (map (map (fun f => f / (1 + z))) rows) =
                 map (fun r => gather (map (fun w => Rltb a w && Rltb w b) (s_wave s)) (zip Rmult r (map (Rmult 1) (s_wave s)))) rows).
    { rewrite map_map. apply map_ext. intro r. f_equal. generalize (s_wave s) as w. clear - Hz. induction r as [|y r IH]; intros [|x w]; cbn [map zip]; auto.
      rewrite IH. f_equal. field. lra. }
    rewrite EV. destruct (amin _) as [lo|]; cbn [bind]; auto. destruct (amax _) as [hi|]; cbn [bind]; auto.
  Qed.
  Lemma shift_plot i lim : (forall l, lim = Some l -> Forall (Rlt 0) l) ->
    plot s' i (option_map (map (fun a => a * (1 + z))) lim) = (map (shift_draw d) (fst (plot s i lim)), snd (plot s i lim)).
  Proof.
    intro HL. unfold plot.
    assert (EI : plot_indices s' i = plot_indices s i) by (unfold plot_indices; rewrite En; reflexivity). rewrite EI, shift_curves.
    destruct (plot_curves s (plot_indices s i)) as [c [e|]]; cbn [fst snd]; auto.
    destruct lim as [l|]; cbn [option_map].
    - rewrite shift_limits by auto. destruct (plot_limits s (plot_indices s i) l) as [c' [e|]]; cbn [fst snd]; rewrite ?map_app; auto.
    - cbn [fst snd]. rewrite map_app. reflexivity.
  Qed.
End Shift.

(** The plot of a spectrum at redshift z, with limits redshifted likewise, is the plot of the rest-frame spectrum shifted by
    log(1+z) in wavelength: lambda f_lambda does not change. *)
Lemma L_C82_redshift :
  forall wave flux interpolate (s : sed R) z i lim,
    SED wave flux interpolate = Ok s -> Forall (Rlt 0) wave -> 0 < 1 + z -> (forall l, lim = Some l -> Forall (Rlt 0) l) ->
    let s' := fst (set_redshift s z) in
    let '(drawn, e) := plot s i lim in
    plot s' i (option_map (map (fun a => a * (1 + z))) lim) = (map (shift_draw (log10 (1 + z))) drawn, e).
Proof.
  intros wave flux interpolate s z i lim HS Hw Hz HL s'.
  assert (Q : s_wave s = wave /\ s_rwave s = wave /\ s_flux s = s_rflux s).
  { unfold SED, sed_setup in HS. destruct (if Nat.eqb (ndim flux) 1 then _ else _) as [f|]; [|discriminate]. cbn [bind] in HS.
    destruct (negb _); [|discriminate]. destruct interpolate; [|injection HS as <-; auto].
    unfold set_interp in HS. cbn [s_wave s_flux] in HS. destruct (mk_cubic wave f); [|discriminate]. injection HS as <-. auto. }
  destruct Q as (Q1 & Q2 & Q3).
  assert (S1 : s_wave s' = map (fun w => w * (1 + z)) (s_wave s) /\ s_flux s' = map1 (fun f => f / (1 + z)) (s_flux s) /\ s_rflux s' = s_rflux s).
  { unfold s', set_redshift, set_interp. rewrite Q3, Q1, <- Q2. rcbn. destruct (s_flag s); cbn [fst]; [|auto].
    cbn [s_wave s_flux]. destruct (mk_cubic _ _); auto. }
  destruct S1 as (S1 & S2 & S3).
  pose proof (shift_plot s s' z Hz ltac:(rewrite Q1; auto) S1 S2 ltac:(unfold s_nsed; rewrite S3; auto) i lim HL) as E.
  destruct (plot s i lim) as [dr e]. exact E.
Qed.
Lemma E_C82_redshift :
  exists s, SED [1; 10; 100] (vec [4; 5; 6]) false = Ok s /\ Forall (Rlt 0) [1; 10; 100] /\
  (forall l, Some [5; 50] = Some l -> Forall (Rlt 0) l).
Proof.
  eexists. split; [reflexivity|]. split; [repeat constructor; lra|]. intros l H. injection H as <-. repeat constructor; lra.
Qed.
