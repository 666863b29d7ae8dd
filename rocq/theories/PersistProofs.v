(** Lemmas about files. *)
From Coq Require Import String Ascii List Arith Bool Lia ZArith QArith.
From Verif Require Import Base BaseLemmas Num Interp Utils Sed Response RespDict Fitter FitSpec FitterProofs FitTable Kcorrect KSpec
  KTable Persist PersistSpec.
Import ListNotations.
Local Open Scope nat_scope.

(** * The methods depend only on some attributes *)
Section Cong.
  Context {T : Type} {N : Num T}.
  Variables K K' : kcor T.
  Hypothesis Hr : f_resp (k_fit K) = f_resp (k_fit K').
  Hypothesis Hn : f_nsed (k_fit K) = f_nsed (k_fit K').
  Hypothesis HA : f_A (k_fit K) = f_A (k_fit K').
  Hypothesis Ha : (no_ab (k_fit K) /\ no_ab (k_fit K')) \/
    (f_kind (k_fit K) = f_kind (k_fit K') /\ f_abc (k_fit K) = f_abc (k_fit K')).
  Hypothesis Ht : k_tmpl K = k_tmpl K'.
  Hypothesis Ho : k_out K = k_out K'.
  Hypothesis HAo : k_Aout K = k_Aout K'.
  Hypothesis Hi : k_imap K = k_imap K'.

  Lemma no_ab_proc (F : fitter T) z m iv c : no_ab F -> process_inputs F z m iv c = process_inputs (without_ab F) z m iv c.
  Proof.
    intro H. unfold process_inputs. destruct z as [z|]; auto. cbn [f_resp f_abc without_ab]. change (f_nsed (without_ab F)) with (f_nsed F).
    destruct (Nat.leb _ _); auto. destruct (opt_shape_ok _ _ _ _); auto. destruct (opt_shape_ok _ _ _ _); auto.
    destruct (opt_shape_ok _ _ _ _); auto. destruct H as [H|H].
    - rewrite H. auto.
    - destruct (f_abc F); auto. destruct m as [m|]; auto. cbn [option_map]. rewrite H. cbn [to_ab bind fst snd].
      destruct iv; auto.
  Qed.
  Lemma proc_cong z m iv c : process_inputs (k_fit K) z m iv c = process_inputs (k_fit K') z m iv c.
  Proof.
    destruct Ha as [[H1 H2]|[H1 H2]]; [|unfold process_inputs; rewrite Hr, Hn, H1, H2; reflexivity].
    rewrite (no_ab_proc (k_fit K)), (no_ab_proc (k_fit K')) by auto. unfold process_inputs. cbn [f_resp f_abc without_ab].
    unfold f_nsed in *. cbn [f_sed without_ab]. rewrite Hr, Hn. reflexivity.
  Qed.
  Lemma recon_cong A z c bs : reconstruct_ (k_fit K) A z c bs = reconstruct_ (k_fit K') A z c bs.
  Proof. unfold reconstruct_. rewrite proc_cong, Hn. reflexivity. Qed.
  Lemma out_cong z c bs : reconstruct_out K z c bs = reconstruct_out K' z c bs.
  Proof. unfold reconstruct_out. rewrite recon_cong, HAo. reflexivity. Qed.
  Lemma kcorrect_cong z c bs : kcorrect K z c bs = kcorrect K' z c bs.
  Proof.
    unfold kcorrect, reconstruct. rewrite proc_cong. destruct (process_inputs _ _ _ _ _) as [p|]; auto. cbn [bind].
    rewrite recon_cong, out_cong, HA. unfold kc_row. rewrite Hi. reflexivity.
  Qed.
  Lemma fit_cong nnls rng z m iv mc cur : fit_coeffs nnls rng (k_fit K) z m iv mc cur = fit_coeffs nnls rng (k_fit K') z m iv mc cur.
  Proof.
    assert (E1 : forall z m iv mc cur, fit1 nnls rng (k_fit K) z m iv mc cur = fit1 nnls rng (k_fit K') z m iv mc cur).
    { intros. unfold fit1. rewrite HA, Hn. reflexivity. }
    assert (E2 : forall m iv mc zs cur i, fit_rows nnls rng (k_fit K) m iv mc cur i zs = fit_rows nnls rng (k_fit K') m iv mc cur i zs).
    { intros m0 iv0 mc0 zs. induction zs as [|z0 zs IH]; intros; auto. cbn [fit_rows].
      assert (E3 : fit_row nnls rng (k_fit K) m0 iv0 mc0 cur0 i z0 = fit_row nnls rng (k_fit K') m0 iv0 mc0 cur0 i z0).
      { unfold fit_row. destruct m0, iv0; auto. rewrite E1, Hn, Hr. reflexivity. }
      rewrite E3; clear E3. destruct (fit_row _ _ _ _ _ _ _ _ _) as [[[[a b] c] d]|]; auto. cbn [bind]. rewrite IH. auto. }
    unfold fit_coeffs. destruct z as [z|]; auto. rewrite proc_cong. destruct (process_inputs _ _ _ _ _) as [p|]; auto. cbn [bind].
    unfold fit_after. rewrite E1, E2, Hn, Hr. reflexivity.
  Qed.
  Lemma absmag_cong distmod m iv z c bs d r l k : absmag distmod K m iv z c bs d r l k = absmag distmod K' m iv z c bs d r l k.
  Proof.
    unfold absmag. rewrite proc_cong. destruct (process_inputs _ _ _ _ _) as [p|]; auto. cbn [bind].
    unfold absmag_after. rewrite kcorrect_cong, out_cong, Ho, Hi. destruct d as [d|]; [rewrite proc_cong|]; reflexivity.
  Qed.
  Lemma derived_cong distmod dict z c bs d : derived distmod dict K z c bs d = derived distmod dict K' z c bs d.
  Proof.
    unfold derived. rewrite proc_cong. destruct (process_inputs _ _ _ _ _) as [p|]; auto. cbn [bind].
    assert (E : forall A B (a b : res A) (f g : A -> res B), a = b -> (forall x, f x = g x) -> bind a f = bind b g).
    { intros A B a b f g -> H. destruct b; cbn [bind]; auto. }
    apply E.
    - destruct d as [d|]; [rewrite proc_cong|]; reflexivity.
    - intros [[array df] dm]. rewrite Ht, Hn, Ho, Hr. destruct (q_c p); auto. rewrite out_cong. reflexivity.
  Qed.
  Lemma foldM_ext2 A S (f g : S -> A -> res S) : (forall s x, f s x = g s x) -> forall l s, foldM f l s = foldM g l s.
  Proof. intros H l. induction l as [|x l IH]; intro s; auto. cbn [foldM]. rewrite H. destruct (g s x); auto. apply IH. Qed.
  Lemma same_cong : same_results K K'.
  Proof.
    split; [intros; unfold reconstruct; rewrite recon_cong, HA; auto|]. split; [apply out_cong|]. split; [apply kcorrect_cong|].
    split; [apply fit_cong|]. split; [apply absmag_cong|]. split; [|split; [apply derived_cong|]].
    - intros. unfold absmag_mc. destruct (shp c); auto.
      rewrite (foldM_ext2 _ _ (absmag_mc_step distmod K m iv z c bs d r k) (absmag_mc_step distmod K' m iv z c bs d r k)); auto.
      intros s x. unfold absmag_mc_step. destruct (get_last x n0 m); auto. destruct (get_last x n0 c); auto. cbn [bind].
      rewrite absmag_cong. reflexivity.
    - intros. unfold derived_mc. destruct (shp c); auto. apply foldM_ext2. intros s x. unfold derived_mc_step.
      destruct (get_last x n0 c); auto. cbn [bind]. rewrite derived_cong. reflexivity.
  Qed.
End Cong.

(** * Names *)
Lemma is_space_white c : is_space c = true <-> white c.
Proof. destruct c as [[] [] [] [] [] [] [] []]; vm_compute; split; intro H; try discriminate; auto 20;
  repeat (destruct H as [H|H]; [discriminate|]); contradiction. Qed.
Lemma not_white c : ~ white c -> is_space c = false.
Proof. intro H. destruct (is_space c) eqn:E; auto. apply is_space_white in E. contradiction. Qed.
Lemma rstrip_storable s : (forall p c, s = (p ++ String c "")%string -> is_space c = false) -> rstrip s = s.
Proof.
  induction s as [|a s IH]; intro H; auto. cbn [rstrip].
  destruct s as [|b s].
  - cbn. rewrite (H ""%string a eq_refl). auto.
  - rewrite IH; [reflexivity|]. intros p c E. apply (H (String a p) c). rewrite E. reflexivity.
Qed.
Lemma substring_all s n : String.length s <= n -> substring 0 n s = s.
Proof.
  revert n; induction s as [|a s IH]; intros [|n] H; cbn in *; auto; try lia. rewrite IH by lia. auto.
Qed.
Lemma stored_storable s : storable s -> stored_name s = s.
Proof. intros [H1 H2]. unfold stored_name. rewrite substring_all by auto. apply rstrip_storable. intros p c E. apply not_white, (H2 p c E). Qed.
Lemma stored_storables l : Forall storable l -> map stored_name l = l.
Proof. induction 1 as [|s l H _ IH]; cbn; [auto|]. rewrite stored_storable, IH; auto. Qed.

(** * Reading what was written *)
Section Load.
  Context {T : Type} {N : Num T}.

  Lemma nums_app (f g : kfits T) : nums (f ++ g) = nums f ++ nums g.
  Proof. unfold nums. apply flat_map_app. Qed.
  Lemma nums_map (f : fits T) : nums (map HNum f) = f.
  Proof. induction f as [|h f IH]; cbn; auto. f_equal. exact IH. Qed.
  Lemma find_hdu_app (f g : fits T) name : find_hdu (f ++ g) name = match find_hdu f name with Some h => Some h | None => find_hdu g name end.
  Proof. unfold find_hdu. induction f as [|h f IH]; cbn; auto. destruct (String.eqb _ _); auto. Qed.
  Lemma has_hdu_app (f g : fits T) name : has_hdu (f ++ g) name = has_hdu f name || has_hdu g name.
  Proof. unfold has_hdu. rewrite find_hdu_app. destruct (find_hdu f name); auto. Qed.

  Lemma sed_load (s : sed T) nsed (rest : fits T) : sed_shape s nsed -> has_hdu rest "WAVE" = false ->
    sed_fromfits (sed_tofits s "FLUX" ++ rest) "FLUX" false = Ok (reloaded s).
  Proof.
    intros (Hw & Hs & Hl) HW. unfold reloaded, sed_tofits. destruct (s_bin s).
    - unfold sed_fromfits. rewrite !has_hdu_app. unfold get_hdu. rewrite !find_hdu_app.
      unfold has_hdu, find_hdu. cbn [find h_name h_cols fst snd String.eqb Ascii.eqb Bool.eqb bind andb orb app].
      unfold col. cbn [find h_name h_cols fst snd String.eqb bind andb].
      assert (Esq : squeeze (vec (s_rwave s)) = vec (s_rwave s)).
      { unfold squeeze, vec. cbn [shp dat filter]. destruct (Nat.eqb_spec (length (s_rwave s)) 1); [lia|reflexivity]. }
      rewrite Esq. destruct (s_rflux s) as [sh l]. cbn [shp dat] in Hs, Hl. subst sh.
      unfold vec at 1, len. cbn [shp bind ndim length Nat.ltb Nat.leb lead removelast lastd last].
      assert (ER : reshape [nsed; length (s_rwave s)] (mk [nsed; length (s_rwave s)] l) = Ok (mk [nsed; length (s_rwave s)] l)).
      { unfold reshape. cbn [shp dat]. rewrite Nat.eqb_refl. auto. }
      rewrite ER. cbn [bind]. unfold vec. cbn [dat].
      unfold sed_setup. cbn [ndim shp length Nat.eqb negb bind]. unfold map1. cbn [shp dat]. rewrite !map_id. reflexivity.
    - set (h := {| h_name := "FLUX"; h_cols := _ |}).
      unfold sed_fromfits. rewrite !has_hdu_app. unfold get_hdu. rewrite !find_hdu_app. rewrite HW.
      replace (has_hdu [h] "WAVE") with false by reflexivity. rewrite orb_false_r, andb_false_r.
      replace (find_hdu [h] "FLUX") with (Some h) by reflexivity. cbn [bind].
      unfold h, col. cbn [find h_name h_cols col fst snd String.eqb Ascii.eqb Bool.eqb bind andb].
      destruct (s_rflux s) as [sh l]. cbn [shp dat] in Hs, Hl. subst sh. set (wave := s_rwave s) in *.
      assert (Esq : squeeze (mk [1%nat; length wave] (map cst wave)) = vec (map cst wave)).
      { unfold squeeze, vec. cbn [shp dat filter Nat.eqb negb]. rewrite map_length.
        destruct (Nat.eqb_spec (length wave) 1); [lia|reflexivity]. }
      rewrite Esq. unfold len. unfold vec at 1. cbn [shp bind ndim length Nat.ltb Nat.leb lead removelast lastd last dat].
      rewrite map_length.
      assert (ER : reshape [nsed; length wave] (mk [1; nsed; length wave] (map cst l)) = Ok (mk [nsed; length wave] (map cst l))).
      { unfold reshape. cbn [dat shp]. replace (size [1; nsed; length wave]) with (size [nsed; length wave]) by (unfold size; cbn; lia). rewrite Nat.eqb_refl. auto. }
      rewrite ER. cbn [bind]. unfold vec. cbn [dat].
      unfold sed_setup. cbn [ndim shp length Nat.eqb negb bind]. unfold map1. cbn [shp dat]. reflexivity.
  Qed.

  Lemma sed_names (s : sed T) name : name <> "FLUX"%string -> name <> "WAVE"%string -> find_hdu (sed_tofits s "FLUX") name = None.
  Proof.
    intros H1 H2. apply not_eq_sym, String.eqb_neq in H1. apply not_eq_sym, String.eqb_neq in H2. unfold sed_tofits, find_hdu.
    destruct (s_bin s); cbn [find h_name]; rewrite ?H1, ?H2; auto.
  Qed.
  Lemma image_of (f : kfits T) name a : find_hdu (nums f) name = Some {| h_name := name; h_cols := [(""%string, a)] |} ->
    size (shp a) <> 0 -> image f name = Ok a.
  Proof.
    intros H Hs. unfold image, get_hdu. rewrite H. cbn [bind]. unfold col. cbn. destruct (Nat.eqb_spec (size (shp a)) 0); [lia|auto].
  Qed.
  Lemma size_vec (l : list T) : l <> [] -> size (shp (vec l)) <> 0.
  Proof. destruct l; [congruence|]. intros _. unfold size. cbn. lia. Qed.

  Lemma find_file (s : sed T) t rest name : name <> "FLUX"%string -> name <> "WAVE"%string ->
    find_hdu (nums (template_file s t ++ rest)) name =
    match find_hdu (nums (template_hdus t)) name with Some h => Some h | None => find_hdu (nums rest) name end.
  Proof.
    intros H1 H2. unfold template_file, sed_file. rewrite !nums_app, nums_map, !find_hdu_app, sed_names by auto. auto.
  Qed.

  Lemma template_load (s : sed T) (t : tmpl T) nsed rest : sed_shape s nsed -> tmpl_full t -> has_hdu (nums rest) "WAVE" = false ->
    Template (Some (template_file s t ++ rest)) false = Ok (reloaded s, t).
  Proof.
    intros Hs Ht Hw.
    assert (HI : forall name a, In (image_hdu name (vec a)) (template_hdus t) -> a <> [] ->
              image (template_file s t ++ rest) name = Ok (vec a)).
    { intros name a Hin Hne. apply image_of; [|apply size_vec; auto].
      cbn in Hin. rewrite find_file; [|intros ->|intros ->].
      - repeat destruct Hin as [Hin|Hin]; try contradiction; unfold image_hdu in Hin; injection Hin as E1 _ E2; subst name; rewrite <- ?E2; try reflexivity.
      - repeat destruct Hin as [Hin|Hin]; try discriminate; contradiction.
      - repeat destruct Hin as [Hin|Hin]; try discriminate; contradiction. }
    unfold tmpl_full in Ht. repeat match goal with H : Forall _ (_ :: _) |- _ => inversion H; clear H; subst end.
    assert (ES : sed_fromfits (nums (template_file s t ++ rest)) "FLUX" false = Ok (reloaded s)).
    { unfold template_file, sed_file. rewrite !nums_app, nums_map, <- app_assoc. eapply sed_load; eauto. }
    unfold Template. destruct (template_file s t ++ rest) as [|h f] eqn:Ef.
    { exfalso. unfold template_file, sed_file, sed_tofits in Ef. destruct (s_bin s); discriminate. }
    rewrite ES. cbn [bind].
    rewrite (HI "INTSFH"%string (t_intsfh t)), (HI "MREMAIN"%string (t_mremain t)), (HI "METS"%string (t_mets t)),
      (HI "M300"%string (t_m300 t)), (HI "M50"%string (t_m50 t)), (HI "M1000"%string (t_m1000 t)) by (cbn; tauto).
    cbn [bind dat vec]. destruct t; reflexivity.
  Qed.

  (** * A whole Kcorrect object *)
  Variable trunc : T -> Z.
  Variable cub : list T -> list T -> T -> T.
  Variable bq : (T -> T) -> T -> T -> res T.
  Variable sun vega : res (list T * list (basel_unit T)).

  Definition loaded (K0 K : kcor T) (A Ao : atab T) : kcor T :=
    {| k_fit := {| f_kind := f_kind (k_fit K0); f_abc := f_abc (k_fit K); f_resp := map stored_name (f_resp (k_fit K));
                   f_sed := reloaded (f_sed (k_fit K)); f_zs := f_zs (k_fit K); f_A := Some A |};
       k_tmpl := k_tmpl K; k_out := map stored_name (k_out K); k_map := map stored_name (k_map K); k_Aout := Some Ao;
       k_imap := k_imap K0; k_rr := (nlit (trunc (fst (k_rr K)) # 1), nlit (trunc (snd (k_rr K)) # 1)) |}.

  (** The object when a response cannot be loaded. *)
  Definition half_loaded (K0 K : kcor T) : kcor T :=
    {| k_fit := {| f_kind := f_kind (k_fit K0); f_abc := f_abc (k_fit K); f_resp := map stored_name (f_resp (k_fit K));
                   f_sed := reloaded (f_sed (k_fit K)); f_zs := f_zs (k_fit K); f_A := f_A (k_fit K0) |};
       k_tmpl := k_tmpl K; k_out := map stored_name (k_out K); k_map := map stored_name (k_map K); k_Aout := k_Aout K0;
       k_imap := k_imap K0; k_rr := (nlit (trunc (fst (k_rr K)) # 1), nlit (trunc (snd (k_rr K)) # 1)) |}.

  Lemma kcor_load_any fs (K : kcor T) A Ao mA mAo A' Ao' nsed :
    sed_shape (f_sed (k_fit K)) nsed -> tmpl_full (k_tmpl K) -> f_zs (k_fit K) <> [] ->
    f_A (k_fit K) = Some A -> k_Aout K = Some Ao ->
    acall A (vec (f_zs (k_fit K))) = Ok mA -> acall Ao (vec (f_zs (k_fit K))) = Ok mAo ->
    size (shp mA) <> 0 -> size (shp mAo) <> 0 ->
    mk_linear (f_zs (k_fit K)) mA = Ok A' -> mk_linear (f_zs (k_fit K)) mAo = Ok Ao' ->
    exists f, kcor_file trunc K = Ok f /\
      forall d K0, kcor_fromfits cub bq sun vega fs d K0 (Some f) =
        match load_all cub bq sun vega fs (map stored_name (f_resp (k_fit K))) d with
        | (d', None) => (d', loaded K0 K A' Ao', None)
        | (d', Some e) => (d', half_loaded K0 K, Some e)
        end.
  Proof.
    intros Hs Ht Hz HA HAo EA EAo Sa Sao LA LAo.
    unfold kcor_file, kcor_hdus. rewrite HA, HAo, EA, EAo. cbn [bind]. eexists. split; [reflexivity|].
    match goal with |- context [Some (_ ++ ?r)] => set (rest := r) end.
    intros d K0. unfold kcor_fromfits.
    match goal with |- context [Template ?x false] =>
      replace (Template x false) with (Ok (reloaded (f_sed (k_fit K)), k_tmpl K)) by (symmetry; exact (template_load _ _ nsed rest Hs Ht eq_refl)) end.
    set (f := template_file _ _ ++ rest).
    assert (ED : data_hdu f = Ok (length (f_zs (k_fit K)), (trunc (fst (k_rr K)), trunc (snd (k_rr K))), f_abc (k_fit K))).
    { unfold data_hdu, f, template_file, sed_file, sed_tofits. destruct (s_bin _); reflexivity. }
    assert (EN : forall name l, In (HNames name l) rest -> names f name = Ok l).
    { intros name l Hin. assert (Hin' : find (fun h : khdu T => match h with HNames n _ => String.eqb n name | _ => false end) rest = Some (HNames name l)).
      { cbn in Hin. repeat destruct Hin as [Hin|Hin]; try discriminate; try contradiction; injection Hin as <- <-; reflexivity. }
      unfold names, f, template_file, sed_file, sed_tofits, template_hdus, image_hdu. destruct (s_bin _); cbn [map app find]; rewrite Hin'; reflexivity. }
    assert (EI : forall name a, In (image_hdu name a) rest -> size (shp a) <> 0 -> image f name = Ok a).
    { intros name a Hin Hne. apply image_of; auto. unfold f.
      cbn in Hin. rewrite find_file; [|intros ->|intros ->].
      - repeat destruct Hin as [Hin|Hin]; try contradiction; try discriminate; unfold image_hdu in Hin; injection Hin as E1 E2; subst name; rewrite <- ?E2; try reflexivity.
      - repeat destruct Hin as [Hin|Hin]; try discriminate; contradiction.
      - repeat destruct Hin as [Hin|Hin]; try discriminate; contradiction. }
    rewrite ED. rewrite (EI "REDSHIFTS"%string (vec (f_zs (k_fit K)))) by (first [apply size_vec; assumption | unfold rest; cbn; auto 10]).
    rewrite (EN "RESPONSES"%string (map stored_name (f_resp (k_fit K)))) by (unfold rest; cbn; auto 10).
    rewrite (EN "RESPONSES_MAP"%string (map stored_name (k_map K))) by (first [assumption | unfold rest; cbn; auto 10]).
    rewrite (EN "RESPONSES_OUT"%string (map stored_name (k_out K))) by (first [assumption | unfold rest; cbn; auto 10]).
    destruct (load_all _ _ _ _ _ _ _) as [d' [e|]]; [reflexivity|]. rewrite (EI "A"%string mA), (EI "AOUT"%string mAo) by (first [assumption | unfold rest; cbn; auto 10]).
    cbn [bind dat vec]. rewrite LA, LAo. reflexivity.
  Qed.
  Lemma kcor_load fs d d' (K0 K : kcor T) A Ao mA mAo A' Ao' nsed :
    sed_shape (f_sed (k_fit K)) nsed -> tmpl_full (k_tmpl K) -> f_zs (k_fit K) <> [] ->
    f_A (k_fit K) = Some A -> k_Aout K = Some Ao ->
    acall A (vec (f_zs (k_fit K))) = Ok mA -> acall Ao (vec (f_zs (k_fit K))) = Ok mAo ->
    size (shp mA) <> 0 -> size (shp mAo) <> 0 ->
    mk_linear (f_zs (k_fit K)) mA = Ok A' -> mk_linear (f_zs (k_fit K)) mAo = Ok Ao' ->
    load_all cub bq sun vega fs (map stored_name (f_resp (k_fit K))) d = (d', None) ->
    exists f, kcor_file trunc K = Ok f /\
      kcor_fromfits cub bq sun vega fs d K0 (Some f) = (d', loaded K0 K A' Ao', None).
  Proof.
    intros Hs Ht Hz HA HAo EA EAo Sa Sao LA LAo HL.
    destruct (kcor_load_any fs K A Ao mA mAo A' Ao' nsed Hs Ht Hz HA HAo EA EAo Sa Sao LA LAo) as (f & E1 & E2).
    exists f. split; auto. rewrite E2, HL. reflexivity.
  Qed.
End Load.
