(** What a set_Amatrix that raises leaves behind (C112). *)
From Coq Require Import String List Arith Lia Bool ZArith QArith.
From Verif Require Import Base BaseLemmas Num Interp Sed Response RespDict Fitter FitSpec Toy FitEx Kcorrect KEx BuildSpec BuildEx PersistSpec.
Import ListNotations.
Local Open Scope nat_scope.
(* STATEMENTS *)
From Verif Require Import FitterProofs FitTable RespDictThms BuildProofs PersistProofs.

Lemma z_loop_at {T} {N : Num T} cub d names : forall zs (s s' : sed T) r, z_loop cub d names zs s = (s', r) ->
  s' = s \/ exists z, In z zs /\ s_z s' = z.
Proof.
  induction zs as [|z zs IH]; intros s s' r H; cbn [z_loop] in H; [injection H as <- <-; auto|].
  assert (Z : s_z (fst (set_redshift s z)) = z).
  { unfold set_redshift, set_interp. destruct (s_flag s); [|reflexivity]. destruct (mk_cubic _ _); reflexivity. }
  right. destruct (set_redshift s z) as [s1 [e|]]; cbn [fst] in Z.
  - injection H as <- <-. exists z. cbn; auto.
  - destruct (project_bands cub d names s1).
    + destruct (z_loop cub d names zs s1) as [s2 t] eqn:E. injection H as <- <-.
      destruct (IH _ _ _ E) as [->|(y & Hy & Ey)]; [exists z; cbn; auto|exists y; cbn; auto].
    + injection H as <- <-. exists z. cbn; auto.
Qed.

(** C112.  A set_Amatrix that raises keeps the table that the object had, its bands, grid and AB settings, and the rest-frame
    spectra of its templates, which stay as they were or are left at one of the redshifts of the grid or at 0.  All entries of the
    response cache stay. *)
Lemma L_C112_kept :
  forall (T : Type) (N : Num T) cub bq sun vega fs d (F : fitter T) d' F' e,
    set_Amatrix cub bq sun vega fs d F = (d', F', Some e) ->
    f_A F' = f_A F /\ f_kind F' = f_kind F /\ f_abc F' = f_abc F /\ f_resp F' = f_resp F /\ f_zs F' = f_zs F /\
    same_rest (f_sed F) (f_sed F') /\ extends d d' /\
    (f_sed F' = f_sed F \/ s_z (f_sed F') = n0 \/ In (s_z (f_sed F')) (f_zs F)).
Proof.
  intros T N cub bq sun vega fs d F d' F' e H. unfold set_Amatrix, calc_A in H.
  pose proof (load_all_ext cub bq sun vega fs (f_resp F) d) as X.
  destruct (load_all cub bq sun vega fs (f_resp F) d) as [d1 [e1|]]; cbn [fst] in X.
  { injection H as <- <- <-. cbn. do 5 (split; [reflexivity|]). split; [apply same_rest_refl|auto]. }
  pose proof (z_loop_rest cub d1 (f_resp F) (f_zs F) (f_sed F)) as R.
  destruct (z_loop cub d1 (f_resp F) (f_zs F) (f_sed F)) as [s1 [tab|e1]] eqn:EZ; cbn [fst] in R.
  2:{ injection H as <- <- <-. cbn. do 5 (split; [reflexivity|]). split; [exact R|]. split; auto.
      destruct (z_loop_at _ _ _ _ _ _ _ EZ) as [->|(z & Hz & ->)]; auto. }
  destruct (mk_linear _ _) as [A|e1].
  2:{ injection H as <- <- <-. cbn. do 5 (split; [reflexivity|]). split; [exact R|]. split; auto.
      destruct (z_loop_at _ _ _ _ _ _ _ EZ) as [->|(z & Hz & ->)]; auto. }
  pose proof (set_redshift_rest s1 n0) as R2.
  assert (Z : s_z (fst (set_redshift s1 n0)) = n0).
  { unfold set_redshift, set_interp. destruct (s_flag s1); [|reflexivity]. destruct (mk_cubic _ _); reflexivity. }
  destruct (set_redshift s1 n0) as [s2 [e2|]]; [|discriminate]. cbn [fst] in *.
  injection H as <- <- <-. cbn. do 5 (split; [reflexivity|]). split; [eapply same_rest_trans; eauto|]. auto.
Qed.
Lemma E_C112_kept : exists F1 d' F' e,
  set_Amatrix q_lin (fun _ _ _ => Raise Unmodelled) (Raise Unmodelled) (Raise Unmodelled) (fun _ => None) [("u"%string, q_resp)] (q_new true) =
    ([("u"%string, q_resp)], F1, None) /\ f_A F1 <> None /\
  set_Amatrix q_lin (fun _ _ _ => Raise Unmodelled) (Raise Unmodelled) (Raise Unmodelled) (fun _ => None) q_blank
    {| f_kind := Plain; f_abc := false; f_resp := ["u"%string]; f_sed := f_sed F1; f_zs := [1; 2]%Q; f_A := f_A F1 |} = (d', F', Some e) /\
  s_z (f_sed F') = 1%Q.
Proof.
  do 4 eexists. split; [vm_compute; reflexivity|]. split; [discriminate|]. split; [vm_compute; reflexivity|reflexivity].
Qed.

(** So every method of the object returns after it what it returned before. *)
Lemma L_C112_usable :
  forall (T : Type) (N : Num T) cub bq sun vega fs d (K : kcor T) d' F' e,
    set_Amatrix cub bq sun vega fs d (k_fit K) = (d', F', Some e) ->
    same_results K {| k_fit := F'; k_tmpl := k_tmpl K; k_out := k_out K; k_map := k_map K; k_Aout := k_Aout K; k_imap := k_imap K; k_rr := k_rr K |}.
Proof.
  intros T N cub bq sun vega fs d K d' F' e H.
  destruct (L_C112_kept _ _ _ _ _ _ _ _ _ _ _ _ H) as (H1 & H2 & H3 & H4 & H5 & (_ & H6 & _) & _).
  apply same_cong; cbn [k_fit k_tmpl k_out k_map k_Aout k_imap]; auto. unfold f_nsed, s_nsed. rewrite H6. reflexivity.
Qed.
Lemma E_C112_usable : exists d1 s1 K d' F' e,
  q_build (Some ["g"]%string) (Some ["u"]%string) = (d1, s1, Ok K) /\
  set_Amatrix q_lin (fun _ _ _ => Raise Unmodelled) (Raise Unmodelled) (Raise Unmodelled) (fun _ => None) q_blank (k_fit K) = (d', F', Some e).
Proof. do 6 eexists. split; [vm_compute; reflexivity|]. vm_compute; reflexivity. Qed.

Lemma blank_row {T} {N : Num T} cub (s : sed T) : 0 < s_nsed s -> exists e, project_row cub blank s = Raise e.
Proof.
  intro H. unfold project_row. destruct (s_flag s); [exists TypeError; reflexivity|]. unfold project_chunks, chunk_starts.
  assert (E : exists n, (s_nsed s + 1000 - 1) / 1000 = S n).
  { destruct ((s_nsed s + 1000 - 1) / 1000) eqn:E; [|eauto]. apply Nat.div_small_iff in E; lia. }
  destruct E as [n ->]. cbn [seq map foldM].
  assert (P : exists e, project_arr cub blank (vec (s_wave s)) (flux_rows (s_flux s) (0 * 1000) (Nat.min (0 * 1000 + 1000) (s_nsed s))) = Raise e).
  { unfold project_arr. repeat match goal with |- exists e, (if ?b then _ else _) = _ => destruct b; [|eexists; reflexivity] end.
    destruct (mk_cubic _ _); cbn; eauto. }
  destruct P as [e ->]. eexists. reflexivity.
Qed.

(** If the file of a response is missing, set_Amatrix raises ValueError and changes nothing but the cache; called again it
    raises again, although the file may be there by then. *)
Lemma L_C112_missing :
  forall (T : Type) (N : Num T) cub bq sun vega fs d (F : fitter T) pre name post,
    f_resp F = pre ++ name :: post -> (forall m, In m pre -> dmem d m = true) -> dmem d name = false ->
    fs (name ++ ".dat")%string = None -> f_zs F <> [] -> 0 < f_nsed F ->
    exists d', set_Amatrix cub bq sun vega fs d F = (d', F, Some ValueError) /\
      forall fs', exists d2 F2 e, set_Amatrix cub bq sun vega fs' d' F = (d2, F2, Some e).
Proof.
  intros T N cub bq sun vega fs d F pre name post Hr Hp Hd Hf Hz Hn. exists (dset d name blank). split.
  - unfold set_Amatrix, calc_A.
    assert (E : load_all cub bq sun vega fs (f_resp F) d = (dset d name blank, Some ValueError)).
    { rewrite Hr. clear Hr. induction pre as [|m pre IH]; cbn [app load_all].
      - unfold load_response. rewrite Hd. cbn [andb]. rewrite Hf. reflexivity.
      - unfold load_response at 1. rewrite (Hp m) by (cbn; auto). cbn [andb negb]. apply IH. intros k Hk. apply Hp. cbn; auto. }
    rewrite E. destruct F; reflexivity.
  - intro fs'. unfold set_Amatrix, calc_A.
    pose proof (load_all_ext cub bq sun vega fs' (f_resp F) (dset d name blank)) as X.
    pose proof (load_all_mem cub bq sun vega fs' (f_resp F) (dset d name blank)) as Y.
    destruct (load_all cub bq sun vega fs' (f_resp F) (dset d name blank)) as [d2 [e|]]; [do 3 eexists; reflexivity|].
    cbn [fst] in X. specialize (X name blank). rewrite dget_dset, String.eqb_refl in X. specialize (X eq_refl).
    assert (PB : forall s, 0 < s_nsed s -> exists e, project_bands cub d2 (f_resp F) s = Raise e).
    { intros s Hs. rewrite Hr. clear Y Hp Hr. unfold project_bands. induction pre as [|m pre IH]; cbn [app mapM].
      - rewrite X. destruct (blank_row cub s Hs) as [e ->]. eexists; reflexivity.
      - destruct (match dget d2 m with Some r => project_row cub r s | None => Raise KeyError end) as [v|e]; [|eexists; reflexivity].
        cbn [bind]. destruct IH as [e ->]. eexists; reflexivity. }
    destruct (f_zs F) as [|z zs]; [congruence|]. cbn [z_loop].
    pose proof (set_redshift_rest (f_sed F) z) as (_ & R & _). destruct (set_redshift (f_sed F) z) as [s1 [e|]]; [do 3 eexists; reflexivity|].
    cbn [fst] in R. destruct (PB s1) as [e ->]; [|do 3 eexists; reflexivity]. unfold f_nsed, s_nsed in *. rewrite R. exact Hn.
Qed.
Lemma E_C112_missing :
  f_resp (q_new true) = [] ++ "u"%string :: [] /\ dmem (@nil (string * resp Q)) "u"%string = false /\ f_zs (q_new true) <> [] /\ 0 < f_nsed (q_new true).
Proof. repeat split; [discriminate|]. cbn. lia. Qed.
