(** Theorems about writing what was read (template.py:141-224, 387-431; kcorrect.py:704-811).
    Scope: generic in the number type for templates, exact arithmetic for Kcorrect objects. *)
From Coq Require Import String Ascii List Arith Lia Bool ZArith QArith Qreals Reals Lra.
From Verif Require Import ResponseObj LinInterp ResponseEx.
From Verif Require Import Base BaseLemmas Num Toy Interp InterpReal Utils Sed Response RespDict Fitter FitSpec FitterProofs FitterMC
  FitReal FitTable FitEx FitRealEx Kcorrect KSpec KTable KEx KcorrectProofs Persist PersistSpec
  PersistProofs PersistEx.
Import ListNotations.
Local Open Scope R_scope.
(* STATEMENTS *)
From Verif Require Import RespDictThms KcorrectThms DerivedThms PersistThms.

Lemma rewrite_sed {T} {N : Num T} (s : sed T) : (forall x : T, cst (cst x) = cst x) -> sed_file (reloaded s) = sed_file s.
Proof.
  intros H. unfold sed_file, sed_tofits, reloaded. destruct (s_bin s); cbn [s_bin s_rwave s_rflux].
  - destruct (s_rflux s); unfold map1; cbn [Base.shp Base.dat]; rewrite ?map_id. reflexivity.
  - destruct (s_rflux s); unfold map1; cbn [Base.shp Base.dat]; rewrite !map_map, !map_length.
    rewrite !(map_ext (fun x : T => cst (cst x)) cst) by auto. reflexivity.
Qed.

(** C65.  Writing again what was read gives the same file. *)
Lemma L_C65_rewritten :
  forall (T : Type) (N : Num T) (s s' : sed T) t t' nsed, (forall x : T, cst (cst x) = cst x) -> sed_shape s nsed -> tmpl_full t ->
    Template (Some (template_file s t)) false = Ok (s', t') -> template_file s' t' = template_file s t.
Proof.
  intros T N s s' t t' nsed Hc Hs Ht H. rewrite (L_C65_round_trip T N s t nsed Hs Ht) in H. injection H as <- <-.
  unfold template_file. rewrite rewrite_sed by auto. reflexivity.
Qed.

Lemma E_C65_rewritten : (forall x : R, cst (cst x) = cst x) /\ sed_shape r_sed 1 /\ tmpl_full (k_tmpl (r_obj Plain false 1)).
Proof. split; [reflexivity|]. exact E_C65_round_trip. Qed.

(** C53.  Whatever the object into which a file of tofits is read, with the truncated range: tofits of that object writes the same file. *)
Lemma L_C53_rewritten :
  forall trunc cub bq sun vega fs d d' (K0 K K' : kcor R) A Ao nb no nt f,
    consistent K A Ao nb no nt -> grid_ok (f_zs (k_fit K)) -> nb <> 0%nat -> no <> 0%nat -> nt <> 0%nat -> tmpl_full (k_tmpl K) ->
    (forall n, trunc (IZR n) = n) -> kcor_file trunc K = Ok f -> kcor_fromfits cub bq sun vega fs d K0 (Some f) = (d', K', None) ->
    kcor_file trunc K' = Ok f.
Proof.
  intros trunc cub bq sun vega fs d d' K0 K K' A Ao nb no nt f HC Hg Hnb Hno Hnt Ht Htr Ef H.
  destruct (kcor_load_R trunc K A Ao nb no nt HC Hg Hnb Hno Hnt Ht) as (f' & Ef' & El). assert (f' = f) as -> by congruence.
  rewrite El in H. destruct (load_all cub bq sun vega fs (map stored_name (f_resp (k_fit K))) d) as [d1 [e|]]; [discriminate|].
  injection H as <- <-. destruct HC as (((HA & _) & HAo & _) & _).
  unfold kcor_file, kcor_hdus in *. rewrite HA, HAo in Ef. cbn [loaded k_fit f_A k_Aout f_zs k_rr fst snd f_abc f_resp k_out k_map k_tmpl f_sed].
  destruct (acall A (vec (f_zs (k_fit K)))) as [mA|]; [|discriminate]. destruct (acall Ao (vec (f_zs (k_fit K)))) as [mAo|]; [|discriminate].
  cbn [bind] in *. rewrite <- Ef. unfold template_file. rewrite rewrite_sed by reflexivity. rewrite !lit_R, !Htr, !map_map.
  rewrite !(map_ext (fun x => stored_name (stored_name x)) stored_name) by (intro; apply stored_storable, stored_is_storable).
  reflexivity.
Qed.

Lemma trunc_int n : Rtrunc (IZR n) = n.
Proof.
  unfold Rtrunc. assert (I : forall m, Int_part (IZR m) = m). { intro m. unfold Int_part. rewrite <- (tech_up (IZR m) (m + 1)%Z); rewrite ?plus_IZR; try lra; lia. }
  destruct (Rlt_dec (IZR n) 0); rewrite <- ?opp_IZR, I; lia.
Qed.
Lemma E_C53_rewritten : let K := r_obj Plain false (1/2) in
  consistent K (r_tab_in (1/2)) (r_tab_out (1/2)) 2 2 1 /\ grid_ok (f_zs (k_fit K)) /\ tmpl_full (k_tmpl K) /\ (forall n, Rtrunc (IZR n) = n) /\
  exists f K', kcor_file Rtrunc K = Ok f /\
    kcor_fromfits (fun _ _ _ => 0) (fun _ _ _ => Raise Unmodelled) (Raise Unmodelled) (Raise Unmodelled) no_files r_cache (@fresh R _) (Some f)
      = (r_cache, K', None).
Proof.
  cbv zeta. split; [apply r_consistent|]. split; [apply r_obj_grid; lra|]. split; [apply r_obj_full|]. split; [apply trunc_int|].
  destruct (L_C63_receiver Rtrunc (fun _ _ _ => 0) (fun _ _ _ => Raise Unmodelled) (Raise Unmodelled) (Raise Unmodelled) no_files r_cache
              r_cache (@fresh R _) (r_obj Plain false (1/2)) (r_tab_in (1/2)) (r_tab_out (1/2)) 2 2 1 (r_consistent _ _ _) (r_obj_grid Plain false (1/2) ltac:(lra)) ltac:(lia) ltac:(lia)
              ltac:(lia) (r_obj_full _ _ _) (r_obj_names _ _ _) (r_obj_load _ _ _ _ _ _ _)) as (f & K' & E1 & E2 & _).
  exists f, K'. auto.
Qed.
