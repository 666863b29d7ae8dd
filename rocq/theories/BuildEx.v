(** Concrete constructions of KcorrectSDSS and KcorrectGST objects, for the examples of the construction theorems. *)
From Coq Require Import String List Arith Lia Bool ZArith QArith Qreals Reals Lra Sorting.Sorted.
From Verif Require Import Base BaseLemmas Num Toy Interp InterpReal Sed Response RespDict ResponseObj LinInterp ResponseEx Fitter FitSpec FitterProofs
  FitReal FitTable FitEx FitRealThms Kcorrect KSpec KEx PersistThms BuildSpec BuildProofs.
Import ListNotations.
Local Open Scope R_scope.

(** Strictly increasing abscissae always give a spline. *)
Section T.
  Context {T : Type} {N : Num T}.
  Definition strict (x : list T) : Prop := StronglySorted (fun a b => nltb a b = true /\ nltb b a = false) x.
  Lemma strict_in_order x : strict x -> in_order x.
  Proof. unfold strict, in_order. induction 1 as [|a l H IH Hf]; constructor; auto. eapply Forall_impl; [|exact Hf]. cbn. tauto. Qed.
  Lemma strict_dup x : strict x -> has_dup x = false.
  Proof.
    induction 1 as [|a l H IH Hf]; auto. cbn [has_dup]. destruct l as [|b l]; auto. inversion Hf as [|? ? [E1 E2] ?]; subst.
    unfold same. rewrite E1. cbn. exact IH.
  Qed.
  Lemma strict_cubic x (y : nd T) : strict x -> (4 <= length x)%nat -> shp y <> [] -> lastd (shp y) = length x ->
    exists it, mk_cubic x y = Ok it.
  Proof.
    intros H H4 Hn Hl. unfold mk_cubic, ndim. rewrite Hl, Nat.eqb_refl.
    destruct (shp y) as [|a l] eqn:E; [contradiction|]. cbn [length Nat.eqb negb].
    rewrite (proj2 (Nat.leb_le _ _) H4), argsort_in_order by (apply strict_in_order; auto). cbn zeta.
    rewrite FitTable.map_nth_seq, strict_dup by auto. cbn. eauto.
  Qed.
End T.

(** All ten responses cached. *)
Definition q_ten : dict (resp Q) := map (fun n => (n, q_resp)) gst_responses.
Definition q_tmpl : tmpl Q := (ex_tmpl [1; 2] [1; 1] [1; 2] [0; 1] [1; 1] [1; 2])%Q.
Definition q_sdss (abc : option bool) (responses : option (list string)) : dict (resp Q) * sed Q * res (kcor Q) :=
  KcorrectSDSS q_lin (fun _ _ _ => Raise Unmodelled) (Raise Unmodelled) (Raise Unmodelled) (fun _ => None) q_ten abc responses
               (q_sed false) q_tmpl None None None (Some 2%nat).
Definition q_gst (abc : option bool) (responses : option (list string)) : dict (resp Q) * sed Q * res (kcor Q) :=
  KcorrectGST q_lin (fun _ _ _ => Raise Unmodelled) (Raise Unmodelled) (Raise Unmodelled) (fun _ => None) q_ten abc responses
              (q_sed false) q_tmpl None None None (Some 2%nat).
(** A response without a curve: what a load that failed leaves in the cache. *)
Definition q_blank : dict (resp Q) := [("u", blank)]%string.

(** The same in the extended reals: four samples, one template, grid 0, 1. *)
Definition x_resp : resp xr :=
  {| p_wave := Some (map Fin [1; 2; 3; 4]); p_resp := Some (map Fin [0; 1; 1; 0]);
     p_interp := Some {| ix := map Fin [1; 2; 3; 4]; iys := [map Fin [0; 1; 1; 0]] |};
     p_leff := None; p_solar := None; p_vega2ab := None; p_fwhm := None |}.
Definition x_ten : dict (resp xr) := map (fun n => (n, x_resp)) gst_responses.
Definition x_sed : sed xr :=
  let w := map Fin [1; 2; 3; 4] in let f := table 4 [map Fin [1; 2; 2; 1]] in
  {| s_rwave := w; s_rflux := f; s_wave := w; s_flux := f; s_z := Fin 0; s_flag := false; s_interp := None; s_bin := false |}.
Definition x_tmpl1 : tmpl xr := ex_tmpl [Fin 2] [Fin 1] [Fin (1/50)] [Fin (1/4)] [Fin (1/2)] [Fin 1].

Lemma x_grid : redshift_grid (Fin 0) (Fin 1) 2 = [Fin 0; Fin 1].
Proof.
  unfold redshift_grid, nnat. cbn [seq map]. unfold nadd, nsub, nmul, ndiv, nlit, cst. cbn [Num_xr xsub xadd xopp xmul].
  rewrite !xdiv_fin by (unfold Q2R; cbn; lra). cbn [xadd]. unfold Q2R. cbn. do 3 f_equal; [field|]. f_equal. f_equal. field.
Qed.
Lemma x_sampled z : 0 <= z -> sampled_at (s_rwave x_sed) (s_rflux x_sed) (Fin z).
Proof.
  intro H. unfold sampled_at. apply strict_cubic; try (cbn; discriminate); try (cbn; lia).
  unfold strict. cbn. repeat constructor; cbn; unfold Rltb;
    repeat match goal with |- context [Rlt_dec ?a ?b] => destruct (Rlt_dec a b) end; auto; exfalso; nra.
Qed.
Lemma x_build cub bq sun vega fs k abc responses : responses <> [] -> (forall n, In n responses -> In n gst_responses) ->
  exists d' s' K, Kcorrect cub bq sun vega fs x_ten k abc responses x_sed x_tmpl1 None None (Fin 0) (Fin 1) 2 = (d', s', Ok K).
Proof.
  intros Hne Hin. eapply Kcorrect_succeeds with (w := 4%nat) (rows := [map Fin [1; 2; 2; 1]]); auto.
  - intros n Hn. left. assert (In n gst_responses) by (destruct Hn; auto). exists x_resp. split; [|exists (map Fin [1; 2; 3; 4]); eexists; split; reflexivity].
    cbn in H. repeat (destruct H as [<-|H]; [reflexivity|]). easy.
  - repeat constructor.
  - discriminate.
  - rewrite x_grid. repeat constructor. cbn. unfold Rltb. destruct (Rlt_dec 1 0); auto. lra.
  - rewrite x_grid. intros z [<-|[<-|[<-|[]]]]; apply x_sampled; lra.
Qed.

(** Over the reals: strictly increasing wavelengths and redshifts above -1. *)
Lemma real_sampled (wave : list R) (rows : list (list R)) z : StronglySorted Rlt wave -> (4 <= length wave)%nat -> -1 < z ->
  sampled_at wave (table (length wave) rows) z.
Proof.
  intros Hs H4 Hz. unfold sampled_at. apply mk_cubic_intro.
  - assert (Hm : 0 < 1 + z) by lra. revert Hm. rcbn. generalize (1 + z). intros a Ha.
    clear H4. induction Hs as [|x l Hl IH Hf]; cbn [map]; constructor; auto.
    apply Forall_forall. intros y Hy. apply in_map_iff in Hy as (v & <- & Hv). rewrite Forall_forall in Hf. specialize (Hf v Hv). nra.
  - rewrite map_length. auto.
  - discriminate.
  - rewrite map_length. reflexivity.
Qed.
Lemma real_build cub bq sun vega fs d k abc responses (s : sed R) t out map_ r0 r1 nz rows :
  let o := match out with Some l => l | None => responses end in
  let m := match map_ with Some l => l | None => responses end in
  (forall n, In n responses \/ In n o -> obtainable cub bq sun vega fs d n) ->
  length m = length o -> (forall name, In name m -> In name responses) ->
  StronglySorted Rlt (s_rwave s) -> (4 <= length (s_rwave s))%nat ->
  s_rflux s = table (length (s_rwave s)) rows -> rect (length (s_rwave s)) rows -> rows <> [] -> -1 < r0 -> r0 < r1 -> (2 <= nz)%nat ->
  exists d' s' K, Kcorrect cub bq sun vega fs d k abc responses s t out map_ r0 r1 nz = (d', s', Ok K).
Proof.
  intros o m Hd HL Hin Hs H4 Hf Hr Hne H0 H1 Hnz.
  destruct (L_C36_grid r0 r1 nz Hnz H1) as (_ & HG & G0 & _ & Hk).
  eapply Kcorrect_succeeds; eauto.
  - apply grid_in_order; auto.
  - lia.
  - intros z Hz. rewrite Hf. apply real_sampled; auto. destruct Hz as [<-|Hz]; [cbn; lra|].
    apply (In_nth _ _ 0) in Hz as (i & Hi & <-). pose proof (grid_le _ HG 0 i ltac:(lia)). lra.
Qed.

(** A file with the trapezium, and two templates. *)
Definition r_files : @fsys R := fun name => if String.eqb name "u.dat" then Some (Ok ([1;2;3;4], [0;1;1;0])) else None.
Definition r_sed : sed R :=
  let w := [1/2;1;2;3;4;5] in let f := table 6 [[1;1;2;2;1;1]; [1;2;3;4;5;6]] in
  {| s_rwave := w; s_rflux := f; s_wave := w; s_flux := f; s_z := 0; s_flag := false; s_interp := None; s_bin := false |}.
Definition r_tmpl : tmpl R := ex_tmpl [1; 2] [1; 1] [1; 2] [0; 1] [1; 1] [1; 2].
Lemma r_obtainable : obtainable lin bq0 sun0 sun0 r_files [] "u".
Proof. right. split; auto. destruct trapezium_band as [r Hr]. exists [1;2;3;4], [0;1;1;0], r. split; [reflexivity|apply Hr]. Qed.
Lemma r_built : exists d' s' K,
  Kcorrect lin bq0 sun0 sun0 r_files [] Plain false ["u"%string] r_sed r_tmpl None None 0 1 2 = (d', s', Ok K).
Proof.
  eapply real_build with (rows := [[1;1;2;2;1;1]; [1;2;3;4;5;6]]); auto; try lra; try discriminate.
  - intros n [[<-|[]]|[<-|[]]]; apply r_obtainable.
  - apply sorted_wide.
  - cbn. lia.
  - repeat constructor.
Qed.
(** One template and two input bands. *)
Definition r_sed1 : sed R :=
  let w := [1/2;1;2;3;4;5] in let f := table 6 [[1;1;2;2;1;1]] in
  {| s_rwave := w; s_rflux := f; s_wave := w; s_flux := f; s_z := 0; s_flag := false; s_interp := None; s_bin := false |}.
Lemma r_built1 : exists d' s' K,
  Kcorrect lin bq0 sun0 sun0 r_files [] Plain false ["u"; "u"]%string r_sed1 r_tmpl None None 0 1 2 = (d', s', Ok K).
Proof.
  eapply real_build with (rows := [[1;1;2;2;1;1]]); auto; try lra; try discriminate.
  - intros n Hn. assert (n = "u"%string) as -> by (cbn in Hn; intuition). apply r_obtainable.
  - apply sorted_wide.
  - cbn. lia.
  - repeat constructor.
Qed.
