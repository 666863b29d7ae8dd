(** The objects of the examples of C90: the same response and two sets of templates on the same wavelengths. *)
From Coq Require Import String List Arith Lia Bool ZArith QArith Qreals Reals Lra Sorting.Sorted Sorting.Permutation.
From Verif Require Import Base BaseLemmas Num Toy Interp InterpReal Spec Utils UtilsReal Sed Response RespDict ResponseObj LinInterp ResponseEx
  Fitter FitSpec FitterProofs FitterMC FitReal FitTable FitEx FitRealEx FitRealThms Kcorrect KSpec KTable KEx KcorrectProofs XrAlg KcorrectThms AbsmagProofs AbsmagThms
  AbThms UtilsThms RespDictThms PersistThms BuildSpec BuildProofs BuildTable BuildEx BuildThms NnlsSpec NnlsExact NnlsThms
  Spline SplineSpec SplineProofs SplineThms CurveThms ShiftSpec ShiftThms PipeSpec PipeProofs BlendSpec.
Import ListNotations.
Local Open Scope R_scope.

Definition b_wave : list R := [1/2;1;2;3;4;5].
Definition b_sed (rows : list (list R)) : sed R :=
  {| s_rwave := b_wave; s_rflux := table 6 rows; s_wave := b_wave; s_flux := table 6 rows; s_z := 0; s_flag := false; s_interp := None; s_bin := false |}.

Lemma b_build d r rows : Response notaknot (bisect (1/1000)) sun0 sun0 [1;2;3;4] [0;1;1;0] = Ok r -> dget d "u"%string = Some r ->
  rect 6 rows -> rows <> [] -> exists d' s' K,
  Kcorrect notaknot (bisect (1/1000)) sun0 sun0 (fun _ => None) d Plain false ["u"; "u"]%string (b_sed rows) r_tmpl None None 0 1 2 = (d', s', Ok K) /\
  dget d' "u"%string = Some r.
Proof.
  intros E Hd Hr Hne. assert (L0 : length [0;1;1;0] = length [1;2;3;4]) by reflexivity.
  destruct (Response_ok _ _ _ _ _ _ _ L0 E) as (w & yy & fw & W1 & _ & W3 & _).
  destruct (L_C73_construction_succeeds notaknot (bisect (1/1000)) sun0 sun0 (fun _ => None) d Plain false ["u"; "u"]%string (b_sed rows)
    r_tmpl None None 0 1 2 rows) as (d' & s' & K & HK); auto; try lra; try (cbn; lia).
  - intros n Hn. left. exists r. assert (n = "u"%string) as -> by (cbn in Hn; intuition). split; auto. exists w; eexists; split; eauto.
  - apply sorted_wide.
  - exists d', s', K. split; auto. destruct (built_after _ _ _ _ _ _ _ _ _ _ _ _ _ _ _ _ _ _ _ HK) as [He _]. apply He. auto.
Qed.
Lemma b_pair rows1 rows2 : rect 6 rows1 -> rows1 <> [] -> rect 6 rows2 -> rows2 <> [] -> exists d d1 s1 K1 d2 s2 K2,
  Kcorrect notaknot (bisect (1/1000)) sun0 sun0 (fun _ => None) d Plain false ["u"; "u"]%string (b_sed rows1) r_tmpl None None 0 1 2 = (d1, s1, Ok K1) /\
  Kcorrect notaknot (bisect (1/1000)) sun0 sun0 (fun _ => None) d1 Plain false ["u"; "u"]%string (b_sed rows2) r_tmpl None None 0 1 2 = (d2, s2, Ok K2).
Proof.
  intros R1 N1 R2 N2. destruct (toy_bands 1 Rlt_0_1) as (r & _ & E & _).
  destruct (b_build [("u"%string, r)] r rows1 E eq_refl R1 N1) as (d1 & s1 & K1 & H1 & D1).
  destruct (b_build d1 r rows2 E D1 R2 N2) as (d2 & s2 & K2 & H2 & _).
  exists [("u"%string, r)], d1, s1, K1, d2, s2, K2. auto.
Qed.
Lemma b_fits d rows d' s' K l : rect 6 rows -> rows <> [] ->
  Kcorrect notaknot (bisect (1/1000)) sun0 sun0 (fun _ => None) d Plain false ["u"; "u"]%string (b_sed rows) r_tmpl None None 0 1 2 = (d', s', Ok K) ->
  length l = 2%nat -> exists c, fit_object nnls_exact (fun _ => 0) (k_fit K) 0 (observed 0 l) 0 = Ok (Bare (vec c), 0%nat).
Proof.
  intros Hr Hne H Hl.
  destruct (built_tables _ _ _ _ _ _ _ _ _ _ _ _ _ _ _ _ _ _ _ 6%nat rows H) as (A & Ao & HK & X1 & _);
    try lra; auto.
  destruct HK as (HR & _). destruct (L_C36_grid 0 1 2 (le_n 2) ltac:(lra)) as (_ & HG & G0 & G1 & _).
  pose proof (L_C40_mapping R Num_R _ _ _ _ _ _ _ _ _ _ _ _ _ _ _ _ _ _ _ H) as (_ & _ & _ & _ & _ & _ & Ha & _).
  assert (Hi : FitSpec.in_range (a_x A) 0) by (unfold FitSpec.in_range; rewrite X1, G0, G1; lra).
  destruct (fit_eq nnls_exact (fun _ => 0) (k_fit K) A 2 (length rows) (observed 0 l) 0%nat) as (HW & LW & Lb & EF); auto.
  - left; auto.
  - split; cbn [observed o_m o_iv]; rewrite map_length; auto.
  - rewrite EF. destruct (nnls_exact None (length rows) _ _) as [x|] eqn:E; [|discriminate]. exists x. auto.
Qed.
