(** C91: the normalisation of response curves does not matter. *)
From Coq Require Import String List Arith Lia Bool ZArith QArith Qreals Reals Lra Sorting.Sorted.
From Verif Require Import Base BaseLemmas Num Toy Interp InterpReal Spec Utils UtilsReal Sed Response RespDict ResponseObj ResponseEx
  Fitter Kcorrect BuildSpec BuildEx BuildThms Spline SplineSpec SplineProofs SplineThms ShiftThms NormSpec.
Import ListNotations.
Local Open Scope R_scope.
(* STATEMENTS *)
From Verif Require Import NormProofs.

(** C91.  Multiplying the response curve by a positive constant: the constructor raises the same exception or gives a Response with
    the same wavelengths, effective wavelength, solar magnitude, Vega offset and width, and the same projections. *)
Lemma L_C91_response :
  forall cub bq sun vega wave y k, splines cub -> 0 < k ->
    match Response cub bq sun vega wave y, Response cub bq sun vega wave (map (fun v => k * v) y) with
    | Ok r, Ok r' => same_band cub r r' /\ exists yy, p_resp r = Some yy /\ p_resp r' = Some (map (fun v => k * v) yy)
    | Raise e, Raise e' => e = e'
    | _, _ => False
    end.
Proof.
  intros cub bq sun vega wave y k Hc Hk. unfold Response. rewrite (sort_scale k). destruct (sort_pair wave y) as [[w yy]|]; cbn [rmap bind fst snd]; auto.
  destruct (resp_setup cub bq sun vega (with_curve blank w yy)) as [r e] eqn:E.
  destruct (resp_setup cub bq sun vega (with_curve blank w (map (fun v => k * v) yy))) as [r' e'] eqn:E'.
  destruct (setup_scaled cub Hc k Hk _ _ _ _ _ _ _ _ _ E E') as [S ->]. destruct e'; auto. split; [eapply scaled_band; eauto|].
  destruct S as (_ & _ & _ & _ & _ & S & _). exists yy.
  assert (P : p_resp r = Some yy).
  { unfold resp_setup, with_curve, blank in E. cbn [p_wave p_resp p_interp p_leff p_solar p_vega2ab p_fwhm] in E.
    destruct (mk_cubic w (vec yy)); [|discriminate]. destruct (ref_magnitude cub sun_scale sun _); [|discriminate].
    destruct (ref_magnitude cub vega_scale vega _); [|discriminate]. destruct (fwhm_limits cub bq w _); [|discriminate].
    injection E as <-. reflexivity. }
  rewrite S, P. auto.
Qed.
Lemma E_C91_response : exists bq r, splines notaknot /\ Response notaknot bq sun0 sun0 [1;2;3;4] [0;1;1;0] = Ok r /\ 0 < 100.
Proof. destruct (toy_bands 1 Rlt_0_1) as (r & _ & E & _). exists (bisect (1/1000)), r. split; [exact L_C78_exists|]. split; [exact E|lra]. Qed.

(** If the throughput columns of the response files (each by a factor of its own) are in other units, the constructor returns the same
    object or raises the same exception, and leaves the templates in the same state; so do all later calls on the object. *)
Lemma L_C91_construction :
  forall cub bq sun vega fs fs' d d' k abc responses (s : sed R) t out map_ r0 r1 nz d1 s1 K d1' s1' K', splines cub ->
    (forall n, exists k, 0 < k /\ fs' n = in_units k (fs n)) -> same_bands cub d d' ->
    Kcorrect cub bq sun vega fs d k abc responses s t out map_ r0 r1 nz = (d1, s1, K) ->
    Kcorrect cub bq sun vega fs' d' k abc responses s t out map_ r0 r1 nz = (d1', s1', K') ->
    K = K' /\ s1 = s1' /\ same_bands cub d1 d1'.
Proof.
  intros cub bq sun vega fs fs' d d' k abc responses s t out map_ r0 r1 nz d1 s1 K d1' s1' K' Hc Hf Hd E E'.
  pose proof (kcorrect_same cub bq sun vega fs fs' Hc Hf d d' k abc responses s t out map_ r0 r1 nz Hd) as H. rewrite E, E' in H. tauto.
Qed.
Lemma E_C91_construction : exists bq fs fs' d s K, splines notaknot /\ fs "u.dat"%string <> fs' "u.dat"%string /\
  (forall n, exists k, 0 < k /\ fs' n = in_units k (fs n)) /\ same_bands notaknot [] [] /\
  Kcorrect notaknot bq sun0 sun0 fs [] Plain false ["u"; "u"]%string r_sed r_tmpl None None 0 1 2 = (d, s, Ok K).
Proof.
  destruct (toy_bands 1 Rlt_0_1) as (r & _ & E & _).
  set (fs := fun n : string => if String.eqb n "u.dat" then Some (Ok ([1;2;3;4], [0;1;1;0])) else None).
  destruct (L_C73_construction_succeeds notaknot (bisect (1/1000)) sun0 sun0 fs [] Plain false ["u"; "u"]%string r_sed
    r_tmpl None None 0 1 2 [[1;1;2;2;1;1]; [1;2;3;4;5;6]]) as (d & s & K & HK); auto; try lra; try (cbn; lia); try discriminate.
  - intros n Hn. assert (n = "u"%string) as -> by (cbn in Hn; intuition). right. split; auto. exists [1;2;3;4], [0;1;1;0], r. split; [reflexivity|exact E].
  - apply sorted_wide.
  - repeat constructor.
  - exists (bisect (1/1000)), fs, (fun n => in_units 100 (fs n)), d, s, K. split; [exact L_C78_exists|]. split; [|split; [|split; [constructor|exact HK]]].
    + cbn. intro Q. injection Q. intros. lra.
    + intro n. exists 100. split; [lra|auto].
Qed.

(** maggies2flambda and the list of responses are the same as well. *)
Lemma L_C91_flambda :
  forall cub bq sun vega fs fs' d d' names m iv d1 x d1' x', splines cub ->
    (forall n, exists k, 0 < k /\ fs' n = in_units k (fs n)) -> same_bands cub d d' ->
    maggies2flambda cub bq sun vega fs d names m iv = (d1, x) -> maggies2flambda cub bq sun vega fs' d' names m iv = (d1', x') ->
    x = x' /\ same_bands cub d1 d1'.
Proof.
  intros cub bq sun vega fs fs' d d' names m iv d1 x d1' x' Hc Hf Hd E E'.
  pose proof (m2f_same cub bq sun vega fs fs' Hc Hf d d' names m iv Hd) as H. rewrite E, E' in H. tauto.
Qed.
Lemma E_C91_flambda : exists bq r r', splines notaknot /\ Response notaknot bq sun0 sun0 [1;2;3;4] [0;1;1;0] = Ok r /\
  Response notaknot bq sun0 sun0 [1;2;3;4] [100*0;100*1;100*1;100*0] = Ok r' /\ same_bands notaknot [("u", r)]%string [("u", r')]%string.
Proof.
  destruct (toy_bands 1 Rlt_0_1) as (r & _ & E & _).
  pose proof (L_C91_response notaknot (bisect (1/1000)) sun0 sun0 [1;2;3;4] [0;1;1;0] 100 L_C78_exists ltac:(lra)) as H. rewrite E in H. cbn [map] in H.
  destruct (Response notaknot (bisect (1/1000)) sun0 sun0 [1;2;3;4] [100*0;100*1;100*1;100*0]) as [r'|] eqn:E'; [|easy].
  exists (bisect (1/1000)), r, r'. split; [exact L_C78_exists|]. split; auto. split; auto. constructor; [|constructor]. cbn. tauto.
Qed.
Lemma L_C91_listing :
  forall cub bq sun vega fs fs' d d' chk files d1 x d1' x', splines cub ->
    (forall n, exists k, 0 < k /\ fs' n = in_units k (fs n)) -> same_bands cub d d' ->
    all_responses cub bq sun vega fs chk files d = (d1, x) -> all_responses cub bq sun vega fs' chk files d' = (d1', x') ->
    x = x' /\ same_bands cub d1 d1'.
Proof.
  intros cub bq sun vega fs fs' d d' chk files d1 x d1' x' Hc Hf Hd. unfold all_responses. destruct files as [l|].
  - pose proof (loop_same cub bq sun vega fs fs' Hc Hf chk l d d' Hd) as H.
    destruct (all_loop cub bq sun vega fs chk l d), (all_loop cub bq sun vega fs' chk l d'). destruct H as [H ->].
    intros Q Q'. injection Q as <- <-. injection Q' as <- <-. auto.
  - intros Q Q'. injection Q as <- <-. injection Q' as <- <-. auto.
Qed.
Lemma E_C91_listing : in_units 100 (Some (Ok ([1;2], [0;1]))) = Some (Ok ([1;2], [100*0;100*1])) /\ splines notaknot /\ same_bands notaknot [] [].
Proof. split; [reflexivity|]. split; [exact L_C78_exists|constructor]. Qed.
