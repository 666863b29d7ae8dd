(** C26, C44, C50: what the documentation says of the shape of coefficients, bands that were not measured and masses. *)
From Coq Require Import String List Arith Lia Bool ZArith QArith Qreals Reals Lra.
From Verif Require Import Base BaseLemmas Num Toy Interp InterpReal Spec Utils UtilsReal Sed Response RespDict ResponseObj LinInterp ResponseEx
  Fitter FitSpec FitterProofs FitterMC FitReal FitTable FitEx FitRealEx FitRealThms Kcorrect KSpec KTable KEx KcorrectProofs XrAlg KcorrectThms AbsmagProofs AbsmagThms SteadyThms ErrorThms.
Import ListNotations.
Local Open Scope R_scope.
(* STATEMENTS *)

(** docs/examples.rst:79-81 has it that the magnitude of a band that was not measured is determined from the reconstructed
    maggies: it is -9999 although these are positive. *)
Lemma L_C44_documented_refuted :
  exists distmod (K : kcor R) A nb nt o om a r,
    kready K A A nb nb nt /\ no_ab (k_fit K) /\ kobj_ok nb nt o /\ Forall (Rlt 0) (ko_m o) /\ nth 0 (ko_iv o) 1 = 0 /\ nonneg (ko_c o) /\
    reconstruct_out K (Some (scal (ko_z o))) (Some (vec (ko_c o))) 0 = Ok (vec om) /\ 0 < nth 0 om 0 /\
    absmag_object distmod K 0 false true false false o = Ok (Tuple [vec a; vec r]) /\ nth_error a 0 = Some (-9999) /\ nth_error r 0 = Some (-30).
Proof.
  set (o := {| ko_z := 0; ko_m := [1; 1]; ko_iv := [0; 1]; ko_c := [1]; ko_d := 0 |}).
  pose proof r_ready as HF. pose proof HF as (_ & _ & Hn & Ht).
  assert (HR : in_range (a_x r_tab) 0) by (unfold in_range; cbn; lra).
  assert (Emi : reconstruct (k_fit r_kcor) (Some (scal 0)) (Some (vec [1])) 0 = Ok (vec [1; 2])).
  { cbn [k_fit r_kcor]. rewrite (model_eq r_fitter r_tab 2 1 0 [1] r_ready eq_refl HR).
    rewrite (arow_between r_tab 2 1 0 0 Ht r_grid) by (cbn; lia || lra).
    cbn [a_x r_tab a_rows nth chunks firstn skipn zip map]. unfold mulmv, dot; cbn [map zip fold_right].
    do 3 f_equal; [field|]. f_equal. field. }
  assert (Emo : reconstruct_out r_kcor (Some (scal 0)) (Some (vec [1])) 0 = Ok (vec [1; 2])) by exact Emi.
  assert (Ek : kcorrect r_kcor (Some (scal 0)) (Some (vec [1])) 0 = Ok (vec [0; 0])).
  { apply (L_C43_zero r_kcor r_tab 2 1 [1] [1; 2] r_kready eq_refl eq_refl HR ltac:(cbn; lra) Emi). repeat constructor; lra. }
  exists (fun _ => 30), r_kcor, r_tab, 2%nat, 1%nat, o, [1; 2], [-9999; -30], [-30; -5/2 * log10 2 - 30].
  split; [apply r_kready|]. split; [left; reflexivity|]. split; [repeat split|]. split; [repeat constructor; lra|]. split; [reflexivity|].
  split; [repeat constructor; lra|]. split; [exact Emo|]. split; [cbn; lra|]. split; [|split; reflexivity].
  unfold absmag_object, absmag. cbn [o ko_z ko_m ko_iv ko_c].
  assert (EP : process_inputs (k_fit r_kcor) (Some (scal 0)) (Some (vec [1; 1])) (Some (vec [0; 1])) (Some (vec [1])) =
    Ok {| q_array := false; q_n := 1; q_z := scal 0; q_m := Some (vec [1; 1]); q_iv := Some (vec [0; 1]); q_c := Some (vec [1]) |}) by reflexivity.
  rewrite EP. cbn [bind]. unfold absmag_after. cbn [q_array q_n q_z q_m q_iv q_c]. rewrite Ek. cbn [bind map1 scal shp dat map]. rewrite Emo. 
  change (take_last (k_imap r_kcor) n0 (vec [1; 1])) with (Ok (vec [1; 1])). change (take_last (k_imap r_kcor) n0 (vec [0; 1])) with (Ok (vec [0; 1])).
  transitivity (Ok (Tuple [vec [absmag1 1 0 30 0; absmag1 1 1 30 0]; vec [absrec1 1 30 0; absrec1 2 30 0]])); [reflexivity|].
  assert (L1 : log10 1 = 0) by (unfold log10; rewrite ln_1; unfold Rdiv; apply Rmult_0_l).
  assert (T1 : forall x, 0 < x -> Rltb 0 x = true /\ Rleb x 0 = false) by (intros x Hx; split; [apply Rltb_iff; lra|apply Rleb_false; lra]).
  assert (F0 : Rltb 0 0 = false /\ Rleb 0 0 = true) by (split; [apply Rltb_niff; lra|apply Rleb_iff; lra]).
  unfold absmag1, absrec1, sentinel, m25. rcbn. rewrite (proj1 (T1 1 Rlt_0_1)), (proj2 (T1 1 Rlt_0_1)), (proj1 F0), (proj2 F0), (proj1 (T1 2 Rlt_0_2)), (proj2 (T1 2 Rlt_0_2)), L1.
  cbn [andb orb]. unfold vec, Q2R; cbn [Qnum Qden length Z.opp].
  replace (-9999 * / 1) with (-9999) by lra. replace (-5 * / 2 * 0 - 30 - 0) with (-30) by lra.
  replace (-5 * / 2 * log10 2 - 30 - 0) with (-5 / 2 * log10 2 - 30) by lra. reflexivity.
Qed.

(** docs/examples.rst:212-213 takes derived()['mtol'] for the stellar masses, "one entry per object": it has one entry per
    object and output band and is not the mass, which is the entry 'mremain'. *)
Lemma L_C50_documented_refuted :
  exists distmod dict (K : kcor Q) A Ao nb no nt objs out mtol mremain,
    kready K A Ao nb no nt /\ Forall (zc_ok nt) objs /\ derived_objects distmod dict K nt 0%Q objs = Ok out /\
    In ("mtol"%string, mtol) out /\ In ("mremain"%string, mremain) out /\
    shp mremain = [length objs] /\ shp mtol = [length objs; no] /\ no <> 1%nat /\
    forall j, (j < no)%nat -> nth j (dat mtol) 0%Q <> nth 0 (dat mremain) 0%Q.
Proof.
  exists (fun z => z), q_solar, q_kcor, q_tab, q_out, 2%nat, 2%nat, 3%nat, [(1, [1; 0; 2]); (0, [0; 1; 0])]%Q.
  do 3 eexists. split; [apply q_kready|]. split; [repeat constructor|]. split; [vm_compute; reflexivity|].
  split; [right; right; left; reflexivity|]. split; [left; reflexivity|]. split; [reflexivity|]. split; [reflexivity|]. split; [discriminate|].
  intros j Hj. destruct j as [|[|j]]; [| |lia]; vm_compute; discriminate.
Qed.

(** docs/templates.rst:156 gives the shape of the coefficients of a single object as [1, n]: it is [n]. *)
Lemma L_C26_documented_refuted :
  exists nnls rng (F : fitter Q) A nb nt o c, nnls_shape nnls /\ ready F A nb nt /\ obj_ok nb o /\
    fit_object nnls rng F 0 o 0 = Ok (Bare c, 0%nat) /\ shp c <> [1%nat; nt] /\ shp c = [nt].
Proof.
  exists ex_nnls, (fun _ => 0%Q), q_fitter, q_tab, 2%nat, 3%nat, (q_obj 0 1 2). eexists.
  split; [apply ex_nnls_shape|]. split; [apply q_ready|]. split; [repeat constructor|]. split; [vm_compute; reflexivity|].
  split; [discriminate|reflexivity].
Qed.
