(** Property theorems; proofs are in FitterThms.v.  Generated by tools/gen_prop.py. *)
From Coq Require Import String List Arith Lia Bool QArith.
From Verif Require Import Base BaseLemmas Num Toy Interp Sed Response Fitter FitSpec FitterProofs FitterMC FitEx.
Import ListNotations.
Local Open Scope nat_scope.
From Verif Require Import FitterThms.

(** C25.  The inputs are accepted exactly when their shapes are the documented ones. *)
Theorem C25_accepted_iff_documented :
  forall (T : Type) (N : Num T) (F : fitter T) z m iv c, no_ab F ->
    ((exists p, process_inputs F (Some z) m iv c = Ok p) <->
     documented (length (f_resp F)) (f_nsed F) z m iv c).
Proof. exact L_C25_accepted_iff_documented. Qed.
Print Assumptions C25_accepted_iff_documented.

Example ex_C25_accepted_iff_documented :
  no_ab q_fitter /\
  documented (length (f_resp q_fitter)) (f_nsed q_fitter) (vec [0; 1]%Q) (Some (table 2 [[1; 2]; [3; 4]]%Q)) None None.
Proof. exact E_C25_accepted_iff_documented. Qed.

(** Everything else raises, in fit_coeffs and in reconstruct, whatever the solver, the random stream and the
    state of the object: TypeError for a redshift of dimension two or more, ValueError otherwise. *)
Theorem C25_rejected :
  forall (T : Type) (N : Num T) nnls rng (F : fitter T) A z m iv c mc cur bs,
    (~ documented (length (f_resp F)) (f_nsed F) z m iv None ->
     fit_coeffs nnls rng F (Some z) m iv mc cur = Raise (if Nat.leb (ndim z) 1 then ValueError else TypeError)) /\
    (~ documented (length (f_resp F)) (f_nsed F) z None None c ->
     reconstruct_ F A (Some z) c bs = Raise (if Nat.leb (ndim z) 1 then ValueError else TypeError)).
Proof. exact L_C25_rejected. Qed.
Print Assumptions C25_rejected.

Example ex_C25_rejected : ~ documented 2 3 (scal 0%Q) (Some (vec [1; 2; 3]%Q)) None None.
Proof. exact E_C25_rejected. Qed.

(** A missing redshift. *)
Theorem C25_no_redshift :
  forall (T : Type) (N : Num T) nnls rng (F : fitter T) A m iv c mc cur bs,
    fit_coeffs nnls rng F None m iv mc cur = Raise TypeError /\
    reconstruct_ F A None c bs = Raise ValueError.
Proof. exact L_C25_no_redshift. Qed.
Print Assumptions C25_no_redshift.

(** For every input accepted with mc=0: a number gives [nt] coefficients, n numbers give [n, nt], also for
    n=0 and n=1; the random stream is not touched. *)
Theorem C26_shape :
  forall (T : Type) (N : Num T) nnls rng (F : fitter T) A nb nt z m iv cur o cur',
    nnls_shape nnls -> ready F A nb nt -> wf z ->
    fit_coeffs nnls rng F (Some z) m iv 0 cur = Ok (o, cur') ->
    cur' = cur /\ exists c, o = Bare c /\ wf c /\
      ((shp z = [] /\ shp c = [nt]) \/ (exists n, shp z = [n] /\ shp c = [n; nt])).
Proof. exact L_C26_shape. Qed.
Print Assumptions C26_shape.

Example ex_C26_shape :
  exists c, fit_coeffs ex_nnls (fun _ => 0%Q) q_fitter (Some (vec [0; 1; 5]%Q)) (Some (table 2 [[1; 2]; [3; 4]; [5; 6]]%Q))
                       (Some (table 2 [[1; 1]; [1; 1]; [1; 1]]%Q)) 0 7 = Ok (Bare c, 7) /\ shp c = [3; 3] /\
            dat c = [1; 2; 0; 3; 4; 0; 0; 0; 0]%Q.
Proof. exact E_C26_shape. Qed.

(** C27.  A batch (of any size but one, any mc) is the sequence of the single calls: same values (rounded by the
    store into the float32 output), same first exception, same use of the random stream. *)
Theorem C27_batch_is_sequence_of_single_calls :
  forall (T : Type) (N : Num T) nnls rng (F : fitter T) A nb nt mc objs cur,
    nnls_shape nnls -> no_ab F -> ready F A nb nt -> nb <> 1 -> Forall (obj_ok nb) objs -> length objs <> 1 ->
    fit_objects nnls rng F nb mc objs cur =
    match run_each (fit_object nnls rng F mc) objs cur with
    | Ok (outs, cur') =>
      let c := mk [length objs; nt] (concat (map (fun o => map cst (dat (out_c o))) outs)) in
      Ok (if Nat.eqb mc 0 then Bare c
          else Three c (mk [length objs; nt; mc] (concat (map (fun o => dat (out_cmc o)) outs)))
                       (mk [length objs; nb; mc] (concat (map (fun o => dat (out_mmc o)) outs))), cur')
    | Raise e => Raise e
    end.
Proof. exact L_C27_batch_is_sequence_of_single_calls. Qed.
Print Assumptions C27_batch_is_sequence_of_single_calls.

Example ex_C27_batch_is_sequence_of_single_calls :
  ready q_fitter q_tab 2 3 /\ Forall (obj_ok 2) [q_obj 0 1 2; q_obj (1 # 2) 3 4] /\
  run_each (fit_object ex_nnls (fun _ => 0%Q) q_fitter 0) [q_obj 0 1 2; q_obj (1 # 2) 3 4] 0 =
  Ok ([Bare (vec [1; 8; 0]%Q); Bare (vec [3; 16; 0]%Q)], 0).
Proof. exact E_C27_batch_is_sequence_of_single_calls. Qed.

Theorem C27_rows :
  forall (T : Type) (N : Num T) nnls rng (F : fitter T) A nb nt objs cur c cur',
    nnls_shape nnls -> no_ab F -> ready F A nb nt -> nb <> 1 -> Forall (obj_ok nb) objs -> length objs <> 1 ->
    fit_objects nnls rng F nb 0 objs cur = Ok (Bare c, cur') ->
    forall i o, nth_error objs i = Some o ->
      exists ci, fit_object nnls rng F 0 o cur = Ok (Bare ci, cur) /\ row i c = map1 cst ci.
Proof. exact L_C27_rows. Qed.
Print Assumptions C27_rows.

Example ex_C27_rows :
  nnls_shape (T := Q) ex_nnls /\ no_ab q_fitter /\ ready q_fitter q_tab 2 3 /\ Forall (obj_ok 2) [q_obj 0 1 2; q_obj 9 3 4] /\
  fit_objects ex_nnls (fun _ => 0%Q) q_fitter 2 0 [q_obj 0 1 2; q_obj 9 3 4] 0 =
  Ok (Bare (mk [2; 3] [1; 8; 0; 0; 0; 0]%Q), 0).
Proof. exact E_C27_rows. Qed.

(** A batch of one. *)
Theorem C27_batch_of_one :
  forall (T : Type) (N : Num T) nnls rng (F : fitter T) A nb nt o cur,
    nnls_shape nnls -> no_ab F -> ready F A nb nt -> nb <> 1 -> obj_ok nb o ->
    fit_objects nnls rng F nb 0 [o] cur =
    match fit_object nnls rng F 0 o cur with
    | Ok (r, cur') => Ok (Bare (mk [1; nt] (dat (out_c r))), cur')
    | Raise e => Raise e
    end.
Proof. exact L_C27_batch_of_one. Qed.
Print Assumptions C27_batch_of_one.

Example ex_C27_batch_of_one :
  nnls_shape (T := Q) ex_nnls /\ no_ab q_fitter /\ ready q_fitter q_tab 2 3 /\ obj_ok 2 (q_obj 0 1 2) /\
  fit_objects ex_nnls (fun _ => 0%Q) q_fitter 2 0 [q_obj 0 1 2] 0 = Ok (Bare (mk [1; 3] [1; 8; 0]%Q), 0).
Proof. exact E_C27_batch_of_one. Qed.

Theorem C27_one_band_raises :
  forall (T : Type) (N : Num T) nnls rng (F : fitter T) A nt o mc cur,
    no_ab F -> ready F A 1 nt -> obj_ok 1 o -> ~ outside A (cst (o_z o)) ->
    fit_object nnls rng F mc o cur = Raise ValueError /\
    fit_objects nnls rng F 1 mc [o] cur = Raise ValueError.
Proof. exact L_C27_one_band_raises. Qed.
Print Assumptions C27_one_band_raises.

Example ex_C27_one_band_raises :
  no_ab q1_fitter /\ ready q1_fitter q1_tab 1 1 /\ obj_ok 1 {| o_z := (1 # 2)%Q; o_m := [3%Q]; o_iv := [4%Q] |} /\ ~ outside q1_tab (cst (1 # 2)%Q).
Proof. exact E_C27_one_band_raises. Qed.

(** So "an object can be fitted on its own iff it can be fitted in a batch" is false: in a batch of two the same
    one-band object is fitted. *)
Theorem C27_one_band_vectorisation_refuted :
  exists (F : fitter Q) A (o : obj Q) c, no_ab F /\ ready F A 1 1 /\ obj_ok 1 o /\
    fit_object ex_nnls (fun _ => 0%Q) F 0 o 0 = Raise ValueError /\
    fit_objects ex_nnls (fun _ => 0%Q) F 1 0 [o] 0 = Raise ValueError /\
    fit_objects ex_nnls (fun _ => 0%Q) F 1 0 [o; o] 0 = Ok (Bare (mk [2; 1] [c; c]), 0).
Proof. exact L_C27_one_band_vectorisation_refuted. Qed.
Print Assumptions C27_one_band_vectorisation_refuted.

Theorem C30_out_of_range_gives_zero :
  forall (T : Type) (N : Num T) nnls rng (F : fitter T) A nb nt o cur,
    no_ab F -> ready F A nb nt -> nb <> 1 -> obj_ok nb o -> outside A (cst (o_z o)) ->
    fit_object nnls rng F 0 o cur = Ok (Bare (vec (repeat n0 nt)), cur).
Proof. exact L_C30_out_of_range_gives_zero. Qed.
Print Assumptions C30_out_of_range_gives_zero.

Example ex_C30_out_of_range_gives_zero :
  no_ab q_fitter /\ ready q_fitter q_tab 2 3 /\ obj_ok 2 (q_obj 3 1 2) /\ outside q_tab (cst (o_z (q_obj 3 1 2))).
Proof. exact E_C30_out_of_range_gives_zero. Qed.

(** In a batch that object's row is zero and the other rows are the single fits (C27). *)
Theorem C30_out_of_range_row :
  forall (T : Type) (N : Num T) nnls rng (F : fitter T) A nb nt objs cur c cur',
    nnls_shape nnls -> no_ab F -> ready F A nb nt -> nb <> 1 -> Forall (obj_ok nb) objs -> length objs <> 1 ->
    fit_objects nnls rng F nb 0 objs cur = Ok (Bare c, cur') ->
    forall i o, nth_error objs i = Some o -> outside A (cst (o_z o)) -> row i c = vec (repeat (cst n0) nt).
Proof. exact L_C30_out_of_range_row. Qed.
Print Assumptions C30_out_of_range_row.

Example ex_C30_out_of_range_row :
  nnls_shape (T := Q) ex_nnls /\ no_ab q_fitter /\ ready q_fitter q_tab 2 3 /\ Forall (obj_ok 2) [q_obj 0 1 2; q_obj 9 3 4] /\
  fit_objects ex_nnls (fun _ => 0%Q) q_fitter 2 0 [q_obj 0 1 2; q_obj 9 3 4] 0 =
  Ok (Bare (mk [2; 3] [1; 8; 0; 0; 0; 0]%Q), 0) /\ outside q_tab (cst (o_z (q_obj 9 3 4))).
Proof. exact E_C30_out_of_range_row. Qed.

(** With Monte Carlo the same object makes the call raise: ValueError for the single call, and no batch that
    contains it returns anything. *)
Theorem C30_out_of_range_mc_raises :
  forall (T : Type) (N : Num T) nnls rng (F : fitter T) A nb nt objs o mc cur,
    nnls_shape nnls -> no_ab F -> ready F A nb nt -> nb <> 1 -> Forall (obj_ok nb) objs -> length objs <> 1 ->
    mc <> 0 -> In o objs -> outside A (cst (o_z o)) ->
    fit_object nnls rng F mc o cur = Raise ValueError /\
    exists e, fit_objects nnls rng F nb mc objs cur = Raise e.
Proof. exact L_C30_out_of_range_mc_raises. Qed.
Print Assumptions C30_out_of_range_mc_raises.

Example ex_C30_out_of_range_mc_raises :
  fit_objects ex_nnls (fun _ => 1%Q) q_fitter 2 2 [q_obj 0 1 2; q_obj 9 3 4] 0 = Raise ValueError /\
  fit_objects ex_nnls (fun _ => 1%Q) q_fitter 2 0 [q_obj 0 1 2; q_obj 9 3 4] 0 =
  Ok (Bare (mk [2; 3] [1; 8; 0; 0; 0; 0]%Q), 0).
Proof. exact E_C30_out_of_range_mc_raises. Qed.

(** reconstruct raises exactly when some shifted redshift is outside the grid; there is no extrapolation. *)
Theorem C30_reconstruct_range :
  forall (T : Type) (N : Num T) (F : fitter T) A nb nt (objs : list (T * list T)) bs,
    ready F A nb nt -> Forall (fun zc => length (snd zc) = nt) objs ->
    let r := reconstruct F (Some (vec (map fst objs))) (Some (table nt (map snd objs))) bs in
    ((exists zc, In zc objs /\ outside A (nsub (nmul (nadd n1 (cst (fst zc))) (nadd n1 bs)) n1)) ->
     r = Raise ValueError) /\
    ((forall zc, In zc objs -> ~ outside A (nsub (nmul (nadd n1 (cst (fst zc))) (nadd n1 bs)) n1)) ->
     exists m, r = Ok m /\ shp m = [length objs; nb] /\ wf m).
Proof. exact L_C30_reconstruct_range. Qed.
Print Assumptions C30_reconstruct_range.

Example ex_C30_reconstruct_range :
  reconstruct q_fitter (Some (vec [0; 1]%Q)) (Some (table 3 [[1; 0; 0]; [0; 1; 0]]%Q)) 0%Q =
  Ok (mk [2; 2] [1; 4; 3; 6]%Q) /\
  reconstruct q_fitter (Some (vec [0; 1]%Q)) (Some (table 3 [[1; 0; 0]; [0; 1; 0]]%Q)) 1%Q = Raise ValueError.
Proof. exact E_C30_reconstruct_range. Qed.

(** C31. *)
Theorem C31_batch_of_one_mc_never_returns :
  forall (T : Type) (N : Num T) nnls rng (F : fitter T) A nb nt o mc cur,
    nnls_shape nnls -> no_ab F -> ready F A nb nt -> obj_ok nb o -> mc <> 0 ->
    (exists e, fit_objects nnls rng F nb mc [o] cur = Raise e) /\
    (forall r, fit_object nnls rng F mc o cur = Ok r -> fit_objects nnls rng F nb mc [o] cur = Raise ValueError).
Proof. exact L_C31_batch_of_one_mc_never_returns. Qed.
Print Assumptions C31_batch_of_one_mc_never_returns.

Example ex_C31_batch_of_one_mc_never_returns :
  (exists r, fit_object ex_nnls (fun _ => 1%Q) q_fitter 2 (q_obj 0 1 2) 0 = Ok r) /\
  (exists r, fit_objects ex_nnls (fun _ => 1%Q) q_fitter 2 2 [q_obj 0 1 2; q_obj 0 1 2] 0 = Ok r) /\
  fit_objects ex_nnls (fun _ => 1%Q) q_fitter 2 2 [q_obj 0 1 2] 0 = Raise ValueError.
Proof. exact E_C31_batch_of_one_mc_never_returns. Qed.

(** C32.  The draws: in band b of draw i, the maggies plus a standard normal variate divided by the inverse error
    where the latter is positive, the unchanged maggies elsewhere.  [k] good bands use k variates per draw, band by
    band, so every variate from position cur on is used exactly once.  The central coefficients are those of the
    call without Monte Carlo. *)
Theorem C32_draws :
  forall (T : Type) (N : Num T) nnls rng (F : fitter T) A nb nt mc o cur r cur',
    nnls_shape nnls -> no_ab F -> ready F A nb nt -> nb <> 1 -> obj_ok nb o -> mc <> 0 ->
    fit_object nnls rng F mc o cur = Ok (r, cur') ->
    let inverr := map (fun v => nsqrt (cst v)) (o_iv o) in
    let goods := fun l => length (filter (fun e => nltb n0 e) l) in
    let k := goods inverr in
    exists c cm mm, r = Three c cm mm /\ fit_object nnls rng F 0 o cur = Ok (Bare c, cur) /\
      shp cm = [nt; mc] /\ wf cm /\ shp mm = [nb; mc] /\ wf mm /\ cur' = cur + mc * k /\
      forall b i, b < nb -> i < mc ->
        let m := cst (cst (nth b (o_m o) n0)) in
        let e := nth b inverr n0 in
        nth (b * mc + i) (dat mm) n0 =
        if nltb n0 e then cst (nadd m (nmul (rng (cur + i * k + goods (firstn b inverr))) (ndiv n1 e))) else m.
Proof. exact L_C32_draws. Qed.
Print Assumptions C32_draws.

Example ex_C32_draws :
  let o := {| o_z := 0%Q; o_m := [5; 6]%Q; o_iv := [0; 1]%Q |} in
  exists c cm, fit_object ex_nnls (fun n => inject_Z (Z.of_nat n)) q_fitter 3 o 10 =
               Ok (Three c cm (mk [2; 3] [5; 5; 5; 16; 17; 18]%Q), 13).
Proof. exact E_C32_draws. Qed.

(** Each column of coeffs_mc is the fit of the corresponding column of maggies_mc. *)
Theorem C32_coeffs_mc :
  forall (T : Type) (N : Num T) nnls rng (F : fitter T) A nb nt mc o cur c cm mm cur',
    nnls_shape nnls -> no_ab F -> ready F A nb nt -> nb <> 1 -> obj_ok nb o -> mc <> 0 ->
    (forall x : T, cst (cst x) = cst x) ->
    fit_object nnls rng F mc o cur = Ok (Three c cm mm, cur') ->
    forall i k, i < mc ->
      exists ci, fit_object nnls rng F 0 {| o_z := o_z o; o_m := column nb mc i mm; o_iv := o_iv o |} k = Ok (Bare ci, k) /\
                 column nt mc i cm = map cst (dat ci).
Proof. exact L_C32_coeffs_mc. Qed.
Print Assumptions C32_coeffs_mc.

Example ex_C32_coeffs_mc :
  nnls_shape (T := Q) ex_nnls /\ no_ab q_fitter /\ ready q_fitter q_tab 2 3 /\ obj_ok 2 (q_obj 0 1 2) /\ (forall x : Q, cst (cst x) = cst x) /\
  exists c cm mm cur', fit_object ex_nnls (fun n => inject_Z (Z.of_nat n)) q_fitter 3 (q_obj 0 1 2) 10 = Ok (Three c cm mm, cur').
Proof. exact E_C32_coeffs_mc. Qed.
