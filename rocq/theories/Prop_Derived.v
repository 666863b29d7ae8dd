(** Property theorems; proofs are in DerivedThms.v.  Generated by tools/gen_prop.py. *)
From Coq Require Import String List Arith Lia Bool ZArith QArith Qreals Reals Lra.
From Verif Require Import Base BaseLemmas Num Toy Interp InterpReal Utils Sed Response RespDict Fitter FitSpec FitterProofs FitterMC
  FitReal FitTable FitEx FitRealEx Kcorrect KSpec KEx KcorrectProofs DerivedProofs McProofs XrAlg AbsmagProofs.
Import ListNotations.
Local Open Scope R_scope.

Section X.
  Context {T : Type} {N : Num T}.
  Local Open Scope nat_scope.

  Lemma solar_ok_step dict sh w dms (rm : nd T) ir name r s : good sh w rm -> ir < w -> length dms = size sh ->
    dget dict name = Some r -> p_solar r = Some s ->
    exists rm', solar_step dict (Some dms) rm (ir, name) = Ok rm' /\ good sh w rm'.
  Proof.
    intros G Hi Ld Hd Hs. assert (E : exists rm', solar_step dict (Some dms) rm (ir, name) = Ok rm').
    { destruct G as (rows & -> & Hr & Hl). unfold solar_step. rewrite Hd, Hs. 
      assert (E : exists rm', (do c <- get_last ir n0 (arr sh w rows);
         set_last ir n0 (mk (shp c) (zip (fun x d => ndiv x (npow10 (nmul (nlit (-(2) # 5)) (nadd s d)))) (dat c) dms)) (arr sh w rows)) = Ok rm').
      { rewrite get_last_arr by auto. cbn [bind shp dat]. rewrite set_last_arr; auto; [eauto|].
        rewrite length_zip, map_length. lia. }
      destruct dms; exact E. }
    destruct E as [rm' E]. exists rm'. split; auto. eapply solar_good; eauto.
  Qed.
  Lemma solar_fold_err dict sh w dms nm e post : length dms = size sh ->
    (forall rm i, solar_step dict (Some dms) rm (i, nm) = Raise e) ->
    forall pre i (rm : nd T), good sh w rm -> i + length pre < w ->
    Forall (fun n => exists r s, dget dict n = Some r /\ p_solar r = Some s) pre ->
    foldM (solar_step dict (Some dms)) (combine (seq i (length (pre ++ nm :: post))) (pre ++ nm :: post)) rm = Raise e.
  Proof.
    intros Ld He pre. induction pre as [|n pre IH]; intros i rm G Hi HF; cbn [app length seq combine foldM] in *.
    - rewrite He. auto.
    - inversion HF as [|? ? (r & s & Hd & Hs) HF']; subst.
      destruct (solar_ok_step dict sh w dms rm i n r s G ltac:(lia) Ld Hd Hs) as (rm' & E & G'). rewrite E. cbn [bind].
      apply IH; auto. lia.
  Qed.

  Variable distmod : T -> T.
  Definition der_d (array : bool) (ds : list T) : nd T := if array then vec ds else scal (hd n0 ds).
  Lemma der_raise dict (K : kcor T) A Ao nb no nt bs (wd array : bool) objs ds e : rounding N -> kready K A Ao nb no nt ->
    tmpl_shape K nt -> Forall (zc_ok nt) objs -> (array = false -> length objs = 1) -> length ds = length objs ->
    out_of (a_x Ao) (shifted bs n0) = false ->
    let sh := if array then [length objs] else [] in
    let dm := if wd then None else Some (map (fun zc => distmod (cst (fst zc))) objs) in
    (forall rm, good sh no rm ->
      foldM (solar_step dict dm) (combine (seq 0 (length (k_out K))) (k_out K)) rm = Raise e) ->
    derived distmod dict K (Some (der_z array objs)) (Some (der_c array nt objs)) bs (if wd then Some (der_d array ds) else None)
      = Raise e.
  Proof.
    intros HR HK Htm Hok Harr Lds Hrange sh dm HF. pose proof HK as ((HA & Hb & Hn & Ht) & HAo & Hto & Ho & HiL & Hf).
    pose proof HR as [R1 R2].
    unfold derived.
    assert (EP : process_inputs (k_fit K) (Some (der_z array objs)) None None (Some (der_c array nt objs)) =
       Ok (plain_pin array (if array then length objs else 1) (der_z array objs) None None (Some (der_c array nt objs)))).
    { unfold der_z, der_c. destruct array.
      - rewrite (process_zc_vec _ objs Hn). auto.
      - destruct objs as [|zc [|]]; try (specialize (Harr eq_refl); discriminate). inversion Hok; subst.
        cbn [hd]. apply process_zc_scal with (nt := f_nsed (k_fit K)); auto. }
    rewrite EP. cbn [bind plain_pin q_c q_array q_z option_map].
    assert (Hzs : map distmod (dat (map1 cst (der_z array objs))) = map (fun zc => distmod (cst (fst zc))) objs).
    { unfold der_z. destruct array; unfold map1, vec, scal; cbn [dat]; [rewrite !map_map; auto|].
      destruct objs as [|zc [|]]; try (specialize (Harr eq_refl); discriminate). auto. }
    assert (EA : exists df, match (if wd then Some (der_d array ds) else None) with
             | Some d => do q <- process_inputs (k_fit K) (Some d) None None (Some (map1 cst (der_c array nt objs)));
                         Ok (q_array q, map dfactor_of (dat (q_z q)), None)
             | None => Ok (array, map (fun x => npow10 (nmul (nlit (2 # 5)) x)) (map distmod (dat (map1 cst (der_z array objs)))),
                           Some (map distmod (dat (map1 cst (der_z array objs)))))
             end = Ok (array, df, dm)).
    { unfold dm. destruct wd; [|rewrite Hzs; eauto].
      unfold der_d, der_c. destruct array.
      - assert (E1 : vec ds = vec (map fst (combine ds (map (fun zc : T * list T => map cst (snd zc)) objs)))).
        { f_equal. symmetry. apply map_fst_combine. rewrite map_length. auto. }
        assert (E2 : map1 cst (table nt (map snd objs)) =
                     table nt (map snd (combine ds (map (fun zc : T * list T => map cst (snd zc)) objs)))).
        { rewrite map1_table, map_map. f_equal. symmetry. apply map_snd_combine. rewrite map_length. auto. }
        rewrite E1, E2, (process_zc_vec _ _ Hn). cbn [bind plain_pin q_array q_z]. eauto.
      - destruct objs as [|zc [|]]; try (specialize (Harr eq_refl); discriminate). cbn [hd]. inversion Hok as [|? ? Hz _]; subst.
        rewrite map1_cst_vec. rewrite (process_zc_scal _ (hd n0 ds) (map cst (snd zc)) eq_refl); [|rewrite map_length; auto].
        cbn [bind plain_pin q_array q_z]. eauto. }
    destruct EA as [df ->]. cbn [bind]. rewrite Hn, tmpl_ok_iff by auto.
    destruct (reconstruct_out K (Some (if array then full [length (dat (map1 cst (der_z array objs)))] n0 else scal n0))
        (Some (map1 cst (der_c array nt objs))) bs) as [rm0|e0] eqn:ER.
    - cbn [bind]. assert (G0 : good sh no rm0).
      { eapply reconout_good; [exact HK| | | | | |exact ER].
        - unfold sh. destruct array; [right; eauto|left; auto].
        - unfold sh, full, der_z, vec, map1. destruct array; auto. cbn [shp dat]. rewrite !map_length; auto.
        - destruct array; [apply wf_full|]. unfold wf, scal; auto.
        - unfold sh, der_c, table, map1. destruct array; cbn [shp app]; [rewrite map_length; auto|].
          destruct objs as [|zc [|]]; try (specialize (Harr eq_refl); discriminate). inversion Hok as [|? ? Hz _]; subst.
          cbn [hd]. unfold vec; cbn [shp]. rewrite Hz. auto.
        - apply wf_map1. unfold der_c. destruct array; [|unfold wf, vec; cbn [shp dat size fold_right]; lia].
          unfold table, wf; cbn [shp dat size fold_right]. rewrite (@length_concat_const T nt), map_length; [lia|].
          intros r Hr. apply in_map_iff in Hr as (x & <- & Hx). rewrite Forall_forall in Hok. apply Hok; auto. }
      rewrite HF; auto.
    - exfalso. unfold reconstruct_out in ER. rewrite HAo in ER. destruct array.
      + set (objs1 := map (fun zc : T * list T => (n0, map cst (snd zc))) objs).
        assert (E1 : full [length (dat (map1 cst (der_z true objs)))] n0 = vec (map fst objs1)).
        { unfold full, vec, objs1, der_z, map1, vec; cbn [dat size fold_right]. rewrite Nat.mul_1_r, !map_map, !map_length.
          f_equal. clear. induction objs as [|a l IH]; cbn in *; [auto|]. rewrite IH; auto. }
        assert (E2 : map1 cst (der_c true nt objs) = table nt (map snd objs1)).
        { unfold der_c, objs1. rewrite map1_table, !map_map. auto. }
        assert (Hok1 : Forall (cobj_ok nt) objs1).
        { apply Forall_map. eapply Forall_impl; [|exact Hok]. intros a Ha. unfold cobj_ok; cbn. rewrite map_length; auto. }
        rewrite E1, E2, (reconstruct_vec _ bs Hn Hto Hok1) in ER. unfold objs1 in ER. rewrite existsb_map in ER. cbn [fst] in ER.
        rewrite R2 in ER. rewrite Hrange in ER. assert (EX : existsb (fun _ : T * list T => false) objs = false) by (clear; induction objs; auto).
        rewrite EX in ER. discriminate.
      + destruct objs as [|zc [|]]; try (specialize (Harr eq_refl); discriminate).
        inversion Hok as [|? ? Hz _]; subst. unfold der_c in ER; cbn [hd] in ER. rewrite map1_cst_vec in ER.
        rewrite (reconstruct_scal _ n0 (map cst (snd zc)) bs eq_refl Hto) in ER by (rewrite map_length; auto).
        rewrite R2, Hrange in ER. discriminate.
  Qed.
End X.

Lemma map_eq2 {A B C} (f : B -> C) (g : A -> B) l : map f (map g l) = map (fun x => f (g x)) l.
Proof. apply map_map. Qed.
Lemma der_one T (N : Num T) distmod dict (K : kcor T) A Ao nb no nt bs sols zc : rounding N -> kready K A Ao nb no nt ->
  tmpl_shape K nt -> solars dict K sols -> length (snd zc) = nt ->
  derived_object distmod dict K bs zc =
  if out_of (a_x Ao) (shifted bs n0) then Raise ValueError else Ok (der_dict distmod K Ao no nt bs sols false [zc]).
Proof.
  intros HR HK Ht Hs Hc.
  pose proof (der_eq distmod dict K A Ao nb no nt bs sols false [zc] HR HK Ht Hs (Forall_cons _ Hc (Forall_nil _)) (fun _ => eq_refl)) as E.
  unfold der_z, der_c in E. cbn [hd existsb negb orb] in E. rewrite orb_false_r in E. exact E.
Qed.
Lemma der_many T (N : Num T) distmod dict (K : kcor T) A Ao nb no nt bs sols objs : rounding N -> kready K A Ao nb no nt ->
  tmpl_shape K nt -> solars dict K sols -> Forall (zc_ok nt) objs -> 
  derived_objects distmod dict K nt bs objs =
  if existsb (fun _ => out_of (a_x Ao) (shifted bs n0)) objs then Raise ValueError
  else if Nat.eqb nb no || Nat.eqb no 0 then Ok (der_dict distmod K Ao no nt bs sols true objs) else Raise IndexError.
Proof.
  intros HR HK Ht Hs Hc.
  pose proof (der_eq distmod dict K A Ao nb no nt bs sols true objs HR HK Ht Hs Hc ltac:(discriminate)) as E. exact E.
Qed.
From Verif Require Import DerivedThms.

(** C50.  Without distance, for one object: M and I are the coefficient-weighted template masses times 10^(0.4 DM); b50,
    b300 and b1000 are ratios to I and the metallicity a ratio to M, 0 when M is not positive; mtol is M over the
    luminosity in solar units where that is positive, otherwise 0.  It raises exactly when reconstruct_out does. *)
Theorem C50_law :
  forall (T : Type) (N : Num T) distmod dict (K : kcor T) A Ao nb no nt bs sols z c,
    rounding N -> kready K A Ao nb no nt -> tmpl_shape K nt -> solars dict K sols -> length c = nt ->
    let t := k_tmpl K in
    let dm := distmod (cst z) in
    let tot := fun v => (dotp (map cst c) v * npow10 (nlit (2 # 5) * dm))%num in
    let M := tot (t_mremain t) in
    let I := tot (t_intsfh t) in
    let ratio := fun x y => scal (if nltb n0 M then (x / y)%num else n0) in
    match reconstruct_out K (Some (scal n0)) (Some (vec c)) bs with
    | Raise e => derived_object distmod dict K bs (z, c) = Raise e
    | Ok fl => derived_object distmod dict K bs (z, c) =
        Ok [("mremain", scal M); ("intsfh", scal I);
            ("mtol", vec (zip (fun f s => let l := (f / npow10 (nlit (-(2) # 5) * (s + dm)))%num in
                                          if nltb n0 l then cst (M / l)%num else n0) (dat fl) sols));
            ("b50", ratio (tot (t_m50 t)) I); ("b300", ratio (tot (t_m300 t)) I); ("b1000", ratio (tot (t_m1000 t)) I);
            ("metallicity", ratio (tot (zip nmul (t_mremain t) (t_mets t))) M)]%string
    end.
Proof. exact L_C50_law. Qed.
Print Assumptions C50_law.

Example ex_C50_law :
  kready q_kcor q_tab q_out 2 2 3 /\ tmpl_shape q_kcor 3 /\ solars [("x", sol_resp (-5)); ("y", sol_resp (-4))]%string%Q q_kcor [-5; -4]%Q /\
  derived_object (fun z => z) [("x", sol_resp (-5)); ("y", sol_resp (-4))]%string%Q q_kcor 0%Q (1, [1; 0; 2])%Q =
  Ok [("mremain", scal 2); ("intsfh", scal (14 # 5)); ("mtol", vec [16 # 15; 2 # 5]); ("b50", scal (2 # 7));
      ("b300", scal (3 # 7)); ("b1000", scal (5 # 7)); ("metallicity", scal (13 # 5))]%Q%string.
Proof. exact E_C50_law. Qed.

(** Multiplying the coefficients by a > 0 multiplies the two masses by a and leaves the other quantities unchanged. *)
Theorem C50_scale :
  forall distmod dict (K : kcor xr) A Ao nb no nt bs sols z c a,
    kready K A Ao nb no nt -> tmpl_shape K nt -> solars dict K sols -> length c = nt -> 0 < a ->
    match derived_object distmod dict K bs (z, c), derived_object distmod dict K bs (z, map (nmul (Fin a)) c) with
    | Ok o, Ok o' =>
        o' = map (fun kv => if in_dec string_dec (fst kv) ["mremain"; "intsfh"]%string
                            then (fst kv, map1 (nmul (Fin a)) (snd kv)) else kv) o
    | Raise e, Raise e' => e = e'
    | _, _ => False
    end.
Proof. exact L_C50_scale. Qed.
Print Assumptions C50_scale.

Example ex_C50_scale : kready x_kcor x_tab x_tab 2 2 1 /\ tmpl_shape x_kcor 1 /\ solars x_solar x_kcor [Fin 5; Fin 4] /\ 0 < 3.
Proof. exact E_C50_scale. Qed.

(** When the mass is not positive, b50, b300, b1000 and the metallicity are 0. *)
Theorem C50_nonpositive :
  forall (T : Type) (N : Num T) distmod dict (K : kcor T) A Ao nb no nt bs sols z c o M key,
    rounding N -> kready K A Ao nb no nt -> tmpl_shape K nt -> solars dict K sols -> length c = nt ->
    derived_object distmod dict K bs (z, c) = Ok o -> In ("mremain"%string, scal M) o -> nltb n0 M = false ->
    In key ["b50"; "b300"; "b1000"; "metallicity"]%string -> In (key, scal n0) o.
Proof. exact L_C50_nonpositive. Qed.
Print Assumptions C50_nonpositive.

Example ex_C50_nonpositive :
  derived_object (fun z => z) q_solar q_kcor 0%Q (1, [0; 0; 0])%Q =
  Ok [("mremain", scal 0); ("intsfh", scal 0); ("mtol", vec [0; 0]); ("b50", scal 0);
      ("b300", scal 0); ("b1000", scal 0); ("metallicity", scal 0)]%Q%string.
Proof. exact E_C50_nonpositive. Qed.

(** For nonnegative coefficients and template masses the metallicity of an object of positive mass lies between the
    smallest and the largest template metallicity. *)
Theorem C50_metallicity :
  forall distmod dict (K : kcor R) A Ao nb no nt bs sols z c o M Z lo hi,
    kready K A Ao nb no nt -> tmpl_shape K nt -> solars dict K sols -> length c = nt ->
    Forall (fun x => 0 <= x) c -> Forall (fun x => 0 <= x) (t_mremain (k_tmpl K)) ->
    Forall (fun x => lo <= x <= hi) (t_mets (k_tmpl K)) ->
    derived_object distmod dict K bs (z, c) = Ok o ->
    In ("mremain"%string, scal M) o -> In ("metallicity"%string, scal Z) o -> 0 < M -> lo <= Z <= hi.
Proof. exact L_C50_metallicity. Qed.
Print Assumptions C50_metallicity.

Example ex_C50_metallicity :
  kready r_kcor r_tab r_tab 2 2 1 /\ tmpl_shape r_kcor 1 /\ solars r_solar r_kcor [5; 4] /\
  Forall (fun x => 0 <= x) [3] /\ Forall (fun x => 0 <= x) (t_mremain (k_tmpl r_kcor)) /\
  Forall (fun x => 1/100 <= x <= 1/10) (t_mets (k_tmpl r_kcor)) /\
  exists o M Z, derived_object (fun z => z) r_solar r_kcor 0 (1, [3]) = Ok o /\
    In ("mremain"%string, scal M) o /\ In ("metallicity"%string, scal Z) o /\ 0 < M.
Proof. exact E_C50_metallicity. Qed.

(** If every template has formed at most as much mass in a shorter time, and at most its total, the same holds for an
    object with nonnegative coefficients and positive masses: 0 <= b50 <= b300 <= b1000 <= 1. *)
Theorem C50_history :
  forall distmod dict (K : kcor R) A Ao nb no nt bs sols z c o M I b50 b300 b1000,
    kready K A Ao nb no nt -> tmpl_shape K nt -> solars dict K sols -> length c = nt ->
    Forall (fun x => 0 <= x) c ->
    (forall k, (k < nt)%nat -> let at_ := fun f => nth k (f (k_tmpl K)) 0 in
       0 <= at_ t_m50 <= at_ t_m300 /\ at_ t_m300 <= at_ t_m1000 <= at_ t_intsfh) ->
    derived_object distmod dict K bs (z, c) = Ok o ->
    In ("mremain"%string, scal M) o -> 0 < M -> In ("intsfh"%string, scal I) o -> 0 < I ->
    In ("b50"%string, scal b50) o -> In ("b300"%string, scal b300) o -> In ("b1000"%string, scal b1000) o ->
    0 <= b50 <= b300 /\ b300 <= b1000 <= 1.
Proof. exact L_C50_history. Qed.
Print Assumptions C50_history.

Example ex_C50_history :
  (forall k, (k < 1)%nat -> let at_ := fun f => nth k (f (k_tmpl r_kcor)) 0 in
       0 <= at_ t_m50 <= at_ t_m300 /\ at_ t_m300 <= at_ t_m1000 <= at_ t_intsfh) /\
  exists o M I b50 b300 b1000, derived_object (fun z => z) r_solar r_kcor 0 (1, [3]) = Ok o /\
    In ("mremain"%string, scal M) o /\ 0 < M /\ In ("intsfh"%string, scal I) o /\ 0 < I /\
    In ("b50"%string, scal b50) o /\ In ("b300"%string, scal b300) o /\ In ("b1000"%string, scal b1000) o.
Proof. exact E_C50_history. Qed.

(** Rows of a batch are the results for its objects, in exact arithmetic and for equal numbers of input and output bands
    (or no output bands); a batch fails if and only if one of its objects does. *)
Theorem C50_batch :
  forall (T : Type) (N : Num T) distmod dict (K : kcor T) A Ao nb no nt bs sols objs,
    (forall x : T, cst x = x) -> (forall x : T, nmul x n1 = x) ->
    kready K A Ao nb no nt -> nb = no \/ no = 0%nat -> tmpl_shape K nt -> solars dict K sols -> Forall (zc_ok nt) objs ->
    let one := derived_object distmod dict K bs in
    let all := derived_objects distmod dict K nt bs objs in
    (forall outs, Forall2 (fun zc o => one zc = Ok o) objs outs ->
       exists a, all = Ok a /\ length a = 7%nat /\
         forall q key arr, nth_error a q = Some (key, arr) ->
           (exists vals, arr = vec vals /\ Forall2 (fun o v => nth_error o q = Some (key, scal v)) outs vals) \/
           (exists rows, arr = table no rows /\ Forall2 (fun o row => nth_error o q = Some (key, vec row)) outs rows)) /\
    (forall zc e, In zc objs -> one zc = Raise e -> all = Raise e) /\
    (forall e, all = Raise e -> exists zc, In zc objs /\ one zc = Raise e).
Proof. exact L_C50_batch. Qed.
Print Assumptions C50_batch.

Example ex_C50_batch :
  (forall x : Q, cst x = x) /\ kready q_kcor q_tab q_out 2 2 3 /\
  (exists a, derived_objects (fun z => z) q_solar q_kcor 3 0%Q [(1, [1; 0; 2]); (0, [0; 1; 0])]%Q = Ok a) /\
  derived_objects (fun z => z) q_solar q_kcor 3 7%Q [(1, [1; 0; 2]); (0, [0; 1; 0])]%Q = Raise ValueError.
Proof. exact E_C50_batch. Qed.

(** C51.  With an explicit distance derived never succeeds for an object with output bands, whatever the arguments are. *)
Theorem C51_distance :
  forall (T : Type) (N : Num T) distmod dict (K : kcor T) z c bs d,
    k_out K <> [] -> exists e, derived distmod dict K z c bs (Some d) = Raise e.
Proof. exact L_C51_distance. Qed.
Print Assumptions C51_distance.

Example ex_C51_distance : k_out q_kcor <> [] /\
  derived (fun z => z) q_solar q_kcor (Some (scal 1%Q)) (Some (vec [1; 0; 2]%Q)) 0%Q (Some (scal 100%Q)) = Raise UnboundLocalError.
Proof. exact E_C51_distance. Qed.

(** In the documented use, with the band shift inside the redshift range, the exception is UnboundLocalError when the first
    output response has been loaded, else KeyError; for one object and for a batch. *)
Theorem C51_unbound :
  forall (T : Type) (N : Num T) distmod dict (K : kcor T) A Ao nb no nt bs nm rest zc x objs ds,
    rounding N -> kready K A Ao nb no nt -> tmpl_shape K nt -> k_out K = nm :: rest ->
    out_of (a_x Ao) (shifted bs n0) = false -> zc_ok nt zc -> Forall (zc_ok nt) objs -> length ds = length objs ->
    let e := match dget dict nm with Some _ => UnboundLocalError | None => KeyError end in
    derived distmod dict K (Some (scal (fst zc))) (Some (vec (snd zc))) bs (Some (scal x)) = Raise e /\
    derived distmod dict K (Some (vec (map fst objs))) (Some (table nt (map snd objs))) bs (Some (vec ds)) = Raise e.
Proof. exact L_C51_unbound. Qed.
Print Assumptions C51_unbound.

Example ex_C51_unbound :
  derived (fun z => z) q_solar q_kcor (Some (vec [1; 0]%Q)) (Some (table 3 [[1; 0; 2]; [0; 0; 1]]%Q)) 0%Q (Some (vec [100; 10]%Q))
    = Raise UnboundLocalError /\
  derived (fun z => z) [] q_kcor (Some (vec [1; 0]%Q)) (Some (table 3 [[1; 0; 2]; [0; 0; 1]]%Q)) 0%Q (Some (vec [100; 10]%Q))
    = Raise KeyError /\ out_of (a_x q_out) (shifted 0 0)%Q = false.
Proof. exact E_C51_unbound. Qed.

(** Without distance, the first output response that has not been loaded or has no solar magnitude decides: KeyError or
    TypeError, contrary to the docstring, which promises mtol per maggy for responses without a solar magnitude. *)
Theorem C51_solar :
  forall (T : Type) (N : Num T) distmod dict (K : kcor T) A Ao nb no nt bs pre nm post zc objs,
    rounding N -> kready K A Ao nb no nt -> tmpl_shape K nt -> k_out K = pre ++ nm :: post ->
    Forall (fun n => exists r s, dget dict n = Some r /\ p_solar r = Some s) pre ->
    match dget dict nm with Some r => p_solar r = None | None => True end ->
    out_of (a_x Ao) (shifted bs n0) = false -> zc_ok nt zc -> Forall (zc_ok nt) objs -> objs <> [] ->
    let e := match dget dict nm with Some _ => TypeError | None => KeyError end in
    derived_object distmod dict K bs zc = Raise e /\ derived_objects distmod dict K nt bs objs = Raise e.
Proof. exact L_C51_solar. Qed.
Print Assumptions C51_solar.

Example ex_C51_solar :
  derived_object (fun z => z) [("x", sol_resp 5%Q); ("y", q_resp)]%string q_kcor 0%Q (1, [1; 0; 2])%Q = Raise TypeError /\
  derived_objects (fun z => z) [("x", sol_resp 5%Q)]%string q_kcor 3 0%Q [(1, [1; 0; 2])]%Q = Raise KeyError.
Proof. exact E_C51_solar. Qed.

(** A batch always raises IndexError when the numbers of input and output bands differ, although each of its objects can be
    processed alone. *)
Theorem C51_bands :
  forall (T : Type) (N : Num T) distmod dict (K : kcor T) A Ao nb no nt bs sols objs,
    rounding N -> kready K A Ao nb no nt -> tmpl_shape K nt -> solars dict K sols -> Forall (zc_ok nt) objs ->
    out_of (a_x Ao) (shifted bs n0) = false -> nb <> no -> no <> 0%nat ->
    derived_objects distmod dict K nt bs objs = Raise IndexError /\
    forall zc, In zc objs -> exists o, derived_object distmod dict K bs zc = Ok o.
Proof. exact L_C51_bands. Qed.
Print Assumptions C51_bands.

Example ex_C51_bands :
  kready q_kcor1 q_tab q_out1 2 1 3 /\ tmpl_shape q_kcor1 3 /\ solars q_solar q_kcor1 [4]%Q /\
  derived_objects (fun z => z) q_solar q_kcor1 3 0%Q [(1, [1; 0; 2])]%Q = Raise IndexError.
Proof. exact E_C51_bands. Qed.
