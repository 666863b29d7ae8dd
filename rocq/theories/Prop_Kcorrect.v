(** Property theorems; proofs are in KcorrectThms.v.  Generated by tools/gen_prop.py. *)
From Coq Require Import String List Arith Lia Bool ZArith QArith Qreals Reals Lra.
From Verif Require Import Base BaseLemmas Num Toy Interp InterpReal Utils Sed Response RespDict Fitter FitSpec FitterProofs FitterMC
  FitReal FitTable FitEx FitRealEx Kcorrect KSpec KTable KEx KcorrectProofs XrAlg.
Import ListNotations.
Local Open Scope R_scope.
From Verif Require Import KcorrectThms.

(** C40.  Whenever construction succeeds, responses_out and responses_map (by default responses) have the same length
    and entry j of the index array is the first position of responses_map[j] in responses. *)
Theorem C40_mapping :
  forall (T : Type) (N : Num T) cub bq sun vega fs d k abc responses s t out map_ (r0 r1 : T) nz d' s' K,
    Kcorrect cub bq sun vega fs d k abc responses s t out map_ r0 r1 nz = (d', s', Ok K) ->
    let o := match out with Some l => l | None => responses end in
    let m := match map_ with Some l => l | None => responses end in
    k_out K = o /\ k_map K = m /\ length m = length o /\ length (k_imap K) = length o /\
    f_resp (k_fit K) = responses /\ f_kind (k_fit K) = k /\ f_abc (k_fit K) = abc /\ k_tmpl K = t /\
    k_rr K = (cst r0, cst r1) /\ f_zs (k_fit K) = redshift_grid r0 r1 nz /\
    (forall name, In name m -> In name responses) /\
    forall j name, nth_error m j = Some name ->
      exists i, nth_error (k_imap K) j = Some i /\ nth_error responses i = Some name /\
                forall i', (i' < i)%nat -> nth_error responses i' <> Some name.
Proof. exact L_C40_mapping. Qed.
Print Assumptions C40_mapping.

Example ex_C40_mapping : exists d' s' K, q_build (Some ["g"; "g"; "u"]%string) (Some ["g"; "u"; "u"]%string) = (d', s', Ok K) /\
  k_imap K = [1; 0; 0]%nat /\ exists d'' s'' K', q_build None None = (d'', s'', Ok K') /\ k_imap K' = [0; 1]%nat.
Proof. exact E_C40_mapping. Qed.

(** With different lengths, or a name in responses_map that is not in responses, construction always raises; once the
    input design matrix (and, for the second case, the output one) has been built, ValueError. *)
Theorem C40_rejected :
  forall (T : Type) (N : Num T) cub bq sun vega fs d k abc responses s t out map_ (r0 r1 : T) nz,
    let o := match out with Some l => l | None => responses end in
    let m := match map_ with Some l => l | None => responses end in
    let call := Kcorrect cub bq sun vega fs d k abc responses s t out map_ r0 r1 nz in
    length m <> length o \/ (exists name, In name m /\ ~ In name responses) ->
    (exists e, snd call = Raise e) /\
    forall d1 F1, set_Amatrix cub bq sun vega fs d (Fitter k abc responses s r0 r1 nz) = (d1, F1, None) ->
      length m <> length o \/ o = responses \/
      (exists d2 s2 A, calc_A cub bq sun vega fs o (f_zs F1) d1 (f_sed F1) = (d2, s2, Ok A)) ->
      snd call = Raise ValueError.
Proof. exact L_C40_rejected. Qed.
Print Assumptions C40_rejected.

Example ex_C40_rejected : snd (q_build (Some ["g"]%string) None) = Raise ValueError /\
  snd (q_build None (Some ["u"; "r"]%string)) = Raise ValueError /\
  snd (q_build (Some ["g"]%string) (Some ["r"]%string)) = Raise ValueError.
Proof. exact E_C40_rejected. Qed.

(** Conversely, construction succeeds when the design matrices can be built, the lengths agree and every name of
    responses_map is in responses. *)
Theorem C40_accepted :
  forall (T : Type) (N : Num T) cub bq sun vega fs d k abc responses s t out map_ (r0 r1 : T) nz,
    let o := match out with Some l => l | None => responses end in
    let m := match map_ with Some l => l | None => responses end in
    forall d1 F1, set_Amatrix cub bq sun vega fs d (Fitter k abc responses s r0 r1 nz) = (d1, F1, None) ->
      length m = length o -> (forall name, In name m -> In name responses) ->
      o = responses \/ (exists d2 s2 A, calc_A cub bq sun vega fs o (f_zs F1) d1 (f_sed F1) = (d2, s2, Ok A)) ->
      exists K, snd (Kcorrect cub bq sun vega fs d k abc responses s t out map_ r0 r1 nz) = Ok K.
Proof. exact L_C40_accepted. Qed.
Print Assumptions C40_accepted.

Example ex_C40_accepted : exists K, snd (q_build (Some ["g"; "u"]%string) None) = Ok K /\ k_imap K = [0; 1]%nat /\
  k_out K = ["g"; "u"]%string.
Proof. exact E_C40_accepted. Qed.

(** A constructed object satisfies what the theorems below assume of a Kcorrect object ([kready]): both interpolators
    are on the redshift grid; with the default output bands the output table is the input table; with default
    responses_map and no repeated name, output band j uses input band j. *)
Theorem C40_ready :
  forall (T : Type) (N : Num T) cub bq sun vega fs d k abc responses s t out map_ (r0 r1 : T) nz d' s' K w rows,
    Kcorrect cub bq sun vega fs d k abc responses s t out map_ r0 r1 nz = (d', s', Ok K) ->
    s_rflux s = table w rows -> in_order (redshift_grid r0 r1 nz) -> (2 <= nz)%nat ->
    exists A Ao, kready K A Ao (length responses) (length (k_out K)) (length rows) /\
      a_x A = redshift_grid r0 r1 nz /\ a_x Ao = redshift_grid r0 r1 nz /\
      (k_out K = responses -> Ao = A) /\
      (k_map K = responses -> NoDup responses -> k_imap K = seq 0 (length responses)).
Proof. exact L_C40_ready. Qed.
Print Assumptions C40_ready.

Example ex_C40_ready : s_rflux (q_sed false) = table 5 [[1; 1; 1; 1; 1]; [2; 3; 4; 5; 6]]%Q /\
  in_order (redshift_grid 0 1 2)%Q /\ exists d' s' K, q_build (Some ["g"]%string) (Some ["u"]%string) = (d', s', Ok K).
Proof. exact E_C40_ready. Qed.

(** C41.  For one object at a redshift with 0 * z = 0 (every finite one): kcorrect fails exactly as reconstruct at the
    redshift or reconstruct_out at redshift 0 fails; otherwise band j is -2.5 log10 of the ratio of band imap[j] of the
    first to band j of the second if the (float32) coefficients have positive sum, and 0 if not. *)
Theorem C41_definition :
  forall (T : Type) (N : Num T) (K : kcor T) A Ao nb no nt z c bs,
    rounding N -> kready K A Ao nb no nt -> length c = nt -> nmul (nlit 0) (cst z) = (n0 : T) ->
    let k := kcorrect K (Some (scal z)) (Some (vec c)) bs in
    let mi := reconstruct (k_fit K) (Some (scal z)) (Some (vec c)) n0 in
    let mo := reconstruct_out K (Some (scal n0)) (Some (vec c)) bs in
    (forall e, mi = Raise e -> k = Raise e) /\
    (forall x e, mi = Ok x -> mo = Raise e -> k = Raise e) /\
    (forall x y, mi = Ok x -> mo = Ok y ->
       exists v, k = Ok (vec v) /\ length v = no /\
       forall j, (j < no)%nat -> exists xj yj,
         nth_error (dat x) (in_band K j) = Some xj /\ nth_error (dat y) j = Some yj /\
         nth_error v j = Some (if nltb n0 (nsum (map cst c)) then nmul (nlit (-(5) # 2)) (nlog10 (ndiv xj yj)) else n0)).
Proof. exact L_C41_definition. Qed.
Print Assumptions C41_definition.

Example ex_C41_definition : kready q_kcor q_tab q_out 2 2 3 /\
  kcorrect q_kcor (Some (scal 1%Q)) (Some (vec [1; 0; 2]%Q)) 0%Q = Ok (vec [(-95 # 6); (-25 # 6)]%Q) /\
  kcorrect q_kcor (Some (scal 1%Q)) (Some (vec [1; -3; 2]%Q)) 0%Q = Ok (vec [0; 0]%Q) /\
  kcorrect q_kcor (Some (scal 1%Q)) (Some (vec [1; 0; 2]%Q)) 3%Q = Raise ValueError.
Proof. exact E_C41_definition. Qed.

(** Row i of a batch is the float32 value of the call for object i; a batch raises if and only if a call for one of its
    objects does. *)
Theorem C41_batch :
  forall (T : Type) (N : Num T) (K : kcor T) A Ao nb no nt objs bs,
    rounding N -> kready K A Ao nb no nt -> Forall (zc_ok nt) objs ->
    let one := fun zc : T * list T => kcorrect K (Some (scal (fst zc))) (Some (vec (snd zc))) bs in
    let all := kcorrect K (Some (vec (map fst objs))) (Some (table nt (map snd objs))) bs in
    (forall ks, Forall2 (fun zc k => one zc = Ok (vec k)) objs ks -> all = Ok (table no (map (map cst) ks))) /\
    (forall zc e, In zc objs -> one zc = Raise e -> all = Raise ValueError) /\
    (forall e, all = Raise e -> e = ValueError /\ exists zc, In zc objs /\ one zc = Raise ValueError).
Proof. exact L_C41_batch. Qed.
Print Assumptions C41_batch.

Example ex_C41_batch : rounding Num_Q /\ kready q_kcor q_tab q_out 2 2 3 /\
  kcorrect q_kcor (Some (vec [0; 1]%Q)) (Some (table 3 [[1; 1; 1]; [1; 0; 2]]%Q)) 0%Q =
    Ok (table 2 [[(-25 # 2); (-5 # 2)]; [(-95 # 6); (-25 # 6)]]%Q) /\
  kcorrect q_kcor (Some (vec [0; 5]%Q)) (Some (table 3 [[1; 1; 1]; [1; 0; 2]]%Q)) 0%Q = Raise ValueError.
Proof. exact E_C41_batch. Qed.

(** C42.  Multiplying the coefficients of an object by a positive number leaves its K-corrections unchanged, special
    values included; in a batch the factor may differ between objects. *)
Theorem C42_scale :
  forall (K : kcor xr) A Ao nb no nt z c bs a,
    kready K A Ao nb no nt -> length c = nt -> 0 < a ->
    kcorrect K (Some (scal z)) (Some (vec (map (nmul (Fin a)) c))) bs = kcorrect K (Some (scal z)) (Some (vec c)) bs.
Proof. exact L_C42_scale. Qed.
Print Assumptions C42_scale.

Example ex_C42_scale : kready x_kcor x_tab x_tab 2 2 1 /\ length [Fin 3] = 1%nat /\ 0 < 2.
Proof. exact E_C42_scale. Qed.

Theorem C42_scale_batch :
  forall (K : kcor xr) A Ao nb no nt objs bs,
    kready K A Ao nb no nt -> Forall (fun o => length (snd (snd o)) = nt /\ 0 < fst o) objs ->
    kcorrect K (Some (vec (map (fun o => fst (snd o)) objs)))
               (Some (table nt (map (fun o : R * (xr * list xr) => map (nmul (Fin (fst o))) (snd (snd o))) objs))) bs =
    kcorrect K (Some (vec (map (fun o => fst (snd o)) objs))) (Some (table nt (map (fun o => snd (snd o)) objs))) bs.
Proof. exact L_C42_scale_batch. Qed.
Print Assumptions C42_scale_batch.

Example ex_C42_scale_batch : kready x_kcor x_tab x_tab 2 2 1 /\
  Forall (fun o => length (snd (snd o)) = 1%nat /\ 0 < fst o) [(2, (Fin 0, [Fin 3])); (3, (Fin (1/2), [NaN]))].
Proof. exact E_C42_scale_batch. Qed.

(** C43.  When the output bands are the input bands in the same order and band_shift is the redshift, the K-correction
    is -2.5 log10(1+z) in every band with positive reconstructed flux, whatever the (nonnegative or not) coefficients of
    positive sum are. *)
Theorem C43_same_band :
  forall (K : kcor R) A nb nt z c m,
    kready K A A nb nb nt -> k_imap K = seq 0 nb -> length c = nt -> -1 < z -> in_range (a_x A) z -> 0 < fold_right Rplus 0 c ->
    reconstruct (k_fit K) (Some (scal z)) (Some (vec c)) 0 = Ok (vec m) ->
    exists k, kcorrect K (Some (scal z)) (Some (vec c)) z = Ok (vec k) /\ length k = nb /\
      forall j, (j < nb)%nat -> 0 < nth j m 0 -> nth_error k j = Some (-5 / 2 * log10 (1 + z)).
Proof. exact L_C43_same_band. Qed.
Print Assumptions C43_same_band.

Example ex_C43_same_band : kready r_kcor r_tab r_tab 2 2 1 /\ k_imap r_kcor = seq 0 2 /\ in_range (a_x r_tab) 1 /\
  reconstruct (k_fit r_kcor) (Some (scal 1)) (Some (vec [2])) 0 = Ok (vec [6; 8]).
Proof. exact E_C43_same_band. Qed.

(** In particular at redshift 0 without band shift it is 0. *)
Theorem C43_zero :
  forall (K : kcor R) A nb nt c m,
    kready K A A nb nb nt -> k_imap K = seq 0 nb -> length c = nt -> in_range (a_x A) 0 -> 0 < fold_right Rplus 0 c ->
    reconstruct (k_fit K) (Some (scal 0)) (Some (vec c)) 0 = Ok (vec m) -> Forall (Rlt 0) m ->
    kcorrect K (Some (scal 0)) (Some (vec c)) 0 = Ok (vec (repeat 0 nb)).
Proof. exact L_C43_zero. Qed.
Print Assumptions C43_zero.

Example ex_C43_zero : kready r_kcor r_tab r_tab 2 2 1 /\ in_range (a_x r_tab) 0 /\
  reconstruct (k_fit r_kcor) (Some (scal 0)) (Some (vec [2])) 0 = Ok (vec [2; 4]).
Proof. exact E_C43_zero. Qed.

(** C48.  For all inputs: the flags only append to the result.  Without a flag absmag returns a bare array am.  With
    flags it either returns the tuple am, reconstructed, limit, K-correction (those asked for, in this order), each of
    the shape of am, each the one obtained with that flag alone; or, only if reconstruct is among them, it raises. *)
Theorem C48_order :
  forall (T : Type) (N : Num T) distmod (K : kcor T) m iv z c bs dist r l k,
    let call := fun r l k => absmag distmod K m iv z c bs dist r l k in
    match call false false false with
    | Raise e => call r l k = Raise e
    | Ok (Tuple _) => False
    | Ok (Bare1 am) =>
      (r = false -> exists o, call r l k = Ok o) /\
      (forall e, call r l k = Raise e -> r = true /\ call true false false = Raise e) /\
      forall o, call r l k = Ok o -> exists lr ll lk,
        o = (if r || l || k then Tuple (am :: lr ++ ll ++ lk) else Bare1 am) /\
        length lr = count r /\ length ll = count l /\ length lk = count k /\
        Forall (fun a => shp a = shp am) (lr ++ ll ++ lk) /\
        (r = true -> call true false false = Ok (Tuple (am :: lr))) /\
        (l = true -> call false true false = Ok (Tuple (am :: ll))) /\
        (k = true -> call false false true = Ok (Tuple (am :: lk)))
    end.
Proof. exact L_C48_order. Qed.
Print Assumptions C48_order.

Example ex_C48_order : exists am r l k,
  absmag (fun z => z) q_kcor (Some (vec [1; 2]%Q)) (Some (vec [1; 4]%Q)) (Some (scal 1%Q)) (Some (vec [1; 0; 2]%Q)) 0%Q None
         true true true = Ok (Tuple [am; r; l; k]) /\ am <> r /\ r <> l /\ am <> k /\
  absmag (fun z => z) q_kcor (Some (vec [1; 2]%Q)) (Some (vec [1; 4]%Q)) (Some (scal 1%Q)) (Some (vec [1; 0; 2]%Q)) 0%Q None
         false true true = Ok (Tuple [am; l; k]).
Proof. exact E_C48_order. Qed.

(** The K-correction returned is that of kcorrect for the same redshifts and coefficients, for one object and for a
    batch. *)
Theorem C48_kcorrect :
  forall (T : Type) (N : Num T) distmod (K : kcor T) A Ao nb no nt bs wd r l,
    rounding N -> kready K A Ao nb no nt -> no_ab (k_fit K) ->
    (forall o a, kobj_ok nb nt o -> absmag_object distmod K bs wd r l true o = Ok a ->
       exists front k, a = Tuple (front ++ [k]) /\
         kcorrect K (Some (scal (ko_z o))) (Some (vec (ko_c o))) bs = Ok k) /\
    (forall objs a, Forall (kobj_ok nb nt) objs -> absmag_objects distmod K nb nt bs wd r l true objs = Ok a ->
       exists front k, a = Tuple (front ++ [k]) /\
         kcorrect K (Some (vec (map ko_z objs))) (Some (table nt (map ko_c objs))) bs = Ok k).
Proof. exact L_C48_kcorrect. Qed.
Print Assumptions C48_kcorrect.

Example ex_C48_kcorrect : rounding Num_Q /\ kready q_kcor q_tab q_out 2 2 3 /\ no_ab (k_fit q_kcor) /\
  exists a, absmag_object (fun z => z) q_kcor 0%Q false false false true
    {| ko_z := 1; ko_m := [1; 2]; ko_iv := [1; 4]; ko_c := [1; 0; 2]; ko_d := 0 |}%Q = Ok a.
Proof. exact E_C48_kcorrect. Qed.
