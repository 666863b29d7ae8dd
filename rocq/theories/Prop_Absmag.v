(** Property theorems; proofs are in AbsmagThms.v.  Generated by tools/gen_prop.py. *)
From Coq Require Import String List Arith Lia Bool ZArith QArith Qreals Reals Lra.
From Verif Require Import Base BaseLemmas Num Toy Interp InterpReal Utils Sed Response RespDict Fitter FitSpec FitterProofs FitterMC
  FitReal FitTable FitEx FitRealEx Kcorrect KSpec KTable KEx KcorrectProofs XrAlg AbsmagProofs.
Import ListNotations.
Local Open Scope R_scope.
From Verif Require Import AbsmagThms.

(** C44.  absmag of one object raises whatever kcorrect raises.  Otherwise band j is m - DM - K where both maggies and
    inverse variance of its input band are positive, -9999 where one of them is <= 0, and 0 in the remaining case (one
    is NaN, the other not <= 0).  The cosmological distance modulus is a function of the redshift. *)
Theorem C44_law :
  forall distmod (K : kcor xr) A Ao nb no nt bs l k o,
    kready K A Ao nb no nt -> no_ab (k_fit K) -> kobj_ok nb nt o ->
    let kc := kcorrect K (Some (scal (ko_z o))) (Some (vec (ko_c o))) bs in
    let am := absmag_object distmod K bs false false l k o in
    (forall e, kc = Raise e -> am = Raise e) /\
    (forall ks, kc = Ok (vec ks) -> exists v a, am = Ok a /\ nth_error (parts a) 0 = Some (vec v) /\ length v = no /\
       forall j, (j < no)%nat ->
         let m := nth (in_band K j) (ko_m o) NaN in
         let iv := nth (in_band K j) (ko_iv o) NaN in
         (nltb n0 m = true -> nltb n0 iv = true ->
            nth_error v j = Some (nsub (nsub (nmul (Fin (-5/2)) (nlog10 m)) (distmod (ko_z o))) (nth j ks NaN))) /\
         (nleb m n0 = true \/ nleb iv n0 = true -> nth_error v j = Some (Fin (-9999))) /\
         (m = NaN -> nleb iv n0 = false -> nth_error v j = Some (Fin 0)) /\
         (iv = NaN -> nleb m n0 = false -> nth_error v j = Some (Fin 0))).
Proof. exact L_C44_law. Qed.
Print Assumptions C44_law.

Example ex_C44_law : kready x_kcor x_tab x_tab 2 2 1 /\ no_ab (k_fit x_kcor) /\
  kobj_ok 2 1 {| ko_z := Fin 0; ko_m := [Fin 1; Fin (-1)]; ko_iv := [Fin 1; Fin 2]; ko_c := [Fin 1]; ko_d := NaN |} /\
  exists ks, kcorrect x_kcor (Some (scal (Fin 0))) (Some (vec [Fin 1])) (Fin 0) = Ok (vec ks).
Proof. exact E_C44_law. Qed.

(** Row i of each array returned for a batch is the one returned for object i, with or without distances; the batch
    raises if and only if a call for one of its objects does.  (Exact arithmetic with special values; with rounding the
    K-correction of a batch is rounded before it is used.) *)
Theorem C44_batch :
  forall (T : Type) (N : Num T) distmod (K : kcor T) A Ao nb no nt bs wd r l k objs,
    (forall x : T, cst x = x) -> (forall x : T, nmul x n1 = x) ->
    kready K A Ao nb no nt -> no_ab (k_fit K) -> Forall (kobj_ok nb nt) objs ->
    let one := absmag_object distmod K bs wd r l k in
    let all := absmag_objects distmod K nb nt bs wd r l k objs in
    (forall outs, Forall2 (fun o a => one o = Ok a) objs outs ->
       exists a, all = Ok a /\ length (parts a) = (1 + count r + count l + count k)%nat /\
         forall p arr, nth_error (parts a) p = Some arr ->
           exists rows, arr = table no rows /\ Forall2 (fun o row => nth_error (parts o) p = Some (vec row)) outs rows) /\
    (forall o e, In o objs -> one o = Raise e -> exists e', all = Raise e') /\
    (forall e, all = Raise e -> exists o, In o objs /\ one o = Raise e).
Proof. exact L_C44_batch. Qed.
Print Assumptions C44_batch.

Example ex_C44_batch : (forall x : xr, cst x = x) /\ (forall x : xr, nmul x n1 = x) /\ kready x_kcor x_tab x_tab 2 2 1 /\
  Forall (kobj_ok 2 1) [{| ko_z := Fin 0; ko_m := [Fin 1; Fin (-1)]; ko_iv := [Fin 1; Fin 2]; ko_c := [Fin 1]; ko_d := NaN |};
                        {| ko_z := Fin (1/2); ko_m := [Fin 1; NaN]; ko_iv := [Fin 3; Fin 2]; ko_c := [Fin 7]; ko_d := Fin 1 |}].
Proof. exact E_C44_batch. Qed.

(** C45.  With an explicit distance of x > 0 Mpc, absmag is what a cosmology with distance modulus
    5 log10(x / 10 pc) would give, for all flags. *)
Theorem C45_distance :
  forall distmod (K : kcor xr) A Ao nb no nt bs r l k o x,
    kready K A Ao nb no nt -> no_ab (k_fit K) -> kobj_ok nb nt o -> ko_d o = Fin x -> 0 < x ->
    absmag_object distmod K bs true r l k o =
    absmag_object (fun _ => Fin (5 * log10 (x / (1 / 100000)))) K bs false r l k o.
Proof. exact L_C45_distance. Qed.
Print Assumptions C45_distance.

Example ex_C45_distance : kready x_kcor x_tab x_tab 2 2 1 /\ no_ab (k_fit x_kcor) /\
  kobj_ok 2 1 {| ko_z := Fin 0; ko_m := [Fin 1; Fin (-1)]; ko_iv := [Fin 1; Fin 2]; ko_c := [Fin 1]; ko_d := Fin 20 |} /\
  0 < 20.
Proof. exact E_C45_distance. Qed.

(** For the same object at two distances, the absolute magnitudes (where finite and not the sentinel) differ by
    5 log10(d2/d1). *)
Theorem C45_difference :
  forall distmod (K : kcor xr) A Ao nb no nt bs l k z m iv c x1 x2 a1 a2 v1 v2 j y1 y2,
    kready K A Ao nb no nt -> no_ab (k_fit K) -> length m = nb -> length iv = nb -> length c = nt -> 0 < x1 -> 0 < x2 ->
    let o := fun x => {| ko_z := z; ko_m := m; ko_iv := iv; ko_c := c; ko_d := Fin x |} in
    absmag_object distmod K bs true false l k (o x1) = Ok a1 -> nth_error (parts a1) 0 = Some (vec v1) ->
    absmag_object distmod K bs true false l k (o x2) = Ok a2 -> nth_error (parts a2) 0 = Some (vec v2) ->
    (j < no)%nat -> nltb n0 (nth (in_band K j) m NaN) = true -> nltb n0 (nth (in_band K j) iv NaN) = true ->
    nth_error v1 j = Some (Fin y1) -> nth_error v2 j = Some (Fin y2) -> y1 - y2 = 5 * log10 (x2 / x1).
Proof. exact L_C45_difference. Qed.
Print Assumptions C45_difference.

Example ex_C45_difference : kready x_kcor x_tab x_tab 2 2 1 /\ 0 < 20 /\ 0 < 40 /\
  exists a v y, absmag_object (fun z => z) x_kcor (Fin 0) true false false false
     {| ko_z := Fin 0; ko_m := [Fin 1; Fin (-1)]; ko_iv := [Fin 1; Fin 2]; ko_c := [Fin 1]; ko_d := Fin 20 |} = Ok a /\
    nth_error (parts a) 0 = Some (vec v) /\ nth_error v 0 = Some (Fin y).
Proof. exact E_C45_difference. Qed.

(** Passing the distances whose moduli are the cosmological ones gives the same result as not passing distances, for
    one object and for a batch. *)
Theorem C45_consistent :
  forall distmod (K : kcor xr) A Ao nb no nt bs r l k objs,
    kready K A Ao nb no nt -> no_ab (k_fit K) -> Forall (kobj_ok nb nt) objs ->
    Forall (fun o => exists x, 0 < x /\ ko_d o = Fin x /\ distmod (ko_z o) = Fin (5 * log10 (x / (1 / 100000)))) objs ->
    absmag_objects distmod K nb nt bs true r l k objs = absmag_objects distmod K nb nt bs false r l k objs /\
    Forall (fun o => absmag_object distmod K bs true r l k o = absmag_object distmod K bs false r l k o) objs.
Proof. exact L_C45_consistent. Qed.
Print Assumptions C45_consistent.

Example ex_C45_consistent : exists distmod : xr -> xr, kready x_kcor x_tab x_tab 2 2 1 /\
  let objs := [{| ko_z := Fin (1/2); ko_m := [Fin 1; NaN]; ko_iv := [Fin 3; Fin 2]; ko_c := [Fin 7]; ko_d := Fin 100 |}] in
  Forall (kobj_ok 2 1) objs /\
  Forall (fun o => exists x, 0 < x /\ ko_d o = Fin x /\ distmod (ko_z o) = Fin (5 * log10 (x / (1 / 100000)))) objs.
Proof. exact E_C45_consistent. Qed.

(** C46.  The reconstructed absolute magnitude of band j is -2.5 log10(f) - DM - K where f, the flux of reconstruct_out
    at the redshift of the object and with the band shift, is positive, and -9999 elsewhere.  When reconstruct_out
    raises, so does absmag. *)
Theorem C46_law :
  forall distmod (K : kcor xr) A Ao nb no nt bs l k o ks,
    kready K A Ao nb no nt -> no_ab (k_fit K) -> kobj_ok nb nt o ->
    kcorrect K (Some (scal (ko_z o))) (Some (vec (ko_c o))) bs = Ok (vec ks) ->
    let rec := reconstruct_out K (Some (scal (ko_z o))) (Some (vec (ko_c o))) bs in
    let am := absmag_object distmod K bs false true l k o in
    (forall e, rec = Raise e -> am = Raise e) /\
    (forall om, rec = Ok (vec om) -> exists v a, am = Ok a /\ nth_error (parts a) 1 = Some (vec v) /\ length v = no /\
       forall j, (j < no)%nat ->
         (nltb n0 (nth j om NaN) = true ->
            nth_error v j = Some (nsub (nsub (nmul (Fin (-5/2)) (nlog10 (nth j om NaN))) (distmod (ko_z o))) (nth j ks NaN))) /\
         (nltb n0 (nth j om NaN) = false -> nth_error v j = Some (Fin (-9999)))).
Proof. exact L_C46_law. Qed.
Print Assumptions C46_law.

Example ex_C46_law : kready x_kcor x_tab x_tab 2 2 1 /\ no_ab (k_fit x_kcor) /\
  kobj_ok 2 1 {| ko_z := Fin 0; ko_m := [Fin 1; Fin (-1)]; ko_iv := [Fin 1; Fin 2]; ko_c := [Fin 1]; ko_d := NaN |} /\
  exists ks, kcorrect x_kcor (Some (scal (Fin 0))) (Some (vec [Fin 1])) (Fin 0) = Ok (vec ks).
Proof. exact E_C46_law. Qed.

(** Over the reals, where the fluxes involved are positive: it is the model absolute magnitude -2.5 log10(f0) - DM, with
    f0 from reconstruct_out at redshift 0 with the band shift, plus the magnitude difference between reconstruct_out(z,
    band_shift) and the input-band flux reconstruct(z). *)
Theorem C46_offset :
  forall distmod (K : kcor R) A Ao nb no nt bs l k o mi mo om,
    kready K A Ao nb no nt -> no_ab (k_fit K) -> kobj_ok nb nt o -> 0 < fold_right Rplus 0 (ko_c o) ->
    reconstruct (k_fit K) (Some (scal (ko_z o))) (Some (vec (ko_c o))) 0 = Ok (vec mi) ->
    reconstruct_out K (Some (scal 0)) (Some (vec (ko_c o))) bs = Ok (vec mo) ->
    reconstruct_out K (Some (scal (ko_z o))) (Some (vec (ko_c o))) bs = Ok (vec om) ->
    exists v a, absmag_object distmod K bs false true l k o = Ok a /\ nth_error (parts a) 1 = Some (vec v) /\ length v = no /\
      forall j, (j < no)%nat -> 0 < nth (in_band K j) mi 0 -> 0 < nth j mo 0 -> 0 < nth j om 0 ->
        nth_error v j = Some (-5/2 * log10 (nth j mo 0) - distmod (ko_z o)
                              + -5/2 * log10 (nth j om 0 / nth (in_band K j) mi 0)).
Proof. exact L_C46_offset. Qed.
Print Assumptions C46_offset.

Example ex_C46_offset : kready r_kcor r_tab r_tab 2 2 1 /\ no_ab (k_fit r_kcor) /\
  kobj_ok 2 1 {| ko_z := 1/4; ko_m := [1; 1]; ko_iv := [1; 1]; ko_c := [1]; ko_d := 0 |} /\ 0 < fold_right Rplus 0 [1] /\
  (exists mi mo, reconstruct (k_fit r_kcor) (Some (scal (1/4))) (Some (vec [1])) 0 = Ok (vec mi) /\
     reconstruct_out r_kcor (Some (scal 0)) (Some (vec [1])) (1/4) = Ok (vec mo)) /\
  reconstruct_out r_kcor (Some (scal (1/4))) (Some (vec [1])) (1/4) = Ok (vec [17/10; 5/2]).
Proof. exact E_C46_offset. Qed.

(** So with the output bands equal to the input bands and without band shift it is the model absolute magnitude. *)
Theorem C46_same_bands :
  forall distmod (K : kcor R) A nb nt l k o mi mo,
    kready K A A nb nb nt -> k_imap K = seq 0 nb -> no_ab (k_fit K) -> kobj_ok nb nt o -> 0 < fold_right Rplus 0 (ko_c o) ->
    reconstruct (k_fit K) (Some (scal (ko_z o))) (Some (vec (ko_c o))) 0 = Ok (vec mi) ->
    reconstruct_out K (Some (scal 0)) (Some (vec (ko_c o))) 0 = Ok (vec mo) ->
    exists v a, absmag_object distmod K 0 false true l k o = Ok a /\ nth_error (parts a) 1 = Some (vec v) /\ length v = nb /\
      forall j, (j < nb)%nat -> 0 < nth j mi 0 -> 0 < nth j mo 0 ->
        nth_error v j = Some (-5/2 * log10 (nth j mo 0) - distmod (ko_z o)).
Proof. exact L_C46_same_bands. Qed.
Print Assumptions C46_same_bands.

Example ex_C46_same_bands : kready r_kcor r_tab r_tab 2 2 1 /\ k_imap r_kcor = seq 0 2 /\ no_ab (k_fit r_kcor) /\
  kobj_ok 2 1 {| ko_z := 1/4; ko_m := [1; 1]; ko_iv := [1; 1]; ko_c := [1]; ko_d := 0 |}.
Proof. exact E_C46_same_bands. Qed.

(** With a band shift it is not: here all fluxes are positive and the value differs from -2.5 log10(f0) - DM. *)
Theorem C46_shift_refuted :
  exists (K : kcor R) A nb nt bs o mo om v a,
    kready K A A nb nb nt /\ k_imap K = seq 0 nb /\ no_ab (k_fit K) /\ kobj_ok nb nt o /\ 0 < fold_right Rplus 0 (ko_c o) /\
    reconstruct_out K (Some (scal 0)) (Some (vec (ko_c o))) bs = Ok (vec mo) /\
    reconstruct_out K (Some (scal (ko_z o))) (Some (vec (ko_c o))) bs = Ok (vec om) /\ 0 < nth 0 mo 0 /\ 0 < nth 0 om 0 /\
    absmag_object (fun _ => 30) K bs false true false false o = Ok a /\ nth_error (parts a) 1 = Some (vec v) /\
    nth 0 v 0 <> -5/2 * log10 (nth 0 mo 0) - 30.
Proof. exact L_C46_shift_refuted. Qed.
Print Assumptions C46_shift_refuted.

(** Asking for the reconstructed magnitudes can raise ValueError for an object for which absmag without them works:
    when (1+z)(1+band_shift)-1 is outside the redshift grid. *)
Theorem C46_out_of_range_refuted :
  exists (K : kcor Q) A Ao o bs a, kready K A Ao 2 2 3 /\ kobj_ok 2 3 o /\
    absmag_object (fun z => z) K bs false false true true o = Ok a /\
    absmag_object (fun z => z) K bs false true true true o = Raise ValueError.
Proof. exact L_C46_out_of_range_refuted. Qed.
Print Assumptions C46_out_of_range_refuted.

(** C47.  The absolute magnitude limit of band j is -2.5 log10(1/sqrt(ivar)) - DM - K where the inverse variance of its
    input band is positive, and -9999 elsewhere, whatever the coefficients are. *)
Theorem C47_law :
  forall distmod (K : kcor xr) A Ao nb no nt bs k o ks,
    kready K A Ao nb no nt -> no_ab (k_fit K) -> kobj_ok nb nt o ->
    kcorrect K (Some (scal (ko_z o))) (Some (vec (ko_c o))) bs = Ok (vec ks) ->
    exists v a, absmag_object distmod K bs false false true k o = Ok a /\ nth_error (parts a) 1 = Some (vec v) /\ length v = no /\
       forall j, (j < no)%nat ->
         let iv := nth (in_band K j) (ko_iv o) NaN in
         (nltb n0 iv = true ->
            nth_error v j = Some (nsub (nsub (nmul (Fin (-5/2)) (nlog10 (ndiv (Fin 1) (nsqrt iv)))) (distmod (ko_z o))) (nth j ks NaN))) /\
         (nltb n0 iv = false -> nth_error v j = Some (Fin (-9999))).
Proof. exact L_C47_law. Qed.
Print Assumptions C47_law.

Example ex_C47_law : kready x_kcor x_tab x_tab 2 2 1 /\ no_ab (k_fit x_kcor) /\
  kobj_ok 2 1 {| ko_z := Fin 0; ko_m := [Fin 1; Fin (-1)]; ko_iv := [Fin 1; Fin 2]; ko_c := [Fin 1]; ko_d := NaN |} /\
  exists ks, kcorrect x_kcor (Some (scal (Fin 0))) (Some (vec [Fin 1])) (Fin 0) = Ok (vec ks).
Proof. exact E_C47_law. Qed.

(** For an object whose coefficients do not have positive sum (all zero: the fit failed) the limit is computed with K = 0
    in every band with positive inverse variance; the docstring promises -9999. *)
Theorem C47_zero_coeffs :
  forall distmod (K : kcor xr) A Ao nb no nt bs k o v a,
    kready K A Ao nb no nt -> no_ab (k_fit K) -> kobj_ok nb nt o -> nltb n0 (nsum (ko_c o)) = false ->
    absmag_object distmod K bs false false true k o = Ok a -> nth_error (parts a) 1 = Some (vec v) ->
    forall j, (j < no)%nat ->
      let iv := nth (in_band K j) (ko_iv o) NaN in
      nltb n0 iv = true ->
      nth_error v j = Some (nsub (nsub (nmul (Fin (-5/2)) (nlog10 (ndiv (Fin 1) (nsqrt iv)))) (distmod (ko_z o))) (Fin 0)).
Proof. exact L_C47_zero_coeffs. Qed.
Print Assumptions C47_zero_coeffs.

Example ex_C47_zero_coeffs : nltb n0 (nsum [Fin 0]) = false /\
  exists a v, absmag_object (fun z => Fin 30) x_kcor (Fin 0) false false true false
     {| ko_z := Fin 0; ko_m := [Fin 1; Fin (-1)]; ko_iv := [Fin 1; Fin 2]; ko_c := [Fin 0]; ko_d := NaN |} = Ok a /\
    nth_error (parts a) 1 = Some (vec v) /\ nth_error v 0 = Some (Fin (-30)) /\ nth_error v 0 <> Some (Fin (-9999)).
Proof. exact E_C47_zero_coeffs. Qed.
