(** Property theorems; proofs are in WidthThms.v.  Generated by tools/gen_prop.py. *)
From Coq Require Import String List Arith Lia Bool ZArith QArith.
From Verif Require Import Base BaseLemmas Num Toy Utils Sed Fitter FitSpec FitEx Kcorrect KSpec KEx WidthSpec.
Import ListNotations.
Local Open Scope nat_scope.
From Verif Require Import WidthThms.

(** C114.  With abcorrect=True, a KcorrectSDSS that does not have five bands, or a KcorrectGST with fewer than seven, raises
    TypeError on every single object. *)
Theorem C114_single : forall (T : Type) (N : Num T) nnls rng distmod (K : kcor T) z m iv c mc cur bs d r l k,
  let F := k_fit K in let nb := length (f_resp F) in
  f_abc F = true -> f_kind F = SDSS /\ nb <> 5 \/ f_kind F = GST /\ nb < 7 ->
  shp z = [] -> wf m -> shp m = [nb] -> shp iv = [nb] -> shp c = [f_nsed F] ->
  fit_coeffs nnls rng F (Some z) (Some m) (Some iv) mc cur = Raise TypeError /\
  absmag distmod K (Some m) (Some iv) (Some z) (Some c) bs d r l k = Raise TypeError.
Proof. exact L_C114_single. Qed.
Print Assumptions C114_single.

Example ex_C114_single : let K := q_wide SDSS 4 in let z := scal 1%Q in let m := vec [1; 2; 3; 4]%Q in let c := vec [1; 2]%Q in
  f_abc (k_fit K) = true /\ (f_kind (k_fit K) = SDSS /\ length (f_resp (k_fit K)) <> 5 \/ f_kind (k_fit K) = GST /\ length (f_resp (k_fit K)) < 7) /\
  shp z = [] /\ wf m /\ shp m = [length (f_resp (k_fit K))] /\ shp c = [f_nsed (k_fit K)] /\
  fit_coeffs ex_nnls (fun _ => 0%Q) (k_fit K) (Some z) (Some m) (Some m) 0 0 = Raise TypeError /\
  absmag (fun _ => 0%Q) K (Some m) (Some m) (Some z) (Some c) 0%Q None false false false = Raise TypeError.
Proof. exact E_C114_single. Qed.

(** C114.  On a catalogue it raises IndexError when there are fewer bands than that. *)
Theorem C114_few : forall (T : Type) (N : Num T) nnls rng distmod (K : kcor T) n z m iv c mc cur bs d r l k,
  let F := k_fit K in let nb := length (f_resp F) in
  f_abc F = true -> f_kind F = SDSS /\ nb < 5 \/ f_kind F = GST /\ nb < 7 ->
  shp z = [n] -> wf m -> shp m = [n; nb] -> shp iv = [n; nb] -> shp c = [n; f_nsed F] ->
  fit_coeffs nnls rng F (Some z) (Some m) (Some iv) mc cur = Raise IndexError /\
  absmag distmod K (Some m) (Some iv) (Some z) (Some c) bs d r l k = Raise IndexError.
Proof. exact L_C114_few. Qed.
Print Assumptions C114_few.

Example ex_C114_few : let K := q_wide GST 6 in let z := vec [1]%Q in let m := mk [1; 6] [1; 2; 3; 4; 5; 6]%Q in let c := mk [1; 2] [1; 2]%Q in
  f_abc (k_fit K) = true /\ (f_kind (k_fit K) = SDSS /\ length (f_resp (k_fit K)) < 5 \/ f_kind (k_fit K) = GST /\ length (f_resp (k_fit K)) < 7) /\
  shp z = [1] /\ wf m /\ shp m = [1; length (f_resp (k_fit K))] /\ shp c = [1; f_nsed (k_fit K)] /\
  fit_coeffs ex_nnls (fun _ => 0%Q) (k_fit K) (Some z) (Some m) (Some m) 0 0 = Raise IndexError /\
  absmag (fun _ => 0%Q) K (Some m) (Some m) (Some z) (Some c) 0%Q None false false false = Raise IndexError.
Proof. exact E_C114_few. Qed.

(** C114.  A KcorrectSDSS with more than five bands fits catalogues without complaint, but uses the photometry of the first five
    bands only: fit_coeffs and absmag return the same whatever is in the others. *)
Theorem C114_ignored : forall (T : Type) (N : Num T) nnls rng distmod (K : kcor T) n z m iv m' iv' c mc cur bs d r l k,
  let F := k_fit K in let nb := length (f_resp F) in
  f_abc F = true -> f_kind F = SDSS -> 5 < nb ->
  shp z = [n] -> wf m -> wf iv -> wf m' -> wf iv' -> shp m = [n; nb] -> shp iv = [n; nb] -> shp m' = [n; nb] -> shp iv' = [n; nb] ->
  shp c = [n; f_nsed F] ->
  (forall i b, i < n -> b < 5 -> nth (i * nb + b) (dat m') n0 = nth (i * nb + b) (dat m) n0 /\
                                  nth (i * nb + b) (dat iv') n0 = nth (i * nb + b) (dat iv) n0) ->
  fit_coeffs nnls rng F (Some z) (Some m') (Some iv') mc cur = fit_coeffs nnls rng F (Some z) (Some m) (Some iv) mc cur /\
  absmag distmod K (Some m') (Some iv') (Some z) (Some c) bs d r l k = absmag distmod K (Some m) (Some iv) (Some z) (Some c) bs d r l k.
Proof. exact L_C114_ignored. Qed.
Print Assumptions C114_ignored.

Example ex_C114_ignored : let K := q_wide SDSS 6 in let z := vec [1]%Q in let c := mk [1; 2] [1; 2]%Q in
  let m := mk [1; 6] [1; 2; 3; 4; 5; 6]%Q in let m' := mk [1; 6] [1; 2; 3; 4; 5; 60]%Q in
  let v := mk [1; 6] [1; 1; 1; 1; 1; 1]%Q in let v' := mk [1; 6] [1; 1; 1; 1; 1; 0]%Q in
  f_abc (k_fit K) = true /\ f_kind (k_fit K) = SDSS /\ 5 < length (f_resp (k_fit K)) /\ wf m /\ wf v /\ wf m' /\ wf v' /\
  (forall i b, i < 1 -> b < 5 -> nth (i * 6 + b) (dat m') n0 = nth (i * 6 + b) (dat m) n0 /\ nth (i * 6 + b) (dat v') n0 = nth (i * 6 + b) (dat v) n0) /\
  m <> m' /\ v <> v' /\
  exists r, fit_coeffs ex_nnls (fun _ => 0%Q) (k_fit K) (Some z) (Some m) (Some v) 0 0 = Ok r /\
            fit_coeffs ex_nnls (fun _ => 0%Q) (k_fit K) (Some z) (Some m') (Some v') 0 0 = Ok r.
Proof. exact E_C114_ignored. Qed.

(** C114.  The absolute magnitudes (and limits) that absmag derives from the further bands are all -9999, as if nothing had been
    measured there. *)
Theorem C114_sentinel : forall (T : Type) (N : Num T) distmod (K : kcor T) n z m iv c bs d r l k a,
  let F := k_fit K in let nb := length (f_resp F) in let no := length (k_imap K) in
  nleb (@n0 T N) n0 = true -> f_abc F = true -> f_kind F = SDSS -> 5 < nb ->
  shp z = [n] -> wf m -> wf iv -> shp m = [n; nb] -> shp iv = [n; nb] -> shp c = [n; f_nsed F] ->
  absmag distmod K (Some m) (Some iv) (Some z) (Some c) bs d r l k = Ok a ->
  forall i j, i < n -> j < no -> 5 <= nth j (k_imap K) 0 ->
    (forall am v, nth_error (parts a) 0 = Some am -> nth_error (dat am) (i * no + j) = Some v -> v = nlit (-(9999) # 1)) /\
    (l = true -> forall al v, nth_error (parts a) (if r then 2 else 1) = Some al -> nth_error (dat al) (i * no + j) = Some v ->
       v = nlit (-(9999) # 1)).
Proof. exact L_C114_sentinel. Qed.
Print Assumptions C114_sentinel.

Example ex_C114_sentinel : let K := q_wide SDSS 6 in let z := vec [1]%Q in let c := mk [1; 2] [1; 2]%Q in let m := mk [1; 6] [1; 2; 3; 4; 5; 6]%Q in
  f_abc (k_fit K) = true /\ f_kind (k_fit K) = SDSS /\ 5 < length (f_resp (k_fit K)) /\ wf m /\ 1 < length (k_imap K) /\ 5 <= nth 1 (k_imap K) 0 /\
  exists a v w, absmag (fun _ => 0%Q) K (Some m) (Some m) (Some z) (Some c) 0%Q None false true false = Ok (Tuple [mk [1; 2] [a; (-(9999) # 1)%Q]; mk [1; 2] [v; w]]) /\
    a <> (-(9999) # 1)%Q /\ v <> (-(9999) # 1)%Q /\ w = (-(9999) # 1)%Q.
Proof. exact E_C114_sentinel. Qed.

(** C114.  So the natural expectation that fitting an object alone gives what fitting it in a catalogue gives fails for these
    objects: the catalogue is fitted, the object alone raises TypeError. *)
Theorem C114_alone_refuted : exists (nnls : _) (F : fitter Q) (z : Q) (m iv : list Q) r,
  f_kind F = SDSS /\ f_abc F = true /\ length m = length (f_resp F) /\ length iv = length (f_resp F) /\
  fit_coeffs nnls (fun _ => 0%Q) F (Some (vec [z])) (Some (mk [1; length m] m)) (Some (mk [1; length iv] iv)) 0 0 = Ok r /\
  fit_coeffs nnls (fun _ => 0%Q) F (Some (scal z)) (Some (vec m)) (Some (vec iv)) 0 0 = Raise TypeError.
Proof. exact L_C114_alone_refuted. Qed.
Print Assumptions C114_alone_refuted.
