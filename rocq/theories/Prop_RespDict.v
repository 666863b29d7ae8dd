(** Property theorems; proofs are in RespDictThms.v.  Generated by tools/gen_prop.py. *)
From Coq Require Import String Ascii List Arith Lia Bool Reals Lra.
From Verif Require Import Base BaseLemmas Num Toy Interp Spec Utils Sed Response RespDict LinInterp ResponseEx.
Import ListNotations.
From Verif Require Import RespDictThms.

(** C22. *)
Theorem C22_present_is_noop :
  forall (T : Type) (N : Num T) cub bq sun vega fs (d : dict (resp T)) name r,
    dget d name = Some r -> load_response cub bq sun vega fs d name false = (d, None).
Proof. exact L_C22_present_is_noop. Qed.
Print Assumptions C22_present_is_noop.

Example ex_C22_present_is_noop : exists d : dict (resp Z), dget d "u" = Some blank.
Proof. exact E_C22_present_is_noop. Qed.

(** Loading (successful or not, reloading or not) never touches the other entries. *)
Theorem C22_others_untouched :
  forall (T : Type) (N : Num T) cub bq sun vega fs (d : dict (resp T)) name reload other,
    other <> name ->
    dget (fst (load_response cub bq sun vega fs d name reload)) other = dget d other.
Proof. exact L_C22_others_untouched. Qed.
Print Assumptions C22_others_untouched.

Example ex_C22_others_untouched : "u"%string <> "g"%string.
Proof. exact E_C22_others_untouched. Qed.

(** After a load without exception the name is present, with wave, response, interpolator and all derived
    attributes of the file set. *)
Theorem C22_successful_load :
  forall (T : Type) (N : Num T) cub bq sun vega fs (d d' : dict (resp T)) name reload,
    load_response cub bq sun vega fs d name reload = (d', None) ->
    (dmem d name = true /\ reload = false /\ d' = d) \/
    (exists r w y, dget d' name = Some r /\ fs (name ++ ".dat")%string = Some (Ok (w, y)) /\
                   Response cub bq sun vega w y = Ok r).
Proof. exact L_C22_successful_load. Qed.
Print Assumptions C22_successful_load.

Example ex_C22_successful_load : exists (fs : @fsys R) (d d' : dict (resp R)),
  load_response lin bq0 sun0 sun0 fs d "u" false = (d', None) /\ dmem d "u" = false /\ dmem d' "u" = true.
Proof. exact E_C22_successful_load. Qed.

Theorem C22_history :
  forall (T : Type) (N : Num T) cub bq sun vega (ops : list (@load_op T)) (d : dict (resp T)) name,
    let d' := load_run cub bq sun vega d ops in
    (dget d' name = dget d name /\ (forall o, In o ops -> l_name o = name -> l_reload o = false /\ dmem d name = true))
    \/ exists before o after,
        ops = before ++ o :: after /\ l_name o = name /\
        dget d' name = Some (fst (fromdat cub bq sun vega blank (l_fs o (name ++ ".dat")%string))) /\
        (forall o', In o' after -> l_name o' = name -> l_reload o' = false) /\
        (l_reload o = true \/ (dget d name = None /\ forall o', In o' before -> l_name o' <> name)).
Proof. exact L_C22_history. Qed.
Print Assumptions C22_history.

Example ex_C22_history : exists (f1 f2 : @fsys R) (r : resp R), r <> blank /\
  let ops := [{| l_fs := f1; l_name := "u"; l_reload := false |}; {| l_fs := f2; l_name := "u"; l_reload := false |};
              {| l_fs := f2; l_name := "u"; l_reload := true |}; {| l_fs := f1; l_name := "u"; l_reload := false |}] in
  dget (load_run lin bq0 sun0 sun0 [] (firstn 1 ops)) "u" = Some blank /\
  dget (load_run lin bq0 sun0 sun0 [] (firstn 2 ops)) "u" = Some blank /\
  dget (load_run lin bq0 sun0 sun0 [] ops) "u" = Some r.
Proof. exact E_C22_history. Qed.

(** C23. A failing load raises, and the name is present afterwards; the next load of it does nothing and
    succeeds. *)
Theorem C23_failed_load_poisons :
  forall (T : Type) (N : Num T) cub bq sun vega fs (d d' : dict (resp T)) name reload e,
    load_response cub bq sun vega fs d name reload = (d', Some e) ->
    dget d' name = Some (fst (fromdat cub bq sun vega blank (fs (name ++ ".dat")%string))) /\
    forall fs', load_response cub bq sun vega fs' d' name false = (d', None).
Proof. exact L_C23_failed_load_poisons. Qed.
Print Assumptions C23_failed_load_poisons.

Example ex_C23_failed_load_poisons : exists (fs : @fsys R) (d d' : dict (resp R)),
  load_response lin bq0 sun0 sun0 fs d "u" true = (d', Some ValueError) /\ dmem d "u" = true /\ d' = [("u"%string, blank)].
Proof. exact E_C23_failed_load_poisons. Qed.

(** ... in particular a missing file leaves a blank entry, even over a good one when reloading. *)
Theorem C23_missing_file_blank :
  forall (T : Type) (N : Num T) cub bq sun vega fs (d : dict (resp T)) name reload,
    fs (name ++ ".dat")%string = None -> (dget d name = None \/ reload = true) ->
    snd (load_response cub bq sun vega fs d name reload) = Some ValueError /\
    dget (fst (load_response cub bq sun vega fs d name reload)) name = Some blank.
Proof. exact L_C23_missing_file_blank. Qed.
Print Assumptions C23_missing_file_blank.

Example ex_C23_missing_file_blank : exists fs : @fsys Z, fs "nope.dat"%string = None /\ fs "u.dat"%string <> None.
Proof. exact E_C23_missing_file_blank. Qed.

(** C24. Without check_validity: the base names of the regular files ending in .dat, in directory order. *)
Theorem C24_lists_dat_files :
  forall (T : Type) (N : Num T) cub bq sun vega fs (files : list (string * bool)) (d : dict (resp T)),
    Forall (fun f => newline_free (fst f)) files ->
    exists names, all_responses cub bq sun vega fs false (Some files) d = (d, Ok names) /\
      Forall2 dat_file (map fst (filter (fun f => snd f && match dat_name (fst f) with Some _ => true | None => false end) files)) names /\
      (forall name, In name names <-> exists f, In (f, true) files /\ dat_file f name) /\
      (NoDup (map fst files) -> NoDup names).
Proof. exact L_C24_lists_dat_files. Qed.
Print Assumptions C24_lists_dat_files.

Example ex_C24_lists_dat_files :
  let files := [("sdss_u0.dat", true); ("sub.dat", false); ("README", true)]%string in
  Forall (fun f => newline_free (fst f)) files /\ NoDup (map fst files).
Proof. exact E_C24_lists_dat_files. Qed.

Theorem C24_check_validity :
  forall (T : Type) (N : Num T) cub bq sun vega fs (files : list (string * bool)) (d : dict (resp T)),
    Forall (fun f => newline_free (fst f)) files -> NoDup (map fst files) ->
    exists d' names, all_responses cub bq sun vega fs true (Some files) d = (d', Ok names) /\
      forall name, In name names <->
        (exists f, In (f, true) files /\ dat_file f name) /\
        (dmem d name = true \/ exists w y r, fs (name ++ ".dat")%string = Some (Ok (w, y)) /\
                                             Response cub bq sun vega w y = Ok r).
Proof. exact L_C24_check_validity. Qed.
Print Assumptions C24_check_validity.

Example ex_C24_check_validity : exists (fs : @fsys R) d',
  let files := [("u.dat", true); ("bad.dat", true); ("README", true)]%string in
  Forall (fun f => newline_free (fst f)) files /\ NoDup (map fst files) /\
  all_responses lin bq0 sun0 sun0 fs true (Some files) [] = (d', Ok ["u"%string]).
Proof. exact E_C24_check_validity. Qed.

(** C23. The second call of all_responses(check_validity=True) reports every .dat file as valid. *)
Theorem C23_second_check_reports_all :
  forall (T : Type) (N : Num T) cub bq sun vega fs fs' (files : list (string * bool)) (d : dict (resp T)),
    Forall (fun f => newline_free (fst f)) files -> NoDup (map fst files) ->
    let d1 := fst (all_responses cub bq sun vega fs true (Some files) d) in
    exists d2 names, all_responses cub bq sun vega fs' true (Some files) d1 = (d2, Ok names) /\
      forall name, In name names <-> exists f, In (f, true) files /\ dat_file f name.
Proof. exact L_C23_second_check_reports_all. Qed.
Print Assumptions C23_second_check_reports_all.

Example ex_C23_second_check_reports_all :
  let files := [("sdss_u0.dat", true); ("bad.dat", true)]%string in
  Forall (fun f => newline_free (fst f)) files /\ NoDup (map fst files).
Proof. exact E_C23_second_check_reports_all. Qed.

(** C58. maggies2flambda of an unreadable response raises the first time and returns NaN the second time. *)
Theorem C58_second_call_nan :
  forall cub bq sun vega fs (d : dict (resp xr)) name (m : list xr),
    dget d name = None -> fs (name ++ ".dat")%string = None -> length m = 1%nat ->
    let (d1, r1) := maggies2flambda cub bq sun vega fs d [name] (vec m) None in
    let (d2, r2) := maggies2flambda cub bq sun vega fs d1 [name] (vec m) None in
    r1 = Raise ValueError /\ r2 = Ok ([NaN], vec [NaN], None).
Proof. exact L_C58_second_call_nan. Qed.
Print Assumptions C58_second_call_nan.

Example ex_C58_second_call_nan : exists (fs : @fsys xr) (d : dict (resp xr)), dget d "nope" = None /\ fs "nope.dat"%string = None.
Proof. exact E_C58_second_call_nan. Qed.

(** The claim "names ending in .dat" fails for file names with a trailing newline: '$' also matches before it. *)
Theorem C24_only_dat_files_refuted :
  exists cub bq sun vega (fs : @fsys Z) files name,
    all_responses cub bq sun vega fs false (Some files) [] = ([], Ok [name]) /\
    ~ exists f, In (f, true) files /\ dat_file f name.
Proof. exact L_C24_only_dat_files_refuted. Qed.
Print Assumptions C24_only_dat_files_refuted.
