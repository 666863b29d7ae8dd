(** Property theorems; proofs are in RespColsThms.v.  Generated by tools/gen_prop.py. *)
From Coq Require Import String List Arith Lia Bool ZArith QArith Qreals Reals Lra Sorting.Sorted Permutation.
From Verif Require Import Base BaseLemmas Num Toy Interp InterpReal Spec Sed Response RespDict LinInterp ResponseEx Persist RespCols.
Import ListNotations.
Local Open Scope R_scope.
From Verif Require Import RespColsThms.

(** C67.  Response.fromdat of a table with the columns 'lambda' and 'pass' reads them, wherever they are and whatever other
    columns there are; without 'lambda' it raises KeyError and the response object keeps what it had. *)
Theorem C67_columns :
  forall (T : Type) (N : Num T) cub bq sun vega (r : resp T) dat w y,
    find (fun c => String.eqb (fst c) "lambda") dat = Some ("lambda"%string, w) ->
    find (fun c => String.eqb (fst c) "pass") dat = Some ("pass"%string, y) -> length y = length w ->
    fromdat_table cub bq sun vega r (Some (Ok dat)) = fromdat cub bq sun vega r (Some (Ok (w, y))) /\
    forall dat', (forall a, ~ In ("lambda"%string, a) dat') ->
      fromdat_table cub bq sun vega r (Some (Ok dat')) = (r, Some KeyError).
Proof. exact L_C67_columns. Qed.
Print Assumptions C67_columns.

Example ex_C67_columns : let dat := [("id", [7; 8; 9]); ("lambda", [3; 1; 2]); ("pass", [30; 10; 20])]%Z%string in
  find (fun c => String.eqb (fst c) "lambda") dat = Some ("lambda", [3; 1; 2]%Z)%string /\
  find (fun c => String.eqb (fst c) "pass") dat = Some ("pass", [30; 10; 20]%Z)%string /\
  forall a, ~ In ("lambda", a)%string [("pass", [30; 10; 20]%Z)%string].
Proof. exact E_C67_columns. Qed.

(** C67.  Response.fromdat of a table with the wavelengths but without the column 'pass' raises KeyError, and the object is
    left with the wavelengths of the file, sorted, beside the response curve and the derived attributes it had.  If there
    are as many of them as there were, tofits then writes the new wavelengths with the old response and does not notice. *)
Theorem C67_no_pass :
  forall cub bq sun vega (r : resp R) dat w,
    find (fun c => String.eqb (fst c) "lambda") dat = Some ("lambda"%string, w) -> (forall a, ~ In ("pass"%string, a) dat) ->
    exists r' w', fromdat_table cub bq sun vega r (Some (Ok dat)) = (r', Some KeyError) /\
      p_wave r' = Some w' /\ Permutation w' w /\ StronglySorted Rle w' /\
      p_resp r' = p_resp r /\ p_interp r' = p_interp r /\ p_leff r' = p_leff r /\ p_solar r' = p_solar r /\
      p_vega2ab r' = p_vega2ab r /\ p_fwhm r' = p_fwhm r /\
      forall y, p_resp r = Some y -> length y = length w -> (2 <= length w)%nat ->
        resp_tofits r' = Ok [HNum {| h_name := ""%string; h_cols := [("wave"%string, mk [1; length w]%nat w');
                                                                       ("response"%string, mk [1; length w]%nat y)] |}].
Proof. exact L_C67_no_pass. Qed.
Print Assumptions C67_no_pass.

Example ex_C67_no_pass : exists r,
  Response lin bq0 sun0 sun0 [1;2;3;4] [0;1;1;0] = Ok r /\ p_resp r = Some [0;1;1;0] /\ p_wave r = Some [1;2;3;4] /\
  let dat := [("lambda", [9; 7; 8; 6])]%string in
  find (fun c => String.eqb (fst c) "lambda") dat = Some ("lambda"%string, [9; 7; 8; 6]) /\ forall a, ~ In ("pass"%string, a) dat.
Proof. exact E_C67_no_pass. Qed.
