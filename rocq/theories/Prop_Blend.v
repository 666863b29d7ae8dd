(** Property theorems; proofs are in BlendThms.v.  Generated by tools/gen_prop.py. *)
From Coq Require Import String List Arith Lia Bool ZArith QArith Qreals Reals Lra Sorting.Sorted Sorting.Permutation.
From Verif Require Import Base BaseLemmas Num Toy Interp InterpReal Spec Utils UtilsReal Sed Response RespDict ResponseObj LinInterp ResponseEx
  Fitter FitSpec FitterProofs FitterMC FitReal FitTable FitEx FitRealEx FitRealThms Kcorrect KSpec KTable KEx KcorrectProofs XrAlg KcorrectThms AbsmagProofs AbsmagThms
  AbThms UtilsThms RespDictThms PersistThms BuildSpec BuildProofs BuildTable BuildEx BuildThms NnlsSpec NnlsExact NnlsThms
  Spline SplineSpec SplineProofs SplineThms ShiftSpec ShiftThms PipeSpec PipeProofs BlendSpec BlendProofs BlendEx.
Import ListNotations.
Local Open Scope R_scope.
From Verif Require Import BlendThms.

(** C90.  Two objects whose templates have the same wavelengths, the same responses and redshift grid.  Coefficients that
    combine the templates of each to the same spectrum give the same fluxes and K-corrections, and the same absolute magnitudes. *)
Theorem C90_same_spectrum :
  forall cub bq sun vega fs d k1 k2 abc responses (s1 s2 : sed R) t1 t2 out map_ r0 r1 nz d1 s1' K1 d2 s2' K2 rows1 rows2 wave c1 c2 z bs,
    Kcorrect cub bq sun vega fs d k1 abc responses s1 t1 out map_ r0 r1 nz = (d1, s1', Ok K1) ->
    Kcorrect cub bq sun vega fs d1 k2 abc responses s2 t2 out map_ r0 r1 nz = (d2, s2', Ok K2) ->
    s_rwave s1 = wave -> s_rwave s2 = wave -> s_rflux s1 = table (length wave) rows1 -> s_rflux s2 = table (length wave) rows2 ->
    rect (length wave) rows1 -> rect (length wave) rows2 -> rows1 <> [] -> rows2 <> [] ->
    splines cub -> StronglySorted Rlt wave -> (4 <= length wave)%nat -> -1 < r0 < r1 -> (2 <= nz)%nat ->
    length c1 = length rows1 -> length c2 = length rows2 -> combined (length wave) rows1 c1 = combined (length wave) rows2 c2 ->
    (r0 <= (1 + z) * (1 + bs) - 1 <= r1 ->
      (exists p, reconstruct (k_fit K1) (Some (scal z)) (Some (vec c1)) bs = Ok p /\ reconstruct (k_fit K2) (Some (scal z)) (Some (vec c2)) bs = Ok p) /\
      (exists p, reconstruct_out K1 (Some (scal z)) (Some (vec c1)) bs = Ok p /\ reconstruct_out K2 (Some (scal z)) (Some (vec c2)) bs = Ok p)) /\
    (r0 <= z <= r1 -> r0 <= bs <= r1 -> 0 < fold_right Rplus 0 c1 -> 0 < fold_right Rplus 0 c2 ->
      (exists v, kcorrect K1 (Some (scal z)) (Some (vec c1)) bs = Ok v /\ kcorrect K2 (Some (scal z)) (Some (vec c2)) bs = Ok v) /\
      forall distmod lim kc m iv dist, abc = false -> length m = length responses -> length iv = length responses ->
        exists a1 a2 v,
          absmag_object distmod K1 bs false false lim kc {| ko_z := z; ko_m := m; ko_iv := iv; ko_c := c1; ko_d := dist |} = Ok a1 /\
          absmag_object distmod K2 bs false false lim kc {| ko_z := z; ko_m := m; ko_iv := iv; ko_c := c2; ko_d := dist |} = Ok a2 /\
          nth_error (parts a1) 0 = Some (vec v) /\ nth_error (parts a2) 0 = Some (vec v) /\ length v = length (k_out K1)).
Proof. exact L_C90_same_spectrum. Qed.
Print Assumptions C90_same_spectrum.

Example ex_C90_same_spectrum : exists bq d d1 s1 K1 d2 s2 K2, let rows1 := [[1;1;2;2;1;1]; [1;2;3;4;5;6]] in let rows2 := [[4;6;10;12;12;14]] in
  Kcorrect notaknot bq sun0 sun0 (fun _ => None) d Plain false ["u"; "u"]%string (b_sed rows1) r_tmpl None None 0 1 2 = (d1, s1, Ok K1) /\
  Kcorrect notaknot bq sun0 sun0 (fun _ => None) d1 Plain false ["u"; "u"]%string (b_sed rows2) r_tmpl None None 0 1 2 = (d2, s2, Ok K2) /\
  splines notaknot /\ StronglySorted Rlt b_wave /\ combined 6 rows1 [2; 2] = combined 6 rows2 [1] /\ 0 < fold_right Rplus 0 [2; 2] /\ 0 < fold_right Rplus 0 [1].
Proof. exact E_C90_same_spectrum. Qed.

(** Template sets that can combine to the same spectra give fits with the same fluxes in the measured bands; and the same
    spectrum, if these bands tell the templates of the first set apart. *)
Theorem C90_fit :
  forall cub bq sun vega fs d k1 k2 (s1 s2 : sed R) t1 t2 out map_ r0 r1 nz d1 s1' K1 d2 s2' K2 rows1 rows2 wave
    nnls1 nnls2 rng1 rng2 z l cur1 c1 cur1' cur2 c2 cur2',
    Kcorrect cub bq sun vega fs d k1 false (map o_name l) s1 t1 out map_ r0 r1 nz = (d1, s1', Ok K1) ->
    Kcorrect cub bq sun vega fs d1 k2 false (map o_name l) s2 t2 out map_ r0 r1 nz = (d2, s2', Ok K2) ->
    s_rwave s1 = wave -> s_rwave s2 = wave -> s_rflux s1 = table (length wave) rows1 -> s_rflux s2 = table (length wave) rows2 ->
    rect (length wave) rows1 -> rect (length wave) rows2 -> rows1 <> [] -> rows2 <> [] ->
    splines cub -> StronglySorted Rlt wave -> (4 <= length wave)%nat -> -1 < r0 < r1 -> (2 <= nz)%nat ->
    r0 <= z <= r1 -> length l <> 1%nat -> nnls_contract nnls1 -> nnls_contract nnls2 -> Forall (fun b => 0 <= o_ivar b) l ->
    same_spectra (length wave) rows1 rows2 ->
    fit_object nnls1 rng1 (k_fit K1) 0 (observed z l) cur1 = Ok (Bare (vec c1), cur1') ->
    fit_object nnls2 rng2 (k_fit K2) 0 (observed z l) cur2 = Ok (Bare (vec c2), cur2') ->
    let flux rows := model_flux cub d2 wave (length wave) rows (redshift_grid r0 r1 nz) in
    (forall b, In b l -> 0 < o_ivar b -> exists x, flux rows1 (o_name b) c1 z x /\ flux rows2 (o_name b) c2 z x) /\
    (told_apart (flux rows1) (length rows1) z l -> combined (length wave) rows1 c1 = combined (length wave) rows2 c2).
Proof. exact L_C90_fit. Qed.
Print Assumptions C90_fit.

Example ex_C90_fit : exists bq d d1 s1 K1 d2 s2 K2 c1 c2, let l := [("u", (2, 1)); ("u", (6, 4))]%string in
  let rows1 := [[1;1;2;2;1;1]; [1;2;3;4;5;6]] in let rows2 := [[1;2;3;4;5;6]; [1;1;2;2;1;1]] in
  Kcorrect notaknot bq sun0 sun0 (fun _ => None) d Plain false (map o_name l) (b_sed rows1) r_tmpl None None 0 1 2 = (d1, s1, Ok K1) /\
  Kcorrect notaknot bq sun0 sun0 (fun _ => None) d1 Plain false (map o_name l) (b_sed rows2) r_tmpl None None 0 1 2 = (d2, s2, Ok K2) /\
  splines notaknot /\ StronglySorted Rlt b_wave /\ Permutation rows1 rows2 /\ nnls_contract nnls_exact /\
  fit_object nnls_exact (fun _ => 0) (k_fit K1) 0 (observed 0 l) 0 = Ok (Bare (vec c1), 0%nat) /\
  fit_object nnls_exact (fun _ => 0) (k_fit K2) 0 (observed 0 l) 0 = Ok (Bare (vec c2), 0%nat).
Proof. exact E_C90_fit. Qed.

(** Reordering the templates does not change the spectra they combine to ... *)
Theorem C90_reordered : forall w rows1 rows2, Permutation rows1 rows2 -> same_spectra w rows1 rows2.
Proof. exact L_C90_reordered. Qed.
Print Assumptions C90_reordered.

Example ex_C90_reordered : Permutation [[1;2;3;4]; [4;3;2;1]] [[4;3;2;1]; [1;2;3;4]].
Proof. exact E_C90_reordered. Qed.

(** ... nor does the normalisation of each ... *)
Theorem C90_rescaled : forall w a rows, length a = length rows -> Forall (fun x => 0 < x) a ->
  same_spectra w rows (zip (fun x f => map (Rmult x) f) a rows).
Proof. exact L_C90_rescaled. Qed.
Print Assumptions C90_rescaled.

Example ex_C90_rescaled : Forall (fun x => 0 < x) [2; 1/3] /\ length [2; 1/3] = length [[1;2;3;4]; [4;3;2;1]].
Proof. exact E_C90_rescaled. Qed.

(** ... nor a template that is itself a nonnegative combination of others. *)
Theorem C90_redundant : forall w rows c0, length c0 = length rows -> nonneg c0 -> same_spectra w rows (combined w rows c0 :: rows).
Proof. exact L_C90_redundant. Qed.
Print Assumptions C90_redundant.

Example ex_C90_redundant : nonneg [2; 1/3] /\ combined 4 [[1;2;3;4]; [3;3;0;3]] [2; 1/3] = [3; 5; 6; 9].
Proof. exact E_C90_redundant. Qed.
