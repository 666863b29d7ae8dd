(** Fluxes of a combination of templates are fluxes of the combined spectrum: the lemmas behind C90. *)
From Coq Require Import String List Arith Lia Bool ZArith QArith Qreals Reals Lra Sorting.Sorted Sorting.Permutation.
From Verif Require Import Base BaseLemmas Num Toy Interp InterpReal Spec Utils UtilsReal Sed Response RespDict ResponseObj LinInterp ResponseEx
  Fitter FitSpec FitterProofs FitterMC FitReal FitTable FitEx FitRealEx FitRealThms Kcorrect KSpec KTable KEx KcorrectProofs XrAlg KcorrectThms AbsmagProofs AbsmagThms
  AbThms UtilsThms RespDictThms PersistThms BuildSpec BuildProofs BuildTable BuildEx BuildThms NnlsSpec NnlsExact NnlsThms
  SplineSpec SplineProofs SplineThms ShiftSpec ShiftThms PipeSpec PipeProofs BlendSpec.
Import ListNotations.
Local Open Scope R_scope.

Definition linear_on (w : nat) (phi : list R -> R) : Prop :=
  forall a b f g, length f = w -> length g = w -> phi (lincomb a b f g) = a * phi f + b * phi g.

Lemma integrand_lin a b (s1 s2 r g : list R) : length s1 = length s2 ->
  integrand (zip (fun u v => a * u + b * v) s1 s2) r g = zip (fun u v => a * u + b * v) (integrand s1 r g) (integrand s2 r g).
Proof.
  unfold integrand. rcbn. revert s2 r g. induction s1 as [|x s1 IH]; intros [|y s2] [|p r] [|q g] L; try discriminate; try reflexivity.
  cbn [zip]. f_equal; [ring|]. apply IH. cbn in L. lia.
Qed.


(** What project does with a table of spectra (FitTable.project_arr_rows with the numerator spelled out). *)
Definition proj_parts (cub : list R -> list R -> R -> R) (r : resp R) (wave : list R) (w : nat) : res (option ((list R -> R) * R)) :=
  if Nat.eqb w (length wave) then
    if Nat.leb 4 (length wave) then
      match p_wave r with
      | None => Raise TypeError
      | Some rw =>
        match where_ (Response.in_band rw wave) with
        | [] => Ok None
        | _ => match p_interp r with
               | None => Raise TypeError
               | Some rint =>
                 let g := grid_of rw wave in
                 let rr := map (reval cub rint) g in
                 Ok (Some (fun s => swapped g (integrand (map (ieval1 cub wave s) g) rr g),
                           swapped g (integrand (sed_ab g) rr g)))
               end
        end
      end
    else Raise ValueError
  else Raise ValueError.
Lemma cst_map (l : list R) : map cst l = l.
Proof. rcbn. apply map_id. Qed.
Lemma perm_id (x l : list R) : StronglySorted Rle x -> length l = length x -> map (fun k => nth k l n0) (argsort x) = l.
Proof. intros Hs L. rewrite (argsort_id _ Hs), <- L. apply map_nth_seq. Qed.
Lemma proj_rows cub r wave w rows : StronglySorted Rlt wave -> rect w rows ->
  project_arr cub r (vec wave) (table w rows) =
  match proj_parts cub r wave w with
  | Raise e => Raise e
  | Ok None => Ok (scal n0)
  | Ok (Some (num, den)) =>
    if Nat.eqb (length rows) 1 then Ok (scal (ndiv (num (hd [] rows)) den))
    else Ok (mk [length rows] (map (fun s => ndiv (num s) den) rows))
  end.
Proof.
  intros Hs Hr. unfold project_arr. rewrite map1_table.
  assert (Hle : StronglySorted Rle wave).
  { clear - Hs. induction Hs as [|a l Hl IH Hf]; constructor; auto. eapply Forall_impl; [|exact Hf]. intros; cbn in *; lra. }
  replace (map (map cst) rows) with rows by (rewrite <- (map_id rows) at 1; apply map_ext; intro; symmetry; apply cst_map).
  unfold map1, vec, table; cbn [shp dat ndim length]. rewrite cst_map.
  cbn [Nat.eqb negb hd]. change (Nat.leb 2 2) with true. cbv iota. change (lastd [length rows; w]) with w.
  unfold proj_parts.
  destruct (Nat.eqb_spec w (length wave)) as [Hw|]; auto.
  unfold mk_cubic. cbn [ndim shp length Nat.eqb negb]. change (lastd [length rows; w]) with w.
  rewrite <- Hw, Nat.eqb_refl. rewrite Hw.
  destruct (Nat.leb 4 (length wave)); auto. rewrite perm_id by auto. rewrite (has_dup_sorted _ Hs). cbn [negb bind].
  destruct (p_wave r) as [rw|]; auto. unfold project_core.
  destruct (where_ (Response.in_band rw wave)) eqn:EW; auto.
  destruct (p_interp r) as [rint|]; auto. cbn [ieval ix iys].
  rewrite <- Hw. fold (table w rows). rewrite lrows_table by auto.
  assert (Er : map (fun r0 : list R => map (fun k : nat => nth k r0 n0) (argsort wave)) rows = rows).
  { rewrite <- (map_id rows) at 2. apply map_ext_in. intros f Hf. apply perm_id; auto. unfold rect in Hr. rewrite Forall_forall in Hr. rewrite <- Hw. auto. }
  unfold ieval; cbn [ix iys]. rewrite Er.
  destruct (Nat.eqb_spec (length rows) 1) as [H1|H1].
  - destruct rows as [|s [|]]; try discriminate. cbn [map hd]. reflexivity.
  - rewrite map_map. reflexivity.
Qed.

(** One linear functional gives the photometry of any set of spectra on the same wavelengths. *)
Lemma photometry_linear cub d wave name z rows0 l0 : splines cub -> StronglySorted Rlt wave -> (4 <= length wave)%nat -> -1 < z ->
  rect (length wave) rows0 -> photometry cub d wave (length wave) rows0 name z l0 ->
  exists phi, linear_on (length wave) phi /\ l0 = map phi rows0 /\
    forall rows, rect (length wave) rows -> photometry cub d wave (length wave) rows name z (map phi rows).
Proof.
  intros Hc Hs H4 Hz Hr0 (r & v & Hd & Hp & Hb).
  set (n := length wave) in *.
  set (sc := fun f : list R => map (fun y => ndiv y (nadd n1 z)) f).
  assert (Ssw : StronglySorted Rlt (seen_wave z wave)) by (apply sorted_map_inc; auto; intros; nra).
  change (map (fun x => nmul x (nadd n1 z)) wave) with (seen_wave z wave) in *.
  change (map (map (fun f => ndiv f (nadd n1 z))) rows0) with (map sc rows0) in Hp.
  set (sw := seen_wave z wave) in *.
  assert (Lsw : length sw = n) by apply map_length.
  assert (Rsc : forall rows, rect n rows -> rect n (map sc rows)).
  { intros rows Hr. unfold rect in *. apply Forall_map. eapply Forall_impl; [|exact Hr]. intros f Hf. unfold sc. rewrite map_length. auto. }
  assert (Hsc : forall a b f g, length f = n -> length g = n -> sc (lincomb a b f g) = lincomb a b (sc f) (sc g)).
  { intros a b f g Lf Lg. unfold sc, lincomb. rcbn. clear - Lf Lg Hz. assert (L : length f = length g) by congruence. clear Lf Lg.
    revert g L. induction f as [|x f IH]; intros [|y g] L; try discriminate; auto. cbn [zip map]. f_equal; [field; lra|]. apply IH. cbn in L. lia. }
  rewrite proj_rows in Hp by auto.
  assert (All : forall phi, (forall rows, rect n rows -> exists v, project_arr cub r (vec sw) (table n (map sc rows)) = Ok v /\ bto n0 [length rows] v = Ok (map phi rows)) ->
    linear_on n phi -> exists phi, linear_on n phi /\ l0 = map phi rows0 /\ forall rows, rect n rows -> photometry cub d wave n rows name z (map phi rows)).
  { intros phi H Hlin. exists phi. split; auto. split.
    - destruct (H rows0 Hr0) as (v' & E1 & E2). rewrite proj_rows, Hp in E1 by auto. injection E1 as <-. rewrite Hb in E2. injection E2. auto.
    - intros rows Hr. destruct (H rows Hr) as (v' & E1 & E2). exists r, v'. auto. }
  destruct (proj_parts cub r sw n) as [[[num den]|]|e] eqn:EP; [| |discriminate].
  - apply (All (fun f => num (sc f) / den)).
    + intros rows Hr. rewrite proj_rows, EP by auto. rewrite map_length. destruct (Nat.eqb_spec (length rows) 1) as [H1|H1].
      * eexists. split; [reflexivity|]. destruct rows as [|f [|]]; try discriminate. rewrite bto_scal_rep. reflexivity.
      * eexists. split; [reflexivity|]. rewrite map_map. rewrite bto_vec; auto. cbn. rewrite map_length. auto.
    + intros a b f g Lf Lg. unfold Rdiv. rewrite (Hsc a b f g Lf Lg).
      enough (N : num (lincomb a b (sc f) (sc g)) = a * num (sc f) + b * num (sc g)) by (rewrite N; ring).
      unfold proj_parts in EP. destruct (Nat.eqb n (length sw)); [|discriminate]. destruct (Nat.leb 4 (length sw)); [|discriminate].
      destruct (p_wave r) as [rw|]; [|discriminate]. destruct (where_ (Response.in_band rw sw)); [discriminate|]. destruct (p_interp r) as [rint|]; [|discriminate].
      cbv zeta in EP. injection EP as <- _. unfold swapped. rewrite <- trapz_lin2.
      2:{ unfold integrand. rewrite !length_zip, !map_length. auto. }
      f_equal. rewrite <- integrand_lin by (rewrite !map_length; auto). f_equal.
      rewrite zip_map_l, zip_map_r, zip_same. apply map_ext. intro t. rewrite !spline_eval.
      apply linear_curve; auto; [lia| |]; unfold sc; rewrite map_length; lia.
  - apply (All (fun _ => 0)).
    + intros rows Hr. rewrite proj_rows, EP by auto. eexists. split; [reflexivity|]. rewrite bto_scal_rep. f_equal.
      change (@n0 R Num_R) with 0. clear. induction rows as [|f rows IH]; [reflexivity|]. cbn [length repeat map]. rewrite IH. reflexivity.
    + intros a b f g _ _. lra.
Qed.

Lemma combined_length w rows c : length (combined w rows c) = w.
Proof. unfold combined. rewrite map_length, seq_length. reflexivity. Qed.
Lemma combined_cons w f rows a c : length f = w -> combined w (f :: rows) (a :: c) = lincomb a 1 f (combined w rows c).
Proof.
  intro L. apply nth_ext with (d := 0) (d' := 0).
  - unfold lincomb. rewrite length_zip, !combined_length, L. lia.
  - intros i Hi. rewrite combined_length in Hi. unfold lincomb. rewrite nth_zip with (da := 0) (db := 0) by (rewrite ?combined_length; lia).
    unfold combined. rewrite !nth_map_seq by lia. unfold dot. cbn [zip fold_right map]. lra.
Qed.
Lemma dot_combined w phi : linear_on w phi -> forall rows c, rect w rows -> length c = length rows -> dot (map phi rows) c = phi (combined w rows c).
Proof.
  intros Hp. induction rows as [|f rows IH]; intros [|a c] Hr L; try discriminate.
  - unfold dot. cbn. pose proof (Hp 0 0 (repeat 0 w) (repeat 0 w) (repeat_length _ _) (repeat_length _ _)) as E.
    replace (combined w [] []) with (lincomb 0 0 (repeat 0 w) (repeat 0 w)); [lra|].
    apply nth_ext with (d := 0) (d' := 0); [unfold lincomb; rewrite length_zip, combined_length, !repeat_length; lia|].
    intros i Hi. unfold lincomb in *. rewrite length_zip, !repeat_length in Hi. rewrite nth_zip with (da := 0) (db := 0) by (rewrite ?repeat_length; lia).
    unfold combined. rewrite nth_map_seq by lia. unfold dot. cbn. rewrite !nth_repeat. lra.
  - inversion Hr as [|? ? Lf Hr']; subst. rewrite combined_cons by auto. rewrite Hp by (auto using combined_length). rewrite <- IH by (auto; cbn in L; lia).
    unfold dot. cbn [map zip fold_right]. lra.
Qed.

Lemma grid_above r0 r1 nz i z : r0 < r1 -> (2 <= nz)%nat -> nth_error (redshift_grid r0 r1 nz) i = Some z -> r0 <= z.
Proof.
  intros Hr Hnz Hi. assert (Hk : (i < nz)%nat) by (rewrite <- (grid_length r0 r1 nz); apply nth_error_Some; congruence).
  rewrite <- (nth_error_nth _ _ 0 Hi), grid_eq by auto. assert (P : 0 < INR (nz - 1)) by (apply lt_0_INR; lia).
  assert (0 <= (r1 - r0) * INR i / INR (nz - 1)); [|lra].
  apply Rmult_le_pos; [apply Rmult_le_pos; [lra|apply pos_INR]|]. left. apply Rinv_0_lt_compat. auto.
Qed.

(** Equal combined spectra, equal fluxes. *)
Lemma flux_combined cub d wave rows1 rows2 r0 r1 nz n c1 c2 z x : splines cub -> StronglySorted Rlt wave -> (4 <= length wave)%nat ->
  r0 < r1 -> (2 <= nz)%nat -> -1 < r0 -> rect (length wave) rows1 -> rect (length wave) rows2 ->
  length c1 = length rows1 -> length c2 = length rows2 -> combined (length wave) rows2 c2 = combined (length wave) rows1 c1 ->
  model_flux cub d wave (length wave) rows1 (redshift_grid r0 r1 nz) n c1 z x ->
  model_flux cub d wave (length wave) rows2 (redshift_grid r0 r1 nz) n c2 z x.
Proof.
  intros Hc Hs H4 Hr Hnz Hr0 R1 R2 L1 L2 HC (i & z0 & z1 & l0 & l1 & u & G0 & G1 & Hu & Hz & P0 & P1 & ->).
  assert (Z0 : -1 < z0) by (pose proof (grid_above _ _ _ _ _ Hr Hnz G0); lra).
  assert (Z1 : -1 < z1) by (pose proof (grid_above _ _ _ _ _ Hr Hnz G1); lra).
  destruct (photometry_linear _ _ _ _ _ _ _ Hc Hs H4 Z0 R1 P0) as (p0 & Q0 & -> & T0).
  destruct (photometry_linear _ _ _ _ _ _ _ Hc Hs H4 Z1 R1 P1) as (p1 & Q1 & -> & T1).
  exists i, z0, z1, (map p0 rows2), (map p1 rows2), u. repeat (split; [auto; fail|]).
  rewrite !(dot_combined (length wave)) by auto. rewrite HC. reflexivity.
Qed.
