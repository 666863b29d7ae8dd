(** A real-valued fitter and a nonnegative least squares routine for one column, for the examples. *)
From Coq Require Import String List Arith Bool Lia Reals Lra Sorting.Sorted.
From Verif Require Import Base BaseLemmas Num Interp InterpReal Sed Response Fitter FitSpec FitterProofs FitReal FitEx.
Import ListNotations.
Local Open Scope R_scope.

Definition nnls1 (_ : option nat) (n : nat) (A : list (list R)) (b : list R) : option (list R) :=
  if Nat.eqb n 1 then
    let a := map (fun r => nth 0 r 0) A in
    Some [if Rlt_dec 0 (dot a b) then dot a b / dot a a else 0]
  else None.

Lemma sumsq_quad : forall A b y, rect 1 A -> length A = length b ->
  let a := map (fun r => nth 0 r 0) A in
  sumsq (vsub (mulmv A [y]) b) = dot a a * (y * y) - 2 * dot a b * y + dot b b.
Proof.
  unfold sumsq, vsub, mulmv, dot. induction A as [|r A IH]; intros [|x b] y HR HL; try discriminate; cbn [map zip fold_right].
  - lra.
  - inversion HR as [|? ? Hr HR']; subst. destruct r as [|c [|]]; try discriminate.
    rewrite IH by (cbn in HL; auto; lia). cbn [nth zip fold_right]. lra.
Qed.
Lemma dot_self_pos a : 0 <= dot a a.
Proof. unfold dot. induction a as [|x a IH]; cbn [zip fold_right]; [lra|]. pose proof (Rle_0_sqr x). unfold Rsqr in *. lra. Qed.
Lemma dot_self_zero a : dot a a = 0 -> forall b, dot a b = 0.
Proof.
  induction a as [|x a IH]; intros H b; [reflexivity|]. unfold dot in *. cbn [zip fold_right] in *.
  pose proof (dot_self_pos a) as Hp. unfold dot in Hp. pose proof (Rle_0_sqr x) as Hx. unfold Rsqr in Hx.
  assert (x * x = 0) by lra. assert (x = 0) by (apply Rmult_integral in H0; tauto). subst.
  destruct b as [|y b]; [reflexivity|]. cbn [zip fold_right]. rewrite IH by lra. lra.
Qed.

Lemma nnls1_contract : nnls_contract nnls1.
Proof.
  intros mi n A b x HR HL H. unfold nnls1 in H. destruct (Nat.eqb_spec n 1) as [->|]; [|discriminate].
  cbv zeta in H. injection H as <-. set (a := map (fun r => nth 0 r 0) A).
  pose proof (dot_self_pos a) as Hp.
  split; [reflexivity|]. split.
  - constructor; [|constructor]. destruct (Rlt_dec 0 (dot a b)); [|lra].
    destruct (Req_dec (dot a a) 0) as [E|E]; [rewrite (dot_self_zero a E b) in *; lra|].
    apply Rlt_le, Rdiv_lt_0_compat; lra.
  - intros y Hy Hn. destruct y as [|y [|]]; try discriminate. inversion Hn as [|? ? Hy0 _]; subst.
    rewrite !sumsq_quad by auto. cbv zeta. fold a. destruct (Rlt_dec 0 (dot a b)) as [Hlt|Hge].
    + destruct (Req_dec (dot a a) 0) as [E|E]; [rewrite (dot_self_zero a E b) in *; lra|].
      set (S := dot a a) in *. set (P := dot a b) in *.
      assert (0 <= S * ((y - P / S) * (y - P / S))).
      { apply Rmult_le_pos; [lra|]. pose proof (Rle_0_sqr (y - P / S)). auto. }
      replace (S * ((y - P / S) * (y - P / S))) with (S * (y * y) - 2 * P * y + P * P / S) in H by (field; auto).
      replace (S * (P / S * (P / S)) - 2 * P * (P / S)) with (- (P * P / S)) by (field; auto). lra.
    + assert (0 <= dot a a * (y * y)) by (apply Rmult_le_pos; [auto|apply Rmult_le_pos; auto]).
      assert (0 <= - dot a b * y) by (apply Rmult_le_pos; lra). lra.
Qed.

(** Two bands, one template, grid 0, 1. *)
Definition r_fitter : fitter R := ex_fitter Plain false ["u"; "g"]%string 1 [0; 1] [[1; 2]; [3; 4]].
Definition r_tab : atab R := {| a_x := [0; 1]; a_rows := [[1; 2]; [3; 4]]; a_shape := [2; 1]%nat |}.
Lemma r_ready : ready r_fitter r_tab 2 1.
Proof. unfold ready, tab_ok, rect; cbn. repeat split; auto; repeat constructor. Qed.
Lemma r_grid : grid_ok (a_x r_tab).
Proof. repeat constructor; lra. Qed.
