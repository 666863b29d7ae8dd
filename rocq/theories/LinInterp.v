(** Piecewise-linear interpolation over the reals: a concrete interpolator used in the examples, to show
    that the hypotheses made about scipy's spline are satisfiable. *)
From Coq Require Import List Arith Lia Bool Reals Lra Sorting.Sorted.
From Verif Require Import Base BaseLemmas Num.
Import ListNotations.
Local Open Scope R_scope.

Fixpoint lin (xs ys : list R) (t : R) : R :=
  match xs, ys with
  | x0 :: xr, y0 :: yr =>
      match xr, yr with
      | x1 :: _, y1 :: _ => if Rltb t x1 then y0 + (y1 - y0) * ((t - x0) / (x1 - x0)) else lin xr yr t
      | _, _ => y0
      end
  | _, _ => 0
  end.

Lemma lin_linear xs : forall ys zs a b t, length ys = length zs ->
  lin xs (zip (fun u v => a * u + b * v) ys zs) t = a * lin xs ys t + b * lin xs zs t.
Proof.
  induction xs as [|x0 xs IH]; intros ys zs a b t H; [cbn [lin]; lra|].
  destruct ys as [|y0 ys], zs as [|z0 zs]; try discriminate; cbn [zip lin]; [lra|].
  destruct xs as [|x1 xs]; [reflexivity|]. destruct ys as [|y1 ys], zs as [|z1 zs]; try discriminate; cbn [zip].
  - reflexivity.
  - destruct (Rltb t x1); [unfold Rdiv; ring|].
    apply (IH (y1 :: ys) (z1 :: zs) a b t). cbn in H. cbn. lia.
Qed.

(** Decide comparisons of concrete reals. *)
Ltac rdec := repeat match goal with
  | |- context [Rltb ?a ?b] =>
      first [rewrite (Rltb_true a b) by lra | rewrite (Rltb_false a b) by lra]
  | |- context [Rleb ?a ?b] =>
      first [rewrite (Rleb_true a b) by lra | rewrite (Rleb_false a b) by lra]
  end.

Lemma lin_nodes (h : R -> R) xs : StronglySorted Rlt xs -> forall t, In t xs -> lin xs (map h xs) t = h t.
Proof.
  induction 1 as [|x0 xs Hs IH Hf]; intros t Ht; [destruct Ht|].
  destruct xs as [|x1 xs]; cbn [map lin].
  - destruct Ht as [->|[]]. reflexivity.
  - inversion Hf as [|? ? H01 _]; subst. destruct Ht as [->|Ht].
    + rewrite Rltb_true by auto. field. lra.
    + inversion Hs as [|? ? _ Hf']; subst. rewrite Forall_forall in Hf'.
      assert (x1 <= t) by (destruct Ht as [->|Ht]; [lra|specialize (Hf' t Ht); lra]).
      rewrite Rltb_false by auto. apply IH; auto.
Qed.
