(** Multiplication by a positive number in the extended reals. *)
From Coq Require Import List Bool ZArith QArith Qreals Reals Lra.
From Verif Require Import Base BaseLemmas Num Interp Fitter FitterMC Kcorrect.
Import ListNotations.
Local Open Scope R_scope.

Section A.
  Variable a : R.
  Hypothesis Ha : 0 < a.

  Lemma xsign_inf_mul r : xsign_inf (a * r) = xsign_inf r.
  Proof.
    unfold xsign_inf, Rltb. repeat match goal with |- context [Rlt_dec ?x ?y] => destruct (Rlt_dec x y) end; auto; exfalso; nra.
  Qed.
  Lemma xmul_sign_inf r : xmul (Fin a) (xsign_inf r) = xsign_inf r.
  Proof.
    assert (E : xsign_inf a = PInf) by (unfold xsign_inf; rewrite Rltb_true; auto).
    unfold xsign_inf at 1. destruct (Rltb 0 r) eqn:E1; cbn.
    - rewrite E. unfold xsign_inf. rewrite E1. auto.
    - destruct (Rltb r 0) eqn:E2; cbn; rewrite ?E; unfold xsign_inf; rewrite E1, E2; auto.
  Qed.
  Lemma xmul_PInf : xmul (Fin a) PInf = PInf.
  Proof. cbn. unfold xsign_inf. rewrite Rltb_true; auto. Qed.
  Lemma xmul_NInf : xmul (Fin a) NInf = NInf.
  Proof. cbn. unfold xsign_inf. rewrite Rltb_true; auto. Qed.

  Lemma xmul_opp x : xmul (Fin a) (xopp x) = xopp (xmul (Fin a) x).
  Proof.
    destruct x; unfold xopp at 1; rewrite ?xmul_PInf, ?xmul_NInf; auto. cbn. f_equal. lra.
  Qed.
  Lemma xopp_sign r : xopp (xsign_inf r) = xsign_inf (- r).
  Proof.
    unfold xsign_inf, Rltb. repeat match goal with |- context [Rlt_dec ?x ?y] => destruct (Rlt_dec x y) end; auto; exfalso; lra.
  Qed.

  Lemma xmul_add x y : xmul (Fin a) (xadd x y) = xadd (xmul (Fin a) x) (xmul (Fin a) y).
  Proof.
    destruct x, y; unfold xadd at 1; rewrite ?xmul_PInf, ?xmul_NInf; cbn [xmul]; auto.
    unfold xadd; f_equal; lra.
  Qed.
  (** x (a y) = a (x y) and (a x) y = a (x y) *)
  Lemma xmul_swap x y : xmul x (xmul (Fin a) y) = xmul (Fin a) (xmul x y).
  Proof.
    destruct y as [y| | |].
    - destruct x as [x| | |]; unfold xmul at 2; [cbn; f_equal; lra| | |cbn; auto].
      + change (xmul PInf (Fin (a * y))) with (xsign_inf (a * y)). change (xmul PInf (Fin y)) with (xsign_inf y).
        rewrite xsign_inf_mul, xmul_sign_inf. auto.
      + change (xmul NInf (Fin (a * y))) with (xopp (xsign_inf (a * y))). change (xmul NInf (Fin y)) with (xopp (xsign_inf y)).
        rewrite xsign_inf_mul, xmul_opp, xmul_sign_inf. auto.
    - rewrite xmul_PInf. destruct x as [x| | |].
      + change (xmul (Fin x) PInf) with (xsign_inf x). symmetry; apply xmul_sign_inf.
      + symmetry; apply xmul_PInf.
      + symmetry; apply xmul_NInf.
      + auto.
    - rewrite xmul_NInf. destruct x as [x| | |].
      + change (xmul (Fin x) NInf) with (xopp (xsign_inf x)). rewrite xopp_sign. symmetry; apply xmul_sign_inf.
      + symmetry; apply xmul_NInf.
      + symmetry; apply xmul_PInf.
      + auto.
    - destruct x; auto.
  Qed.
  Lemma xmul_comm x y : xmul x y = xmul y x.
  Proof. destruct x, y; cbn; auto. f_equal. lra. Qed.
  Lemma xmul_left x y : xmul (xmul (Fin a) x) y = xmul (Fin a) (xmul x y).
  Proof. rewrite xmul_comm, xmul_swap, (xmul_comm y x). auto. Qed.

  Lemma xltb_mul x : xltb (Fin 0) (xmul (Fin a) x) = xltb (Fin 0) x.
  Proof.
    destruct x as [x| | |]; rewrite ?xmul_PInf, ?xmul_NInf; cbn; auto.
    unfold Rltb. destruct (Rlt_dec 0 (a * x)), (Rlt_dec 0 x); auto; exfalso; nra.
  Qed.
  Lemma xltb0_mul x : xltb (xmul (Fin a) x) (Fin 0) = xltb x (Fin 0).
  Proof.
    destruct x as [x| | |]; rewrite ?xmul_PInf, ?xmul_NInf; cbn; auto.
    unfold Rltb. destruct (Rlt_dec (a * x) 0), (Rlt_dec x 0); auto; exfalso; nra.
  Qed.
  Lemma xdiv_num x y : xdiv (xmul (Fin a) x) y = xmul (Fin a) (xdiv x y).
  Proof.
    destruct x as [x| | |]; rewrite ?xmul_PInf, ?xmul_NInf.
    - destruct y as [y| | |]; cbn [xmul xdiv]; auto; try (cbn [xmul]; f_equal; lra).
      unfold Reqb. destruct (Req_EM_T y 0).
      + rewrite xsign_inf_mul. symmetry. apply xmul_sign_inf.
      + cbn. f_equal. field. auto.
    - destruct y as [y| | |]; cbn [xdiv]; auto. destruct (Rltb y 0); rewrite ?xmul_PInf, ?xmul_NInf; auto.
    - destruct y as [y| | |]; cbn [xdiv]; auto. destruct (Rltb y 0); rewrite ?xmul_PInf, ?xmul_NInf; auto.
    - auto.
  Qed.
  Lemma xdiv_both x y : xdiv (xmul (Fin a) x) (xmul (Fin a) y) = xdiv x y.
  Proof.
    destruct x as [x| | |], y as [y| | |]; rewrite ?xmul_PInf, ?xmul_NInf; cbn [xmul xdiv]; auto.
    - unfold Reqb. destruct (Req_EM_T (a * y) 0) as [E|E], (Req_EM_T y 0) as [E'|E']; try (exfalso; nra).
      + apply xsign_inf_mul.
      + f_equal. field. lra.
    - unfold Rltb. destruct (Rlt_dec (a * y) 0), (Rlt_dec y 0); auto; exfalso; nra.
    - unfold Rltb. destruct (Rlt_dec (a * y) 0), (Rlt_dec y 0); auto; exfalso; nra.
  Qed.

  Lemma fold_xadd l : forall s, fold_left xadd (map (xmul (Fin a)) l) (xmul (Fin a) s) = xmul (Fin a) (fold_left xadd l s).
  Proof. induction l as [|x l IH]; intro s; cbn [map fold_left]; auto. rewrite <- xmul_add. apply IH. Qed.
  Lemma nsum_mul (l : list xr) : nsum (map (xmul (Fin a)) l) = xmul (Fin a) (nsum l).
  Proof.
    unfold nsum. rewrite <- fold_xadd. cbn. rewrite Rmult_0_r. auto.
  Qed.
  Lemma dotp_mul_r (r c : list xr) : dotp r (map (xmul (Fin a)) c) = xmul (Fin a) (dotp r c).
  Proof.
    unfold dotp. rewrite <- nsum_mul. f_equal. rewrite zip_map_r, map_zip. apply zip_ext. intros; apply xmul_swap.
  Qed.
  Lemma dotp_mul_l (r c : list xr) : dotp (map (xmul (Fin a)) c) r = xmul (Fin a) (dotp c r).
  Proof.
    unfold dotp. rewrite <- nsum_mul. f_equal. rewrite zip_map_l, map_zip. apply zip_ext. intros; apply xmul_left.
  Qed.
  Lemma recon1_mul (A : atab xr) nb nt bs z c :
    recon1 A nb nt bs z (map (xmul (Fin a)) c) = map (xmul (Fin a)) (recon1 A nb nt bs z c).
  Proof.
    unfold recon1. rewrite map_map. apply map_ext. intro r. rewrite dotp_mul_r. apply xdiv_num.
  Qed.
End A.

From Verif Require Import KSpec KcorrectProofs.
(** The K-correction of scaled coefficients. *)
Lemma kval1_scale (K : kcor xr) A Ao nb no nt bs z c a : (0 < a)%R ->
  kval1 K A Ao nb no nt bs z (map (nmul (Fin a)) c) = kval1 K A Ao nb no nt bs z c.
Proof.
  intro Ha. unfold kval1, kval. cbn [cst Num_xr]. rewrite !map_id. change (nmul (Fin a)) with (xmul (Fin a)).
  rewrite !(recon1_mul a Ha), (nsum_mul a Ha). cbn [n0 nltb Num_xr]. rewrite (xltb_mul a Ha).
  destruct (xltb (Fin 0) (nsum c)).
  - rewrite zip_map_r.
    assert (E : map (fun k => nth k (map (xmul (Fin a)) (recon1 A nb nt (Fin 0) z c)) (Fin 0)) (k_imap K) =
      map (xmul (Fin a)) (map (fun k => nth k (recon1 A nb nt (Fin 0) z c) (Fin 0)) (k_imap K))).
    { rewrite map_map. apply map_ext. intro k.
      replace (Fin 0) with (xmul (Fin a) (Fin 0)) at 2 by (cbn; rewrite Rmult_0_r; auto). apply map_nth. }
    rewrite E, zip_map_l. apply zip_ext. intros x y. cbn [ndiv Num_xr]. rewrite (xdiv_both a Ha). auto.
  - rewrite !map_length. auto.
Qed.
