(** Rely-guarantee reasoning for the programs of Threads.v. *)
From Coq Require Import String List Arith Lia Bool.
From Verif Require Import Base BaseLemmas Num Interp Utils Sed Response RespDict RespDictThms Fitter Threads ThreadsSeq.
Import ListNotations.
Local Open Scope nat_scope.

Section RG.
  Context {T : Type}.
  Notation mem := (mem T).
  Notation prog := (prog T).

  (** Thread [i] running [p] from memory [m], while the others change the memory as [R] allows, changes it as [G] allows and
      ends with [Q]. *)
  Fixpoint rg {A} (i : nat) (R G : mem -> mem -> Prop) (p : prog A) (Q : A -> mem -> Prop) (m : mem) : Prop :=
    forall m', R m m' ->
    match p with
    | Ret a => Q a m'
    | Act f k => G m' (fst (f i m')) /\ rg i R G (k (snd (f i m'))) Q (fst (f i m'))
    end.

  Section Rules.
    Variables (i : nat) (R G : mem -> mem -> Prop).
    Hypothesis Rrefl : forall m, R m m.
    Hypothesis Rtrans : forall a b c, R a b -> R b c -> R a c.

    Lemma rg_later {A} (p : prog A) Q m m' : rg i R G p Q m -> R m m' -> rg i R G p Q m'.
    Proof. destruct p; cbn; intros H H1 m2 H2; apply H; eauto. Qed.
    Lemma rg_done {A} (a : A) Q m : rg i R G (Ret a) Q m -> Q a m.
    Proof. intro H. apply (H m). auto. Qed.
    Lemma rg_post {A} (p : prog A) (Q Q' : A -> mem -> Prop) : (forall a m, Q a m -> Q' a m) -> forall m, rg i R G p Q m -> rg i R G p Q' m.
    Proof.
      intro HQ. induction p as [a|B f k IH]; cbn; intros m H m' H'; [apply HQ; auto|]. destruct (H m' H') as [H1 H2]. split; auto.
    Qed.
    Lemma rg_bind {A B} (p : prog (res A)) (g : A -> prog (res B)) (Q : res A -> mem -> Prop) (Q' : res B -> mem -> Prop) :
      (forall a m, Q (Ok a) m -> rg i R G (g a) Q' m) -> (forall e m, Q (Raise e) m -> Q' (Raise e) m) ->
      forall m, rg i R G p Q m -> rg i R G (pbind p g) Q' m.
    Proof.
      intros H1 H2. induction p as [[a|e]|C f k IH]; cbn [pbind]; intros m H.
      - apply H1. apply (H m). auto.
      - intros m' H'. apply H2. apply H; auto.
      - intros m' H'. destruct (H m' H') as [Ha Hb]. split; auto.
    Qed.
    Lemma rg_get {A B} (f : mem -> B) (k : B -> prog A) Q m : (forall m, G m m) ->
      (forall m', R m m' -> rg i R G (k (f m')) Q m') -> rg i R G (Act (a_get f) k) Q m.
    Proof. intros Hg H m' H'. cbn. split; auto. Qed.
  End Rules.

  (** Threads run in parallel. *)
  Lemma par_sound {A} (R G : nat -> mem -> mem -> Prop) (Q : nat -> A -> mem -> Prop) :
    (forall i m, R i m m) -> (forall i a b c, R i a b -> R i b c -> R i a c) ->
    (forall i j m m', i <> j -> G i m m' -> R j m m') ->
    forall sched m ps, (forall i p, nth_error ps i = Some p -> rg i (R i) (G i) p (Q i) m) ->
    forall i p, nth_error (snd (run sched m ps)) i = Some p -> rg i (R i) (G i) p (Q i) (fst (run sched m ps)).
  Proof.
    intros Rr Rt GR sched m ps H. unfold run.
    assert (Hc : forall i p, nth_error (snd (m, ps)) i = Some p -> rg i (R i) (G i) p (Q i) (fst (m, ps))) by exact H.
    revert Hc. generalize (m, ps). clear m ps H. induction sched as [|j sched IH]; intros c Hc; [exact Hc|].
    cbn [fold_left]. apply IH. intros i p. unfold step. destruct (nth_error (snd c) j) as [pj|] eqn:Ej; [|apply Hc].
    cbn [fst snd]. rewrite nth_error_upd. intro Hp.
    pose proof (Hc j pj Ej) as Hj.
    destruct (Nat.eqb_spec i j) as [->|Hij].
    - rewrite Ej in Hp. injection Hp as <-. destruct pj as [a|B f k]; cbn [step1 fst snd]; [exact Hj|]. apply (Hj (fst c)). auto.
    - assert (Hi : nth_error (snd c) i = Some p) by exact Hp.
      apply (rg_later i (R i) (G i) (Rt i) p (Q i) (fst c)); [apply Hc; auto|].
      destruct pj as [a|B f k]; cbn [step1 fst snd]; [apply Rr|]. apply (GR j i); auto. apply (Hj (fst c)). auto.
  Qed.
  Lemma run_length {A} sched : forall (m : mem) (ps : list (prog A)), length (snd (run sched m ps)) = length ps.
  Proof.
    intros m ps. induction sched as [|j sched IH] using rev_ind; [reflexivity|].
    unfold run. rewrite fold_left_app. cbn [fold_left]. fold (run sched m ps). unfold step.
    destruct (nth_error (snd (run sched m ps)) j); [|exact IH]. cbn [snd]. rewrite length_upd. exact IH.
  Qed.
  (** ... and the memory changes as the guarantees allow. *)
  Lemma par_memory {A} (R G : nat -> mem -> mem -> Prop) (Q : nat -> A -> mem -> Prop) (E : mem -> mem -> Prop) :
    (forall i m, R i m m) -> (forall i a b c, R i a b -> R i b c -> R i a c) ->
    (forall i j m m', i <> j -> G i m m' -> R j m m') -> (forall m, E m m) -> (forall a b c, E a b -> E b c -> E a c) ->
    forall sched m ps, (forall i m m', i < length ps -> G i m m' -> E m m') ->
    (forall i p, nth_error ps i = Some p -> rg i (R i) (G i) p (Q i) m) -> E m (fst (run sched m ps)).
  Proof.
    intros Rr Rt GR Er Et sched m ps GE H. induction sched as [|j sched IH] using rev_ind; [apply Er|].
    unfold run. rewrite fold_left_app. cbn [fold_left]. fold (run sched m ps). eapply Et; [exact IH|].
    unfold step. destruct (nth_error (snd (run sched m ps)) j) as [p|] eqn:E1; [|apply Er]. cbn [fst].
    destruct p as [a|B f k]; cbn [step1 fst]; [apply Er|]. apply (GE j).
    - rewrite <- (run_length sched m ps). apply nth_error_Some. congruence.
    - pose proof (par_sound R G Q Rr Rt GR sched m ps H j _ E1) as X. apply (X _ (Rr j _)).
  Qed.
End RG.
