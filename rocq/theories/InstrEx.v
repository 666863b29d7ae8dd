(** The concrete objects of the examples of C110: a KcorrectSDSS fitter with one template. *)
From Coq Require Import String List Arith Lia Bool ZArith QArith Qreals Reals Lra Sorting.Sorted.
From Verif Require Import Base BaseLemmas Num Toy Interp Sed Response RespDict Fitter FitSpec FitterProofs FitReal FitTable FitEx FitRealEx FitRealThms
  NnlsSpec NnlsExact NnlsEx NnlsThms CatSpec InstrSpec.
Import ListNotations.
Local Open Scope R_scope.

Definition s_tab : atab R := {| a_x := [0; 1]; a_rows := [[1; 2; 3; 4; 5]; [2; 3; 4; 5; 6]]; a_shape := [5; 1]%nat |}.
Definition s_fitter : fitter R := ex_fitter SDSS true ["u"; "g"; "r"; "i"; "z"]%string 1%nat (a_x s_tab) (a_rows s_tab).
Lemma s_ready : ready s_fitter s_tab 5 1.
Proof. unfold ready, tab_ok, rect; cbn; repeat split; auto; repeat constructor. Qed.
