(** A computable toy arithmetic, used only to evaluate examples with vm_compute.
    It is not a model of floating point; theorems proved for every [Num T] apply to it. *)
From Coq Require Import ZArith QArith Qround List.
From Verif Require Import Base Num.

#[export] Instance Num_Z : Num Z := {|
  n0 := 0%Z; n1 := 1%Z;
  nadd := Z.add; nsub := Z.sub; nmul := Z.mul; ndiv := Z.div;
  nopp := Z.opp; nabs := Z.abs; nsqrt := Z.sqrt;
  nln := fun x => x; nlog10 := fun x => x; nexp := fun x => x;
  npow10 := fun x => Z.pow 10 x;
  nsinh := fun x => x; ncosh := fun x => x;
  nltb := Z.ltb; nleb := Z.leb;
  nlit := fun q => Qfloor q;
  npi := 3%Z;
  nfin := fun _ => true;
  cst := fun x => x
|}.

(** Rational numbers, kept reduced; the transcendental functions are placeholders. *)
#[export] Instance Num_Q : Num Q := {|
  n0 := 0; n1 := 1;
  nadd := fun a b => Qred (a + b); nsub := fun a b => Qred (a - b);
  nmul := fun a b => Qred (a * b); ndiv := fun a b => Qred (a / b);
  nopp := Qopp; nabs := fun a => if Qle_bool 0 a then a else Qopp a; nsqrt := fun x => x;
  nln := fun x => x; nlog10 := fun x => x; nexp := fun x => x;
  npow10 := fun x => x;
  nsinh := fun x => x; ncosh := fun x => x;
  nltb := fun a b => negb (Qle_bool b a); nleb := Qle_bool;
  nlit := fun q => Qred q;
  npi := 22 # 7;
  nfin := fun _ => true;
  cst := fun x => x
|}.

(** The same with a coarse rounding at every float32 store (to the integer below). *)
Definition Num_floor : Num Q := {|
  n0 := 0; n1 := 1;
  nadd := fun a b => Qred (a + b); nsub := fun a b => Qred (a - b);
  nmul := fun a b => Qred (a * b); ndiv := fun a b => Qred (a / b);
  nopp := Qopp; nabs := fun a => if Qle_bool 0 a then a else Qopp a; nsqrt := fun x => x;
  nln := fun x => x; nlog10 := fun x => x; nexp := fun x => x;
  npow10 := fun x => x;
  nsinh := fun x => x; ncosh := fun x => x;
  nltb := fun a b => negb (Qle_bool b a); nleb := Qle_bool;
  nlit := fun q => Qred q;
  npi := 22 # 7;
  nfin := fun _ => true;
  cst := fun x => inject_Z (Qfloor x)
|}.
