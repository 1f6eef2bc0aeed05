(** Number types.  The code computes with [double]; the model is parametric in the arithmetic,
    so statements that need no algebraic law hold for floating-point numbers as well, and those
    that do carry the laws as hypotheses ("exact arithmetic"). *)
From Coq Require Import ZArith Ring_theory Reals.

Record num := {
  carrier :> Type;
  n0 : carrier;
  n1 : carrier;
  nadd : carrier -> carrier -> carrier;
  nmul : carrier -> carrier -> carrier;
  nopp : carrier -> carrier;
  neqb : carrier -> carrier -> bool }.
Arguments n0 {n}. Arguments n1 {n}. Arguments nadd {n}. Arguments nmul {n}. Arguments nopp {n}. Arguments neqb {n}.

(** Exact arithmetic: a commutative ring with a decidable equality. *)
Record num_laws (N : num) : Prop := {
  law_add_comm : forall x y : N, nadd x y = nadd y x;
  law_add_assoc : forall x y z : N, nadd x (nadd y z) = nadd (nadd x y) z;
  law_add_0 : forall x : N, nadd n0 x = x;
  law_mul_comm : forall x y : N, nmul x y = nmul y x;
  law_mul_assoc : forall x y z : N, nmul x (nmul y z) = nmul (nmul x y) z;
  law_mul_1 : forall x : N, nmul n1 x = x;
  law_mul_0 : forall x : N, nmul n0 x = n0;
  law_distr : forall x y z : N, nmul (nadd x y) z = nadd (nmul x z) (nmul y z);
  law_opp : forall x : N, nadd x (nopp x) = n0;
  law_eqb : forall x y : N, neqb x y = true <-> x = y }.

(** The two instances used in examples and in the analytic part. *)
Definition num_Z : num :=
  {| carrier := Z; n0 := 0%Z; n1 := 1%Z; nadd := Z.add; nmul := Z.mul; nopp := Z.opp; neqb := Z.eqb |}.

Definition num_R : num :=
  {| carrier := R; n0 := 0%R; n1 := 1%R; nadd := Rplus; nmul := Rmult; nopp := Ropp;
     neqb := fun x y => if Req_EM_T x y then true else false |}.
