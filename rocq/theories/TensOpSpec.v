(** What the theorems on Quad.varfd and Quad.discretize_op with tensorization assume of the directions. *)
From Coq Require Import List Arith ClassicalDedekindReals.
From Verif Require Import Base IndexModel Spec LinSpec CalcSpec PartModel Num PyQuadSpec.
Import ListNotations.
Local Open Scope nat_scope.

(** In every group of directions, the indices of the functions of a Fourier direction come with those of their derivatives: see [paired]. *)
Definition parts_paired (flags : list nat) (s : iset) (degree : nat) : Prop :=
  forall ix k, increasing ix -> Forall (fun i => i < length flags) ix -> nth k (pick 0 flags ix) 0 = 1 -> paired s (length ix) degree k.

(** For examples: the terms and factors of the expressions of PyQuadSpec.v, and equality of their values (of classical logic: it is not computable). *)
Fixpoint r_add_args (e : rexpr) : list rexpr := match e with RAdd a b => r_add_args a ++ r_add_args b | _ => [e] end.
Fixpoint r_mul_args (e : rexpr) : list rexpr := match e with RMul a b => r_mul_args a ++ r_mul_args b | _ => [e] end.
Definition r_same (a b : rexpr) : bool := if ClassicalDedekindReals.sig_not_dec (forall env, r_eval a env = r_eval b env) then true else false.
