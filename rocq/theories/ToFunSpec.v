(** What is assumed of sympy's arithmetic, and the function a series stands for in Series.to_function. *)
From Coq Require Import String List Bool Arith Reals.
From Verif Require Import Base Num Fnum PosModel.
Import ListNotations.
Local Open Scope R_scope.

(** Products, sums, numbers and variables have the values their names say, and no other free variables than their parts. *)
Record sympy_arith {E : Type} (eval : E -> (nat -> R) -> R) (e_mul e_add : E -> E -> E) (e_num : R -> E) (e_var : nat -> E) (free_vars : E -> list nat) : Prop := {
  ar_mul : forall a b env, eval (e_mul a b) env = eval a env * eval b env;
  ar_add : forall a b env, eval (e_add a b) env = eval a env + eval b env;
  ar_num : forall x env, eval (e_num x) env = x;
  ar_var : forall d env, eval (e_var d) env = env d;
  ar_mul_vars : forall a b, incl (free_vars (e_mul a b)) (free_vars a ++ free_vars b);
  ar_add_vars : forall a b, incl (free_vars (e_add a b)) (free_vars a ++ free_vars b);
  ar_num_vars : forall x, free_vars (e_num x) = [];
  ar_var_vars : forall d, incl (free_vars (e_var d)) [d] }.

(** The coordinates multiplied, not divided, by the standard deviations. *)
Definition multiplied (mean vars x : list R) : list R := map (fun '(m, (v, t)) => sqrt v * (t - m)) (combine mean (combine vars x)).
