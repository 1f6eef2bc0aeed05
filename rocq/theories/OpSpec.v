(** Linear differential operators. *)
From Coq Require Import List Arith.
From Verif Require Import Num LinSpec.
Import ListNotations.

Section Spec.
Variable N : num.
Variable E : Type.
Variable eval : E -> (nat -> N) -> N.

(** What is assumed of sympy. *)
Record sympy_lin (e_add e_mul : E -> E -> E) (e_0 : E) (e_mono : list nat -> E) (simplify : E -> E) (is0 : E -> bool) : Prop := {
  lin_add : forall a b env, eval (e_add a b) env = nadd (eval a env) (eval b env);
  lin_mul : forall a b env, eval (e_mul a b) env = nmul (eval a env) (eval b env);
  lin_0 : forall env, eval e_0 env = n0;
  lin_mono : forall k env, eval (e_mono (repeat 0 k)) env = n1;
  lin_simplify : forall e env, eval (simplify e) env = eval e env;
  lin_is0 : forall e, is0 e = true -> forall env, eval e env = n0 }.

(** The order of a derivative. *)
Definition order (n : list nat) : nat := list_sum n.

(** The coefficient of the derivative [n]: the sum of the coefficients of all terms with this derivative. *)
Definition coefficient (op : list (E * list nat)) (n : list nat) (env : nat -> N) : N :=
  nsum (map (fun '(c, _) => eval c env) (filter (fun '(_, k) => if list_eq_dec Nat.eq_dec k n then true else false) op)).

(** The value of the operator at a point, given the values of the derivatives of a function at this point. *)
Definition op_value (op : list (E * list nat)) (deriv : list nat -> N) (env : nat -> N) : N :=
  nsum (map (fun '(c, n) => nmul (eval c env) (deriv n)) op).
End Spec.
Arguments sympy_lin {N E}. Arguments coefficient {N E}. Arguments op_value {N E}.
