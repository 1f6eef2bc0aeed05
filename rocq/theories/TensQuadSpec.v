(** The tensorized methods of a quadrature: what is assumed of sympy. *)
From Coq Require Import List.
Import ListNotations.

(** Division by 1 does not change the value and adds no variables, and 1 == 1. *)
Record sympy_unit {A E : Type} (eval : E -> (nat -> A) -> A) (e_div : E -> E -> E) (e_1 : E) (free_vars : E -> list nat) (sym_eqb : E -> E -> bool) : Prop := {
  unit_div : forall a env, eval (e_div a e_1) env = eval a env;
  unit_vars : forall a, incl (free_vars (e_div a e_1)) (free_vars a);
  unit_eq : sym_eqb e_1 e_1 = true }.

(** An expression that is not a sum. *)
Definition one_term {E : Type} (add_args : E -> list E) (e : E) : Prop := length (add_args e) = 1.
(** 1, products and quotients by 1 of expressions that are not sums, and the factors of the only term of an expression, are not sums. *)
Record sympy_terms {E : Type} (e_mul e_div : E -> E -> E) (e_1 : E) (add_args mul_args : E -> list E) : Prop := {
  terms_1 : one_term add_args e_1;
  terms_mul : forall a b, one_term add_args a -> one_term add_args b -> one_term add_args (e_mul a b);
  terms_div : forall a, one_term add_args a -> one_term add_args (e_div a e_1);
  terms_args : forall e t a, add_args e = [t] -> In a (mul_args t) -> one_term add_args a }.

(** Monomials with a coefficient, for examples; a flag tells that a monomial is written as a sum of two halves.  Quotients are by numbers. *)
From Coq Require Import Reals Bool Arith.
Record mono := Mono { m_sum : bool; m_coef : R; m_vars : list nat }.
Definition m_eval (e : mono) (env : nat -> R) : R := (m_coef e * fold_right Rmult 1 (map env (m_vars e)))%R.
Definition m_mul (a b : mono) : mono := Mono (m_sum a || m_sum b) (m_coef a * m_coef b) (m_vars a ++ m_vars b).
Definition m_div (a b : mono) : mono := Mono (m_sum a) (m_coef a / m_coef b) (m_vars a).
Definition m_1 : mono := Mono false 1 [].
Definition m_add_args (e : mono) : list mono := if m_sum e then let half := Mono false (m_coef e / 2) (m_vars e) in [half; half] else [e].
Definition m_mul_args (e : mono) : list mono := if m_sum e then [e] else Mono false (m_coef e) [] :: map (fun d => Mono false 1 [d]) (m_vars e).
(** Equal coefficients and, unless they are 0, equal exponents. *)
Definition m_eqb (a b : mono) : bool :=
  (if Req_EM_T (m_coef a) (m_coef b) then true else false) &&
  ((if Req_EM_T (m_coef a) 0 then true else false) || forallb (fun d => count_occ Nat.eq_dec (m_vars a) d =? count_occ Nat.eq_dec (m_vars b) d) (m_vars a ++ m_vars b)).
