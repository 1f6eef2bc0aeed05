(** Smooth functions and the values of operators, for the arithmetic of operators. *)
From Coq Require Import List Arith Reals.
From Verif Require Import Base Num LinSpec CalcSpec SeriesModel OpSpec OpQuadSpec OpModel OpArithModel.
Import ListNotations.
Local Open Scope R_scope.

(** [D n] is the derivative of [f] of the orders [n], for every list [n] of [dim] orders. *)
Definition all_derivatives (dim : nat) (f : list R -> R) (D : list nat -> list R -> R) : Prop :=
  forall n, length n = dim -> deriv_along dim (coordinates n) f (D n).
(** [f] is smooth with the derivatives [D]: the derivative of [D n] in coordinate number [k] is [D] of [n] with one more derivative in this coordinate. *)
Definition smooth (dim : nat) (f : list R -> R) (D : list nat -> list R -> R) : Prop :=
  (forall x, length x = dim -> D (repeat 0%nat dim) x = f x) /\
  forall n k, length n = dim -> (k < dim)%nat -> partial dim k (D n) (D (with_entry n k (S (nth k n 0%nat)))).

(** What is assumed of sympy's arithmetic and derivatives.  The class [fine] of expressions without singularities is closed under derivatives and products. *)
Record sympy_arith {E : Type} (eval : E -> (nat -> R) -> R) (e_add e_mul e_div : E -> E -> E) (e_opp : E -> E) (e_0 : E) (e_diff : nat -> E -> E) (fine : E -> Prop) : Prop := {
  arith_add : forall a b env, eval (e_add a b) env = eval a env + eval b env;
  arith_mul : forall a b env, eval (e_mul a b) env = eval a env * eval b env;
  arith_div : forall a b env, eval b env <> 0 -> eval (e_div a b) env = eval a env / eval b env;
  arith_opp : forall a env, eval (e_opp a) env = - eval a env;
  arith_0 : forall env, eval e_0 env = 0;
  arith_diff : forall e d env, fine e -> derivable_pt_lim (fun t => eval e (fun d' => if Nat.eqb d' d then t else env d')) (env d) (eval (e_diff d e) env);
  arith_fine_diff : forall e d, fine e -> fine (e_diff d e);
  arith_fine_mul : forall a b, fine a -> fine b -> fine (e_mul a b) }.

(** What is assumed of the variables of the results. *)
Record sympy_arith_vars {E : Type} (free_vars : E -> list nat) (e_add e_mul e_div : E -> E -> E) (e_opp : E -> E) (e_0 : E) (e_diff : nat -> E -> E) : Prop := {
  arith_vars_add : forall a b, incl (free_vars (e_add a b)) (free_vars a ++ free_vars b);
  arith_vars_mul : forall a b, incl (free_vars (e_mul a b)) (free_vars a ++ free_vars b);
  arith_vars_div : forall a b, incl (free_vars (e_div a b)) (free_vars a ++ free_vars b);
  arith_vars_opp : forall a, incl (free_vars (e_opp a)) (free_vars a);
  arith_vars_0 : free_vars e_0 = [];
  arith_vars_diff : forall d e, incl (free_vars (e_diff d e)) (free_vars e) }.

(** An operator on functions of the variables [dirs]. *)
Definition operator_on {E : Type} (free_vars : E -> list nat) (dirs : list nat) (a : operator E) : Prop :=
  o_dirs a = dirs /\ forall c n, In (c, n) (o_terms a) -> length n = length dirs /\ incl (free_vars c) dirs.
Definition fine_operator {E : Type} (fine : E -> Prop) (a : operator E) : Prop := forall c n, In (c, n) (o_terms a) -> fine c.

(** The value of the operator on the function with the derivatives [D], at the point [x]. *)
Definition value {E : Type} (eval : E -> (nat -> R) -> R) (env : list R -> nat -> R) (a : operator E) (D : list nat -> list R -> R) (x : list R) : R :=
  op_value (N := num_R) eval (o_terms a) (fun n => D n x) (env x).

(** A function of the variables [dirs]. *)
Definition function_on {E : Type} (free_vars : E -> list nat) (dirs : list nat) (f : func E) : Prop := f_dirs f = dirs /\ incl (free_vars (f_sym f)) dirs.

(** The product of the values of functions. *)
Definition product_value {E : Type} (eval : E -> (nat -> R) -> R) (args : list (func E)) (env : nat -> R) : R := fold_right Rmult 1 (map (fun a => eval (f_sym a) env) args).

(** For examples: expressions with exponentials and quotients; those without quotients are smooth everywhere. *)
Inductive sexpr := SNum (x : R) | SVar (d : nat) | SAdd (a b : sexpr) | SMul (a b : sexpr) | SDiv (a b : sexpr) | SOpp (a : sexpr) | SExp (a : sexpr).
Fixpoint s_eval (e : sexpr) (env : nat -> R) : R :=
  match e with
  | SNum x => x | SVar d => env d | SAdd a b => s_eval a env + s_eval b env | SMul a b => s_eval a env * s_eval b env | SDiv a b => s_eval a env / s_eval b env
  | SOpp a => - s_eval a env | SExp a => exp (s_eval a env)
  end.
Fixpoint s_vars (e : sexpr) : list nat :=
  match e with SNum _ => [] | SVar d => [d] | SAdd a b | SMul a b | SDiv a b => s_vars a ++ s_vars b | SOpp a | SExp a => s_vars a end.
Fixpoint s_diff (d : nat) (e : sexpr) : sexpr :=
  match e with
  | SNum _ => SNum 0 | SVar d' => SNum (if Nat.eqb d' d then 1 else 0) | SAdd a b => SAdd (s_diff d a) (s_diff d b) | SMul a b => SAdd (SMul (s_diff d a) b) (SMul a (s_diff d b))
  | SDiv a b => SDiv (SAdd (SMul (s_diff d a) b) (SOpp (SMul a (s_diff d b)))) (SMul b b) | SOpp a => SOpp (s_diff d a) | SExp a => SMul (SExp a) (s_diff d a)
  end.
Fixpoint s_fine (e : sexpr) : Prop :=
  match e with SNum _ | SVar _ => True | SAdd a b | SMul a b => s_fine a /\ s_fine b | SDiv _ _ => False | SOpp a | SExp a => s_fine a end.
Definition s_mono (dirs k : list nat) : sexpr := fold_right SMul (SNum 1) (concat (map (fun '(d, a) => repeat (SVar d) a) (combine dirs k))).
Definition s_is0 (e : sexpr) : bool := match e with SNum x => if Req_EM_T x 0 then true else false | _ => false end.
Fixpoint s_eqb (a b : sexpr) : bool :=
  match a, b with
  | SNum x, SNum y => if Req_EM_T x y then true else false
  | SVar d, SVar d' => Nat.eqb d d'
  | SMul a b, SMul a' b' | SAdd a b, SAdd a' b' | SDiv a b, SDiv a' b' => andb (s_eqb a a') (s_eqb b b')
  | SOpp a, SOpp a' | SExp a, SExp a' => s_eqb a a'
  | _, _ => false
  end.
