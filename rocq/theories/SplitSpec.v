(** Expressions and the groups of variables of a product. *)
From Coq Require Import List Bool Arith.
From Verif Require Import Num LinSpec.
Import ListNotations.

Section Spec.
Variable N : num.
Variable E : Type.
(** The value of an expression, given the values of the variables. *)
Variable eval : E -> (nat -> N) -> N.

(** What is assumed of sympy: multiplication multiplies, 1 is 1, an Add is the sum of its arguments and a Mul the
    product of its arguments, and an expression depends only on its free variables. *)
Record sympy_ok (e_mul : E -> E -> E) (e_1 : E) (add_args mul_args : E -> list E) (free_vars : E -> list nat) : Prop := {
  ok_mul : forall a b env, eval (e_mul a b) env = nmul (eval a env) (eval b env);
  ok_1 : forall env, eval e_1 env = n1;
  ok_add_args : forall e env, eval e env = nsum (map (fun a => eval a env) (add_args e));
  ok_mul_args : forall e env, eval e env = nprod (map (fun a => eval a env) (mul_args e));
  ok_free : forall e env env', (forall x, In x (free_vars e) -> env x = env' x) -> eval e env = eval e env' }.

(** [e] depends only on the variables in [k]. *)
Definition depends_on (e : E) (k : list nat) : Prop := forall env env', (forall x, In x k -> env x = env' x) -> eval e env = eval e env'.

(** Two groups of variables with nothing in common that are not both empty. *)
Definition apart (a b : list nat) : Prop := (forall x, In x a -> ~ In x b) /\ (a <> [] \/ b <> []).

(** The constant factors and the factors in (some of) the variables [dirs] only. *)
Variable free_vars : E -> list nat.
Definition constant (e : E) : bool := match free_vars e with [] => true | _ => false end.
Definition inside (dirs : list nat) (e : E) : bool := negb (constant e) && forallb (fun x => existsb (Nat.eqb x) dirs) (free_vars e).
Definition product (l : list E) (env : nat -> N) : N := nprod (map (fun e => eval e env) l).
(** A factor that has variables both inside and outside [dirs]. *)
Definition straddles (dirs : list nat) (e : E) : Prop := (exists x, In x (free_vars e) /\ In x dirs) /\ (exists y, In y (free_vars e) /\ ~ In y dirs).
End Spec.
Arguments depends_on {N E}. Arguments constant {E}. Arguments inside {E}. Arguments product {N E}. Arguments straddles {E}. Arguments sympy_ok {N E}.

(** A small language of expressions with integer values, to show that the assumptions can be met. *)
From Coq Require Import ZArith.
Inductive expr := EInt (z : Z) | EVar (x : nat) | EMul (a b : expr) | EAdd (a b : expr) | EAbs (a : expr).
Fixpoint x_eval (e : expr) (env : nat -> num_Z) : num_Z :=
  match e with
  | EInt z => z
  | EVar x => env x
  | EMul a b => (x_eval a env * x_eval b env)%Z
  | EAdd a b => (x_eval a env + x_eval b env)%Z
  | EAbs a => Z.abs (x_eval a env)
  end.
Fixpoint x_mul_args (e : expr) : list expr := match e with EMul a b => x_mul_args a ++ x_mul_args b | _ => [e] end.
Fixpoint x_add_args (e : expr) : list expr := match e with EAdd a b => x_add_args a ++ x_add_args b | _ => [e] end.
Fixpoint x_free (e : expr) : list nat :=
  match e with EInt _ => [] | EVar x => [x] | EMul a b | EAdd a b => x_free a ++ x_free b | EAbs a => x_free a end.
