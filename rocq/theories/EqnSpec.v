(** Differential operators on real functions, for the equations of equations.py. *)
From Coq Require Import List Arith Reals.
From Verif Require Import Base Num LinSpec CalcSpec PyQuadSpec OpSpec OpQuadSpec OpModel OpArithModel OpArithSpec.
Import ListNotations.
Local Open Scope R_scope.

(** [D n] is the derivative of [f] of the orders [n], for every list [n] of [dim] orders of sum at most 2; mixed derivatives commute. *)
Definition twice (dim : nat) (f : list R -> R) (D : list nat -> list R -> R) : Prop :=
  (forall x, length x = dim -> D (repeat 0%nat dim) x = f x) /\
  forall n k, length n = dim -> (k < dim)%nat -> (order n <= 1)%nat -> partial dim k (D n) (D (with_entry n k (S (nth k n 0%nat)))).

(** The value of the operator on the function with the derivatives [D], at the point [x]; the variable number d is coordinate number d. *)
Definition apply_to {E : Type} (eval : E -> (nat -> R) -> R) (l : oper E) (D : list nat -> list R -> R) (x : list R) : R :=
  op_value (N := num_R) eval l (fun n => D n x) (fun d => nth d x 0).

Section Expressions.
Context {E : Type}.
Variable eval : E -> (nat -> R) -> R.
Variable free_vars : E -> list nat.
Variable fine : E -> Prop.

(** A parameter with the value [b]. *)
Definition number (e : E) (b : R) : Prop := free_vars e = [] /\ fine e /\ forall env, eval e env = b.
(** A function of one variable, with its derivative. *)
Definition potential (e : E) (k : nat) (v v' : R -> R) : Prop :=
  fine e /\ incl (free_vars e) [k] /\ (forall env, eval e env = v (env k)) /\ forall t, derivable_pt_lim v t (v' t).

(** What is assumed of sympy besides OpArithSpec.sympy_arith: 1, variables and square roots, and which results have no singularities. *)
Record sympy_calc (e_add e_mul e_div : E -> E -> E) (e_opp : E -> E) (e_1 : E) (e_var : nat -> E) (e_sqrt : E -> E) : Prop := {
  calc_1 : number e_1 1;
  calc_var : forall d, fine (e_var d) /\ free_vars (e_var d) = [d] /\ forall env, eval (e_var d) env = env d;
  calc_sqrt : forall e b, number e b -> number (e_sqrt e) (sqrt b);
  calc_add : forall a b, fine a -> fine b -> fine (e_add a b);
  calc_opp : forall a, fine a -> fine (e_opp a);
  calc_div : forall a b c, fine a -> number b c -> c <> 0 -> fine (e_div a b) }.
End Expressions.

(** [h] is the divergence of the vector field with the components [J]. *)
Definition divergence (dim : nat) (J : list (list R -> R)) (h : list R -> R) : Prop :=
  length J = dim /\ exists G : list (list R -> R),
  (forall k, (k < dim)%nat -> partial dim k (nth k J (fun _ => 0)) (nth k G (fun _ => 0))) /\
  forall x, length x = dim -> h x = rsum (map (fun k => nth k G (fun _ => 0) x) (seq 0 dim)).

(** One derivative in coordinate [k]; one more in coordinate [j]. *)
Definition once (dim k : nat) : list nat := with_entry (repeat 0%nat dim) k 1%nat.
Definition again (dim j k : nat) : list nat := with_entry (once dim k) j (S (nth j (once dim k) 0%nat)).

(** The generator of the diffusion with the given drift and the constant diffusion matrix: the value on f is
    the sum of drift_k ∂_k f and of diffusion_jk ∂_j ∂_k f. *)
Definition generator {E : Type} (eval : E -> (nat -> R) -> R) (dim : nat) (l : oper E) (drift : list R -> list R) (diffusion : list (list R)) : Prop :=
  forall f D x, twice dim f D -> length x = dim ->
  apply_to eval l D x = rsum (map (fun k => nth k (drift x) 0 * D (once dim k) x) (seq 0 dim)) +
                        rsum (map (fun j => rsum (map (fun k => nth k (nth j diffusion []) 0 * D (again dim j k) x) (seq 0 dim))) (seq 0 dim)).
(** The carré du champ of [f] and [g], times 2. *)
Definition champ2 (dim : nat) (diffusion : list (list R)) (Df Dg : list nat -> list R -> R) (x : list R) : R :=
  rsum (map (fun j => rsum (map (fun k => nth k (nth j diffusion []) 0 * (Df (once dim j) x * Dg (once dim k) x + Df (once dim k) x * Dg (once dim j) x)) (seq 0 dim))) (seq 0 dim)).

(** All that is assumed of sympy for the equations. *)
Definition sympy_eqn {E : Type} (eval : E -> (nat -> R) -> R) (free_vars : E -> list nat) (fine : E -> Prop) (e_add e_mul e_div : E -> E -> E) (e_opp : E -> E) (e_0 e_1 : E) (e_var : nat -> E) (e_sqrt : E -> E)
  (e_diff : nat -> E -> E) : Prop :=
  sympy_arith eval e_add e_mul e_div e_opp e_0 e_diff fine /\ sympy_arith_vars free_vars e_add e_mul e_div e_opp e_0 e_diff /\ reads_free eval free_vars /\
  sympy_calc eval free_vars fine e_add e_mul e_div e_opp e_1 e_var e_sqrt.
