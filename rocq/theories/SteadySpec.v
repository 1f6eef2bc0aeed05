(** Gaussian densities and what is assumed of sympy, for solve_gaussian (C103). *)
From Coq Require Import List Bool Arith Reals.
From Verif Require Import Base Num LinSpec CalcSpec OpSpec OpModel EqnSpec SteadyModel.
Import ListNotations.
Local Open Scope R_scope.

(** The determinant of a square matrix, expanded along the first row. *)
Definition without {A} (j : nat) (l : list A) : list A := firstn j l ++ skipn (S j) l.
Fixpoint det (n : nat) (M : list (list R)) : R :=
  match n, M with
  | S n, r :: M => rsum (map (fun j => (-1) ^ j * nth j r 0 * det n (map (without j) M)) (seq 0 (S n)))
  | _, _ => 1
  end.
(** x . C x, and the density of the centred Gaussian with the precision matrix (the inverse of the covariance matrix) C. *)
Definition form (dim : nat) (C : list (list R)) (x : list R) : R := rsum (map (fun j => rsum (map (fun k => nth k (nth j C []) 0 * nth j x 0 * nth k x 0) (seq 0 dim))) (seq 0 dim)).
Definition density (dim : nat) (C : list (list R)) (x : list R) : R := sqrt (det dim C / (2 * PI) ^ dim) * exp (- (1 / 2) * form dim C x).

(** The first [dim] variables have the values [x], the others those that [p] says. *)
Definition point (dim : nat) (x : list R) (p : nat -> R) : nat -> R := fun d => if (d <? dim)%nat then nth d x 0 else p d.
Definition set_var (k : nat) (v : R) (p : nat -> R) : nat -> R := fun d => if (d =? k)%nat then v else p d.
Definition set_vars (l : list (nat * R)) (p : nat -> R) : nat -> R := fold_right (fun '(k, v) p => set_var k v p) p l.

Section Contract.
Context {E : Type}.
Variable eval : E -> (nat -> R) -> R.
Variable free_vars : E -> list nat.
(** The value of the operator on the function with the derivatives [D], at [x], for the values [p] of the parameters. *)
Definition op_at (dim : nat) (l : oper E) (D : list nat -> list R -> R) (x : list R) (p : nat -> R) : R := rsum (map (fun '(c, n) => eval c (point dim x p) * D n x) l).

(** Arithmetic. *)
Record sympy_values (e_add e_mul e_div : E -> E -> E) (e_opp : E -> E) (e_1 e_pi : E) (e_var : nat -> E) (e_sqrt e_exp : E -> E) (e_subs : nat -> E -> E -> E) : Prop := {
  v_add : forall a b env, eval (e_add a b) env = eval a env + eval b env;
  v_mul : forall a b env, eval (e_mul a b) env = eval a env * eval b env;
  v_div : forall a b env, eval b env <> 0 -> eval (e_div a b) env = eval a env / eval b env;
  v_opp : forall a env, eval (e_opp a) env = - eval a env;
  v_1 : forall env, eval e_1 env = 1;
  v_pi : forall env, eval e_pi env = PI;
  v_var : forall k env, eval (e_var k) env = env k;
  v_sqrt : forall a env, 0 <= eval a env -> eval (e_sqrt a) env = sqrt (eval a env);
  v_exp : forall a env, eval (e_exp a) env = exp (eval a env);
  v_subs : forall k a e env, eval (e_subs k a e) env = eval e (set_var k (eval a env) env) }.

(** The symbols of the ansatz. *)
Definition symbols (dim : nat) : list nat := match dim with 1 => [1] | 2 => [2; 3; 4] | 3 => [3; 4; 5; 6; 7; 8] | _ => [] end%nat.
(** The values of the parameters and of the symbols that are considered, [ok]: this does not depend on the variables, and s2 is positive. *)
Definition allowed (dim : nat) (ok : (nat -> R) -> Prop) : Prop := (forall x p, ok p -> ok (point dim x p)) /\ (dim = 1%nat -> forall p, ok p -> 0 < p 1%nat).

(** The quotient of the operator applied to the ansatz by the ansatz, for an ansatz that is not zero anywhere. *)
Definition ratio_right (dim : nat) (ok : (nat -> R) -> Prop) (ratio : oper E -> E -> E) (l : oper E) (ansatz : E) : Prop :=
  forall p D, ok p -> twice dim (fun x => eval ansatz (point dim x p)) D -> (forall x, length x = dim -> eval ansatz (point dim x p) <> 0) ->
  forall x, length x = dim -> eval (ratio l ansatz) (point dim x p) = op_at dim l D x p / eval ansatz (point dim x p).
(** The coefficients of a polynomial: they do not depend on the variables, and with the monomials they give the polynomial. *)
Definition poly_right (dim : nat) (ok : (nat -> R) -> Prop) (poly_dict : list nat -> E -> option (list (list nat * E))) : Prop :=
  forall e l, poly_dict (seq 0 dim) e = Some l -> (forall m c, In (m, c) l -> forall d, In d (free_vars c) -> (dim <= d)%nat) /\
  forall p x, ok p -> length x = dim -> eval e (point dim x p) = rsum (map (fun '(m, c) => eval c (point dim x p) * rprod (map (fun k => nth k x 0 ^ nth k m 0%nat) (seq 0 dim))) l).
(** Solutions: expressions in the parameters alone, for which all the equations hold. *)
Definition solution_right (dim : nat) (ok : (nat -> R) -> Prop) (eqs sol : list E) : Prop :=
  length sol = length (symbols dim) /\ (forall e d, In e sol -> In d (free_vars e) -> (dim <= d)%nat /\ ~ In d (symbols dim)) /\
  forall p, ok p -> let p' := set_vars (combine (symbols dim) (map (fun e => eval e p) sol)) p in ok p' /\ forall e, In e eqs -> eval e p' = 0.
Definition solve_right (dim : nat) (ok : (nat -> R) -> Prop) (solve : list E -> list nat -> answer E) : Prop :=
  forall eqs, match solve eqs (symbols dim) with
  | AList l => forall sol, In sol l -> solution_right dim ok eqs sol
  | ADict l => forall e, map fst l = symbols dim -> map snd l = [e] -> solution_right dim ok eqs [e]
  end.

(** The operator has derivatives of order at most 2 with respect to the [dim] variables, and does not contain the symbols. *)
Definition second_order (dim : nat) (l : oper E) : Prop := forall c n, In (c, n) l -> length n = dim /\ (order n <= 2)%nat /\ forall d, In d (free_vars c) -> ~ In d (symbols dim).

(** The precision matrix that an answer of sym.solve means. *)
Definition precision (dim : nat) (a : answer E) (p : nat -> R) : option (list (list R)) :=
  match dim, a with
  | 1%nat, ADict [(1%nat, s2)] => Some [[1 / eval s2 p]]
  | 2%nat, AList ([cx; cxy; cy] :: _) => Some [[eval cx p; eval cxy p]; [eval cxy p; eval cy p]]
  | 3%nat, AList ([cx; cy; cz; cxy; cyz; cxz] :: _) => Some [[eval cx p; eval cxy p; eval cxz p]; [eval cxy p; eval cy p; eval cyz p]; [eval cxz p; eval cyz p; eval cz p]]
  | _, _ => None
  end.
End Contract.

(** For examples: expressions. *)
Inductive gexpr := GNum (x : R) | GVar (d : nat) | GAdd (a b : gexpr) | GMul (a b : gexpr) | GDiv (a b : gexpr) | GOpp (a : gexpr) | GSqrt (a : gexpr) | GExp (a : gexpr).
Fixpoint g_eval (e : gexpr) (env : nat -> R) : R :=
  match e with
  | GNum x => x | GVar d => env d | GAdd a b => g_eval a env + g_eval b env | GMul a b => g_eval a env * g_eval b env | GDiv a b => g_eval a env / g_eval b env
  | GOpp a => - g_eval a env | GSqrt a => sqrt (g_eval a env) | GExp a => exp (g_eval a env)
  end.
Fixpoint g_vars (e : gexpr) : list nat :=
  match e with GNum _ => [] | GVar d => [d] | GAdd a b | GMul a b | GDiv a b => g_vars a ++ g_vars b | GOpp a | GSqrt a | GExp a => g_vars a end.
Fixpoint g_subs (k : nat) (v e : gexpr) : gexpr :=
  match e with
  | GNum x => GNum x | GVar d => if (d =? k)%nat then v else GVar d | GAdd a b => GAdd (g_subs k v a) (g_subs k v b) | GMul a b => GMul (g_subs k v a) (g_subs k v b) | GDiv a b => GDiv (g_subs k v a) (g_subs k v b)
  | GOpp a => GOpp (g_subs k v a) | GSqrt a => GSqrt (g_subs k v a) | GExp a => GExp (g_subs k v a)
  end.
Definition g_dec : forall a b : gexpr, {a = b} + {a <> b}.
Proof. decide equality; [apply Req_EM_T|apply Nat.eq_dec]. Defined.
(** The polynomial with the coefficients [dict], and a sympy that knows one polynomial and the solution of its equations. *)
Definition g_mono (m : list nat) : gexpr := fold_right GMul (GNum 1) (map (fun k => fold_right GMul (GNum 1) (repeat (GVar k) (nth k m 0%nat))) (seq 0 (length m))).
Definition g_poly (dict : list (list nat * gexpr)) : gexpr := fold_right GAdd (GNum 0) (map (fun '(m, c) => GMul c (g_mono m)) dict).
Definition g_poly_dict (dict : list (list nat * gexpr)) (vars : list nat) (e : gexpr) : option (list (list nat * gexpr)) := if g_dec e (g_poly dict) then Some dict else None.
Definition g_solve (dict : list (list nat * gexpr)) (a : answer gexpr) (eqs : list gexpr) (syms : list nat) : answer gexpr := if list_eq_dec g_dec eqs (map snd dict) then a else AList [].
