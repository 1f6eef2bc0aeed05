(** Derivatives of basis functions and Galerkin matrices of differential operators. *)
From Coq Require Import List Arith Reals.
From Verif Require Import Base IndexModel Num Fnum LinSpec CalcSpec PosModel SeriesModel OpSpec PyQuadModel PyQuadSpec.
Import ListNotations.
Local Open Scope R_scope.

(** The basis function of the multi-index [m] in the coordinates x = mean + sqrt(variance) y. *)
Definition psi (mean vars : list R) (flags m : list nat) (x : list R) : R := phi flags m (standardised mean vars x).

(** [h] is the partial derivative of [f] with respect to coordinate number [k], for points with [dim] coordinates. *)
Definition partial (dim k : nat) (f h : list R -> R) : Prop :=
  forall x, length x = dim -> derivable_pt_lim (fun t => f (with_entry x k t)) (nth k x 0) (h x).
(** [g] is the derivative of [f] with respect to the coordinates [ks], the last one first. *)
Fixpoint deriv_along (dim : nat) (ks : list nat) (f g : list R -> R) : Prop :=
  match ks with
  | [] => forall x, length x = dim -> g x = f x
  | k :: ks => exists h, deriv_along dim ks f h /\ partial dim k h g
  end.
(** Coordinate number [k] [n_k] times, for every [k]. *)
Definition coordinates (n : list nat) : list nat := concat (map (fun '(k, a) => repeat k a) (combine (seq 0 (length n)) n)).
(** [D n] is the derivative of [f] of the orders [n], for every list [n] of [dim] orders of sum at most 5. *)
Definition derivatives (dim : nat) (f : list R -> R) (D : list nat -> list R -> R) : Prop :=
  forall n, length n = dim -> (order n <= 5)%nat -> deriv_along dim (coordinates n) f (D n).

(** The coordinates [ks] are the directions in the list [directions], in the same order, without those that are not in [dirs]. *)
Definition coordinates_of (dirs directions ks : list nat) : Prop :=
  map (nth_error dirs) ks = map Some (filter (fun d => existsb (Nat.eqb d) dirs) directions).

(** [env x] gives the variables [dirs] the coordinates of the point [x]. *)
Definition assigns (dirs : list nat) (env : list R -> nat -> R) : Prop := forall x, length x = length dirs -> at_point dirs x (env x).

(** What is assumed of the eigenvalues of NumPy: those of a diagonal matrix are its diagonal, in order. *)
Definition eig_ok (la_eig : list (list R) -> list R) : Prop := forall l, la_eig (diag_mat fnum_R l) = l.

(** What is assumed of the variables of sympy's expressions. *)
Record sympy_lin_vars {E : Type} (e_add e_mul : E -> E -> E) (e_0 e_1 : E) (e_mono : list nat -> E) (simplify : E -> E) (free_vars : E -> list nat) (dirs : list nat) : Prop := {
  lin_vars_add : forall a b, incl (free_vars (e_add a b)) (free_vars a ++ free_vars b);
  lin_vars_mul : forall a b, incl (free_vars (e_mul a b)) (free_vars a ++ free_vars b);
  lin_vars_0 : free_vars e_0 = [];
  lin_vars_1 : free_vars e_1 = [];
  lin_vars_mono : forall k, length k = length dirs -> incl (free_vars (e_mono k)) dirs;
  lin_vars_simplify : forall e, incl (free_vars (simplify e)) (free_vars e) }.

(** Operator.map(factor) gives the operator f -> op(factor f) / factor: it is linear with terms of order at most 5 whose
    coefficients have no other variables, and has these values for every function with derivatives, where the factor is not 0. *)
Definition maps {E : Type} (eval : E -> (nat -> R) -> R) (free_vars : E -> list nat) (dirs : list nat) (env : list R -> nat -> R) (op : list (E * list nat)) (factor : func E) (op' : list (E * list nat)) : Prop :=
  (forall c n, In (c, n) op' -> length n = length dirs /\ (order n <= 5)%nat /\ incl (free_vars c) dirs) /\
  forall f D D' x, derivatives (length dirs) f D -> derivatives (length dirs) (fun x => eval (f_sym factor) (env x) * f x) D' -> length x = length dirs -> eval (f_sym factor) (env x) <> 0 ->
    op_value (N := num_R) eval op' (fun n => D n x) (env x) = op_value (N := num_R) eval op (fun n => D' n x) (env x) / eval (f_sym factor) (env x).
(** The quadrature of a function. *)
Definition integral (nodes weights : list (list R)) (g : list R -> R) : R := quadrature nodes weights (map (fun _ => 1) (grid nodes)) g.

(** The conditions on the rules, the degree and the index set. *)
Definition setting {E : Type} (q : quad fnum_R E) (vars : list R) (s : iset) (degree : nat) : Prop :=
  quad_R q vars /\ rules_match (q_nodes q) (q_weights q) /\ usable s (length vars) degree /\ fits s (length vars) (2 * degree) /\
  flags_ok s degree (kinds (p_types (q_pos q))) /\ closed_products s degree (kinds (p_types (q_pos q))).

(** For examples: the diagonal of a matrix, and further functions on the expressions of PyQuadSpec.v. *)
Definition r_la_eig (m : list (list R)) : list R := map (fun i => nth i (nth i m []) 0) (seq 0 (length m)).
Definition r_is0 (e : rexpr) : bool := match e with RNum x => if Req_EM_T x 0 then true else false | _ => false end.
Definition r_mono (dirs k : list nat) : rexpr := fold_right RMul (RNum 1) (concat (map (fun '(d, a) => repeat (RVar d) a) (combine dirs k))).
Fixpoint r_eqb (a b : rexpr) : bool :=
  match a, b with
  | RNum x, RNum y => if Req_EM_T x y then true else false
  | RVar d, RVar d' => Nat.eqb d d'
  | RMul a b, RMul a' b' | RAdd a b, RAdd a' b' => andb (r_eqb a a') (r_eqb b b')
  | _, _ => false
  end.
