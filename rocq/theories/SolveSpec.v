(** Linear systems. *)
From Coq Require Import String List Bool Arith.
From Verif Require Import Base IndexModel Spec Num LinSpec PosModel PosSpec SeriesModel SeriesSpec PartModel SplitModel SplitSpec MulSpec.
Import ListNotations.

(** The dot product, the product of a matrix and a vector. *)
Definition dot {N : num} (v w : list N) : N := nsum (map (fun '(x, y) => nmul x y) (combine v w)).
Definition matvec {N : num} (A : list (list N)) (x : list N) : list N := map (fun row => dot row x) A.

(** What the linear solver returns is a solution, with as many components as the matrix (which is square) has rows. *)
Definition solves {N : num} (lin_solve : list (list N) -> list N -> res (list N)) : Prop :=
  forall A b x, lin_solve A b = Ok x -> length x = length A /\ matvec A x = b.

(** A variational form and a series or right-hand side on the same directions [d] (increasing), with the same index set and degree; the degree is one that the constructors give
    (a cross has degree 1 at least; cross_nc of degree 1 is that of degree 0). *)
Definition on_same {N : num} {Sym} (a : varf N Sym) (f : series N Sym) (d : list nat) : Prop :=
  varf_ok a (length d) /\ series_ok f (length d) /\ p_dirs (v_pos a) = d /\ p_dirs (s_pos f) = d /\ increasing d /\ pos_ok (v_pos a) /\ pos_ok (s_pos f) /\
  ~ conflict [s_pos f; v_pos a] /\ v_set a = s_set f /\ v_degree a = s_degree f /\ (s_set f = Cross -> 1 <= s_degree f) /\ (s_set f = CrossNc -> s_degree f <> 1).

(** The matrix with the vector [v] as an additional row and column, and 0 in the corner. *)
Definition bordered_matrix {N : num} (A : list (list N)) (v : list N) : list (list N) := map (fun '(row, x) => row ++ [x]) (combine A v) ++ [v ++ [n0]].

(** The factors of the series [vec] and of the variational form [a] can be projected on all the directions (they are products), the projections are equal,
    and sympy simplifies the quotients of the factors by the projections to constants. *)
Definition factors_match {N : num} {E : Type} (e_mul e_div : E -> E -> E) (e_1 : E) (add_args mul_args : E -> list E) (free_vars : E -> list nat) (sym_eqb : E -> E -> bool)
    (vec : series N E) (a : varf N E) (d : list nat) : Prop :=
  exists p q, fun_project E e_mul e_1 add_args mul_args free_vars (s_factor vec) d = Ok p /\ fun_project E e_mul e_1 add_args mul_args free_vars (v_factor a) d = Ok q /\
    func_eqb E sym_eqb p p = true /\ func_eqb E sym_eqb p q = true /\
    free_vars (e_mul (e_div (f_sym (s_factor vec)) (f_sym p)) (e_div (f_sym (s_factor vec)) (f_sym p))) = [] /\
    free_vars (e_mul (e_div (f_sym (s_factor vec)) (f_sym p)) (e_div (f_sym (v_factor a)) (f_sym q))) = [].

(** For the examples: a variational form of degree 1 on the directions [d], and a solver that knows one system (equality of the numbers is decided by [eqb]). *)
Definition varf_x {N : num} (d : list nat) (factor : expr) (mat : list (list N)) : varf N expr := Vf mat (std_pos d) Triangle 1 (Fn factor d).
Definition knows {N : num} (dec : forall x y : N, {x = y} + {x <> y}) (A0 : list (list N)) (b0 x0 : list N) (A : list (list N)) (b : list N) : res (list N) :=
  if list_eq_dec (list_eq_dec dec) A A0 then if list_eq_dec dec b b0 then Ok x0 else Throw "LinAlgError" else Throw "LinAlgError".
