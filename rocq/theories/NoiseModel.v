(** The number that McKean_Vlasov.fluxes computes from the potential Vy, hermipy/equations.py:205-223. *)
From Coq Require Import String List Bool Arith ZArith.
From Verif Require Import Base IndexModel Num Fnum PyBase PosModel SeriesModel PartModel SplitModel MulModel PyQuadModel OpModel OpQuadModel QuadIntModel QuadMakeModel EqnModel.
Import ListNotations.
Local Open Scope string_scope. Local Open Scope list_scope. Local Open Scope nat_scope.

Section Noise.
Variable F : fnum.
(** See PosModel.v. *)
Variable far_from_diag : list (list F) -> bool.
(** Symbolic expressions, see OpQuadModel.v and EqnModel.v: y is the variable number 1.  sym.exp, and a number or sym.pi as an expression. *)
Variable E : Type.
Variable e_add e_mul e_div : E -> E -> E.
Variable e_opp : E -> E.
Variable e_0 e_1 : E.
Variable e_var : nat -> E.
Variable e_sqrt e_exp : E -> E.
Variable e_diff : nat -> E -> E.
Variable e_num : F -> E.
Variable e_pi : E.
Variable e_mono : list nat -> E.
Variable simplify : E -> E.
Variable is0 : E -> bool.
Variable free_vars : E -> fset.
Variable eval : E -> (nat -> F) -> F.
Variable sym_eqb : E -> E -> bool.
Variable pos_eqb : position F -> position F -> bool.
(** See PyQuadModel.v, OpQuadModel.v, QuadIntModel.v and QuadMakeModel.v. *)
Variable cov_factor : list (list F) -> list (list F).
Variable junk tiny : F.
Variable la_eig : list (list F) -> list F.
Variable op_map : oper E -> func E -> oper E.
Variable density : position F -> E.
Variable hermegauss : nat -> list F * list F.
(** numpy.linalg.solve. *)
Variable la_solve : list (list F) -> list F -> res (list F).
(** sym.Rational(c).limit_denominator(1e8) as a number. *)
Variable limit : F -> F.

(** degree and n_points, equations.py:209. *)
Definition noise_degree : nat := 100.
Definition noise_points : nat := 201.
(** gen, equations.py:211, as an operator on functions of one variable: Vy' f' - f''. *)
Definition noise_gen (Vy : E) : oper E := [(e_diff 1 Vy, [1]); (e_opp e_1, [2])].
(** The numbers .2 and 2, equations.py:212-213. *)
Definition sigma_y : F := fdiv n1 (fofZ 5%Z).
Definition two : E := e_num (fofZ 2%Z).
(** density and gaussian, equations.py:212-213. *)
Definition noise_density (Vy : E) : E := e_exp (e_opp Vy).
Definition noise_gaussian : E :=
  e_div (e_exp (e_opp (e_div (e_mul (e_var 1) (e_var 1)) (e_mul two (e_num sigma_y))))) (e_sqrt (e_mul (e_mul two e_pi) (e_num sigma_y))).
(** factor, equations.py:215, given the integral. *)
Definition noise_factor (Vy : E) (integral : F) : E := e_sqrt (e_div noise_gaussian (e_div (noise_density Vy) (e_num integral))).

(** np.dot of two vectors, equations.py:221. *)
Definition np_inner (v w : list F) : res F :=
  if length v =? length w then Ok (fold_left (fun s '(x, y) => nadd s (nmul x y)) (combine v w) n0) else Throw "ValueError".

(** The solution of the linear system and its product with the right-hand side, equations.py:220-221. *)
Definition noise_product (A : list (list F)) (b : list F) : res F := solution <- la_solve A b ;; np_inner solution b.
(** The rational number, equations.py:222. *)
Definition noise_rational (c : F) : E := e_num (limit c).

(** The quadrature with the factor, the matrix of the generator and the coefficients of y, equations.py:216-219; the number of points and the degree are arguments here. *)
Definition noise_system_of (n_points degree : nat) (Vy : E) (integral : F) : res (list (list F) * list F) :=
  qy <- gauss_hermite F far_from_diag E free_vars hermegauss (One n_points) None (Some [1]) None (noise_factor Vy integral) None (Some [[sigma_y]]) None ;;
  L0 <- quad_discretize_op F E e_add e_mul e_0 e_1 e_mono simplify is0 free_vars eval sym_eqb pos_eqb cov_factor junk la_eig op_map qy (noise_gen Vy) degree Triangle ;;
  y <- function_init E free_vars (e_var 1) (p_dirs (q_pos qy)) ;;
  rhs <- quad_transform_fun F E e_1 free_vars eval cov_factor junk tiny qy y degree Triangle ;;
  Ok (v_mat L0, s_coeffs rhs).
(** With the numbers of equations.py:209. *)
Definition noise_system (Vy : E) (integral : F) : res (list (list F) * list F) := noise_system_of noise_points noise_degree Vy integral.
(** All of it, equations.py:209-223, with [integrate] for Quad.integrate with flat=True; the result is the number under the root together with 1/beta. *)
Definition noise_with_of (n_points degree : nat) (integrate : quad F E -> func E -> res F) (Vy : E) : res E :=
  q <- gauss_hermite F far_from_diag E free_vars hermegauss (One n_points) None (Some [1]) None e_1 None None None ;;
  f <- function_init E free_vars (noise_density Vy) (p_dirs (q_pos q)) ;;
  integral <- integrate q f ;;
  '(A, b) <- noise_system_of n_points degree Vy integral ;;
  c <- noise_product A b ;;
  Ok (noise_rational c).
(** With the numbers of equations.py:209. *)
Definition noise_with (integrate : quad F E -> func E -> res F) (Vy : E) : res E := noise_with_of noise_points noise_degree integrate Vy.
(** With settings['tensorize'] = False. *)
Definition noise_number (Vy : E) : res E :=
  noise_with (fun q f => quad_integrate_fun F E e_1 free_vars eval cov_factor junk tiny density q f true) Vy.
End Noise.
