(** Quad.varfd and Quad.discretize_op, hermipy/quad.py. *)
From Coq Require Import String List Bool Arith ZArith.
From Verif Require Import Base IndexModel Num Fnum LinModel CalcModel PyBase PosModel SeriesModel PartModel SplitModel MulModel PyQuadModel OpModel.
Import ListNotations.
Local Open Scope string_scope. Local Open Scope list_scope. Local Open Scope nat_scope.

Section OpQuad.
Variable F : fnum.
(** See PyQuadModel.v, SeriesModel.v and OpModel.v. *)
Variable E : Type.
Variable e_add e_mul : E -> E -> E.
Variable e_0 e_1 : E.
Variable e_mono : list nat -> E.
Variable simplify : E -> E.
Variable is0 : E -> bool.
Variable free_vars : E -> fset.
Variable eval : E -> (nat -> F) -> F.
Variable sym_eqb : E -> E -> bool.
Variable pos_eqb : position F -> position F -> bool.
Variable cov_factor : list (list F) -> list (list F).
Variable junk : F.
(** The eigenvalues from [la.eig] (NumPy). *)
Variable la_eig : list (list F) -> list F.
(** Operator.map, operator.py:107-116: substitution and differentiation are done by sympy, which is not modelled. *)
Variable op_map : oper E -> func E -> oper E.

(** [mat/x] and [mat + x] for a number. *)
Definition mat_div (A : list (list F)) (x : F) : list (list F) := map (map (fun a => fdiv a x)) A.
Definition mat_plus (A : list (list F)) (x : F) : list (list F) := map (map (fun a => nadd a x)) A.

(** The body of the loop of Quad.varfd, quad.py:355-360; [eigval] is [la.eig(self.position.cov)[0]].  The matrix is dense
    (sparse=False), so that core.varfd, core.py:187-195, calls the generic C++ code for a boost_mat. *)
Definition varfd_step (q : quad F E) (degree : nat) (s : iset) (eigval : list F) (d : nat) (mat : list (list F)) : res (list (list F)) :=
  rel_dir <- py_index (p_dirs (q_pos q)) d ;;
  flag <- py_get (do_fourier q) rel_dir ;;
  mat <- varfd F (calc_mat F) s (p_dim (q_pos q)) degree rel_dir mat flag ;;
  e <- py_get eigval rel_dir ;;
  Ok (mat_div mat (fsqrt e)).

(** Quad.varfd of a Function, quad.py:344-362, without the decorators: tensorize=False. *)
Definition quad_varfd (q : quad F E) (f : func E) (degree : nat) (directions : list nat) (s : iset) : res (varf F E) :=
  let directions := filter (fun d => py_in d (p_dirs (q_pos q))) directions in
  var <- quad_varf_fun F E e_1 free_vars eval cov_factor junk q f degree s ;;
  let eigval := la_eig (p_cov (q_pos q)) in
  mat <- for_in (varfd_step q degree s eigval) directions (v_mat var) ;;
  varf_init F E e_1 mat (q_pos q) (Some (q_factor q)) s.

(** [sum([[d]*m[i] for i, d in enumerate(dirs)], [])], quad.py:385-386. *)
Definition d_vector (dirs m : list nat) : res (list nat) :=
  l <- mapM (fun '(i, d) => k <- py_get m i ;; Ok (repeat d k)) (combine (seq 0 (length dirs)) dirs) ;;
  Ok (concat l).

(** [0 + varf], varf.py:85-101, 120. *)
Definition varf_add_num (x : F) (v : varf F E) : res (varf F E) :=
  varf_init F E e_1 (mat_plus (v_mat v) x) (v_pos v) (Some (v_factor v)) (v_set v).

(** Quad.discretize_op of an Operator on the directions of the quadrature, quad.py:364-390, with settings['tensorize'] = False and
    dense matrices.  [hm.Function(1, dirs=...)], quad.py:372.  The coefficients of the split operator are Functions,
    operator.py:142-143. *)
Definition quad_discretize_op (q : quad F E) (op : oper E) (degree : nat) (s : iset) : res (varf F E) :=
  let dirs := p_dirs (q_pos q) in
  one <- function_init E free_vars e_1 dirs ;;
  let op := if func_eqb E sym_eqb (q_factor q) one then op else op_map op (q_factor q) in
  splitop <- op_split E e_add e_mul e_0 e_mono simplify is0 (length dirs) op ;;
  splitop <- mapM (fun '(m, e) => f <- function_init E free_vars e dirs ;; Ok (m, f)) splitop ;;
  match splitop with
  | [] =>
      zero <- function_init E free_vars e_0 dirs ;;
      quad_varf_fun F E e_1 free_vars eval cov_factor junk q zero degree s
  | _ =>
      result <- for_in (fun '(m, coeff) acc =>
          ds <- d_vector dirs m ;;
          part <- quad_varfd q coeff degree ds s ;;
          r <- match acc with
               | None => varf_add_num n0 part
               | Some v => varf_add F E sym_eqb e_1 pos_eqb v part
               end ;;
          Ok (Some r)) splitop None ;;
      match result with Some v => Ok v | None => Ub end
  end.
End OpQuad.
