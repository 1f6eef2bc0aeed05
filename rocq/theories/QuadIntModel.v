(** Quad.integrate and Quad.norm, hermipy/quad.py:256-284. *)
From Coq Require Import String List Bool Arith.
From Verif Require Import Base IndexModel Num Fnum CalcModel PyBase PosModel SeriesModel PartModel SplitModel MulModel PyQuadModel TensQuadModel.
Import ListNotations.
Local Open Scope string_scope. Local Open Scope list_scope. Local Open Scope nat_scope.

Section Integrate.
Variable F : fnum.
(** See PosModel.v. *)
Variable far_from_diag : list (list F) -> bool.
(** Symbolic expressions, see SplitModel.v and PyQuadModel.v. *)
Variable E : Type.
Variable e_mul : E -> E -> E.
Variable e_1 : E.
Variable add_args mul_args : E -> list E.
Variable free_vars : E -> fset.
Variable eval : E -> (nat -> F) -> F.
(** See TensQuadModel.v. *)
Variable order : nat -> nat -> list fset -> list fset.
Variable enum : nat -> list fset -> list fset.
(** See PyQuadModel.v. *)
Variable cov_factor : list (list F) -> list (list F).
Variable la_inv : list (list F) -> res (list (list F)).
Variable far_from_diag8 : list (list F) -> bool.
Variable junk : F.
Variable tiny : F.
(** The density that Position.weight builds for the Hermite directions, position.py:135-140, as an expression. *)
Variable density : position F -> E.

(** Position.weight, position.py:131-140. *)
Definition pos_weight (p : position F) : E :=
  let ind := filter (fun t => String.eqb t "hermite") (p_types p) in
  if length ind =? 0 then e_1 else density p.

(** Quad.integrate of an array, quad.py:263-274, without the decorator.  [self.discretize] makes a Function of an expression,
    quad.py:250-251.  The conversions of core.integrate, core.py:136-143, do not change the values. *)
Definition quad_integrate (q : quad F E) (function : list F) (flat : bool) : res F :=
  function <- (if flat then
      w <- function_init E free_vars (pos_weight (q_pos q)) (p_dirs (q_pos q)) ;;
      w_grid <- quad_discretize F E free_vars eval cov_factor junk q w ;;
      np_vec F fdiv function (map (fun w => nadd (nmul tiny (if neqb w n0 then n1 else n0)) w) w_grid)
    else Ok function) ;;
  integrate F function (q_nodes q) (q_weights q) (do_fourier q).
(** The same for a Function, with tensorize=False, quad.py:262-263, and for a Series, quad.py:259-260. *)
Definition quad_integrate_fun (q : quad F E) (f : func E) (flat : bool) : res F :=
  function <- quad_discretize F E free_vars eval cov_factor junk q f ;; quad_integrate q function flat.
Definition quad_integrate_series (q : quad F E) (f : series F E) (flat : bool) : res F :=
  function <- quad_eval F E free_vars eval cov_factor la_inv far_from_diag8 junk q f ;; quad_integrate q function flat.

(** core.tensorize of a dict of numbers: their product, core.py:204-209. *)
Definition np_prod (l : list F) : res F := Ok (fold_left nmul l n1).

(** Quad.integrate of a Function with its decorator tensorize_at, quad.py:256-257. *)
Definition integrate_tensorized (do_tensorize : bool) (q : quad F E) (f : func E) (flat : bool) : res F :=
  tensorize_at F far_from_diag E e_mul e_1 add_args mul_args free_vars eval order enum F
    (fun q f => quad_integrate_fun q f flat) np_prod (fun c x => Ok (nmul x c)) (fun x y => Ok (nadd x y)) do_tensorize q f.

(** Quad.norm of an array, quad.py:276-285; it returns None unless n is 1 or 2.  tensorize_at leaves arrays alone, quad.py:197-199. *)
Definition quad_norm (q : quad F E) (function : list F) (n : nat) (flat : bool) : res (option F) :=
  if n =? 2 then x <- quad_integrate q (map (fun y => nmul y y) function) flat ;; Ok (Some (fsqrt x))
  else if n =? 1 then x <- quad_integrate q (map fabs function) flat ;; Ok (Some x)
  else Ok None.
(** The same for a Series, quad.py:279-280. *)
Definition quad_norm_series (q : quad F E) (f : series F E) (n : nat) (flat : bool) : res (option F) :=
  function <- quad_eval F E free_vars eval cov_factor la_inv far_from_diag8 junk q f ;; quad_norm q function n flat.
End Integrate.
