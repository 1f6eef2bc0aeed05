(** Varf.tensorize, hermipy/varf.py, and Quad.varf with the decorator tensorize_at, hermipy/quad.py. *)
From Coq Require Import String List Bool Arith.
From Verif Require Import Base IndexModel Num Fnum LinModel PyBase PosModel SeriesModel PartModel SplitModel MulModel PyQuadModel TensQuadModel.
Import ListNotations.
Local Open Scope string_scope. Local Open Scope list_scope. Local Open Scope nat_scope.

Section Tensorize.
Variable N : num.
(** See PosModel.v. *)
Variable far_from_diag : list (list N) -> bool.
(** Symbolic expressions, see SplitModel.v. *)
Variable E : Type.
Variable e_mul : E -> E -> E.
Variable e_1 : E.
Variable free_vars : E -> fset.

(** core.tensorize of a dict from frozensets of directions to dense matrices, core.py:201-250, with sparse=False: the C++ function
    tensorize(mats, dirs, index_set).  The conversions between NumPy arrays and C++ matrices are those of C27. *)
Definition core_tensorize (inp : list (fset * list (list N))) (s : iset) : res (list (list N)) :=
  tensorize_mats N s (map snd inp) (map (fun '(k, _) => fs_list k) inp).

(** Varf.tensorize with dense matrices, varf.py:38-64; [args[0]] of an empty list raises IndexError.  [mats[key] = a.matrix] is the
    assignment of SplitModel.d_set. *)
Definition varf_tensorize (args : list (varf N E)) : res (varf N E) :=
  match args with
  | [] => Throw "IndexError"
  | [a] => Ok a
  | a0 :: _ =>
      '(mats, factor) <- for_in (fun a '(mats, factor) =>
          _ <- require (iset_eqb (v_set a) (v_set a0) && (v_degree a =? v_degree a0)) "ValueError" ;;
          Ok (d_set (list (list N)) (p_dirs (v_pos a)) (v_mat a) mats, e_mul factor (f_sym (v_factor a)))) args ([], e_1) ;;
      matrix <- core_tensorize mats (v_set a0) ;;
      position <- pos_tensorize N far_from_diag (map v_pos args) ;;
      factor <- function_init E free_vars factor (p_dirs position) ;;
      varf_init N E e_1 matrix position (Some factor) (v_set a0)
  end.

(** Varf.__mul__ with a Varf, varf.py:110-113. *)
Definition varf_mul (v w : varf N E) : res (varf N E) :=
  _ <- require (iset_eqb (v_set v) (v_set w)) "ValueError" ;;
  varf_tensorize [v; w].
End Tensorize.

Section Tens.
(** See TensQuadModel.v. *)
Variable F : fnum.
Variable far_from_diag : list (list F) -> bool.
Variable E : Type.
Variable e_mul : E -> E -> E.
Variable e_1 : E.
Variable add_args mul_args : E -> list E.
Variable free_vars : E -> fset.
Variable sym_eqb : E -> E -> bool.
Variable eval : E -> (nat -> F) -> F.
Variable order : nat -> nat -> list fset -> list fset.
Variable enum : nat -> list fset -> list fset.
Variable cov_factor : list (list F) -> list (list F).
Variable junk : F.
Variable pos_eqb : position F -> position F -> bool.

(** Quad.varf of a Function with sparse=False and its decorator tensorize_at, quad.py:330-343. *)
Definition varf_tensorized (do_tensorize : bool) (q : quad F E) (f : func E) (degree : nat) (s : iset) : res (varf F E) :=
  tensorize_at F far_from_diag E e_mul e_1 add_args mul_args free_vars eval order enum (varf F E)
    (fun q f => quad_varf_fun F E e_1 free_vars eval cov_factor junk q f degree s)
    (varf_tensorize F far_from_diag E e_mul e_1 free_vars)
    (varf_scale F E e_1) (varf_add F E sym_eqb e_1 pos_eqb) do_tensorize q f.
End Tens.
