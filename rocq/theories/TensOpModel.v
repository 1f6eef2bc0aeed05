(** Quad.varfd and Quad.discretize_op with the decorator tensorize_at, hermipy/quad.py. *)
From Coq Require Import String List Bool Arith.
From Verif Require Import Base IndexModel Num Fnum LinModel PyBase PosModel SeriesModel PartModel SplitModel MulModel PyQuadModel OpModel OpQuadModel TensQuadModel TensVarfModel.
Import ListNotations.
Local Open Scope string_scope. Local Open Scope list_scope. Local Open Scope nat_scope.

Section Tens.
(** See TensQuadModel.v and OpQuadModel.v. *)
Variable F : fnum.
Variable far_from_diag : list (list F) -> bool.
Variable E : Type.
Variable e_add e_mul : E -> E -> E.
Variable e_0 e_1 : E.
Variable e_mono : list nat -> E.
Variable simplify : E -> E.
Variable is0 : E -> bool.
Variable add_args mul_args : E -> list E.
Variable free_vars : E -> fset.
Variable sym_eqb : E -> E -> bool.
Variable eval : E -> (nat -> F) -> F.
Variable cov_factor : list (list F) -> list (list F).
Variable junk : F.
Variable la_eig : list (list F) -> list F.
Variable op_map : oper E -> func E -> oper E.
Variable pos_eqb : position F -> position F -> bool.

(** Quad.varfd of a Function with its decorator tensorize_at, quad.py:344-362 and 179-238: every group of directions gets the same list
    [directions], of which Quad.varfd takes those in the projected quadrature. *)
Definition varfd_tensorized (order : nat -> nat -> list fset -> list fset) (enum : nat -> list fset -> list fset) (do_tensorize : bool)
    (q : quad F E) (f : func E) (degree : nat) (directions : list nat) (s : iset) : res (varf F E) :=
  tensorize_at F far_from_diag E e_mul e_1 add_args mul_args free_vars eval order enum (varf F E)
    (fun q f => quad_varfd F E e_1 free_vars eval cov_factor junk la_eig q f degree directions s)
    (varf_tensorize F far_from_diag E e_mul e_1 free_vars)
    (varf_scale F E e_1) (varf_add F E sym_eqb e_1 pos_eqb) do_tensorize q f.

(** Quad.discretize_op, quad.py:364-390, with settings['tensorize'] = [do_tensorize]; [order] and [enum] give the orders of enumeration of
    sets in each call of varf or varfd. *)
Definition discretize_op_tensorized (order : nat -> nat -> nat -> list fset -> list fset) (enum : nat -> nat -> list fset -> list fset) (do_tensorize : bool)
    (q : quad F E) (op : oper E) (degree : nat) (s : iset) : res (varf F E) :=
  let dirs := p_dirs (q_pos q) in
  one <- function_init E free_vars e_1 dirs ;;
  let op := if func_eqb E sym_eqb (q_factor q) one then op else op_map op (q_factor q) in
  splitop <- op_split E e_add e_mul e_0 e_mono simplify is0 (length dirs) op ;;
  splitop <- mapM (fun '(m, e) => f <- function_init E free_vars e dirs ;; Ok (m, f)) splitop ;;
  match splitop with
  | [] =>
      zero <- function_init E free_vars e_0 dirs ;;
      varf_tensorized F far_from_diag E e_mul e_1 add_args mul_args free_vars sym_eqb eval (order 0) (enum 0) cov_factor junk pos_eqb do_tensorize q zero degree s
  | _ =>
      result <- for_in (fun '(i, (m, coeff)) acc =>
          ds <- d_vector dirs m ;;
          part <- varfd_tensorized (order i) (enum i) do_tensorize q coeff degree ds s ;;
          r <- match acc with
               | None => varf_add_num F E e_1 n0 part
               | Some v => varf_add F E sym_eqb e_1 pos_eqb v part
               end ;;
          Ok (Some r)) (combine (seq 0 (length splitop)) splitop) None ;;
      match result with Some v => Ok v | None => Ub end
  end.
End Tens.
