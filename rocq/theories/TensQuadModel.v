(** The decorator tensorize_at of hermipy/quad.py, and the methods that it decorates. *)
From Coq Require Import String List Bool Arith.
From Verif Require Import Base IndexModel Num Fnum PyBase PosModel SeriesModel PartModel SplitModel MulModel PyQuadModel.
Import ListNotations.
Local Open Scope string_scope. Local Open Scope list_scope. Local Open Scope nat_scope.

Section Tens.
Variable F : fnum.
(** See PosModel.v. *)
Variable far_from_diag : list (list F) -> bool.
(** Symbolic expressions, see SplitModel.v; [sym_eqb] is [==]; [eval] see PyQuadModel.v. *)
Variable E : Type.
Variable e_mul e_div : E -> E -> E.
Variable e_1 : E.
Variable add_args mul_args : E -> list E.
Variable free_vars : E -> fset.
Variable sym_eqb : E -> E -> bool.
Variable eval : E -> (nat -> F) -> F.
(** In the turn [k] of the loop over the terms: the order in which the calls of lib.finest_common enumerate sets (see PartModel.v), and in
    which the dict comprehension of quad.py:208-209 enumerates its result. *)
Variable order : nat -> nat -> list fset -> list fset.
Variable enum : nat -> list fset -> list fset.

(** [list(s)] for a frozenset of small ints, which CPython enumerates in increasing order. *)
Definition fs_list (s : fset) : list nat := py_sorted (nodup Nat.eq_dec s).

(** quad.py:206-215: the functions of the groups of directions of [division].  [hm.Function('1')] has no directions. *)
Definition group_functions (division : list fset) (add : dict E) : res (list (fset * func E)) :=
  for_in (fun '(dirs, term) new_add =>
      mapM (fun '(s, f) => if subset dirs s then f <- function_init E free_vars (e_mul (f_sym f) term) (fs_list s) ;; Ok (s, f) else Ok (s, f)) new_add)
    add (map (fun sub => (sub, Fn e_1 [])) division).

Section Decorator.
(** The decorated method, the static method [tensorize] of the type of its results, the product of a result with a number and the sum of
    two results. *)
Variable A : Type.
Variable method : quad F E -> func E -> res A.
Variable tensorize : list A -> res A.
Variable scale : F -> A -> res A.
Variable plus : A -> A -> res A.

(** One turn of the loop over the terms of the function, quad.py:198-236.  [float(multiplicator.sym)]: the multiplicator has no variables,
    so its value does not depend on those given here. *)
Definition tens_term (q : quad F E) (k : nat) (add : dict E) : res A :=
  multiplicator <- d_get E [] add ;;
  let add := filter (fun '(key, _) => negb (fs_eqb [] key)) add in
  match fun_split E e_mul e_1 add_args mul_args free_vars (q_factor q) with
  | [factor_split] =>
      division <- finest_common (order k) (map fst add) (map fst factor_split) ;;
      new_add <- group_functions (enum k division) add ;;
      func_dirs <- mapM (fun '(dirs, term) =>
          part <- quad_project F far_from_diag E e_mul e_1 add_args mul_args free_vars q (fs_list dirs) ;;
          method part term) new_add ;;
      _ <- require (0 <? length func_dirs) "IndexError" ;;
      tensorized <- tensorize func_dirs ;;
      scale (eval multiplicator (fun _ => n0)) tensorized
  | _ => Throw "ValueError"
  end.

(** The wrapper, quad.py:179-238, for a Function; [do_tensorize] is the keyword argument tensorize or, without one, the setting. *)
Definition tensorize_at (do_tensorize : bool) (q : quad F E) (f : func E) : res A :=
  if negb do_tensorize || negb (p_is_diag (q_pos q)) then method q f else
  let split := fun_split E e_mul e_1 add_args mul_args free_vars f in
  results <- mapM (fun '(k, add) => tens_term q k add) (combine (seq 0 (length split)) split) ;;
  match results with
  | [] => Throw "IndexError"
  | r :: rest => for_in (fun r sum => plus sum r) rest r
  end.
End Decorator.

(** See PyQuadModel.v. *)
Variable cov_factor : list (list F) -> list (list F).
Variable junk : F.
Variable tiny : F.
(** Position.__eq__, see SeriesModel.v. *)
Variable pos_eqb : position F -> position F -> bool.

(** Quad.transform of a Function with its decorator tensorize_at, quad.py:287-306 (significant=0).  The decorators of stats.py do not change the
    result. *)
Definition transform_tensorized (do_tensorize : bool) (q : quad F E) (f : func E) (degree : nat) (s : iset) : res (series F E) :=
  tensorize_at (series F E) (fun q f => quad_transform_fun F E e_1 free_vars eval cov_factor junk tiny q f degree s)
    (series_tensorize F far_from_diag E e_mul e_div e_1 add_args mul_args free_vars sym_eqb)
    (series_scale F E e_1) (series_add F E sym_eqb e_1 pos_eqb) do_tensorize q f.
End Tens.
