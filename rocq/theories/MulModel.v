(** Products of series, hermipy/series.py. *)
From Coq Require Import String List Bool Arith ZArith.
From Verif Require Import Base IndexModel Num LinModel PyBase PosModel SeriesModel PartModel SplitModel.
Import ListNotations.
Local Open Scope string_scope. Local Open Scope list_scope. Local Open Scope nat_scope.

Section Mul.
Variable N : num.
(** See PosModel.v. *)
Variable far_from_diag : list (list N) -> bool.
(** Symbolic expressions, see SplitModel.v; [sym_eqb] is [==]. *)
Variable E : Type.
Variable e_mul e_div : E -> E -> E.
Variable e_1 : E.
Variable add_args mul_args : E -> list E.
Variable free_vars : E -> fset.
Variable sym_eqb : E -> E -> bool.

(** [func.Function(expr, dirs=dirs)] for an expression, function.py:47-74; sympy's expand is not modelled.  The code has symbols for the directions 0 to 4 only and raises IndexError for others; here every direction has one, so what is proved through this definition is about directions below 5 (FnModel.v models the constructor in full, C96). *)
Definition function_init (expr : E) (dirs : list nat) : res (func E) :=
  _ <- require (nats_eqb dirs (py_sorted dirs)) "ValueError" ;;
  _ <- require (subset (free_vars expr) dirs) "AssertionError" ;;
  Ok (Fn expr dirs).

(** The inner function _tensorize of Series.tensorize, series.py:38-71.  [list(common)] is increasing, since CPython enumerates sets of small ints in order. *)
Definition series_tensorize2 (s1 s2 : series N E) : res (series N E) :=
  if p_dim (s_pos s1) =? 0 then
    c <- py_get (s_coeffs s1) 0 ;; series_init N E e_1 (map (nmul c) (s_coeffs s2)) (s_pos s2) (Some (s_factor s2)) (s_set s2)
  else if p_dim (s_pos s2) =? 0 then
    c <- py_get (s_coeffs s2) 0 ;; series_init N E e_1 (map (nmul c) (s_coeffs s1)) (s_pos s1) (Some (s_factor s1)) (s_set s1)
  else
    let common := py_sorted (filter (fun d => py_in d (p_dirs (s_pos s2))) (p_dirs (s_pos s1))) in
    f1 <- fun_project E e_mul e_1 add_args mul_args free_vars (s_factor s1) common ;;
    f2 <- fun_project E e_mul e_1 add_args mul_args free_vars (s_factor s2) common ;;
    _ <- require (func_eqb E sym_eqb f1 f2) "ValueError" ;;
    _ <- require (s_degree s1 =? s_degree s2) "ValueError" ;;
    _ <- require (iset_eqb (s_set s1) (s_set s2)) "ValueError" ;;
    let e1 := e_div (f_sym (s_factor s1)) (f_sym f1) in
    let e2 := e_div (f_sym (s_factor s2)) (f_sym f2) in
    result <- inner N (s_set s1) (s_coeffs s1) (s_coeffs s2) (p_dirs (s_pos s1)) (p_dirs (s_pos s2)) ;;
    position <- pos_tensorize N far_from_diag [s_pos s1; s_pos s2] ;;
    factor <- function_init (e_mul e1 e2) (p_dirs position) ;;
    series_init N E e_1 result position (Some factor) (s_set s1).

(** Series.tensorize, series.py:73-78; [args[0]] of an empty list raises IndexError. *)
Definition series_tensorize (args : list (series N E)) : res (series N E) :=
  match args with
  | [] => Throw "IndexError"
  | a :: rest => for_in (fun a result => series_tensorize2 result a) rest a
  end.

(** Series.__mul__ with a Series, series.py:143-146; Series.__float__, 175-178. *)
Definition series_mul (s1 s2 : series N E) : res (series N E) :=
  _ <- require (iset_eqb (s_set s1) (s_set s2)) "ValueError" ;;
  series_tensorize [s1; s2].
Definition series_float (s : series N E) : res N :=
  _ <- require (p_dim (s_pos s) =? 0) "ValueError" ;; py_get (s_coeffs s) 0.
End Mul.
