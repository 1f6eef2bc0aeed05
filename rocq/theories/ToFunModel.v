(** Series.to_function, hermipy/series.py. *)
From Coq Require Import String List Bool Arith ZArith.
From Verif Require Import Base IndexModel Num Fnum CalcModel PyBase PosModel SeriesModel PartModel SplitModel MulModel.
Import ListNotations.
Local Open Scope string_scope. Local Open Scope list_scope. Local Open Scope nat_scope.

Section ToFunction.
Variable F : fnum.
(** Symbolic expressions, see SplitModel.v: products, sums, numbers and variables. *)
Variable E : Type.
Variable e_mul e_add : E -> E -> E.
Variable e_num : F -> E.
Variable e_var : nat -> E.
Variable free_vars : E -> fset.
Notation function_init := (function_init E free_vars).

(** Function.__mul__ and __add__ of two Functions, function.py:84-90 and 100-106. *)
Definition fun_op (op : E -> E -> E) (f g : func E) : res (func E) :=
  _ <- require (nats_eqb (f_dirs f) (f_dirs g)) "ValueError" ;;
  function_init (op (f_sym f) (f_sym g)) (f_dirs f).
(** The same with a number, which becomes a Function on the same directions, function.py:85-86. *)
Definition fun_scale (f : func E) (x : F) : res (func E) := g <- function_init (e_num x) (f_dirs f) ;; fun_op e_mul f g.

(** rec_a and rec_b, series.py:264-268. *)
Definition tf_rec_a (j : nat) : F := rec_a F j.
Definition tf_rec_b (j : nat) : F := nopp (rec_b F j).

(** The list hermite_dirs[i] for direction [d], series.py:273-284.  Function.xyz has five variables, function.py:26. *)
Definition hermite_dir (pos : position F) (degree i d : nat) : res (list (func E)) :=
  let dirs := p_dirs pos in
  _ <- require (d <? 5) "IndexError" ;;
  h0 <- function_init (e_num n1) dirs ;;
  mu <- py_get (p_mean pos) i ;; row <- py_get (p_cov pos) i ;; sigma <- py_get row i ;;
  h1 <- function_init (e_mul (e_num (fsqrt sigma)) (e_add (e_var d) (e_num (nopp mu)))) dirs ;;
  for_in (fun j hs =>
      h <- py_get hs (length hs - 1) ;;
      x <- py_get hs 1 ;;
      h' <- py_get hs (length hs - 2) ;;
      a <- fun_op e_mul h x ;;
      a <- fun_scale a (tf_rec_a j) ;;
      b <- fun_scale h' (tf_rec_b j) ;;
      c <- fun_op e_add a b ;;
      Ok (hs ++ [c])) (seq 1 (degree - 1)) [h0; h1].

(** Series.to_function, series.py:260-291. *)
Definition to_function (f : series F E) : res (func E) :=
  let pos := s_pos f in
  let dirs := p_dirs pos in
  _ <- require (p_is_diag pos) "ValueError" ;;
  hermite_dirs <- mapM (fun '(i, d) => hermite_dir pos (s_degree f) i d) (combine (seq 0 (length dirs)) dirs) ;;
  result <- function_init (e_num n0) dirs ;;
  indices <- (if p_dim pos =? 0 then Ok [[]] else s_list (s_set f) (p_dim pos) (s_degree f)) ;;
  for_in (fun '(im, m) result =>
      c <- py_get (s_coeffs f) im ;;
      result_m <- function_init (e_num c) dirs ;;
      result_m <- for_in (fun i result_m =>
          hs <- py_get hermite_dirs i ;; k <- py_get m i ;; h <- py_get hs k ;;
          fun_op e_mul result_m h) (seq 0 (p_dim pos)) result_m ;;
      fun_op e_add result result_m) (combine (seq 0 (length indices)) indices) result.
End ToFunction.
