(** Arithmetic of Function and Operator, hermipy/function.py and hermipy/operator.py. *)
From Coq Require Import String List Bool Arith.
From Verif Require Import Base PyBase PosModel SeriesModel OpModel.
Import ListNotations.
Local Open Scope string_scope. Local Open Scope list_scope. Local Open Scope nat_scope.

Section OpArith.
(** Symbolic expressions; sympy is not modelled.  [e_diff d e] is the derivative of [e] with respect to the variable x_d. *)
Variable E : Type.
Variable e_add e_mul e_div : E -> E -> E.
Variable e_opp : E -> E.
Variable e_0 : E.
Variable e_diff : nat -> E -> E.
Variable free_vars : E -> list nat.
(** The test [sym == 0] on the expanded sum of the terms of an operator. *)
Variable op_is0 : oper E -> bool.

(** [Function(sym, dirs=dirs)], function.py:47-74, for an expression with variables x_d.  The expansion does not change values and is left out. *)
Definition func_init (e : E) (dirs : list nat) : res (func E) :=
  _ <- require (nats_eqb dirs (py_sorted dirs)) "ValueError" ;;
  _ <- require (forallb (fun d => py_in d dirs) (free_vars e)) "AssertionError" ;;
  Ok (Fn e dirs).

(** Function.__mul__, __truediv__ and __add__ of two functions, function.py:84-106. *)
Definition func_binary (o : E -> E -> E) (f g : func E) : res (func E) :=
  _ <- require (nats_eqb (f_dirs f) (f_dirs g)) "ValueError" ;;
  func_init (o (f_sym f) (f_sym g)) (f_dirs f).
Definition func_mul := func_binary e_mul.
Definition func_div := func_binary e_div.
Definition func_add := func_binary e_add.

(** Function.tensorize, function.py:37-45, with the expression 1 given.  The set of directions is a list, without the duplicates at the end. *)
Fixpoint func_tensorize_loop (args : list (func E)) (dirs : list nat) (sym : E) : res (func E) :=
  match args with
  | [] => func_init sym (py_sorted (nodup Nat.eq_dec dirs))
  | a :: args =>
      _ <- require (forallb (fun d => negb (py_in d (f_dirs a))) dirs) "ValueError" ;;
      func_tensorize_loop args (dirs ++ f_dirs a) (e_mul sym (f_sym a))
  end.
Definition func_tensorize (e_1 : E) (args : list (func E)) : res (func E) := func_tensorize_loop args [] e_1.

(** An Operator, operator.py:26-53: the expanded sum of terms [c D^n f], and the directions, which are the arguments of f. *)
Record operator := Oper { o_terms : oper E; o_dirs : list nat }.

(** Operator.__mul__, operator.py:63-68, of an operator and a function: every coefficient is multiplied. *)
Definition op_mul (a : operator) (g : func E) : res operator :=
  _ <- require (nats_eqb (o_dirs a) (f_dirs g)) "ValueError" ;;
  Ok (Oper (map (fun '(c, n) => (e_mul c (f_sym g), n)) (o_terms a)) (o_dirs a)).

(** Operator.__neg__, operator.py:84-85. *)
Definition op_neg (a : operator) : operator := Oper (map (fun '(c, n) => (e_opp c, n)) (o_terms a)) (o_dirs a).

(** Operator.__add__ and __sub__, operator.py:70-82, of two operators. *)
Definition op_add (a b : operator) : res operator :=
  _ <- require (nats_eqb (o_dirs a) (o_dirs b)) "ValueError" ;;
  Ok (Oper (o_terms a ++ o_terms b) (o_dirs a)).
Definition op_sub (a b : operator) : res operator :=
  _ <- require (nats_eqb (o_dirs a) (o_dirs b)) "ValueError" ;;
  Ok (Oper (o_terms a ++ o_terms (op_neg b)) (o_dirs a)).

(** The place of [d] in [dirs]. *)
Fixpoint place (d : nat) (dirs : list nat) : option nat :=
  match dirs with
  | [] => None
  | d' :: dirs => if d =? d' then Some 0 else option_map S (place d dirs)
  end.

(** The derivative number [n] with one more derivative in the variable number [k]. *)
Fixpoint bump (k : nat) (n : list nat) : list nat :=
  match n, k with
  | [], _ => []
  | a :: n, 0 => S a :: n
  | a :: n, S k => a :: bump k n
  end.

(** [Derivative(expr, x_d).doit()] for an operator applied to f(args): the product rule.  The derivative of f in a variable that is not an argument is 0. *)
Definition op_diff (d : nat) (args : list nat) (l : oper E) : oper E :=
  flat_map (fun '(c, n) => (e_diff d c, n) :: match place d args with Some k => [(c, bump k n)] | None => [] end) l.

(** The variables of the derivative number [n] of a function of the variables [dirs]. *)
Fixpoint along (dirs n : list nat) : list nat :=
  match dirs, n with
  | d :: dirs, a :: n => repeat d a ++ along dirs n
  | _, _ => []
  end.

(** The repeated derivative of an operator, and of an expression.  Sympy's order of the variables is not modelled: the last one is first. *)
Definition op_diffs (ds args : list nat) (l : oper E) : oper E := fold_right (fun d l => op_diff d args l) l ds.
Definition e_diffs (ds : list nat) (e : E) : E := fold_right e_diff e ds.

(** [self.sym.subs(self.f( *variables), arg.sym).doit()], operator.py:98-99, for an operator [arg] ... *)
Definition compose (l : oper E) (dirs : list nat) (l' : oper E) (args : list nat) : oper E :=
  flat_map (fun '(c, n) => map (fun '(c', n') => (e_mul c c', n')) (op_diffs (along dirs n) args l')) l.
(** ... and for a function. *)
Definition applied (l : oper E) (dirs : list nat) (e : E) : E :=
  fold_right (fun '(c, n) s => e_add (e_mul c (e_diffs (along dirs n) e)) s) e_0 l.

(** Operator.__call__, operator.py:91-101, of an operator (the directions of the result are the arguments of its function, unless it is 0) and of a function. *)
Definition op_call (a b : operator) : operator :=
  let l := compose (o_terms a) (o_dirs a) (o_terms b) (o_dirs b) in Oper l (if op_is0 l then o_dirs a else o_dirs b).
Definition op_apply (a : operator) (g : func E) : res (func E) := func_init (applied (o_terms a) (o_dirs a) (f_sym g)) (o_dirs a).

(** Operator.map, operator.py:107-116: f is replaced by f*factor, and the result divided by the factor. *)
Definition map_terms (dirs : list nat) (l : oper E) (w : E) : oper E :=
  map (fun '(c, n) => (e_div c w, n)) (compose l dirs [(w, repeat 0 (length dirs))] dirs).
Definition op_map (a : operator) (factor : func E) : res operator :=
  _ <- require (nats_eqb (f_dirs factor) (o_dirs a)) "ValueError" ;;
  Ok (Oper (map_terms (o_dirs a) (o_terms a) (f_sym factor)) (o_dirs a)).
End OpArith.
Arguments o_terms {E}. Arguments o_dirs {E}.
