(** Operator.split, hermipy/operator.py. *)
From Coq Require Import String List Bool Arith.
From Verif Require Import Base PyBase.
Import ListNotations.
Local Open Scope string_scope. Local Open Scope list_scope. Local Open Scope nat_scope.

Section Op.
(** Symbolic expressions; sympy is not modelled.  [e_mono k] is the monomial [x^k/k!] and [is0] the test [e == 0]. *)
Variable E : Type.
Variable e_add e_mul : E -> E -> E.
Variable e_0 : E.
Variable e_mono : list nat -> E.
Variable simplify : E -> E.
Variable is0 : E -> bool.

(** An expanded linear operator, the sum of terms [c D^n f] with c a non-zero expression: [self.sym.expand()], operator.py:122. *)
Definition oper := list (E * list nat).

(** [itertools.product(range(r), repeat=dim)]. *)
Fixpoint products (r dim : nat) : list (list nat) :=
  match dim with
  | 0 => [[]]
  | S dim => flat_map (fun i => map (cons i) (products r dim)) (seq 0 r)
  end.
Definition py_sum (m : list nat) : nat := fold_left Nat.add m 0.

(** operator.py:123-124. *)
Definition max_order := 5.
Definition mults (dim : nat) : list (list nat) := filter (fun m => py_sum m <=? max_order) (products (max_order + 1) dim).

(** [arg.subs(unknown, test).doit()] for [test = x^m/m!], operator.py:128-131, 135: [D^n (x^m/m!)] is 0 unless n <= m, and
    [x^(m-n)/(m-n)!] otherwise. *)
Fixpoint leb_all (n m : list nat) : bool :=
  match n, m with
  | a :: n, b :: m => (a <=? b) && leb_all n m
  | _, _ => true
  end.
Fixpoint minus_all (m n : list nat) : list nat :=
  match m, n with
  | b :: m, a :: n => (b - a) :: minus_all m n
  | _, _ => []
  end.
Definition subs_test (m : list nat) (arg : E * list nat) : option E :=
  let '(c, n) := arg in
  if leb_all n m then Some (e_mul c (e_mono (minus_all m n))) else None.

(** The loop over the terms of the remainder, operator.py:132-139. *)
Definition sweep (m : list nat) (rem : oper) : E * oper :=
  fold_left (fun '(term, rem) arg =>
      match subs_test m arg with
      | None => (term, rem ++ [arg])
      | Some termarg => (e_add term termarg, rem)
      end) rem (e_0, []).

(** The loop over the multi-indices, operator.py:125-143. *)
Fixpoint split_loop (ms : list (list nat)) (rem : oper) (result : list (list nat * E)) : list (list nat * E) * oper :=
  match ms with
  | [] => (result, rem)
  | m :: ms =>
      match rem with
      | [] => (result, rem)
      | _ =>
          let '(term, rem) := sweep m rem in
          let term := simplify term in
          split_loop ms rem (if is0 term then result else result ++ [(m, term)])
      end
  end.

(** Operator.split, operator.py:118-146.  Simplification: the values remain expressions. *)
Definition op_split (dim : nat) (sym : oper) : res (list (list nat * E)) :=
  let '(result, rem) := split_loop (mults dim) sym [] in
  match rem with [] => Ok result | _ => Throw "ValueError" end.
End Op.
