(** solve_gaussian, hermipy/equations.py. *)
From Coq Require Import String List Bool Arith.
From Verif Require Import Base OpModel.
Import ListNotations.
Local Open Scope string_scope. Local Open Scope list_scope. Local Open Scope nat_scope.

(** What sym.solve returns: a dict from symbols to expressions, or a list of tuples of expressions. *)
Inductive answer (E : Type) := ADict (l : list (nat * E)) | AList (l : list (list E)).
Arguments ADict {E}. Arguments AList {E}.

Section Gaussian.
(** Symbolic expressions; sympy is not modelled.  The variables x, y, z are the variables number 0, 1, 2; the symbols that solve_gaussian creates are the next ones, in the order of
    the call of sym.solve; the parameters of the equation have other numbers. *)
Variable E : Type.
Variable e_add e_mul e_div : E -> E -> E.
Variable e_opp : E -> E.
Variable e_1 e_pi : E.
Variable e_var : nat -> E.
Variable e_sqrt e_exp : E -> E.
(** [e_subs k a e] is e.subs(x_k, a). *)
Variable e_subs : nat -> E -> E -> E.
(** (operator.subs(f, ansatz)/ansatz).doit().cancel(); the coefficients with respect to variables, as_poly(...).as_dict(), if the expression is a polynomial in them (as_poly returns None
    otherwise); sym.solve; and the test operator.subs(f, solution).doit().expand().cancel() == 0. *)
Variable ratio : oper E -> E -> E.
Variable poly_dict : list nat -> E -> option (list (list nat * E)).
Variable solve : list E -> list nat -> answer E.
Variable solved : oper E -> E -> bool.

Definition e_2 : E := e_add e_1 e_1.
Definition e_half : E := e_div e_1 e_2.
Definition mul3 (a b c : E) : E := e_mul (e_mul a b) c.
Definition mul4 (a b c d : E) : E := e_mul (mul3 a b c) d.
Definition sub (a b : E) : E := e_add a (e_opp b).
Definition sq (a : E) : E := e_mul a a.
Definition cube (a : E) : E := mul3 a a a.

(** The ansatz, equations.py:33-38, 54-56 and 67-69. *)
Definition ansatz3 : E :=
  let x := e_var 0 in let y := e_var 1 in let z := e_var 2 in
  let cx := e_var 3 in let cy := e_var 4 in let cz := e_var 5 in let cxy := e_var 6 in let cyz := e_var 7 in let cxz := e_var 8 in
  e_exp (e_mul (e_opp e_half) (e_add (e_add (e_add (e_add (e_add (mul3 cx x x) (mul3 cz z z)) (mul3 cy y y)) (mul4 e_2 cxy x y)) (mul4 e_2 cyz y z)) (mul4 e_2 cxz x z))).
Definition ansatz2 : E :=
  let x := e_var 0 in let y := e_var 1 in let cx := e_var 2 in let cxy := e_var 3 in let cy := e_var 4 in
  e_exp (e_mul (e_opp e_half) (e_add (e_add (mul3 cx x x) (mul4 e_2 cxy x y)) (mul3 cy y y))).
Definition ansatz1 : E :=
  let x := e_var 0 in let s2 := e_var 1 in
  e_mul (e_div e_1 (e_sqrt (mul3 e_2 e_pi s2))) (e_exp (e_mul (e_opp e_half) (e_div (e_mul x x) s2))).

Definition ansatz (dim : nat) : E := match dim with 3 => ansatz3 | 2 => ansatz2 | _ => ansatz1 end.

(** res.as_poly(...).as_dict() and the list of the coefficients, equations.py:40-41, 58-59, 71-72. *)
Definition coefficients (variables : list nat) (res : E) : Base.res (list E) :=
  match poly_dict variables res with Some l => Ok (map snd l) | None => Throw "AttributeError" end.

(** sym.solve(...)[0] for a list, or a dict without the key 0. *)
Definition first (a : answer E) : Base.res (list E) := match a with AList (t :: _) => Ok t | AList [] => Throw "IndexError" | ADict _ => Throw "KeyError" end.
(** sym.solve(...)[s2], with the key s2, variable number 1: of a dict, or of a list, which takes no symbol as an index. *)
Definition at_s2 (a : answer E) : Base.res E := match a with ADict l => match find (fun '(k, _) => k =? 1) l with Some (_, e) => Ok e | None => Throw "KeyError" end | AList _ => Throw "TypeError" end.

(** Three variables, equations.py:32-51. *)
Definition gaussian3 (operator : oper E) : Base.res E :=
  eqs <- coefficients [0; 1; 2] (ratio operator ansatz3) ;;
  t <- first (solve eqs [3; 4; 5; 6; 7; 8]) ;;
  match t with
  | [cx; cy; cz; cxy; cyz; cxz] =>
      let solution := e_subs 8 cxz (e_subs 7 cyz (e_subs 6 cxy (e_subs 5 cz (e_subs 4 cy (e_subs 3 cx ansatz3))))) in
      let determinant := e_add (e_add (e_mul cx (sub (e_mul cy cz) (sq cyz))) (e_mul cxy (sub (e_mul cxz cyz) (e_mul cxy cz)))) (e_mul cxz (sub (e_mul cxy cyz) (e_mul cy cxz))) in
      let factor := e_sqrt (e_div determinant (cube (e_mul e_2 e_pi))) in
      Ok (e_mul factor solution)
  | _ => Throw "ValueError"
  end.

(** Two variables, equations.py:53-64. *)
Definition gaussian2 (operator : oper E) : Base.res E :=
  eqs <- coefficients [0; 1] (ratio operator ansatz2) ;;
  t <- first (solve eqs [2; 3; 4]) ;;
  match t with
  | [cx; cxy; cy] =>
      let solution := e_subs 4 cy (e_subs 3 cxy (e_subs 2 cx ansatz2)) in
      let determinant := sub (e_mul cx cy) (e_mul cxy cxy) in
      let factor := e_div (e_sqrt determinant) (e_mul e_2 e_pi) in
      Ok (e_mul factor solution)
  | _ => Throw "ValueError"
  end.

(** One variable, equations.py:66-74. *)
Definition gaussian1 (operator : oper E) : Base.res E :=
  eqs <- coefficients [0] (ratio operator ansatz1) ;;
  s2 <- at_s2 (solve eqs [1]) ;;
  Ok (e_subs 1 s2 ansatz1).

(** solve_gaussian(operator, f, variables), equations.py:30-78, for the first [dim] variables, and whether the message is printed.  With another number of variables [solution] is not
    assigned. *)
Definition solve_gaussian (operator : oper E) (dim : nat) : Base.res (E * bool) :=
  solution <- match dim with 3 => gaussian3 operator | 2 => gaussian2 operator | 1 => gaussian1 operator | _ => Throw "UnboundLocalError" end ;;
  Ok (solution, negb (solved operator solution)).
End Gaussian.
