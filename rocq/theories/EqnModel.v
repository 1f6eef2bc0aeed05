(** The equations of hermipy/equations.py as differential operators on an unknown function f. *)
From Coq Require Import String List Bool Arith.
From Verif Require Import Base OpModel OpArithModel.
Import ListNotations.
Local Open Scope string_scope. Local Open Scope list_scope. Local Open Scope nat_scope.

Section Equations.
(** Symbolic expressions, see OpArithModel.v.  The parameters are expressions.  The variables x, y, z, w are the variables number 0, 1, 2, 3. *)
Variable E : Type.
Variable e_add e_mul e_div : E -> E -> E.
Variable e_opp : E -> E.
Variable e_1 : E.
Variable e_var : nat -> E.
Variable e_sqrt : E -> E.
Variable e_diff : nat -> E -> E.
(** sympy finds that an expression is 0. *)
Variable e_is0 : E -> bool.

Definition e_sub (a b : E) : E := e_add a (e_opp b).
Definition e_inv (a : E) : E := e_div e_1 a.
Definition e_sq (a : E) : E := e_mul a a.

(** An expression that is linear in the unknown function and its derivatives: an expression times such an expression, its opposite and its derivatives.
    The sum is the concatenation. *)
Definition scale (c : E) (l : oper E) : oper E := map (fun '(c', n) => (e_mul c c', n)) l.
Definition minus (l : oper E) : oper E := map (fun '(c, n) => (e_opp c, n)) l.
Definition unknown (dim : nat) : oper E := [(e_1, repeat 0 dim)].
Definition d (dim k : nat) (l : oper E) : oper E := op_diff E e_diff k (seq 0 dim) l.

(** Fokker_Planck_1d.equation, equations.py:97-106. *)
Definition fokker_planck_1d (beta Vp : E) : oper E :=
  let f := unknown 1 in
  d 1 0 (scale (e_diff 0 Vp) f ++ scale (e_inv beta) (d 1 0 f)).

(** McKean_Vlasov_white.fluxes and equation, equations.py:137-159. *)
Definition white_flux (beta theta m Vp : E) : oper E :=
  let f := unknown 1 in
  minus (scale (e_diff 0 Vp) f ++ scale (e_mul theta (e_sub (e_var 0) m)) f ++ scale (e_inv beta) (d 1 0 f)).
Definition white_equation (beta theta m Vp : E) : oper E := minus (d 1 0 (white_flux beta theta m Vp)).

(** McKean_Vlasov.fluxes and equation, equations.py:194-248.  [noise] is coeff_noise: sqrt(1/beta) if Vy contains an undefined function,
    equations.py:228-230, and otherwise a number computed with a quadrature, equations.py:207-224, which is not modelled. *)
Definition mckean_flux_x (beta gamma epsilon theta m noise Vp : E) : oper E :=
  let f := unknown 2 in
  minus (scale (e_diff 0 Vp) f ++ scale (e_mul theta (e_sub (e_var 0) m)) f ++
         minus (scale (e_div (e_mul (e_mul (e_sub e_1 gamma) noise) (e_var 1)) epsilon) f) ++ scale (e_div (e_sq gamma) beta) (d 2 0 f)).
Definition mckean_flux_y (epsilon Vy : E) : oper E :=
  let f := unknown 2 in
  minus (scale (e_inv (e_sq epsilon)) (scale (e_diff 1 Vy) f ++ d 2 1 f)).
Definition mckean_equation (beta gamma epsilon theta m noise Vp Vy : E) : oper E :=
  minus (d 2 0 (mckean_flux_x beta gamma epsilon theta m noise Vp)) ++ minus (d 2 1 (mckean_flux_y epsilon Vy)).
Definition mckean_noise (beta : E) : E := e_sqrt (e_inv beta).

(** McKean_Vlasov_harmonic_noise.fluxes and equation, equations.py:282-314; the friction coefficient is 1. *)
Definition harmonic_flux_x (beta gamma epsilon theta m Vp : E) : oper E :=
  let f := unknown 3 in
  minus (scale (e_diff 0 Vp) f ++ scale (e_mul theta (e_sub (e_var 0) m)) f ++
         minus (scale (e_div (e_mul (e_mul (e_sub e_1 gamma) (e_sqrt (e_inv beta))) (e_var 2)) epsilon) f) ++ scale (e_div (e_sq gamma) beta) (d 3 0 f)).
Definition harmonic_flux_y (epsilon : E) : oper E :=
  let f := unknown 3 in
  minus (scale (e_inv (e_sq epsilon)) (scale (e_var 2) f ++ scale e_1 (scale (e_var 1) f ++ d 3 1 f))).
Definition harmonic_flux_z (epsilon : E) : oper E :=
  minus (scale (e_inv (e_sq epsilon)) (minus (scale (e_var 1) (unknown 3)))).
Definition harmonic_equation (beta gamma epsilon theta m Vp : E) : oper E :=
  minus (d 3 0 (harmonic_flux_x beta gamma epsilon theta m Vp)) ++ minus (d 3 1 (harmonic_flux_y epsilon)) ++ minus (d 3 2 (harmonic_flux_z epsilon)).

(** Overdamped.backward, equations.py:325-337. *)
Definition overdamped_backward (beta V : E) : oper E :=
  let f := unknown 1 in
  minus (scale (e_diff 0 V) (d 1 0 f)) ++ scale (e_inv beta) (d 1 0 (d 1 0 f)).

(** Langevin.forward and backward, equations.py:351-375: x is the momentum and y the position. *)
Definition langevin_forward (lambda : E) : oper E :=
  let f := unknown 2 in
  minus (scale (e_var 0) (d 2 1 f)) ++ scale (e_var 1) (d 2 0 f) ++ scale lambda (d 2 0 (scale (e_var 0) f ++ d 2 0 f)).
Definition langevin_backward (gamma beta Vy : E) : oper E :=
  let f := unknown 2 in
  scale (e_var 0) (d 2 1 f) ++ minus (scale (e_diff 1 Vy) (d 2 0 f)) ++
  scale gamma (minus (scale (e_var 0) (d 2 0 f)) ++ scale (e_inv beta) (d 2 0 (d 2 0 f))).

(** The parameters of Generalized_Langevin.backward that select one of its branches, equations.py:422-447: one auxiliary process, two, or none. *)
Inductive gle_params :=
| Aux1 (lambda alpha : E)
| Aux2 (lambda1 lambda2 a11 a12 a21 a22 : E)
| Friction (gamma : E)
| Nothing.

(** Generalized_Langevin.backward, equations.py:414-466.  [A.inv()], which is only printed, raises a ValueError (NonInvertibleMatrixError) if
    sympy finds that the determinant is 0. *)
Definition generalized_langevin (beta Vx : E) (p : gle_params) : res (nat * oper E) :=
  match p with
  | Aux1 lambda alpha =>
      let f := unknown 3 in
      if e_is0 alpha then Throw "ValueError" else
      Ok (3, scale (e_var 1) (d 3 0 f) ++ minus (scale (e_diff 0 Vx) (d 3 1 f)) ++ scale (e_mul lambda (e_var 2)) (d 3 1 f) ++
             minus (scale (e_var 1) (scale lambda (d 3 2 f))) ++ minus (scale (e_mul alpha (e_var 2)) (d 3 2 f)) ++
             scale (e_inv beta) (scale alpha (d 3 2 (d 3 2 f))))
  | Aux2 l1 l2 a11 a12 a21 a22 =>
      let f := unknown 4 in
      if e_is0 (e_sub (e_mul a11 a22) (e_mul a12 a21)) then Throw "ValueError" else
      Ok (4, scale (e_var 1) (d 4 0 f) ++ minus (scale (e_diff 0 Vx) (d 4 1 f)) ++ scale (e_add (e_mul l1 (e_var 2)) (e_mul l2 (e_var 3))) (d 4 1 f) ++
             minus (scale (e_var 1) (scale l1 (d 4 2 f) ++ scale l2 (d 4 3 f))) ++
             minus (scale (e_add (e_mul a11 (e_var 2)) (e_mul a12 (e_var 3))) (d 4 2 f) ++ scale (e_add (e_mul a21 (e_var 2)) (e_mul a22 (e_var 3))) (d 4 3 f)) ++
             scale (e_inv beta) (scale a11 (d 4 2 (d 4 2 f)) ++ scale a12 (d 4 3 (d 4 2 f)) ++ scale a21 (d 4 2 (d 4 3 f)) ++ scale a22 (d 4 3 (d 4 3 f))))
  | Friction gamma =>
      let f := unknown 2 in
      Ok (2, scale (e_var 1) (d 2 0 f) ++ minus (scale (e_diff 0 Vx) (d 2 1 f)) ++
             scale gamma (minus (scale (e_var 1) (d 2 1 f)) ++ scale (e_inv beta) (d 2 1 (d 2 1 f))))
  | Nothing => Throw "ValueError"
  end.

(** map_operator, equations.py:26-27, for an operator in the first [dim] variables. *)
Definition map_operator (dim : nat) (operator : oper E) (factor : E) : oper E :=
  map (fun '(c, n) => (e_div c factor, n)) (compose E e_mul e_diff operator (seq 0 dim) [(factor, repeat 0 dim)] (seq 0 dim)).
End Equations.
