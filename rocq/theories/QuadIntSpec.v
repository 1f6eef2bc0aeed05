(** What the integral of a function on the grid of a quadrature is. *)
From Coq Require Import String List Arith Reals.
From Verif Require Import Base Num Fnum IndexModel CalcSpec PosModel PyQuadModel PyQuadSpec.
Import ListNotations.
Local Open Scope R_scope.

(** The sum over the points of the grid of the products of the weights of the point with the value there. *)
Definition weighted_sum {E} (q : quad fnum_R E) (values : list R) : R :=
  rsum (map (fun '(y, p) => rprod (at_pos (q_weights q) p) * y) (combine values (grid (q_nodes q)))).

(** All directions of the quadrature are of type "fourier". *)
Definition all_fourier {E} (q : quad fnum_R E) : Prop := Forall (fun t => t = "fourier"%string) (p_types (q_pos q)).
