(** The words of C112. *)
From Coq Require Import List Arith Reals.
From Verif Require Import IndexModel Num LinSpec CalcSpec FormSpec.
Import ListNotations.
Local Open Scope R_scope.

(** The sum over the grid of the weight times the square of the difference between the value and the function [g] there. *)
Definition square_error (nodes weights : list (list R)) (values : list R) (g : list R -> R) : R :=
  rsum (map (fun '(y, p) => rprod (at_pos weights p) * (y - g (at_pos nodes p)) ^ 2) (combine values (grid nodes))).
(** The same for the difference of two lists of values. *)
Definition square_distance (nodes weights : list (list R)) (f g : list R) : R :=
  rsum (map (fun '((x, y), p) => rprod (at_pos weights p) * (x - y) ^ 2) (combine (combine f g) (grid nodes))).
(** The sum of the squares of the differences of the coefficients. *)
Definition coef_distance (s : iset) (dim degree : nat) (c d : list R) : R :=
  rsum (map (fun m => (@coef num_R s dim degree c m - @coef num_R s dim degree d m) ^ 2) (points s dim degree)).
