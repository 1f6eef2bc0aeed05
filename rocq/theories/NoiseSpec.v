(** Symmetric matrices and quadratic functions. *)
From Coq Require Import List Arith Reals.
From Verif Require Import Num SolveSpec.
Import ListNotations.
Local Open Scope R_scope.

(** A square matrix, and the symmetric ones. *)
Definition square_matrix (A : list (list R)) : Prop := Forall (fun row => length row = length A) A.
Definition symmetric (A : list (list R)) : Prop :=
  square_matrix A /\ forall i j, nth j (nth i A []) 0 = nth i (nth j A []) 0.
(** v . A v >= 0 for all v. *)
Definition nonnegative (A : list (list R)) : Prop := forall v, length v = length A -> 0 <= dot (N := num_R) v (matvec (N := num_R) A v).
(** 2 v . b - v . A v. *)
Definition quadratic (A : list (list R)) (b v : list R) : R := 2 * dot (N := num_R) v b - dot (N := num_R) v (matvec (N := num_R) A v).

(** A potential whose derivative is [V1] and second derivative is [V2], seen from a Gaussian with mean [mu] and variance [sigma]:
    the function that is added to the Ornstein-Uhlenbeck operator when V' f' - f'' is written for f = W h with W = sqrt(gaussian / exp(-V)). *)
Definition schroedinger (mu sigma : R) (V1 V2 : R -> R) (x : R) : R :=
  (V1 x * V1 x - (x - mu) / sigma * ((x - mu) / sigma)) / 4 - V2 x / 2 + 1 / (2 * sigma).
(** [W] is a multiple of the square root of gaussian / exp(-V): its logarithmic derivative is (V' - (x - mu)/sigma)/2. *)
Definition balances (mu sigma : R) (V1 : R -> R) (W : R -> R) : Prop :=
  forall x, W x <> 0 /\ derivable_pt_lim W x (W x * ((V1 x - (x - mu) / sigma) / 2)).
