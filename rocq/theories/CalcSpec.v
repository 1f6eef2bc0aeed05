(** Specification vocabulary for the numerical layer: real-valued basis functions, grids and sums. *)
From Coq Require Import List Bool Arith ZArith Reals.
From Verif Require Import Base IndexModel Spec Num LinModel LinSpec.
Import ListNotations.
Local Open Scope R_scope.

(** Sums and products of lists of reals. *)
Definition rsum (l : list R) : R := fold_right Rplus 0 l.
Definition rprod (l : list R) : R := fold_right Rmult 1 l.

(** The (probabilists') Hermite polynomials He_n: He_0 = 1, He_1 = x, He_(n+2) = x He_(n+1) - (n+1) He_n; normalised
    by sqrt(n!) they are orthonormal for the standard Gaussian. *)
Fixpoint He (n : nat) (x : R) : R :=
  match n with
  | 0 => 1
  | S m => match m with
           | 0 => x
           | S k => x * He m x - INR (S k) * He k x
           end
  end.
Definition hermite (n : nat) (x : R) : R := He n x / sqrt (INR (fact n)).

(** The Fourier basis: constant, sin x, cos x, sin 2x, cos 2x, ..., orthonormal on a period. *)
Definition fourier (n : nat) (x : R) : R :=
  if (n =? 0)%nat then 1 / sqrt (2 * PI)
  else if Nat.even n then cos (INR (n / 2) * x) / sqrt PI
  else sin (INR ((n + 1) / 2) * x) / sqrt PI.

(** The n-th basis function of a direction: flag 1 for Fourier, 0 for Hermite. *)
Definition basis (flag n : nat) (x : R) : R := if (flag =? 1)%nat then fourier n x else hermite n x.

(** The basis function of multi-index [m] at the point [x]: product over the directions. *)
Definition phi (flags : list nat) (m : list nat) (x : list R) : R :=
  rprod (map (fun '(f, (n, t)) => basis f n t) (combine flags (combine m x))).

(** The tensor grid of a list of one-dimensional rules: the positions, first direction slowest, and the
    coordinates (or weights) at a position. *)
Fixpoint row_major (sizes : list nat) : list (list nat) :=
  match sizes with
  | [] => [[]]
  | n :: t => flat_map (fun i => map (cons i) (row_major t)) (seq 0 n)
  end.
Definition at_pos (rules : list (list R)) (p : list nat) : list R := map (fun '(xs, j) => nth j xs 0) (combine rules p).
Definition grid (nodes : list (list R)) : list (list nat) := row_major (map (@length R) nodes).

(** The quadrature sum over the grid of [values] (one per grid point) times the function [g]. *)
Definition quadrature (nodes weights : list (list R)) (values : list R) (g : list R -> R) : R :=
  rsum (map (fun '(y, p) => y * rprod (at_pos weights p) * g (at_pos nodes p)) (combine values (grid nodes))).

(** The sizes of the set and of the grid fit in an unsigned int. *)
Definition fits (s : iset) (dim degree : nat) : Prop :=
  (1 <= dim)%nat /\ set_ok s dim degree /\ (Z.of_nat (length (points s dim degree)) < 2 ^ 32)%Z.
Definition grid_fits (nodes : list (list R)) : Prop := (Z.of_nat (length (grid nodes)) < 2 ^ 32)%Z.

(** One weight per node in every direction. *)
Definition rules_match (nodes weights : list (list R)) : Prop := Forall2 (fun xs ws => length xs = length ws) nodes weights.

(** Flags for which the tables of basis functions can be built: Hermite directions need degree >= 1, Fourier ones an
    even degree; the hyperbolic crosses of degree 0 contain multi-indices with an entry 1. *)
Definition flags_ok (s : iset) (degree : nat) (flags : list nat) : Prop :=
  Forall (fun f => (f = 0 /\ 1 <= degree) \/ (f = 1 /\ Nat.even degree = true))%nat flags /\
  ((s = Cross \/ s = CrossNc) -> (1 <= degree)%nat).

(** The function with coefficients [c]: sum over the index set of coefficient times basis function. *)
Definition series (s : iset) (degree : nat) (flags : list nat) (c : list R) (x : list R) : R :=
  rsum (map (fun m => @coef num_R s (length flags) degree c m * phi flags m x) (points s (length flags) degree)).

(** A cube of numbers [c[k][i][j]], K matrices of size n x n. *)
Definition cell (c : list (list (list R))) (k i j : nat) : R := nth j (nth i (nth k c []) []) 0.
Definition cube_for (K n : nat) (c : list (list (list R))) : Prop := length c = K /\ Forall (mat_wf n n) c.

(** A one-dimensional rule that integrates the product of any two basis functions of degree at most [degree] as
    the exact measure does (orthonormality), and the same in every direction. *)
Definition exact_rule (degree flag : nat) (xs ws : list R) : Prop :=
  length xs = length ws /\
  forall i j, (i <= degree)%nat -> (j <= degree)%nat ->
    rsum (map (fun '(x, w) => w * (basis flag i x * basis flag j x)) (combine xs ws)) = if (i =? j)%nat then 1 else 0.
Definition exact_rules (degree : nat) (flags : list nat) (nodes weights : list (list R)) : Prop :=
  length flags = length nodes /\ length weights = length nodes /\
  forall k, (k < length nodes)%nat -> exact_rule degree (nth k flags 0%nat) (nth k nodes []) (nth k weights []).

(** The discrete Galerkin matrix entry of the function with the given [values] on the grid. *)
Definition galerkin (nodes weights : list (list R)) (flags : list nat) (values : list R) (r c : list nat) : R :=
  quadrature nodes weights values (fun x => phi flags r x * phi flags c x).

(** Sets and directions for which the product of two basis functions of the set of degree d is a combination of basis
    functions of the set of degree 2d: one direction; the cube; a triangle of Hermite directions; a rectangle where
    the directions other than the first are Hermite, or whose degree is a multiple of 4. *)
Definition closed_products (s : iset) (degree : nat) (flags : list nat) : Prop :=
  length flags = 1%nat \/
  match s with
  | Cube => True
  | Triangle => Forall (fun f => f = 0%nat) flags
  | Rectangle => Forall (fun f => f = 0%nat) (tl flags) \/ (degree mod 4 = 0)%nat
  | Cross | CrossNc => False
  end.

(** The threshold below which varf ignores a coefficient of the transform [h]. *)
Definition threshold (h : list nat -> R) (pts : list (list nat)) : R :=
  / 10 ^ 12 * Rmax 1 (sqrt (rsum (map (fun m => h m * h m) pts))).

(** The product over the directions of the entries of the tables TH (Hermite) or TF (Fourier). *)
Definition table_product (TH TF : list (list (list R))) (flags m r c : list nat) : R :=
  rprod (map (fun k => cell (if (nth k flags 0 =? 1)%nat then TF else TH) (nth k m 0%nat) (nth k r 0%nat) (nth k c 0%nat)) (seq 0 (length flags))).

(** The part of a list (nodes, weights, flags, positions) that concerns the directions [dj]. *)
Definition pick {A : Type} (d : A) (l : list A) (dj : list nat) : list A := map (fun x => nth x l d) dj.

(** The grid function that is the product of grid functions [factors] of disjoint groups of directions [dirs]. *)
Definition product_values (nodes : list (list R)) (dirs : list (list nat)) (factors : list (list R)) : list R :=
  map (fun p => rprod (map (fun '(dj, f) => value 0 (grid (pick [] nodes dj)) f (pick 0%nat p dj)) (combine dirs factors))) (grid nodes).

(** varf ignores no coefficient of the transform of the grid function, other than zeros. *)
Definition nothing_dropped (s : iset) (degree : nat) (nodes weights : list (list R)) (flags : list nat) (input : list R) : Prop :=
  let h := fun m => quadrature nodes weights input (phi flags m) in
  forall m, index_of s (length nodes) (2 * degree) m -> h m = 0 \/ threshold h (points s (length nodes) (2 * degree)) <= Rabs (h m).

(** A list with entry [k] replaced. *)
Definition with_entry {A : Type} (m : list A) (k : nat) (v : A) : list A := firstn k m ++ v :: skipn (S k) m.

(** The derivative of the n-th basis function is a multiple of a basis function: the factor and its number. *)
Definition dterm (flag n : nat) : R * nat :=
  if (flag =? 1)%nat then
    if (n =? 0)%nat then (0, 0%nat)
    else if Nat.even n then (- INR (n / 2), (n - 1)%nat)
    else (INR ((n + 1) / 2), (n + 1)%nat)
  else (sqrt (INR n), (n - 1)%nat).

(** Sets that contain the cosine of every sine they contain, in direction [k]. *)
Definition paired (s : iset) (dim degree k : nat) : Prop :=
  forall m, index_of s dim degree m -> Nat.odd (nth k m 0%nat) = true -> index_of s dim degree (with_entry m k (nth k m 0 + 1)%nat).

(** The coordinates of a grid point, and the affine map t + D x with the sums taken from left to right, over any numbers. *)
Definition point_at {A : Type} (d : A) (nodes : list (list A)) (p : list nat) : list A := map (fun '(xs, j) => nth j xs d) (combine nodes p).
Definition affine {N : num} (t : list N) (D : list (list N)) (x : list N) : list N :=
  map (fun '(ti, row) => fold_left (fun y '(a, xj) => nadd y (nmul a xj)) (combine row x) ti) (combine t D).
