(** What the rules made by the constructors of Quad are. *)
From Coq Require Import String List Arith Reals.
From Verif Require Import Base Num Fnum PyBase PosModel CalcSpec PyQuadModel PyQuadSpec QuadMakeModel.
Import ListNotations.
Local Open Scope R_scope.

(** The moments of the standard Gaussian: 1, 0, 1, 0, 3, 0, 15, ... *)
Fixpoint moment (k : nat) : R :=
  match k with
  | O => 1
  | S O => 0
  | S (S j) => INR (S j) * moment j
  end.

(** What is assumed of hermegauss for n points: n nodes and n weights that integrate the powers up to 2n - 1 against exp(-x^2/2). *)
Definition gauss_rule (n : nat) (rule : list R * list R) : Prop :=
  length (fst rule) = n /\ length (snd rule) = n /\
  forall k, (k < 2 * n)%nat -> rsum (map (fun '(x, w) => w * x ^ k) (combine (fst rule) (snd rule))) = sqrt (2 * PI) * moment k.

(** The point of the grid with numbers [p] of n^dim equispaced points in a box: left + (right - left) k / n in each direction. *)
Definition box_point (n : nat) (bounds : list (R * R)) (p : list nat) : list R :=
  map (fun '((lo, hi), k) => lo + (hi - lo) * INR k / INR n) (combine bounds p).

(** The arguments of Quad.fourier without a position, and their defaults. *)
Definition fourier_arguments {F : fnum} (n_points : count) (bounds : option (list (F * F))) (dirs : option (list nat)) (n : nat) (B : list (F * F)) (D : list nat) : Prop :=
  (bounds = Some B \/ bounds = None /\ B = repeat (nopp fpi, fpi) (length D)) /\ (dirs = Some D \/ dirs = None /\ D = seq 0 (length B)) /\ length B = length D /\
  (n_points = Each (repeat n (length D)) \/ n_points = One n /\ (dirs <> None \/ bounds <> None \/ length D = 1%nat)).

(** The arguments of Quad.gauss_hermite without a position: the number of points, and the directions. *)
Definition gauss_arguments (n_points : count) (dim : option nat) (dirs : option (list nat)) (n : nat) (D : list nat) : Prop :=
  (n_points = One n \/ n_points = Each (repeat n (length D))) /\
  (dirs = Some D \/ dirs = None /\ D = seq 0 (length D) /\ (dim = Some (length D) \/ dim = None /\ (n_points = Each (repeat n (length D)) \/ length D = 1%nat))).
(** Mean and variances of a position, or their defaults 0 and 1. *)
Definition gauss_position {F : fnum} (mean : option (list F)) (cov : option (list (list F))) (ms vs : list F) (dim : nat) : Prop :=
  (mean = Some ms /\ length ms = dim \/ mean = None /\ ms = repeat n0 dim) /\ (cov = Some (diag_mat F vs) /\ length vs = dim \/ cov = None /\ vs = repeat n1 dim).

(** The trapezoidal rule with N intervals on [a, b], and the standard Gaussian density. *)
Definition trapezoidal (N : nat) (a b : R) (f : R -> R) : R :=
  rsum (map (fun k => (b - a) / INR N * ((f (a + (b - a) / INR N * INR k) + f (a + (b - a) / INR N * INR (S k))) / 2)) (seq 0 N)).
Definition gaussian_density (x : R) : R := exp (- x ^ 2 / 2) / sqrt (2 * PI).
