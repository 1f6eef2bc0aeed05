(** Gaussian densities. *)
From Coq Require Import String List Arith Reals.
From Verif Require Import Base Num CalcSpec PosModel.
Import ListNotations.
Local Open Scope R_scope.

(** The density of the normal distribution with mean [m] and variance [v]. *)
Definition normal_density (m v x : R) : R := exp (- ((x - m) ^ 2 / (2 * v))) / sqrt (2 * PI * v).
(** The weight of one direction: Gaussian for Hermite, 1 for the others. *)
Definition direction_weight (t : string) (m v x : R) : R := if String.eqb t "hermite" then normal_density m v x else 1.

(** A position with the variances [vars] on the diagonal of its covariance. *)
Definition diag_position (p : position num_R) (vars : list R) : Prop :=
  p_cov p = diag_mat num_R vars /\ Forall (fun v => 0 < v) vars /\ length (p_dirs p) = length vars /\ length (p_mean p) = length vars /\ length (p_types p) = length vars /\ NoDup (p_dirs p) /\ p_is_diag p = true.

(** The weights of the directions, and the number of directions that are not Hermite. *)
Definition weight_list (p : position num_R) (vars : list R) (env : nat -> R) : list R :=
  map (fun i => direction_weight (nth i (p_types p) EmptyString) (nth i (p_mean p) 0) (nth i vars 0) (env (nth i (p_dirs p) 0%nat))) (seq 0 (length (p_dirs p))).
Definition others (p : position num_R) : nat := length (filter (fun t => negb (String.eqb t "hermite")) (p_types p)).

(** The inverse and the determinant of diagonal matrices. *)
Definition la_diag (la_inv : list (list R) -> res (list (list R))) (la_det : list (list R) -> R) : Prop :=
  forall l, Forall (fun v => 0 < v) l -> la_inv (diag_mat num_R l) = Ok (diag_mat num_R (map Rinv l)) /\ la_det (diag_mat num_R l) = rprod l.
