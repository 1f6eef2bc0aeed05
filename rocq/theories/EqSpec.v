(** Closeness. *)
From Coq Require Import String List Arith Reals.
From Verif Require Import Base Num Fnum LinModel LinSpec PosModel PosSpec SeriesModel SeriesSpec PyQuadModel.
Import ListNotations.
Local Open Scope R_scope.

(** Two vectors, two matrices of the same shape whose entries differ by less than [eps]. *)
Definition close (eps : R) (x y : list R) : Prop := length x = length y /\ forall i a b, nth_error x i = Some a -> nth_error y i = Some b -> Rabs (a - b) < eps.
Definition close_mat (eps : R) (x y : list (list R)) : Prop :=
  length x = length y /\ forall i r s, nth_error x i = Some r -> nth_error y i = Some s -> close eps r s.
Definition tol : R := / 10 ^ 10.

Definition same_position (p q : position num_R) : Prop := p_dirs p = p_dirs q /\ p_types p = p_types q /\ close tol (p_mean p) (p_mean q) /\ close_mat tol (p_cov p) (p_cov q).

(** The mean and the covariance matrix of a position have the size of its list of directions; the covariance need not be diagonal. *)
Definition pos_shape (p : position num_R) : Prop := length (p_mean p) = length (p_dirs p) /\ mat_wf (length (p_dirs p)) (length (p_dirs p)) (p_cov p).

(** The spectral norm: 0 for matrices of zeros, the same for the opposite, and no entry is larger. *)
Record spectral_ok (spectral : list (list R) -> R) : Prop := {
  spectral_zero : forall m, (forall r x, In r m -> In x r -> x = 0) -> spectral m = 0;
  spectral_opp : forall m, spectral (map (map Ropp) m) = spectral m;
  spectral_entry : forall m r x, In r m -> In x r -> Rabs x <= spectral m }.

(** The nodes and the weights of a quadrature are arrays with n rows and k columns. *)
Definition quad_shape {E} (q : quad fnum_R E) (n k : nat) : Prop := pos_shape (q_pos q) /\ length (p_dirs (q_pos q)) = n /\ mat_wf n k (q_nodes q) /\ mat_wf n k (q_weights q).
