(** The words of C108. *)
From Coq Require Import String List Bool Arith.
From Verif Require Import Base Num Fnum PyBase PosModel PosSpec LinSpec CalcModel SeriesModel PartModel SplitModel MulModel PyQuadModel PyQuadSpec.
Import ListNotations.
Local Open Scope list_scope. Local Open Scope nat_scope.

(** A position as tensorize and project return it: the directions increase and the covariance is exactly diagonal. *)
Definition normal {N : num} (p : position N) : Prop := pos_ok p /\ increasing (p_dirs p) /\ exists vs, p_cov p = diag_mat N vs.

(** The same means, variances and types in the directions that both have. *)
Definition consistent {N : num} (p q : position N) : Prop := forall d m v t m' v' t', records p d m v t -> records q d m' v' t' -> m = m' /\ v = v' /\ t = t'.

(** The position without directions. *)
Definition nowhere (N : num) : position N := Pos [] [] [] [] true.

(** A quadrature whose factor has no variables but those of its directions. *)
Definition quad_fine {F : fnum} {E} (free_vars : E -> list nat) (q : quad F E) : Prop := quad_ok q /\ incl (free_vars (f_sym (q_factor q))) (p_dirs (q_pos q)).

(** [n] nodes and [k] weights in each direction. *)
Definition points_each {F : fnum} {E} (n k : nat) (q : quad F E) : Prop := Forall (fun xs => length xs = n) (q_nodes q) /\ Forall (fun ws => length ws = k) (q_weights q).

(** The same quadrature, up to the way its factor is written. *)
Definition same_quad {F : fnum} {E} (eval : E -> (nat -> F) -> F) (a b : quad F E) : Prop :=
  q_nodes a = q_nodes b /\ q_weights a = q_weights b /\ q_pos a = q_pos b /\ f_dirs (q_factor a) = f_dirs (q_factor b) /\ forall env, eval (f_sym (q_factor a)) env = eval (f_sym (q_factor b)) env.

(** No common direction. *)
Definition apart {F : fnum} {E} (a b : quad F E) : Prop := forall d, In d (p_dirs (q_pos a)) -> ~ In d (p_dirs (q_pos b)).
