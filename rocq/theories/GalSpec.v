(** The function a Series stands for, and functions sampled on the grid of a quadrature. *)
From Coq Require Import List Arith Reals.
From Verif Require Import Base IndexModel Num Fnum LinSpec CalcSpec PosModel SeriesModel PyQuadModel PyQuadSpec.
Import ListNotations.
Local Open Scope R_scope.

(** The factor times the sum of the coefficients times the basis functions, at the point [x] (a list of coordinates); [env x] gives
    the variables of the factor their values at [x]. *)
Definition stands_for {E : Type} (eval : E -> (nat -> R) -> R) (env : list R -> nat -> R) (vars : list R) (u : SeriesModel.series fnum_R E) (x : list R) : R :=
  eval (f_sym (s_factor u)) (env x) *
  CalcSpec.series (s_set u) (s_degree u) (kinds (p_types (s_pos u))) (s_coeffs u) (standardised (p_mean (s_pos u)) vars x).

(** The values of a function of the coordinates on the grid of the quadrature. *)
Definition sampled {E : Type} (q : quad fnum_R E) (vars : list R) (F : list R -> R) : list R := map (fun p => F (grid_point q vars p)) (grid (q_nodes q)).

(** A series with the position and the factor of the quadrature, of the given index set and degree. *)
Definition series_for {E : Type} (q : quad fnum_R E) (vars : list R) (s : iset) (degree : nat) (u : SeriesModel.series fnum_R E) : Prop :=
  s_pos u = q_pos q /\ s_factor u = q_factor q /\ s_set u = s /\ s_degree u = degree /\ length (s_coeffs u) = length (points s (length vars) degree).
