(** Pictures of functions. *)
From Coq Require Import String List Arith ZArith Reals.
From Verif Require Import Base IndexModel LinSpec Num Fnum CalcSpec PosModel PosSpec SeriesModel SplitModel PyQuadModel PyQuadSpec PlotModel.
Import ListNotations.
Local Open Scope R_scope.

(** The coordinates of the nodes in each direction: mean + sqrt(variance) * node. *)
Definition coordinates {E} (q : quad fnum_R E) (vars : list R) : list (list R) :=
  map (fun '(m, (v, xs)) => map (fun t => m + sqrt v * t) xs) (combine (p_mean (q_pos q)) (combine vars (q_nodes q))).

(** The picture shows the function [g] of the variables of the directions [dirs] at the points with the given coordinates. *)
Definition shows (dirs : list nat) (axes : list (list R)) (pic : picture) (g : (nat -> R) -> R) : Prop :=
  match dirs, axes, pic with
  | [a], [x], Line x' y => x' = x /\ length y = length x /\ forall i v env, nth_error y i = Some v -> nth_error x i = Some (env a) -> v = g env
  | [a; b], [x; y], Contour x' y' z => x' = x /\ y' = y /\ length z = length y /\ Forall (fun row => length row = length x) z /\
      forall i j row v env, nth_error z j = Some row -> nth_error row i = Some v -> nth_error x i = Some (env a) -> nth_error y j = Some (env b) -> v = g env
  | _, _, _ => False
  end.

(** Quadratures that can be plotted: a rule of weights in each direction, a factor that has a projection on each direction, and not too many nodes. *)
Definition plottable {E} (fun_project : func E -> list nat -> res (func E)) (q : quad fnum_R E) : Prop :=
  p_is_diag (q_pos q) = true /\ length (q_weights q) = length (p_dirs (q_pos q)) /\ (forall d, In d (p_dirs (q_pos q)) -> exists g, fun_project (q_factor q) [d] = Ok g) /\
  Forall (fun xs => (Z.of_nat (length xs) < 2 ^ 32)%Z) (q_nodes q).

(** The entry in row j and column i of a matrix. *)
Definition at2 (m : list (list R)) (j i : nat) : R := nth i (nth j m []) 0.

(** A matrix of values psi[j][i] at the points (x[i], y[j]) that vanishes at the first point and integrates d psi = - v dx + u dy along the first row and
    then along every column, with the values of the flow (u, v) at the end of each interval. *)
Definition stream_function (x y : list R) (u v : R -> R -> R) (psi : list (list R)) : Prop :=
  length psi = length y /\ Forall (fun row => length row = length x) psi /\ at2 psi 0 0 = 0 /\
  (forall i, (S i < length x)%nat -> at2 psi 0 (S i) - at2 psi 0 i = - v (nth (S i) x 0) (nth 0 y 0) * (nth (S i) x 0 - nth i x 0)) /\
  (forall i j, (i < length x)%nat -> (S j < length y)%nat -> at2 psi (S j) i - at2 psi j i = u (nth i x 0) (nth (S j) y 0) * (nth (S j) y 0 - nth j y 0)).

(** The discrete divergence of the flow in every cell is 0. *)
Definition solenoidal (x y : list R) (u v : R -> R -> R) : Prop :=
  forall i j, (S i < length x)%nat -> (S j < length y)%nat ->
    (u (nth (S i) x 0) (nth (S j) y 0) - u (nth i x 0) (nth (S j) y 0)) * (nth (S j) y 0 - nth j y 0) +
    (v (nth (S i) x 0) (nth (S j) y 0) - v (nth (S i) x 0) (nth j y 0)) * (nth (S i) x 0 - nth i x 0) = 0.

(** The variables of the directions 0 and 1. *)
Definition plane (s t : R) : nat -> R := fun d => match d with O => s | _ => t end.

(** Ten equidistant levels from [a] to [b]. *)
Definition equidistant (a b : R) (levels : list R) : Prop := length levels = 10%nat /\ forall k, (k < 10)%nat -> nth k levels 0 = a + INR k * (b - a) / 9.

(** A series whose basis functions can be evaluated on the grid of the quadrature, and a factor of the variables of the quadrature. *)
Definition series_on {E} (free_vars : E -> list nat) (q : quad fnum_R E) (f : SeriesModel.series fnum_R E) (vs : list R) : Prop :=
  gaussian (s_pos f) vs /\ p_dirs (s_pos f) = p_dirs (q_pos q) /\ f_dirs (s_factor f) = p_dirs (q_pos q) /\ incl (free_vars (f_sym (s_factor f))) (f_dirs (s_factor f)) /\
  fits (s_set f) (length vs) (s_degree f) /\ flags_ok (s_set f) (s_degree f) (kinds (p_types (q_pos q))) /\ @vec_for num_R (s_set f) (length vs) (s_degree f) (s_coeffs f).
Definition factor_on {E} (free_vars : E -> list nat) (q : quad fnum_R E) (factor : option (plot_factor E)) : Prop :=
  match factor with
  | None => True
  | Some (FactorFun _ g) => f_dirs g = p_dirs (q_pos q) /\ incl (free_vars (f_sym g)) (f_dirs g)
  | Some (FactorArray _ _) => False
  end.
(** The function that a series stands for, times the factor. *)
Definition drawn {E} (eval : E -> (nat -> R) -> R) (q : quad fnum_R E) (f : SeriesModel.series fnum_R E) (vs : list R) (factor : option (plot_factor E)) (env : nat -> R) : R :=
  CalcSpec.series (s_set f) (s_degree f) (kinds (p_types (q_pos q))) (s_coeffs f) (standardised (p_mean (s_pos f)) vs (map env (p_dirs (q_pos q)))) * eval (f_sym (s_factor f)) env *
  match factor with Some (FactorFun _ g) => eval (f_sym g) env | _ => 1 end.
