(** Quadratures: what a quadrature records and which quadratures are in order. *)
From Coq Require Import String List Bool Arith.
From Verif Require Import Base Num Fnum LinSpec PosModel PosSpec SeriesModel PartSpec PyQuadModel.
Import ListNotations.

(** The quadrature has, for direction [d], the nodes [xs] and the weights [ws]. *)
Definition rule_of {F : fnum} {E} (q : quad F E) (d : nat) (xs ws : list F) : Prop :=
  exists i, nth_error (p_dirs (q_pos q)) i = Some d /\ nth_error (q_nodes q) i = Some xs /\ nth_error (q_weights q) i = Some ws.

(** A quadrature with a diagonal position and increasing directions, one list of nodes and one of weights for each direction, with the
    same number of points in each direction, and a factor on the same directions. *)
Definition quad_ok {F : fnum} {E} (q : quad F E) : Prop :=
  pos_ok (q_pos q) /\ increasing (p_dirs (q_pos q)) /\ length (q_nodes q) = length (p_dirs (q_pos q)) /\ length (q_weights q) = length (p_dirs (q_pos q)) /\
  (exists n, Forall (fun xs => length xs = n) (q_nodes q)) /\ (exists n, Forall (fun ws => length ws = n) (q_weights q)) /\ f_dirs (q_factor q) = p_dirs (q_pos q).

(** A partition of the directions in non-empty groups, each given as an increasing list. *)
Definition grouping (dirs : list nat) (groups : list (list nat)) : Prop :=
  partition (fun d => In d dirs) groups /\ Forall (fun g => increasing g /\ g <> []) groups.

(** What is assumed of sympy's free variables: a product has no others than its factors, 1 has none, and the arguments of an
    expression have no others than the expression. *)
Record sympy_vars {E : Type} (e_mul : E -> E -> E) (e_1 : E) (add_args mul_args : E -> list E) (free_vars : E -> list nat) : Prop := {
  vars_mul : forall a b x, In x (free_vars (e_mul a b)) -> In x (free_vars a) \/ In x (free_vars b);
  vars_1 : free_vars e_1 = [];
  vars_add_args : forall e a, In a (add_args e) -> incl (free_vars a) (free_vars e);
  vars_mul_args : forall e a, In a (mul_args e) -> incl (free_vars a) (free_vars e) }.

From Coq Require Import Reals.
From Verif Require Import IndexModel CalcSpec SeriesSpec SplitSpec.
Local Open Scope R_scope.

(** What is assumed of NumPy and SciPy on diagonal matrices with a positive diagonal: the square root from la.eig, the inverse la.inv,
    and the test whether a matrix is far from diagonal. *)
Record numpy_ok (cov_factor : list (list R) -> list (list R)) (la_inv : list (list R) -> res (list (list R))) (far8 : list (list R) -> bool) : Prop := {
  ok_cov_factor : forall l, Forall (fun v => 0 < v) l -> cov_factor (diag_mat fnum_R l) = diag_mat fnum_R (map sqrt l);
  ok_la_inv : forall l, Forall (fun v => 0 < v) l -> la_inv (diag_mat fnum_R l) = Ok (diag_mat fnum_R (map Rinv l));
  ok_far8 : forall l, far8 (diag_mat fnum_R l) = false }.

(** A position with diagonal covariance, with the given (positive) variances, one direction, mean and type for each. *)
Definition gaussian (p : position fnum_R) (vars : list R) : Prop :=
  p_cov p = diag_mat fnum_R vars /\ Forall (fun v => 0 < v) vars /\ length (p_dirs p) = length vars /\ length (p_mean p) = length vars /\ length (p_types p) = length vars /\ NoDup (p_dirs p).

(** Coordinates and standardised coordinates: x = mean + sqrt(variance) y, y = (x - mean) / sqrt(variance). *)
Definition located (mean vars y : list R) : list R := map (fun '(m, (v, t)) => m + sqrt v * t) (combine mean (combine vars y)).
Definition standardised (mean vars x : list R) : list R := map (fun '(m, (v, t)) => (t - m) / sqrt v) (combine mean (combine vars x)).

(** A quadrature over the reals with a rule in every direction. *)
Definition quad_R {E} (q : quad fnum_R E) (vars : list R) : Prop :=
  gaussian (q_pos q) vars /\ length (q_nodes q) = length vars /\ q_nodes q <> [] /\ grid_fits (q_nodes q).
(** The point at position [p] of the grid. *)
Definition grid_point {E} (q : quad fnum_R E) (vars : list R) (p : list nat) : list R := located (p_mean (q_pos q)) vars (at_pos (q_nodes q) p).

(** Fourier (1) or Hermite (0) directions. *)
Definition kinds (types : list string) : list nat := map (fun t => if String.eqb t "fourier" then 1%nat else 0%nat) types.

(** The values [env] of the variables are the coordinates [x] in the directions [dirs]. *)
Definition at_point {A} (dirs : list nat) (x : list A) (env : nat -> A) : Prop := forall i d, nth_error dirs i = Some d -> nth_error x i = Some (env d).

(** [values] are the values of the function [g] of the variables on the grid of the quadrature. *)
Definition grid_values {E} (q : quad fnum_R E) (vars : list R) (values : list R) (g : (nat -> R) -> R) : Prop :=
  length values = length (grid (q_nodes q)) /\
  forall k p env, nth_error (grid (q_nodes q)) k = Some p -> at_point (p_dirs (q_pos q)) (grid_point q vars p) env -> nth_error values k = Some (g env).

(** The value of an expression depends only on its free variables. *)
Definition reads_free {A E} (eval : E -> (nat -> A) -> A) (free_vars : E -> list nat) : Prop :=
  forall e env env', (forall x, In x (free_vars e) -> env x = env' x) -> eval e env = eval e env'.

(** Values divided by the values of the factor; where the factor is 0, by the number [tiny] instead. *)
Definition divided (tiny : R) (values factor : list R) : list R := map (fun '(y, f) => y / (if Req_EM_T f 0 then tiny else f)) (combine values factor).

(** Real expressions, for examples. *)
Inductive rexpr := RNum (x : R) | RVar (d : nat) | RMul (a b : rexpr) | RAdd (a b : rexpr).
Fixpoint r_eval (e : rexpr) (env : nat -> R) : R :=
  match e with RNum x => x | RVar d => env d | RMul a b => r_eval a env * r_eval b env | RAdd a b => r_eval a env + r_eval b env end.
Fixpoint r_free (e : rexpr) : list nat := match e with RNum _ => [] | RVar d => [d] | RMul a b | RAdd a b => r_free a ++ r_free b end.
(** The functions of NumPy and SciPy restricted to diagonal matrices, for examples. *)
Definition r_cov_factor (m : list (list R)) : list (list R) := map (map sqrt) m.
Definition r_la_inv (m : list (list R)) : res (list (list R)) := Ok (map (map (fun x => if Req_EM_T x 0 then 0 else / x)) m).
Definition r_far (m : list (list R)) : bool := false.
