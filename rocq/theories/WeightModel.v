(** Position.weight and Position.weights, hermipy/position.py:131-145. *)
From Coq Require Import String List Bool Arith Reals.
From Verif Require Import Base Num Fnum PyBase PosModel SeriesModel.
Import ListNotations.
Local Open Scope string_scope. Local Open Scope list_scope. Local Open Scope nat_scope.

Section Weight.
(** See PosModel.v. *)
Variable far_from_diag : list (list R) -> bool.
(** [la.inv] and [la.det]. *)
Variable la_inv : list (list R) -> res (list (list R)).
Variable la_det : list (list R) -> R.

(** [[i for i, t in enumerate(self.types) if t == "hermite"]], position.py:132. *)
Definition hermite_ind (types : list string) : list nat := map fst (filter (fun '(i, t) => String.eqb t "hermite") (combine (seq 0 (length types)) types)).
(** NumPy indexing with a list, and with np.ix_. *)
Definition take (v : list R) (ind : list nat) : res (list R) := mapM (py_get v) ind.
Definition take_ix (m : list (list R)) (ind : list nat) : res (list (list R)) := mapM (fun i => row <- py_get m i ;; take row ind) ind.
(** [var - sub_mean]: equal lengths here. *)
Definition minus (x y : list R) : list R := map (fun '(a, b) => (a - b)%R) (combine x y).

(** Position.weight, position.py:131-140.  The sympy expression is represented by its value when the variable of direction d has the value [env d]. *)
Definition pos_weight (p : position num_R) (env : nat -> R) : res R :=
  let ind := hermite_ind (p_types p) in
  if length ind =? 0 then Ok 1%R else
  sub_mean <- take (p_mean p) ind ;;
  sub_cov <- take_ix (p_cov p) ind ;;
  dirs <- mapM (py_get (p_dirs p)) ind ;;
  let var := map env dirs in
  inv_cov <- la_inv sub_cov ;;
  image <- np_dot num_R inv_cov (minus var sub_mean) ;;
  let potential := (/ 2 * row_dot num_R image (minus var sub_mean))%R in
  let normalization := (1 / sqrt ((2 * PI) ^ p_dim p * la_det sub_cov))%R in
  Ok (normalization * exp (- potential))%R.

(** Position.weights, position.py:142-145. *)
Definition pos_weights (p : position num_R) (env : nat -> R) : res (list R) :=
  _ <- require (p_is_diag p) "ValueError" ;;
  mapM (fun d => q <- pos_project num_R far_from_diag p [d] ;; pos_weight q env) (p_dirs p).
End Weight.
