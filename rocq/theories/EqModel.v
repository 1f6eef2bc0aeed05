(** The equalities of hermipy: Position.__eq__, Series.__eq__, Varf.__eq__, Quad.__eq__. *)
From Coq Require Import String List Bool Arith Reals.
From Verif Require Import Base Num Fnum PyBase PosModel SeriesModel PyQuadModel.
Import ListNotations.
Local Open Scope string_scope. Local Open Scope list_scope. Local Open Scope nat_scope.

(** [la.norm] of a vector, and of a matrix (the Frobenius norm; [spla.norm] of a sparse matrix is the same). *)
Definition vec_norm (v : list R) : R := sqrt (fold_right Rplus 0%R (map (fun x => x * x)%R v)).
Definition frobenius (m : list (list R)) : R := vec_norm (concat m).
(** [... < very_small], 1e-10 in position.py:27, series.py:30, varf.py:33 and quad.py:29. *)
Definition small (x : R) : bool := if Rlt_dec x (/ 10 ^ 10) then true else false.
(** [x - y] on NumPy arrays, which is [x + (-y)] here. *)
Definition np_sub (x y : list R) : res (list R) := np_add num_R x (map Ropp y).
Definition np_sub_mat (x y : list (list R)) : res (list (list R)) := np_add_mat num_R x (map (map Ropp) y).
Fixpoint strings_eqb (l l' : list string) : bool :=
  match l, l' with
  | [], [] => true
  | x :: l, y :: l' => String.eqb x y && strings_eqb l l'
  | _, _ => false
  end.
(** Python's [a and b]. *)
Definition and_then (a : res bool) (b : res bool) : res bool := x <- a ;; if x : bool then b else Ok false.

Section Eq.
Variable E : Type.
Variable sym_eqb : E -> E -> bool.
(** [la.norm(m, 2)], the largest singular value of a matrix. *)
Variable spectral : list (list R) -> R.

(** Position.__eq__, position.py:112-116. *)
Definition position_eq (p q : position num_R) : res bool :=
  and_then (Ok (nats_eqb (p_dirs p) (p_dirs q)))
  (and_then (d <- np_sub (p_mean p) (p_mean q) ;; Ok (small (vec_norm d)))
  (and_then (d <- np_sub_mat (p_cov p) (p_cov q) ;; Ok (small (spectral d)))
  (Ok (strings_eqb (p_types p) (p_types q))))).
(** Series.__eq__, series.py:108-113, for a Series. *)
Definition series_eq (f g : series num_R E) : res bool :=
  and_then (position_eq (s_pos f) (s_pos g))
  (and_then (Ok (func_eqb E sym_eqb (s_factor f) (s_factor g)))
  (d <- np_sub (s_coeffs f) (s_coeffs g) ;; Ok (small (vec_norm d)))).
(** Varf.__eq__, varf.py:78-83, for a Varf. *)
Definition varf_eq (v w : varf num_R E) : res bool :=
  and_then (position_eq (v_pos v) (v_pos w))
  (d <- np_sub_mat (v_mat v) (v_mat w) ;; Ok (small (frobenius d))).
(** Quad.__eq__, quad.py:160-167, for a Quad. *)
Definition quad_eq (q r : quad fnum_R E) : res bool :=
  and_then (position_eq (q_pos q) (q_pos r))
  (and_then (Ok (func_eqb E sym_eqb (q_factor q) (q_factor r)))
  (and_then (d <- np_sub_mat (q_nodes q) (q_nodes r) ;; Ok (small (frobenius d)))
  (d <- np_sub_mat (q_weights q) (q_weights r) ;; Ok (small (frobenius d))))).
End Eq.
