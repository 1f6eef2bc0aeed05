(** The constructors of Quad, hermipy/quad.py:52-155. *)
From Coq Require Import String List Bool Arith ZArith.
From Verif Require Import Base Num Fnum CalcModel QuadModel PyBase PosModel SeriesModel PartModel SplitModel MulModel PyQuadModel.
Import ListNotations.
Local Open Scope string_scope. Local Open Scope list_scope. Local Open Scope nat_scope.

Section Make.
Variable F : fnum.
(** See PosModel.v. *)
Variable far_from_diag : list (list F) -> bool.
(** Symbolic expressions, see SplitModel.v. *)
Variable E : Type.
Variable free_vars : E -> fset.
(** numpy.polynomial.hermite_e.hermegauss: nodes and weights; it raises ValueError if the number of points is not positive. *)
Variable hermegauss : nat -> list F * list F.
(** The exponential. *)
Variable fexp : F -> F.

(** The argument n_points: an int, or a list of them. *)
Inductive count := One (n : nat) | Each (ns : list nat).

(** Quad.__init__, quad.py:70-80, without position ([None] for an argument that is not given) or with one.  The factor is an
    expression; sympy's expand is not modelled. *)
Definition quad_new (nodes weights : list (list F)) (position : option (position F)) (factor : E)
    (mean : option (list F)) (cov : option (list (list F))) (dirs : option (list nat)) (types : option (list string)) : res (quad F E) :=
  _ <- require (same_lengths F nodes && same_lengths F weights) "ValueError" ;;
  position <- match position with
              | Some p => Ok p
              | None => position_init F far_from_diag (Some (length nodes)) mean cov dirs types
              end ;;
  factor <- function_init E free_vars factor (p_dirs position) ;;
  Ok (Qd nodes weights position factor).

(** lib.hermegauss_nd, lib.py:24-33. *)
Definition hermegauss_nd (n_points : list nat) : res (list (list F) * list (list F)) :=
  rules <- mapM (fun n =>
      _ <- require (0 <? n) "ValueError" ;;
      let '(nodes, weights) := hermegauss n in
      Ok (nodes, map (fun w => fdiv w (fsqrt (nmul (fofZ 2) fpi))) weights)) n_points ;;
  Ok (map fst rules, map snd rules).

(** [np.full(dim, n_points)]: the number is repeated; a list must have the length dim, or length 1. *)
Definition np_full (dim : nat) (n_points : count) : res (list nat) :=
  match n_points with
  | One n => Ok (repeat n dim)
  | Each [n] => Ok (repeat n dim)
  | Each ns => _ <- require (length ns =? dim) "ValueError" ;; Ok ns
  end.

(** Quad.gauss_hermite, quad.py:82-95; [position], [factor], [mean], [cov] and [types] are its keyword arguments. *)
Definition gauss_hermite (n_points : count) (dim : option nat) (dirs : option (list nat))
    (position : option (position F)) (factor : E) (mean : option (list F)) (cov : option (list (list F))) (types : option (list string)) : res (quad F E) :=
  let dim := match dirs with Some d => Some (length d) | None => dim end in
  n_points <- match dim, n_points with
              | Some dim, _ => np_full dim n_points
              | None, One n => Ok [n]
              | None, Each ns => Ok ns
              end ;;
  '(nodes, weights) <- hermegauss_nd n_points ;;
  quad_new nodes weights position factor mean cov dirs types.

(** Quad.fourier, quad.py:97-143.  A pair of [bounds] is (left, right).  [np.zeros((dim, dim))] with the diagonal assigned is written as
    [diag_mat].  [2*np.pi/n_points[i]] raises ZeroDivisionError for the int 0. *)
Definition two_pi : F := nmul (fofZ 2) fpi.
Definition quad_fourier (n_points : count) (bounds : option (list (F * F))) (position : option (position F)) (factor : E) (dirs : option (list nat)) : res (quad F E) :=
  let dim := match dirs, bounds, n_points with
             | Some d, _, _ => length d
             | None, Some b, _ => length b
             | None, None, Each ns => length ns
             | None, None, One _ => 1
             end in
  position <- match position with
    | Some p => Ok p
    | None =>
        let bounds := match bounds with Some b => b | None => repeat (nopp fpi, fpi) dim end in
        let dirs := match dirs with Some d => d | None => seq 0 dim end in
        _ <- require ((dim =? length bounds) && (dim =? length dirs)) "ValueError" ;;
        let mean := map (fun '(lo, hi) => nadd (fdiv lo (fofZ 2)) (fdiv hi (fofZ 2))) bounds in
        let cov := map (fun '(lo, hi) => let r := fdiv (nsub hi lo) two_pi in nmul r r) bounds in
        position_init F far_from_diag (Some dim) (Some mean) (Some (diag_mat F cov)) (Some dirs) (Some (repeat "fourier" dim))
    end ;;
  let n_points := match n_points with One n => repeat n dim | Each ns => ns end in
  _ <- require (dim =? length n_points) "AssertionError" ;;
  rules <- mapM (fun n => _ <- require (negb (n =? 0)) "ZeroDivisionError" ;; Ok (fourier_nodes F n, fourier_weights F n)) n_points ;;
  quad_new (map fst rules) (map snd rules) (Some position) factor None None None None.

(** Quad.newton_cotes, quad.py:145-155, for floats as extrema; [n_points[i]] raises IndexError beyond the list, [2*extremum/(n - 1)]
    ZeroDivisionError for n = 1, [weights_simpson[0]] IndexError for n = 0. *)
Definition linspace (a b : F) (n : nat) : list F := map (fun k => nadd a (nmul (ofnat F k) (fdiv (nsub b a) (ofnat F (n - 1))))) (seq 0 n).
Definition newton_rule (extremum : F) (n : nat) : res (list F * list F) :=
  let nodes := linspace (nopp extremum) extremum n in
  _ <- require (negb (n =? 1)) "ZeroDivisionError" ;;
  let mesh_size := fdiv (nmul (fofZ 2) extremum) (ofnat F (n - 1)) in
  _ <- require (negb (n =? 0)) "IndexError" ;;
  let half := fdiv n1 (fofZ 2) in
  let weights_simpson := map (fun k => if (k =? 0) || (k =? n - 1) then half else n1) (seq 0 n) in
  let gaussian_weight := map (fun x => nmul (fdiv n1 (fsqrt (nmul (fofZ 2) fpi))) (fexp (fdiv (nopp (nmul x x)) (fofZ 2)))) nodes in
  Ok (nodes, map (fun '(s, g) => nmul (nmul s g) mesh_size) (combine weights_simpson gaussian_weight)).
Definition newton_cotes (n_points : list nat) (extrema : list F)
    (position : option (position F)) (factor : E) (mean : option (list F)) (cov : option (list (list F))) (dirs : option (list nat)) (types : option (list string)) : res (quad F E) :=
  rules <- mapM (fun '(i, extremum) => n <- py_get n_points i ;; newton_rule extremum n) (combine (seq 0 (length extrema)) extrema) ;;
  quad_new (map fst rules) (map snd rules) position factor mean cov dirs types.
End Make.
