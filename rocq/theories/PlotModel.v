(** The data that Quad.plot, Quad.plot_hf and Quad.streamlines hand to matplotlib, hermipy/quad.py. *)
From Coq Require Import String List Bool Arith ZArith Reals.
From Verif Require Import Base PyBase IndexModel Num Fnum LinModel PosModel SeriesModel PartModel SplitModel PyQuadModel.
Import ListNotations.
Local Open Scope string_scope.
Local Open Scope list_scope.
Local Open Scope nat_scope.

(** [v.reshape(n0, n1)] of an array with n0*n1 entries, and the transpose [m.T] of a matrix with [n] columns. *)
Definition reshape2 (n0 n1 : nat) (v : list R) : list (list R) := map (fun i => firstn n1 (skipn (i * n1) v)) (seq 0 n0).
Definition transpose (n : nat) (m : list (list R)) : list (list R) := map (fun j => map (fun r => nth j r 0%R) m) (seq 0 n).

(** What is drawn: a curve through the points (x, y), or a map of [z], with [z[j][i]] at the point (x[i], y[j]), as ax.plot and ax.contourf do. *)
Inductive picture := Line (x y : list R) | Contour (x y : list R) (z : list (list R)).

Section Plot.
Variable far_from_diag : list (list R) -> bool.
Variable E : Type.
Variable e_mul : E -> E -> E.
Variable e_1 : E.
(** The symbol of direction d, [Function.xyz[d]], as Function.__init__ replaces it. *)
Variable e_var : nat -> E.
Variable add_args mul_args : E -> list E.
Variable free_vars : E -> fset.
Variable eval : E -> (nat -> R) -> R.
Variable cov_factor : list (list R) -> list (list R).
Variable la_inv : list (list R) -> res (list (list R)).
Variable far_from_diag8 : list (list R) -> bool.
Variable junk : R.
Notation quad := (quad fnum_R E).
Notation series := (SeriesModel.series fnum_R E).
Notation quad_project := (quad_project fnum_R far_from_diag E e_mul e_1 add_args mul_args free_vars).
Notation quad_discretize := (quad_discretize fnum_R E free_vars eval cov_factor junk).
Notation quad_eval := (quad_eval fnum_R E free_vars eval cov_factor la_inv far_from_diag8 junk).

(** The argument of plot: an expression or Function (after the conversion [hm.Function(arg, dirs=self.position.dirs)]), an array of values on the grid, or a Series with
    real coefficients.  The factor: a Function (after the conversion), or an array. *)
Inductive plot_arg := ArgFun (f : func E) | ArgArray (values : list R) | ArgSeries (f : series).
Inductive plot_factor := FactorFun (f : func E) | FactorArray (values : list R).

(** [self.eval(series)], or [self.eval(series)*factor], quad.py:498-504 and 578-584.  The variable that should hold the result is not assigned when the factor is an array. *)
Definition series_values (q : quad) (f : series) (factor : option plot_factor) : res (list R) :=
  match factor with
  | None => quad_eval q f
  | Some (FactorFun g) => factor <- quad_discretize q g ;; values <- quad_eval q f ;; np_vec fnum_R (@nmul fnum_R) values factor
  | Some (FactorArray _) => Throw "UnboundLocalError"
  end.

(** The variable [solution], quad.py:482-504. *)
Definition plot_values (q : quad) (arg : plot_arg) (factor : option plot_factor) : res (list R) :=
  match arg with
  | ArgFun f => match factor with None => quad_discretize q f | Some _ => Throw "ValueError" end
  | ArgArray values => Ok values
  | ArgSeries f => series_values q f factor
  end.

(** [hm.Function(hm.Function.xyz[d], dirs=self.position.dirs)], quad.py:250-251: the assertion of function.py:76. *)
Definition coordinate (dirs : list nat) (d : nat) : res (func E) :=
  _ <- require (py_in d dirs) "AssertionError" ;; Ok (Fn (e_var d) dirs).

(** The loop of quad.py:526-531: the numbers of nodes and the coordinates of the nodes. *)
Definition plot_axes (q : quad) : res (list (nat * list R)) :=
  mapM (fun '(i, d) =>
      nodes <- py_get (q_nodes q) i ;;
      part <- quad_project q [d] ;;
      x <- coordinate (p_dirs (q_pos part)) d ;;
      r <- quad_discretize part x ;;
      Ok (length nodes, r)) (combine (seq 0 (length (p_dirs (q_pos q)))) (p_dirs (q_pos q))).

(** Quad.plot with an axes object [ax], quad.py:468-554, without the vertical and horizontal lines ([bounds]), the contour lines ([contours]) and the title.  The local variable
    [plot] is not assigned in more than two dimensions; [reshape] without arguments raises TypeError. *)
Definition quad_plot (q : quad) (arg : plot_arg) (factor : option plot_factor) : res picture :=
  _ <- require (p_is_diag (q_pos q)) "ValueError" ;;
  solution <- plot_values q arg factor ;;
  axes <- plot_axes q ;;
  match axes with
  | [] => Throw "TypeError"
  | [(n0, x)] => _ <- require (length solution =? n0) "ValueError" ;; Ok (Line x solution)
  | [(n0, x); (n1, y)] => _ <- require (length solution =? n0 * n1) "ValueError" ;; Ok (Contour x y (transpose n1 (reshape2 n0 n1 solution)))
  | _ => _ <- require (length solution =? fold_right (fun '(n, _) => Nat.mul n) 1 axes) "ValueError" ;; Throw "UnboundLocalError"
  end.

(** [hf[i] = 1] on an array of zeros, and Quad.series, quad.py:412-425. *)
Definition unit_vec (n i : nat) : res (list R) := py_set (repeat 0%R n) i 1%R.
Definition quad_series (q : quad) (coeffs : list R) (s : iset) : res series := series_init fnum_R E e_1 coeffs (q_pos q) (Some (q_factor q)) s.

(** Quad.plot_hf, quad.py:427-466, up to the lines ([bounds]). *)
Definition hf_series (q : quad) (multi_index : list nat) : res series :=
  _ <- require (length multi_index =? p_dim (q_pos q)) "ValueError" ;;
  n <- py_size (length multi_index) (list_sum multi_index) Triangle ;;
  i <- py_tri_index multi_index ;;
  hf <- unit_vec n i ;;
  quad_series q hf Triangle.
Definition quad_plot_hf (q : quad) (multi_index : list nat) : res picture := f <- hf_series q multi_index ;; quad_plot q (ArgSeries f) None.

(** The arguments fx and fy of streamlines: two Functions, two arrays (or others), or two Series; of different types, the third case. *)
Inductive flow := FlowFun (fx fy : func E) | FlowSeries (fx fy : series) | FlowOther | FlowMixed.

(** The loop of quad.py:589-594: like [plot_axes], but [self.project(i)] instead of [self.project(d)]. *)
Definition stream_axes (q : quad) : res (list (nat * list R)) :=
  mapM (fun '(i, d) =>
      nodes <- py_get (q_nodes q) i ;;
      part <- quad_project q [i] ;;
      x <- coordinate (p_dirs (q_pos part)) d ;;
      r <- quad_discretize part x ;;
      Ok (length nodes, r)) (combine (seq 0 (length (p_dirs (q_pos q)))) (p_dirs (q_pos q))).

(** calc_psi2d, quad.py:600-608: the first row, and each row from the one before it.  [x] and [y] are the coordinates, [fx] and [fy] have one row for each y. *)
Fixpoint psi_first (prev : R) (xprev : R) (x fy : list R) : list R :=
  match x, fy with
  | x0 :: x', f :: fy' => let v := (prev - f * (x0 - xprev))%R in v :: psi_first v x0 x' fy'
  | _, _ => []
  end.
Fixpoint psi_rows (prev : list R) (yprev : R) (y : list R) (fx : list (list R)) : list (list R) :=
  match y, fx with
  | y0 :: y', f :: fx' => let r := map (fun '(p, u) => (p + u * (y0 - yprev))%R) (combine prev f) in r :: psi_rows r y0 y' fx'
  | _, _ => []
  end.
Definition calc_psi2d (x y : list R) (fx fy : list (list R)) : list (list R) :=
  match x, y, fx, fy with
  | x0 :: x', y0 :: y', _ :: fx', (_ :: f0) :: _ => let r0 := 0%R :: psi_first 0%R x0 x' f0 in r0 :: psi_rows r0 y0 y' fx'
  | _, _, _, _ => []
  end.

(** [np.min(psi)] and [np.max(psi)] of the entries a :: l. *)
Definition minimum (a : R) (l : list R) : R := fold_left Rmin l a.
Definition maximum (a : R) (l : list R) : R := fold_left Rmax l a.
(** The first and last of the ten equidistant levels, quad.py:611-616. *)
Definition stream_range (min max : R) : R * R :=
  let min' := if Rlt_dec (Rabs min) (/ 10 * (max - min)) then (/ 10 * (max - min))%R else min in
  let max' := if Rlt_dec (Rabs max) (/ 10 * (max - min')) then (- (/ 10 * (max - min')))%R else max in
  (min', max').
(** [np.linspace(a, b, 10)]. *)
Definition linspace10 (a b : R) : list R := map (fun k => (a + INR k * ((b - a) / 9))%R) (seq 0 10).

Definition stream_levels (psi : list (list R)) : res (list R) :=
  match concat psi with
  | [] => Throw "ValueError"
  | a :: l => let '(first, last) := stream_range (minimum a l) (maximum a l) in Ok (linspace10 first last)
  end.

(** Quad.streamlines, quad.py:556-618: the coordinates, the stream function and the levels handed to ax.contour.  [sx] and [sy] are assigned only for Series. *)
Definition quad_streamlines (q : quad) (fl : flow) (factor : option plot_factor) : res (list R * list R * list (list R) * list R) :=
  _ <- require (p_is_diag (q_pos q)) "ValueError" ;;
  _ <- require (match fl with FlowMixed => false | _ => true end) "ValueError" ;;
  _ <- require (p_dim (q_pos q) =? 2) "ValueError" ;;
  '(sx, sy) <- match fl with
    | FlowFun fx fy => _ <- require (match factor with None => true | _ => false end) "ValueError" ;; _ <- quad_discretize q fx ;; _ <- quad_discretize q fy ;; Ok (None, None)
    | FlowSeries fx fy => match factor with
        | None => sx <- quad_eval q fx ;; sy <- quad_eval q fy ;; Ok (Some sx, Some sy)
        | Some (FactorFun g) => values <- quad_discretize q g ;;
            sx <- quad_eval q fx ;; sx <- np_vec fnum_R (@nmul fnum_R) sx values ;; sy <- quad_eval q fy ;; sy <- np_vec fnum_R (@nmul fnum_R) sy values ;; Ok (Some sx, Some sy)
        | Some (FactorArray _) => Ok (None, None)
        end
    | _ => Throw "TypeError"
    end ;;
  axes <- stream_axes q ;;
  match axes, sx, sy with
  | [(n0, x); (n1, y)], Some sx, Some sy =>
      _ <- require ((length sx =? n0 * n1) && (length sy =? n0 * n1)) "ValueError" ;;
      let psi := calc_psi2d x y (transpose n1 (reshape2 n0 n1 sx)) (transpose n1 (reshape2 n0 n1 sy)) in
      levels <- stream_levels psi ;;
      Ok (x, y, psi, levels)
  | _, _, _ => Throw "UnboundLocalError"
  end.
End Plot.
