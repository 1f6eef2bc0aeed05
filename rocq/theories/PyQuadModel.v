(** Quad, hermipy/quad.py. *)
From Coq Require Import String List Bool Arith ZArith.
From Verif Require Import Base IndexModel Num Fnum LinModel CalcModel PyBase PosModel SeriesModel PartModel SplitModel MulModel.
Import ListNotations.
Local Open Scope string_scope. Local Open Scope list_scope. Local Open Scope nat_scope.

Section Quad.
Variable F : fnum.
(** See PosModel.v. *)
Variable far_from_diag : list (list F) -> bool.
(** Symbolic expressions, see SplitModel.v. *)
Variable E : Type.
Variable e_mul : E -> E -> E.
Variable e_1 : E.
Variable add_args mul_args : E -> list E.
Variable free_vars : E -> fset.
(** The value the compiled code of an expression computes, given the values of the variables: sympy.ccode and the C++ compiler are
    not modelled. *)
Variable eval : E -> (nat -> F) -> F.
(** The attribute [factor] of a Position with a given covariance matrix, position.py:103-104: a square root from la.eig. *)
Variable cov_factor : list (list F) -> list (list F).
(** [la.inv]. *)
Variable la_inv : list (list F) -> res (list (list F)).
(** [la.norm(factor - np.diag(np.diag(factor)), 2) > 1e-8], quad.py:318. *)
Variable far_from_diag8 : list (list F) -> bool.
(** The contents of memory that is not initialised, see CalcModel.v. *)
Variable junk : F.
(** The number 1e-300. *)
Variable tiny : F.

(** The attributes of a Quad, quad.py:70-80. *)
Record quad := Qd { q_nodes : list (list F); q_weights : list (list F); q_pos : position F; q_factor : func E }.
Definition do_fourier (q : quad) : list nat := map (fun t => if String.eqb t "fourier" then 1 else 0) (p_types (q_pos q)).

(** Quad.__init__ with a position and a Function as factor, quad.py:52-80.  [np.asarray(nodes, float)] raises ValueError if the
    lists have different lengths.  sympy's expand is not modelled. *)
Definition same_lengths (rows : list (list F)) : bool := forallb (fun row => length row =? length (hd [] rows)) rows.
Definition quad_init (nodes weights : list (list F)) (pos : position F) (factor : func E) : res quad :=
  _ <- require (same_lengths nodes && same_lengths weights) "ValueError" ;;
  Ok (Qd nodes weights pos factor).

(** Quad.project, quad.py:393-410, for a list of directions. *)
Definition quad_project (q : quad) (directions : list nat) : res quad :=
  factor <- fun_project E e_mul e_1 add_args mul_args free_vars (q_factor q) directions ;;
  position <- pos_project F far_from_diag (q_pos q) directions ;;
  nodes <- mapM (fun d => i <- py_index (p_dirs (q_pos q)) d ;; py_get (q_nodes q) i) (p_dirs position) ;;
  weights <- mapM (fun d => i <- py_index (p_dirs (q_pos q)) d ;; py_get (q_weights q) i) (p_dirs position) ;;
  quad_init nodes weights position factor.

(** [l[i] = x] on a Python list. *)
Definition py_set {A} (l : list A) (i : nat) (x : A) : res (list A) :=
  if i <? length l then vset l i x else Throw "IndexError".

(** Quad.tensorize, quad.py:35-50 (every argument is a Quad).  The entries 0 of [[0]*len(position.dirs)] are written [[]]; they are
    all overwritten. *)
Definition quad_tensorize (args : list quad) : res quad :=
  _ <- require (0 <? length args) "ValueError" ;;
  position <- pos_tensorize F far_from_diag (map q_pos args) ;;
  let dirs := p_dirs position in
  '(nodes, weights, factor) <- for_in (fun a '(nodes, weights, factor) =>
      let factor := e_mul factor (f_sym (q_factor a)) in
      '(nodes, weights) <- for_in (fun '(i, d) '(nodes, weights) =>
          k <- py_index dirs d ;;
          x <- py_get (q_nodes a) i ;;
          nodes <- py_set nodes k x ;;
          w <- py_get (q_weights a) i ;;
          weights <- py_set weights k w ;;
          Ok (nodes, weights)) (combine (seq 0 (length (p_dirs (q_pos a)))) (p_dirs (q_pos a))) (nodes, weights) ;;
      Ok (nodes, weights, factor)) args (repeat [] (length dirs), repeat [] (length dirs), e_1) ;;
  factor <- function_init E free_vars factor dirs ;;
  quad_init nodes weights position factor.

(** Function.ccode, function.py:118-123, compiled: variable [d] is replaced by [v[i]], where [i] is the place of [d] in the directions.
    [place] is the number of directions if there is none, which the constructor of Function excludes for the variables that occur. *)
Fixpoint place (d : nat) (dirs : list nat) : nat :=
  match dirs with
  | [] => 0
  | x :: dirs => if x =? d then 0 else S (place d dirs)
  end.
Definition compiled (f : func E) (v : list F) : F := eval (f_sym f) (fun d => nth (place d (f_dirs f)) v n0).

(** Quad.discretize, quad.py:249-254, for a Function.  The compiled code reads [v[i]] for the variables that occur; the buffer has one
    entry for each list of nodes.  The conversions of core.discretize, core.py:125-130, do not change the values; the cache is the
    subject of CacheModel.v. *)
Definition quad_discretize (q : quad) (f : func E) : res (list F) :=
  if forallb (fun d => place d (f_dirs f) <? length (q_nodes q)) (free_vars (f_sym f)) then
    discretize F junk (compiled f) (q_nodes q) (p_mean (q_pos q)) (cov_factor (p_cov (q_pos q)))
  else Ub.

(** NumPy's elementwise operations: equal lengths, or one of length 1 that is broadcast. *)
Definition np_bin {A} (op : A -> A -> res A) (v w : list A) : res (list A) :=
  if length v =? length w then mapM (fun '(x, y) => op x y) (combine v w)
  else match v, w with
       | [x], _ => mapM (op x) w
       | _, [y] => mapM (fun x => op x y) v
       | _, _ => Throw "ValueError"
       end.
Definition np_vec (op : F -> F -> F) : list F -> list F -> res (list F) := np_bin (fun x y => Ok (op x y)).
Definition np_mat (op : F -> F -> F) : list (list F) -> list (list F) -> res (list (list F)) := np_bin (np_vec op).

(** Quad.transform of an array, quad.py:290-306, without the decorators.  The conversions of core.transform, core.py:146-158, do not
    change the values. *)
Definition quad_transform (q : quad) (function : list F) (degree : nat) (s : iset) : res (series F E) :=
  factor <- quad_discretize q (q_factor q) ;;
  mapped <- np_vec fdiv function (map (fun f => nadd (nmul tiny (if neqb f n0 then n1 else n0)) f) factor) ;;
  coeffs <- transform F s degree mapped (q_nodes q) (q_weights q) (do_fourier q) true ;;
  series_init F E e_1 coeffs (q_pos q) (Some (q_factor q)) s.
(** The same for a Function, with tensorize=False: [hm.Function(function, dirs=self.position.dirs)] copies it, quad.py:293-295. *)
Definition quad_transform_fun (q : quad) (f : func E) (degree : nat) (s : iset) : res (series F E) :=
  function <- quad_discretize q f ;; quad_transform q function degree s.

(** Quad.eval of a Series, quad.py:308-328.  [inv * self.position.factor] is an elementwise product. *)
Definition quad_eval (q : quad) (f : series F E) : res (list F) :=
  inv <- la_inv (cov_factor (p_cov (s_pos f))) ;;
  diff <- np_vec nsub (p_mean (q_pos q)) (p_mean (s_pos f)) ;;
  translation <- np_dot F inv diff ;;
  factor <- np_mat nmul inv (cov_factor (p_cov (q_pos q))) ;;
  _ <- require (negb (far_from_diag8 factor)) "ValueError" ;;
  mapped_nodes <- mapM (fun '(i, n) =>
      row <- py_get factor i ;; c <- py_get row i ;; t <- py_get translation i ;;
      Ok (map (fun x => nadd (nmul x c) t) n)) (combine (seq 0 (length (q_nodes q))) (q_nodes q)) ;;
  result <- transform F (s_set f) (s_degree f) (s_coeffs f) mapped_nodes (q_weights q) (do_fourier q) false ;;
  values <- quad_discretize q (s_factor f) ;;
  np_vec nmul result values.

(** Quad.varf of an array, quad.py:333-342, without the decorators; the matrix is dense (sparse=False). *)
Definition quad_varf (q : quad) (f_grid : list F) (degree : nat) (s : iset) : res (varf F E) :=
  var <- CalcModel.varf F (calc_mat F) s degree f_grid (q_nodes q) (q_weights q) (do_fourier q) ;;
  varf_init F E e_1 var (q_pos q) (Some (q_factor q)) s.
Definition quad_varf_fun (q : quad) (f : func E) (degree : nat) (s : iset) : res (varf F E) :=
  f_grid <- quad_discretize q f ;; quad_varf q f_grid degree s.
End Quad.
Arguments Qd {F E}. Arguments q_nodes {F E}. Arguments q_weights {F E}. Arguments q_pos {F E}. Arguments q_factor {F E}. Arguments do_fourier {F E}.
