(** Series and Varf, hermipy/series.py and hermipy/varf.py. *)
From Coq Require Import String List Bool Arith ZArith.
From Verif Require Import Base IndexModel Num PyBase PosModel.
Import ListNotations.
Local Open Scope string_scope. Local Open Scope list_scope. Local Open Scope nat_scope.

Section Series.
Variable N : num.
(** Symbolic expressions: hermipy uses sympy, which is not modelled. *)
Variable Sym : Type.
Variable sym_eqb : Sym -> Sym -> bool.
Variable sym_1 : Sym.
(** [p == q] on positions, position.py:112-116: compares the norms of differences with 1e-10; any test will do. *)
Variable pos_eqb : position N -> position N -> bool.

(** The attributes of a Function, function.py:47-74. *)
Record func := Fn { f_sym : Sym; f_dirs : list nat }.

(** Function.__eq__, function.py:76-78. *)
Definition func_eqb (f g : func) : bool := nats_eqb (f_dirs f) (f_dirs g) && sym_eqb (f_sym f) (f_sym g).

(** [func.Function(factor, dirs=dirs)], function.py:47-74, for the arguments of Series and Varf: a Function, which is copied
    ([dirs] is ignored), or the default 1. *)
Definition factor_init (factor : option func) (dirs : list nat) : res func :=
  match factor with
  | Some f => Ok f
  | None => _ <- require (nats_eqb dirs (py_sorted dirs)) "ValueError" ;; Ok (Fn sym_1 dirs)
  end.

(** core.iterator_get_degree, core.py:283-293, for a known index set.  Boost.Python rejects integers that are not unsigned int. *)
Definition py_get_degree (dim n_polys : nat) (s : iset) : res nat :=
  if (Z.of_nat n_polys <? 2 ^ 32)%Z then s_get_degree s dim (Z.of_nat n_polys) else Throw "OverflowError".

(** core.iterator_size, core.py:319-332 (degrees below 2^32). *)
Definition py_size (dim degree : nat) (s : iset) : res nat := n <- s_size s dim degree ;; Ok (Z.to_nat n).

(** core.iterator_index for the triangle, core.py:299-313. *)
Definition py_tri_index (m : list nat) : res nat := i <- tri_index m ;; Ok (Z.to_nat i).

(** The attributes of a Series, series.py:80-106. *)
Record series := Ser { s_coeffs : list N; s_pos : position N; s_set : iset; s_degree : nat; s_factor : func }.

(** The number of elements of Series.multi_indices, series.py:211-215 ([None] in dimension 0). *)
Definition n_indices (dim degree : nat) (s : iset) : res nat :=
  if dim =? 0 then Ok 1 else l <- s_list s dim degree ;; Ok (length l).

(** Series.__init__, series.py:80-106, with significant = 0. *)
Definition series_init (coeffs : list N) (pos : position N) (factor : option func) (s : iset) : res series :=
  degree <- match p_dirs pos with
            | [] => Ok 0
            | _ => degree <- py_get_degree (p_dim pos) (length coeffs) s ;;
                   n <- n_indices (p_dim pos) degree s ;;
                   _ <- require (n =? length coeffs) "ValueError" ;;
                   Ok degree
            end ;;
  f <- factor_init factor (p_dirs pos) ;;
  Ok (Ser coeffs pos s degree f).

(** Series.subdegree, series.py:194-209.  [np.zeros] of a negative length raises ValueError. *)
Definition is_cross_nc (s : iset) : bool := match s with CrossNc => true | _ => false end.
Definition series_subdegree (f : series) (degree : nat) : res series :=
  _ <- require (negb (is_cross_nc (s_set f))) "ValueError" ;;
  n_polys <- py_size (p_dim (s_pos f)) degree (s_set f) ;;
  coeffs <- (if degree <=? s_degree f then Ok (firstn n_polys (s_coeffs f))
             else _ <- require (length (s_coeffs f) <=? n_polys) "ValueError" ;;
                  Ok (s_coeffs f ++ repeat n0 (n_polys - length (s_coeffs f)))) ;;
  series_init coeffs (s_pos f) (Some (s_factor f)) (s_set f).

(** lib.cross_in_triangle, lib.py:36-38. *)
Definition cross_in_triangle (dim degree : nat) : res (list nat) :=
  l <- s_list Cross dim degree ;;
  mapM py_tri_index l.

Definition is_triangle (s : iset) : bool := match s with Triangle => true | _ => false end.

(** [not degree + dim - 1 <= self.degree] in the integers. *)
Definition cross_guard (dim degree self_degree : nat) : bool := degree + dim <=? self_degree + 1.

(** Series.to_cross, series.py:293-298. *)
Definition series_to_cross (f : series) (degree : nat) : res series :=
  _ <- require (is_triangle (s_set f) && cross_guard (p_dim (s_pos f)) degree (s_degree f)) "ValueError" ;;
  inds <- cross_in_triangle (p_dim (s_pos f)) degree ;;
  coeffs <- mapM (py_get (s_coeffs f)) inds ;;
  series_init coeffs (s_pos f) None Cross.

(** NumPy addition of two vectors: equal lengths, or one of length 1 that is broadcast. *)
Definition np_add (v w : list N) : res (list N) :=
  if length v =? length w then Ok (map (fun '(x, y) => nadd x y) (combine v w))
  else match v, w with
       | [x], _ => Ok (map (nadd x) w)
       | _, [y] => Ok (map (fun x => nadd x y) v)
       | _, _ => Throw "ValueError"
       end.

Definition iset_eqb (s t : iset) : bool :=
  match s, t with
  | Triangle, Triangle | Cube, Cube | Cross, Cross | CrossNc, CrossNc | Rectangle, Rectangle => true
  | _, _ => false
  end.

(** Series.__add__ with a Series, series.py:115-134. *)
Definition series_add (f g : series) : res series :=
  _ <- require (pos_eqb (s_pos f) (s_pos g) && iset_eqb (s_set f) (s_set g) && func_eqb (s_factor f) (s_factor g)) "ValueError" ;;
  coeffs <- np_add (s_coeffs f) (s_coeffs g) ;;
  series_init coeffs (s_pos f) (Some (s_factor f)) (s_set f).

(** Series.__mul__ with a number, series.py:135-141; __neg__ and __sub__, 152-156. *)
Definition series_scale (a : N) (f : series) : res series :=
  series_init (map (fun x => nmul x a) (s_coeffs f)) (s_pos f) (Some (s_factor f)) (s_set f).
Definition series_neg (f : series) : res series := series_scale (nopp n1) f.
Definition series_sub (f g : series) : res series := h <- series_scale (nopp n1) g ;; series_add f h.

(** The attributes of a Varf, varf.py:66-76; the matrix is dense (a CSR matrix is sliced in the same way). *)
Record varf := Vf { v_mat : list (list N); v_pos : position N; v_set : iset; v_degree : nat; v_factor : func }.

(** Varf.__init__, varf.py:66-76. *)
Definition varf_init (mat : list (list N)) (pos : position N) (factor : option func) (s : iset) : res varf :=
  degree <- py_get_degree (p_dim pos) (length mat) s ;;
  l <- s_list s (p_dim pos) degree ;;
  _ <- require (length l =? length mat) "AssertionError" ;;
  f <- factor_init factor (p_dirs pos) ;;
  Ok (Vf mat pos s degree f).

(** Varf.subdegree, varf.py:147-155. *)
Definition varf_subdegree (v : varf) (degree : nat) : res varf :=
  _ <- require (degree <=? v_degree v) "ValueError" ;;
  n_polys <- py_size (p_dim (v_pos v)) degree (v_set v) ;;
  varf_init (map (firstn n_polys) (firstn n_polys (v_mat v))) (v_pos v) (Some (v_factor v)) (v_set v).

(** Varf.to_cross, varf.py:161-168. *)
Definition varf_to_cross (v : varf) (degree : nat) : res varf :=
  _ <- require (is_triangle (v_set v) && cross_guard (p_dim (v_pos v)) degree (v_degree v)) "ValueError" ;;
  inds <- cross_in_triangle (p_dim (v_pos v)) degree ;;
  matrix <- mapM (fun i => row <- py_get (v_mat v) i ;; mapM (py_get row) inds) inds ;;
  varf_init matrix (v_pos v) (Some (v_factor v)) Cross.

(** [A + B] for matrices of the same shape; a 1 x 1 matrix is broadcast.  Other shapes do not arise: the matrices are square. *)
Definition np_add_mat (A B : list (list N)) : res (list (list N)) :=
  if length A =? length B then mapM (fun '(r, s) => np_add r s) (combine A B)
  else match A, B with
       | [r], _ => mapM (np_add r) B
       | _, [s] => mapM (fun r => np_add r s) A
       | _, _ => Throw "ValueError"
       end.

(** Varf.__add__ with a Varf, varf.py:85-101; Varf.__mul__ with a number, 103-108; __neg__ and __sub__, 121-125. *)
Definition varf_add (v w : varf) : res varf :=
  _ <- require (pos_eqb (v_pos v) (v_pos w) && iset_eqb (v_set v) (v_set w) && func_eqb (v_factor v) (v_factor w)) "ValueError" ;;
  matrix <- np_add_mat (v_mat v) (v_mat w) ;;
  varf_init matrix (v_pos v) (Some (v_factor v)) (v_set v).
Definition varf_scale (a : N) (v : varf) : res varf :=
  varf_init (map (map (fun x => nmul x a)) (v_mat v)) (v_pos v) (Some (v_factor v)) (v_set v).
Definition varf_sub (v w : varf) : res varf := u <- varf_scale (nopp n1) w ;; varf_add v u.

(** [matrix.dot(v)]; the order of the summation is NumPy's. *)
Definition row_dot (row v : list N) : N := fold_left nadd (map (fun '(x, y) => nmul x y) (combine row v)) n0.
Definition np_dot (A : list (list N)) (v : list N) : res (list N) :=
  mapM (fun row => _ <- require (length row =? length v) "ValueError" ;; Ok (row_dot row v)) A.

(** Varf.__call__, varf.py:127-134. *)
Definition varf_call (v : varf) (f : series) : res series :=
  _ <- require (pos_eqb (v_pos v) (s_pos f) && iset_eqb (v_set v) (s_set f)) "ValueError" ;;
  coeffs <- np_dot (v_mat v) (s_coeffs f) ;;
  series_init coeffs (v_pos v) (Some (v_factor v)) (v_set v).
End Series.
Arguments Fn {Sym}. Arguments f_sym {Sym}. Arguments f_dirs {Sym}.
Arguments Ser {N Sym}. Arguments s_coeffs {N Sym}. Arguments s_pos {N Sym}. Arguments s_set {N Sym}. Arguments s_degree {N Sym}. Arguments s_factor {N Sym}.
Arguments Vf {N Sym}. Arguments v_mat {N Sym}. Arguments v_pos {N Sym}. Arguments v_set {N Sym}. Arguments v_degree {N Sym}. Arguments v_factor {N Sym}.
