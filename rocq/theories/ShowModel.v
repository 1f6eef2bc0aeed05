(** What plot, __repr__, __float__ and __getitem__ show of series and variational forms: hermipy/series.py and hermipy/varf.py. *)
From Coq Require Import String List Bool Arith.
From Verif Require Import Base IndexModel Num LinModel PyBase PosModel SeriesModel CoreModel.
Import ListNotations.
Local Open Scope string_scope. Local Open Scope list_scope. Local Open Scope nat_scope.

(** The lines of Varf.plot, varf.py:262-270: the positions i of the calls ax.axvline(x=i) and ax.axhline(y=i).  max of an empty sequence raises ValueError. *)
Definition py_max (m : mi) : res nat := match m with [] => Throw "ValueError" | _ => Ok (fold_right Nat.max 0 m) end.
Definition degree_function (s : iset) : mi -> res nat := match s with Triangle => fun m => Ok (list_sum m) | _ => py_max end.
Fixpoint lines_loop (f : mi -> res nat) (degree i : nat) (l : list mi) : res (list nat) :=
  match l with
  | [] => Ok []
  | m :: l => x <- f m ;;
              if degree <? x then rest <- lines_loop f (S degree) (S i) l ;; Ok (i :: rest) else lines_loop f degree (S i) l
  end.
Definition plot_lines (s : iset) (dim degree : nat) : res (list nat) := l <- s_list s dim degree ;; lines_loop (degree_function s) 0 0 l.

Section Show.
Variable N : num.
(** abs(x), and the test abs(x) > 1e-9 of varf.py:253. *)
Variable nabs : N -> N.
Variable visible : N -> bool.

(** The points that Varf.plot hands to ax.scatter(rows, cols, c=data), varf.py:246-258: horizontal coordinate, vertical coordinate, value.  For an ndarray ... *)
Definition dense_points (A : list (list N)) : list (nat * nat * N) :=
  flat_map (fun '(i, row) => flat_map (fun '(j, x) => if visible x then [(i, j, nabs x)] else []) (combine (seq 0 (length row)) row)) (combine (seq 0 (length A)) A).
(** ... and for a csr_matrix: tocoo() lists what is stored. *)
Definition sparse_points (c : csr N) : list (nat * nat * N) :=
  flat_map (fun i => map (fun k => (i, nth k (c_indices c) 0, nth k (c_data c) n0)) (seq (nth i (c_indptr c) 0) (nth (S i) (c_indptr c) 0 - nth i (c_indptr c) 0))) (seq 0 (c_rows c)).

Variable E : Type.
(** Series.multi_indices, series.py:211-215; None is the multi-index of dimension 0. *)
Definition series_indices (f : series N E) : res (list (option mi)) :=
  if p_dim (s_pos f) =? 0 then Ok [None] else l <- s_list (s_set f) (p_dim (s_pos f)) (s_degree f) ;; Ok (map Some l).

(** What Series.plot hands to ax.bar or ax.scatter, series.py:217-259; [given] tells whether it is called with an ax.  For another dimension than 1 and 2 the variable [pl] is not assigned. *)
Inductive picture := Bars (l : list (nat * N)) | Points (l : list (nat * nat * N)) | Empty.
Definition column (k : nat) (l : list (option mi)) : res (list nat) := mapM (fun m => match m with Some m => py_get m k | None => Throw "TypeError" end) l.
Definition series_plot (given : bool) (f : series N E) : res picture :=
  m <- series_indices f ;;
  match p_dim (s_pos f) with
  | 1 => mx <- column 0 m ;; Ok (Bars (combine mx (s_coeffs f)))
  | 2 => mx <- column 0 m ;; my <- column 1 m ;; Ok (Points (combine (combine mx my) (map nabs (s_coeffs f))))
  | _ => if given then Throw "UnboundLocalError" else Ok Empty
  end.

(** Series.__repr__, series.py:165-173; [show_index] and [show_num] are str of a multi-index and of a number. *)
Variable show_index : option mi -> string.
Variable show_num : N -> string.
Definition newline : string := String (Ascii.ascii_of_nat 10) EmptyString.
Definition series_repr (f : series N E) : res string :=
  m_list <- series_indices f ;;
  _ <- require (length m_list =? length (s_coeffs f)) "ValueError" ;;
  Ok (fold_left (fun result '(m, c) => append result (append (append (append (show_index m) ": ") (show_num c)) newline)) (combine m_list (s_coeffs f)) EmptyString).

(** Series.__float__, series.py:175-178, and Series.__getitem__, series.py:180-181, for an index that is not negative. *)
Definition series_float (f : series N E) : res N := _ <- require (p_dim (s_pos f) =? 0) "ValueError" ;; py_get (s_coeffs f) 0.
Definition series_getitem (f : series N E) (index : nat) : res N := py_get (s_coeffs f) index.
End Show.
Arguments Bars {N}. Arguments Points {N}. Arguments Empty {N}.
