(** The functions tensorize, project and inner of hermipy/core.py on Python values, with the conversions and the overloads of
    cpp/src/hermite/python/module.cpp.  The decorators cache, debug and log_stats are not part of it (C55-C57). *)
From Coq Require Import String List Bool Arith.
From Verif Require Import Base IndexModel Num LinModel PyBase.
Import ListNotations.
Local Open Scope string_scope. Local Open Scope list_scope. Local Open Scope nat_scope.

Section Core.
Variable N : num.

(** scipy.sparse.csr_matrix: data, indices, indptr and shape. *)
Record csr := Csr { c_data : list N; c_indices : list nat; c_indptr : list nat; c_rows : nat; c_cols : nat }.

(** Python values: a number (float or int), a one- or two-dimensional ndarray of floats, a csr_matrix. *)
Inductive parr := PNum (x : N) | PVec (v : list N) | PMat (A : list (list N)) | PCsr (c : csr).

(** C++ values: a number, double_vec, double_mat, double_cube, sparse_matrix. *)
Inductive cval := CNum (x : N) | CVec (v : list N) | CMat (A : list (list N)) | CCube (l : list (list (list N))) | CSp (A : spmat N).

(** The index sets known to C++; another name ends the process, tensorize.cpp:351-356 and 365-370, project.cpp, inner.cpp. *)
Definition named (name : string) : option iset :=
  if String.eqb name "triangle" then Some Triangle
  else if String.eqb name "cross" then Some Cross
  else if String.eqb name "cross_nc" then Some CrossNc
  else if String.eqb name "cube" then Some Cube
  else if String.eqb name "rectangle" then Some Rectangle
  else None.
Definition cpp_set (name : string) : res iset := match named name with Some s => Ok s | None => Exit 1 end.

(** * Conversions *)

(** csr_matrix.todense() followed by np.array: values stored twice add up. *)
Definition todense (c : csr) : list (list N) :=
  map (fun i =>
    map (fun j =>
      fold_left nadd (map (fun k => nth k (c_data c) n0)
        (filter (fun k => nth k (c_indices c) 0 =? j) (seq (nth i (c_indptr c) 0) (nth (S i) (c_indptr c) 0 - nth i (c_indptr c) 0)))) n0)
      (seq 0 (c_cols c))) (seq 0 (c_rows c)).

(** to_cpp_array of one number or ndarray, core.py:49-67; array[0] and array[0][0] of empty arrays raise IndexError.  A csr_matrix is returned as it is, and no
    C++ function accepts it. *)
Definition to_cpp_array (a : parr) : res cval :=
  match a with
  | PNum x => Ok (CNum x)
  | PVec [] => Throw "IndexError"
  | PVec v => Ok (CVec v)
  | PMat [] => Throw "IndexError"
  | PMat ([] :: _) => Throw "IndexError"
  | PMat A => Ok (CMat A)
  | PCsr _ => Throw "ArgumentError"
  end.

(** to_cpp_array of a list of ndarrays, core.py:49-67 with convert_to_cpp_mat and convert_to_cpp_cube 34-46: the first array tells the number of dimensions;
    an array with another number of dimensions raises TypeError. *)
Definition as_vec (a : parr) : res (list N) := match a with PVec v => Ok v | _ => Throw "TypeError" end.
Definition as_mat (a : parr) : res (list (list N)) := match a with PMat A => Ok A | _ => Throw "TypeError" end.
Definition list_to_cpp (l : list parr) : res cval :=
  match l with
  | PVec [] :: _ => Throw "IndexError"
  | PVec _ :: _ => l <- mapM as_vec l ;; Ok (CMat l)
  | PMat [] :: _ => Throw "IndexError"
  | PMat _ :: _ => l <- mapM as_mat l ;; Ok (CCube l)
  | _ => Throw "ArgumentError"
  end.

(** convert_to_cpp_sparse, core.py:70-81. *)
Definition convert_to_cpp_sparse (c : csr) : res (spmat N) := csr_to_spmat N (c_data c) (c_indices c) (c_indptr c) (c_rows c) (c_cols c).

(** to_csr, core.py:84-90: scipy.sparse.csr_matrix((values, (rows, columns)), shape).  The values go to their rows in the order in which they are listed;
    simplification: scipy's sum_duplicates, which sorts each row by columns and adds what stands at the same place, is not modelled (the rows of row_col_val are
    sorted and have no duplicates). *)
Definition coo_row (t : list (nat * nat * N)) (i : nat) : list (nat * N) :=
  map (fun z => (snd (fst z), snd z)) (filter (fun z => fst (fst z) =? i) t).
Definition to_csr (A : spmat N) : csr :=
  let rows := map (coo_row (row_col_val N A)) (seq 0 (sp_size1 N A)) in
  Csr (map snd (concat rows)) (map fst (concat rows)) (map (fun i => length (concat (firstn i rows))) (seq 0 (S (sp_size1 N A)))) (sp_size1 N A) (sp_size2 N A).

(** to_cpp, core.py:93-105, of a number, ndarray or csr_matrix. *)
Definition to_cpp (a : parr) : res cval :=
  match a with PCsr c => B <- convert_to_cpp_sparse c ;; Ok (CSp B) | _ => to_cpp_array a end.

(** to_numpy, core.py:108-119, and np.array of a C++ vector or matrix. *)
Definition to_numpy (a : cval) : res parr :=
  match a with
  | CVec v => Ok (PVec v)
  | CMat A => Ok (PMat A)
  | CSp A => Ok (PCsr (to_csr A))
  | _ => Throw "TypeError"
  end.

(** * tensorize *)

(** The arguments after the conversion: arrays with directions, arrays alone, or an array with dim and direction. *)
Inductive targs := WithDirs (a : cval) (dirs : list (list nat)) | Alone (a : cval) | Id (a : cval) (dim direction : nat).

(** hm_cpp.tensorize and hm_cpp.tensorize_sp: the overloads of module.cpp:112-128 (those for sparse inputs cannot be reached from here); other types raise
    ArgumentError.  tensorize_mat_id<T,S>, tensorize.cpp:373-381, on the sparse versions, like tensorize_mats in LinModel.  Simplification: the name of the index set
    is looked up first; in tensorize_vec_id and tensorize_mat_id the C++ code does that after [mats[dir] = ...]. *)
Definition hm_tensorize (args : targs) (name : string) : res cval :=
  match args with
  | WithDirs (CMat vecs) dirs => s <- cpp_set name ;; v <- tensorize_vec N s vecs dirs ;; Ok (CVec v)
  | Alone (CMat vecs) => s <- cpp_set name ;; v <- tensorize_vecs_axes N s vecs ;; Ok (CVec v)
  | Id (CVec v) dim dir => s <- cpp_set name ;; v <- tensorize_vec_id N s v dim dir ;; Ok (CVec v)
  | WithDirs (CCube mats) dirs => s <- cpp_set name ;; A <- tensorize_mats N s mats dirs ;; Ok (CMat A)
  | Alone (CCube mats) => s <- cpp_set name ;; A <- tensorize_mats N s mats (map (fun i => [i]) (seq 0 (length mats))) ;; Ok (CMat A)
  | Id (CMat A) dim dir => s <- cpp_set name ;; B <- to_spmat N A ;; B <- tensorize_sp_id N s B dim dir ;; A <- full N B ;; Ok (CMat A)
  | _ => Throw "ArgumentError"
  end.
Definition hm_tensorize_sp (args : targs) (name : string) : res cval :=
  match args with
  | WithDirs (CCube mats) dirs => s <- cpp_set name ;; l <- mapM (to_spmat N) mats ;; A <- tensorize_sps N s l dirs ;; Ok (CSp A)
  | Alone (CCube mats) => s <- cpp_set name ;; l <- mapM (to_spmat N) mats ;; A <- tensorize_sps_axes N s l ;; Ok (CSp A)
  | Id (CMat A) dim dir => s <- cpp_set name ;; B <- to_spmat N A ;; B <- tensorize_sp_id N s B dim dir ;; Ok (CSp B)
  | _ => Throw "ArgumentError"
  end.

(** The first argument: a dict from sets of directions (in the order in which the frozenset lists them) to arrays or numbers, a list, or one array. *)
Inductive input := IDict (l : list (list nat * parr)) | IList (l : list parr) | IOne (a : parr).

(** list(frozenset(l)) in CPython for at most four ints with different remainders modulo 8: the table of the set has eight slots and an int stands in the slot of its
    remainder, core.py:215. *)
Definition frozenset_list (l : list nat) : list nat := flat_map (fun slot => filter (fun x => x mod 8 =? slot) l) (seq 0 8).

(** np.prod of a list of numbers; what it makes of a list with numbers and arrays is not modelled. *)
Definition as_num (a : parr) : res N := match a with PNum x => Ok x | _ => Throw "not modelled" end.
Definition np_prod (l : list parr) : res parr := l <- mapM as_num l ;; Ok (PNum (fold_left nmul l n1)).

(** isinstance(arg, csr_matrix): arg = np.array(arg.todense()). *)
Definition densify (a : parr) : parr := match a with PCsr c => PMat (todense c) | _ => a end.

(** append to a double_mat, to a double_cube: TypeError for other types. *)
Definition to_cvec (a : cval) : res (list N) := match a with CVec v => Ok v | _ => Throw "TypeError" end.
Definition to_cmat (a : cval) : res (list (list N)) := match a with CMat A => Ok A | _ => Throw "TypeError" end.
Definition dict_vecs (l : list (list nat * parr)) : res (list (list N)) := mapM (fun z => a <- to_cpp_array (densify (snd z)) ;; to_cvec a) l.
Definition dict_mats (l : list (list nat * parr)) : res (list (list (list N))) := mapM (fun z => a <- to_cpp_array (densify (snd z)) ;; to_cmat a) l.

(** m.todense() of an ndarray raises AttributeError, core.py:232-233. *)
Definition only_csr (a : parr) : res parr := match a with PCsr c => Ok (PMat (todense c)) | _ => Throw "AttributeError" end.

(** core.tensorize, core.py:196-252; the last step is [convert_fun(tensorize_fun(args))]. *)
Definition finish (sparse : bool) (args : targs) (name : string) : res parr :=
  out <- (if sparse then hm_tensorize_sp args name else hm_tensorize args name) ;; to_numpy out.
Definition tensorize (inp : input) (dim direction : option nat) (sparse : bool) (name : string) : res parr :=
  match inp with
  | IDict l =>
      match l with
      | [] => Throw "IndexError"
      | (_, PNum _) :: _ => np_prod (map snd l)
      | (_, PVec _) :: _ => vecs <- dict_vecs l ;; finish sparse (WithDirs (CMat vecs) (map fst l)) name
      | (_, _) :: _ => mats <- dict_mats l ;; finish sparse (WithDirs (CCube mats) (map fst l)) name
      end
  | IList l =>
      match dim, direction with
      | None, None =>
          match l with
          | [] => Throw "IndexError"
          | PNum _ :: _ => np_prod l
          | PCsr _ :: _ => l <- mapM only_csr l ;; a <- list_to_cpp l ;; finish sparse (Alone a) name
          | _ => a <- list_to_cpp l ;; finish sparse (Alone a) name
          end
      | _, _ => Throw "AssertionError"
      end
  | IOne a =>
      match dim, direction with
      | Some dim, Some direction => a <- to_cpp_array (densify a) ;; finish sparse (Id a dim direction) name
      | _, _ => Throw "AssertionError"
      end
  end.

(** * project and inner *)

(** hm_cpp.project with an int_vec, module.cpp:105, 108-109. *)
Definition hm_project (a : cval) (dim : nat) (directions : list nat) (name : string) : res cval :=
  match a with
  | CVec v => s <- cpp_set name ;; v <- project_vec N s v dim directions ;; Ok (CVec v)
  | CMat A => s <- cpp_set name ;; A <- project_mat N (mat_ops N) s A dim directions ;; Ok (CMat A)
  | CSp A => s <- cpp_set name ;; A <- project_mat N (spmat_ops N) s A dim directions ;; Ok (CSp A)
  | _ => Throw "ArgumentError"
  end.

(** core.project, core.py:255-264; [inl] is an int. *)
Definition project (inp : parr) (dim : nat) (directions : nat + list nat) (name : string) : res parr :=
  let directions := match directions with inl i => [i] | inr l => l end in
  a <- to_cpp inp ;; out <- hm_project a dim directions name ;; to_numpy out.

(** core.inner, core.py:267-275. *)
Definition core_inner (s1 s2 : parr) (d1 d2 : list nat) (name : string) : res parr :=
  a1 <- to_cpp_array s1 ;; a2 <- to_cpp_array s2 ;;
  match a1, a2 with
  | CVec v1, CVec v2 => s <- cpp_set name ;; v <- inner N s v1 v2 d1 d2 ;; Ok (PVec v)
  | _, _ => Throw "ArgumentError"
  end.

(** The names accepted by iterator_get_degree, iterator_size and iterator_list_indices, core.py:278-352: another name raises ValueError. *)
Definition iterator_list_indices (dim degree : nat) (name : string) : res (list (list nat)) :=
  match named name with Some s => s_list s dim degree | None => Throw "ValueError" end.
End Core.
Arguments Csr {N}. Arguments PNum {N}. Arguments PVec {N}. Arguments PMat {N}. Arguments PCsr {N}.
Arguments c_data {N}. Arguments c_indices {N}. Arguments c_indptr {N}. Arguments c_rows {N}. Arguments c_cols {N}.
Arguments IDict {N}. Arguments IList {N}. Arguments IOne {N}.
