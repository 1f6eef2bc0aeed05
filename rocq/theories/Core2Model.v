(** The functions integrate, transform, varf and varfd of hermipy/core.py on Python values.  The decorators cache, debug and log_stats are not part of it (C55-C57). *)
From Coq Require Import String List Bool Arith.
From Verif Require Import Base IndexModel Num Fnum LinModel PyBase CalcModel NdModel CoreModel.
Import ListNotations.
Local Open Scope string_scope. Local Open Scope list_scope. Local Open Scope nat_scope.

Section Core2.
Variable F : fnum.

(** A matrix in Python: a NumPy array of doubles, a csr_matrix, or something else (a list, say). *)
Inductive pymat := WArr (a : ndarray F) | WCsr (c : csr F) | WOther.

(** do_fourier=None stands for [0]*len(nodes), core.py:137-140, 151-154, 174-177. *)
Definition flags_of (do_fourier : option (list nat)) (nodes : list (parr F)) : list nat :=
  match do_fourier with Some l => l | None => repeat 0 (length nodes) end.

(** to_cpp_array(fgrid, nodes, weights), core.py:50-67, 141, 156, 178, with the types vec, mat and mat of the C++ functions (transform.hpp, varf.hpp): others raise
    ArgumentError.  The nodes and the weights are lists of arrays; array[0] of an empty list raises IndexError. *)
Definition seq_to_cpp (l : list (parr F)) : res (cval F) := match l with [] => Throw "IndexError" | _ => list_to_cpp F l end.
Definition grid_args (fgrid : parr F) (nodes weights : list (parr F)) : res (list F * list (list F) * list (list F)) :=
  v <- to_cpp_array F fgrid ;;
  n <- seq_to_cpp nodes ;;
  w <- seq_to_cpp weights ;;
  match v, n, w with
  | CVec _ v, CMat _ n, CMat _ w => Ok (v, n, w)
  | _, _, _ => Throw "ArgumentError"
  end.

(** integrate, core.py:136-143, and transform.cpp:170-193. *)
Definition core_integrate (fgrid : parr F) (nodes weights : list (parr F)) (do_fourier : option (list nat)) : res F :=
  let flags := flags_of do_fourier nodes in
  '(v, n, w) <- grid_args fgrid nodes weights ;;
  integrate F v n w flags.

(** transform, core.py:149-158, and the choice of the index set by its name, transform.cpp:151-168. *)
Definition core_transform (degree : nat) (fgrid : parr F) (nodes weights : list (parr F)) (forward : bool) (do_fourier : option (list nat)) (name : string) : res (parr F) :=
  let flags := flags_of do_fourier nodes in
  '(v, n, w) <- grid_args fgrid nodes weights ;;
  s <- cpp_set name ;;
  c <- transform F s degree v n w flags forward ;;
  Ok (PVec c).

(** varf, core.py:172-181, with the two functions of module.cpp (varf<boost_mat> and varf<spmat>), the choice of the index set, varf.cpp:271-288, and to_numpy,
    core.py:108-119: a boost_mat becomes a new array (converters.cpp:68-79; the matrix is square), a sparse_matrix a csr_matrix. *)
Definition core_varf (degree : nat) (fgrid : parr F) (nodes weights : list (parr F)) (sparse : bool) (do_fourier : option (list nat)) (name : string) : res pymat :=
  let flags := flags_of do_fourier nodes in
  '(v, n, w) <- grid_args fgrid nodes weights ;;
  s <- cpp_set name ;;
  if sparse then B <- varf F (calc_spmat F) s degree v n w flags ;; Ok (WCsr (to_csr F B))
  else A <- varf F (calc_mat F) s degree v n w flags ;; Ok (WArr (to_numpy_block (length A) A)).

(** varfd, core.py:187-195: hm_cpp.to_boost_mat for an array, convert_to_cpp_sparse for a csr_matrix; anything else is passed on and no overload of varfd
    (varfd<boost_mat>, varfd<spmat>, module.cpp) accepts it.  The choice of the index set is varf.cpp:304-334; the results have the shape of [var]. *)
Definition core_varfd (dim degree direction : nat) (var : pymat) (do_fourier : nat) (name : string) : res pymat :=
  match var with
  | WArr a => A <- to_boost_mat a ;; s <- cpp_set name ;; B <- varfd F (calc_mat F) s dim degree direction A do_fourier ;; Ok (WArr (to_numpy_block (length A) B))
  | WCsr c => A <- convert_to_cpp_sparse F c ;; s <- cpp_set name ;; B <- varfd F (calc_spmat F) s dim degree direction A do_fourier ;; Ok (WCsr (to_csr F B))
  | WOther => Throw "ArgumentError"
  end.
End Core2.
Arguments WArr {F}. Arguments WCsr {F}. Arguments WOther {F}.
