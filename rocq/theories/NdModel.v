(** NumPy arrays of doubles and the converters of cpp/src/hermite/python/converters.cpp. *)
From Coq Require Import String List Bool Arith ZArith.
From Verif Require Import Base IndexModel.
Import ListNotations.
Local Open Scope string_scope.

Section Nd.
Variable A : Type.

(** A boost::python::numpy::ndarray of doubles, as converters.cpp sees it: the block of memory its data pointer points
    into, as numbers of 8 bytes; the position of [get_data()] in the block; [get_shape()]; [get_strides()], in bytes.
    Not modelled: other dtypes (converters.cpp reinterprets the bytes), unaligned views. *)
Record ndarray := Nd { nd_mem : list A; nd_start : nat; nd_shape : list nat; nd_strides : list Z }.

(** [data[k]] for an unsigned [k]: reading outside of the block is undefined behaviour. *)
Definition nd_load (a : ndarray) (k : Z) : res A := vget (nd_mem a) (nd_start a + Z.to_nat k).

(** The common prefix of to_bmat, to_boost_mat and to_mat, converters.cpp:83-101, 111-129, 142-161: the number of rows,
    of columns and the row stride in doubles.  [(u_int) strides[1] / sizeof(double)] converts before it divides. *)
Definition nd_header (a : ndarray) : res (Z * Z * Z) :=
  match nd_shape a, nd_strides a with
  | [s0; s1], [t0; t1] =>
      if (u32 t1 / 8 =? 1)%Z then Ok (u32 (Z.of_nat s0), u32 (Z.of_nat s1), u32 t0 / 8)%Z
      else Throw "ROWS_NOT_CONTIGUOUS"
  | _, _ => Throw "WRONG_DIMENSION"
  end.

(** [for (u_int i = 0; i < n; i++)]. *)
Definition u_range (n : Z) : list Z := map Z.of_nat (seq 0 (Z.to_nat n)).

(** to_bmat, converters.cpp:81-107: boost::multi_array_ref over [data] in row-major order, copied (64-bit offsets). *)
Definition to_bmat (a : ndarray) : res (list (list A)) :=
  '(n_rows, n_cols, _) <- nd_header a ;;
  mapM (fun i => mapM (fun j => nd_load a (i * n_cols + j)%Z) (u_range n_cols)) (u_range n_rows).

(** to_boost_mat, converters.cpp:109-138: [data[i*n_rows + j]], in unsigned int. *)
Definition to_boost_mat (a : ndarray) : res (list (list A)) :=
  '(n_rows, n_cols, _) <- nd_header a ;;
  mapM (fun i => mapM (fun j => nd_load a (u32 (i * n_rows + j))) (u_range n_cols)) (u_range n_rows).

(** to_mat, converters.cpp:140-170: [vec(data + i*stride_rows, data + (i+1)*stride_rows)]; a range whose end precedes its
    beginning (after wrap-around) is undefined behaviour. *)
Definition to_mat (a : ndarray) : res (list (list A)) :=
  '(n_rows, _, stride_rows) <- nd_header a ;;
  mapM (fun i =>
      let b := u32 (i * stride_rows) in
      let e := u32 (u32 (i + 1) * stride_rows) in
      if (e <? b)%Z then Ub else mapM (fun k => nd_load a (b + k)%Z) (u_range (e - b))) (u_range n_rows).

(** A new array, C-contiguous, with the given rows of [m] numbers (np::zeros, ndarray::copy). *)
Definition nd_new (n m : nat) (rows : list (list A)) : ndarray :=
  Nd (concat rows) 0 [n; m] [8 * Z.of_nat m; 8]%Z.

(** to_numpy<mat>, converters.cpp:36-53: every row is read for as many columns as the first has. *)
Definition to_numpy_mat (input : list (list A)) : res ndarray :=
  first <- vget input 0 ;;
  let n_cols := length first in
  rows <- mapM (fun row => mapM (fun j => vget row j) (seq 0 n_cols)) input ;;
  Ok (nd_new (length input) n_cols rows).

(** to_numpy<boost_mat>, converters.cpp:68-79, and to_numpy<cmat>, :55-66: the storage is a block in row-major order; the
    number of columns [n_cols] is stored next to it (size2, shape()[1]). *)
Definition to_numpy_block (n_cols : nat) (input : list (list A)) : ndarray := nd_new (length input) n_cols input.

End Nd.
Arguments Nd {A}. Arguments nd_mem {A}. Arguments nd_start {A}. Arguments nd_shape {A}. Arguments nd_strides {A}.
Arguments to_bmat {A}. Arguments to_boost_mat {A}. Arguments to_mat {A}. Arguments to_numpy_mat {A}. Arguments to_numpy_block {A}.
