(** Model of core.triple_products and core.triple_products_fourier (hermipy/core.py:161-166) for every Python int: the conversion to the C++ type int, the sizes of the vectors that varf.cpp:51 and 101 allocate, and the
    functions of CalcModel.  Memory is unbounded; np.array of a double_cube is the array with the same entries. *)
From Coq Require Import String List Bool ZArith.
From Verif Require Import Base Num Fnum LinModel CalcModel.
Local Open Scope Z_scope.

Section Triple.
Variable F : fnum.
(** A Python int for an argument of type int, module.cpp:95-96: the converter of Boost.Python raises OverflowError if it does not fit. *)
Definition as_int (d : Z) : res Z := if (- 2 ^ 31 <=? d) && (d <? 2 ^ 31) then Ok d else Throw "OverflowError".
(** The result of an operation on [int]: undefined if it does not fit. *)
Definition int_result (x : Z) : res Z := if (- 2 ^ 31 <=? x) && (x <? 2 ^ 31) then Ok x else Ub.
(** std::vector(n, value) for an [int] n: a negative n becomes a size above max_size(), and std::length_error arrives in Python as RuntimeError. *)
Definition vector_size (n : Z) : res nat := if n <? 0 then Throw "RuntimeError" else Ok (Z.to_nat n).
(** [cube products(2*degree + 1, mat(degree + 1, vec(degree + 1, 0.)))], varf.cpp:51 and 101.  The order in which the arguments are evaluated is unspecified; the overflow of one of them is undefined behaviour here. *)
Definition products_size (degree : Z) : res (nat * nat) :=
  twice <- int_result (2 * degree) ;;
  n <- int_result (twice + 1) ;;
  m <- int_result (degree + 1) ;;
  inner <- vector_size m ;;
  outer <- vector_size n ;;
  Ok (outer, inner).
(** core.triple_products, core.py:161-162. *)
Definition py_triple_products (degree : Z) : res (list (list (list F))) :=
  d <- as_int degree ;;
  '(outer, inner) <- products_size d ;;
  triple_products_1d F (inner - 1).
(** core.triple_products_fourier, core.py:165-166. *)
Definition py_triple_products_fourier (degree : Z) : res (list (list (list F))) :=
  d <- as_int degree ;;
  '(outer, inner) <- products_size d ;;
  triple_products_fourier F (inner - 1).
End Triple.
