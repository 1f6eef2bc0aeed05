(** Model of the subscripts of series and variational forms with any int: Series.__getitem__, series.py:180-181, and Varf.__getitem__, varf.py:239-240, for a dense matrix and an int or a pair of ints. *)
From Coq Require Import String List Bool ZArith.
From Verif Require Import Base Num PyBase SeriesModel.
Import ListNotations.
Local Open Scope Z_scope.

(** numpy: an index from -n to n - 1 along an axis of length n; a negative one counts from the end. *)
Definition np_index (n : nat) (i : Z) : res nat :=
  if (0 <=? i) && (i <? Z.of_nat n) then Ok (Z.to_nat i)
  else if (- Z.of_nat n <=? i) && (i <? 0) then Ok (Z.to_nat (i + Z.of_nat n))
  else Throw "IndexError".

Section Get.
Variable N : num.
Variable E : Type.
(** self.coeffs[index], series.py:180-181. *)
Definition series_get (f : series N E) (i : Z) : res N := k <- np_index (length (s_coeffs f)) i ;; py_get (s_coeffs f) k.
(** self.matrix[i], varf.py:239-240: a row. *)
Definition varf_get_row (v : varf N E) (i : Z) : res (list N) := k <- np_index (length (v_mat v)) i ;; py_get (v_mat v) k.
(** self.matrix[i, j], varf.py:239-240; the matrices are square, the columns are as many as the rows. *)
Definition varf_get (v : varf N E) (i j : Z) : res N :=
  k <- np_index (length (v_mat v)) i ;;
  l <- np_index (length (v_mat v)) j ;;
  row <- py_get (v_mat v) k ;;
  py_get row l.
End Get.
