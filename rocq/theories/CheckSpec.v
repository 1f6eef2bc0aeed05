(** Specification vocabulary for the comparison with stored results. *)
From Coq Require Import List Bool Arith Reals.
From Verif Require Import Base Num CoreModel LinSpec CheckModel.
Import ListNotations.
Local Open Scope list_scope. Local Open Scope nat_scope.

(** What is assumed of the largest singular value: it is at least every entry in absolute value and at most the root of the sum of squares. *)
Record spectral_laws (spectral : nat -> nat -> (nat -> nat -> R) -> R) : Prop := {
  spectral_entry : forall n m A i j, i < n -> j < m -> (Rabs (A i j) <= spectral n m A)%R;
  spectral_frobenius : forall n m A, (spectral n m A <= sqrt (fold_right Rplus 0 (map (fun i => fold_right Rplus 0 (map (fun j => A i j * A i j) (seq 0 m))) (seq 0 n))))%R }.

(** The tolerance of the comparison, 1e-10. *)
Definition tolerance : R := (/ 10 ^ 10)%R.

(** An index of an array of the given shape. *)
Definition index_in (shape idx : list nat) : Prop := Forall2 (fun i d => i < d) idx shape.

(** An array a function can return: a vector, or a matrix with entries. *)
Definition plain (shape : list nat) : Prop := (exists n, shape = [n]) \/ exists n m, 0 < n /\ 0 < m /\ shape = [n; m].

(** The entry of a csr matrix. *)
Definition at_csr (c : csr num_R) (i j : nat) : R := csr_entry (N := num_R) (c_data c) (c_indices c) (c_indptr c) i j.
Definition csr_ok (c : csr num_R) : Prop := csr_wf (N := num_R) (c_data c) (c_indices c) (c_indptr c) (c_rows c) (c_cols c) /\ csr_distinct (c_indices c) (c_indptr c) (c_rows c).
