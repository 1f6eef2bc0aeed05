(** What a two-dimensional NumPy array of doubles denotes. *)
From Coq Require Import List Arith ZArith.
From Verif Require Import NdModel.
Import ListNotations.

(** Entry (i, j) of a two-dimensional array with strides of [p] and [q] doubles: the number at start + i p + j q. *)
Definition nd_entry {A} (d : A) (a : ndarray A) (p q : Z) (i j : nat) : A :=
  nth (Z.to_nat (Z.of_nat (nd_start a) + Z.of_nat i * p + Z.of_nat j * q)) (nd_mem a) d.

(** The matrix of the entries. *)
Definition table {B} (n m : nat) (f : nat -> nat -> B) : list (list B) := map (fun i => map (f i) (seq 0 m)) (seq 0 n).

(** [a] is an n x m array with strides [p] and [q] doubles (p, q may be zero or negative), every entry of which lies in
    its memory, and of fewer than 2^31 bytes. *)
Definition nd_array {A} (a : ndarray A) (n m : nat) (p q : Z) : Prop :=
  nd_shape a = [n; m] /\ nd_strides a = [8 * p; 8 * q]%Z /\ (8 * Z.of_nat (length (nd_mem a)) < 2 ^ 31)%Z /\ (Z.of_nat n < 2 ^ 31)%Z /\ (Z.of_nat m < 2 ^ 31)%Z /\
  (- 2 ^ 31 < 8 * p < 2 ^ 31)%Z /\ (- 2 ^ 31 < 8 * q < 2 ^ 31)%Z /\
  forall i j, i < n -> j < m -> (0 <= Z.of_nat (nd_start a) + Z.of_nat i * p + Z.of_nat j * q < Z.of_nat (length (nd_mem a)))%Z.
