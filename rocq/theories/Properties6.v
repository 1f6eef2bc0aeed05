(** Property C27: conversions between NumPy arrays and C++ matrices. *)
From Coq Require Import String List Bool Arith ZArith Lia.
From Verif Require Import Base IndexModel NdModel NdSpec NdFacts.
Import ListNotations.
Local Open Scope string_scope.

(** C27: a C-contiguous array converts to the matrix of its entries; with to_boost_mat only if it is square. *)
Theorem C27_contiguous : forall A (d : A) (a : ndarray A) n m, nd_array a n m (Z.of_nat m) 1 -> 1 <= n -> 1 <= m ->
  to_mat a = Ok (table n m (nd_entry d a (Z.of_nat m) 1)) /\ to_bmat a = Ok (table n m (nd_entry d a (Z.of_nat m) 1)) /\ (n = m -> to_boost_mat a = Ok (table n m (nd_entry d a (Z.of_nat m) 1))).
Proof. exact converters_contiguous. Qed.
Print Assumptions C27_contiguous.
(** ... and back: to_numpy(to_mat(a)) has the shape and the entries of a. *)
Theorem C27_roundtrip : forall A (d : A) (a : ndarray A) n m, nd_array a n m (Z.of_nat m) 1 -> 1 <= n -> 1 <= m ->
  exists M b, to_mat a = Ok M /\ to_numpy_mat M = Ok b /\ nd_array b n m (Z.of_nat m) 1 /\ forall i j, i < n -> j < m -> nd_entry d b (Z.of_nat m) 1 i j = nd_entry d a (Z.of_nat m) 1 i j.
Proof. exact converters_roundtrip. Qed.
Print Assumptions C27_roundtrip.
(** Views whose columns are not adjacent, and arrays that do not have two dimensions, are rejected. *)
Theorem C27_column_stride : forall A (a : ndarray A) n m p q, nd_array a n m p q -> q <> 1%Z ->
  to_mat a = Throw "ROWS_NOT_CONTIGUOUS" /\ to_bmat a = Throw "ROWS_NOT_CONTIGUOUS" /\ to_boost_mat a = Throw "ROWS_NOT_CONTIGUOUS".
Proof. exact converters_throw. Qed.
Print Assumptions C27_column_stride.
Theorem C27_dimension : forall A (a : ndarray A), length (nd_shape a) <> 2 -> to_mat a = Throw "WRONG_DIMENSION" /\ to_bmat a = Throw "WRONG_DIMENSION" /\ to_boost_mat a = Throw "WRONG_DIMENSION".
Proof. exact converters_dimension. Qed.
Print Assumptions C27_dimension.

(** The property fails for to_boost_mat on contiguous arrays that are not square ... *)
Theorem C27_boost_nonsquare_refuted : ~ forall A (d : A) (a : ndarray A) n m, nd_array a n m (Z.of_nat m) 1 -> 1 <= n -> 1 <= m -> to_boost_mat a = Ok (table n m (nd_entry d a (Z.of_nat m) 1)).
Proof. exact boost_nonsquare_refuted. Qed.
Print Assumptions C27_boost_nonsquare_refuted.
(** ... it reads entry (i, j) at i * n_rows + j ... *)
Theorem C27_boost_formula : forall A (d : A) (a : ndarray A) n m p, nd_array a n m p 1 -> (0 <= p)%Z ->
  (forall i j, i < n -> j < m -> (Z.of_nat (nd_start a) + Z.of_nat i * Z.of_nat n + Z.of_nat j < Z.of_nat (length (nd_mem a)))%Z) ->
  to_boost_mat a = Ok (table n m (nd_entry d a (Z.of_nat n) 1)).
Proof. exact @to_boost_mat_gen. Qed.
Print Assumptions C27_boost_formula.
(** ... and whenever there are more rows than columns it reads beyond the end of the array. *)
Theorem C27_boost_overrun : forall A (d : A) (a : ndarray A) n m, nd_array a n m (Z.of_nat m) 1 -> nd_start a = 0 -> length (nd_mem a) = n * m -> 1 <= m -> m < n -> (Z.of_nat n * Z.of_nat n < 2 ^ 32)%Z ->
  to_boost_mat a = Ub.
Proof. exact @to_boost_mat_overrun. Qed.
Print Assumptions C27_boost_overrun.

(** It also fails, for all three functions, for views with a row stride larger than the number of columns. *)
Theorem C27_strided_refuted : ~ forall A (d : A) (a : ndarray A) n m p, nd_array a n m p 1 -> (Z.of_nat m <= p)%Z -> 1 <= n -> 1 <= m ->
  to_mat a = Ok (table n m (nd_entry d a p 1)) \/ to_bmat a = Ok (table n m (nd_entry d a p 1)) \/ to_boost_mat a = Ok (table n m (nd_entry d a p 1)).
Proof. exact strided_refuted. Qed.
Print Assumptions C27_strided_refuted.
(** to_mat returns rows of p numbers, beyond the columns of the view, and reads beyond the end of the memory when the view
    does not start at the beginning of a row; to_bmat returns the first n * m numbers of the memory. *)
Theorem C27_to_mat_formula : forall A (d : A) (a : ndarray A) n m p, nd_array a n m p 1 -> (0 <= p)%Z -> (Z.of_nat n * p < 2 ^ 32)%Z ->
  (Z.of_nat (nd_start a) + Z.of_nat n * p <= Z.of_nat (length (nd_mem a)))%Z -> to_mat a = Ok (table n (Z.to_nat p) (nd_entry d a p 1)).
Proof. exact @to_mat_rows. Qed.
Print Assumptions C27_to_mat_formula.
Theorem C27_to_mat_overrun : forall A (d : A) (a : ndarray A) n m p, nd_array a n m p 1 -> (0 <= p)%Z -> 1 <= n -> 1 <= m -> (Z.of_nat n * p < 2 ^ 32)%Z ->
  (Z.of_nat (length (nd_mem a)) < Z.of_nat (nd_start a) + Z.of_nat n * p)%Z -> to_mat a = Ub.
Proof. exact @to_mat_overrun. Qed.
Print Assumptions C27_to_mat_overrun.
Theorem C27_to_bmat_formula : forall A (d : A) (a : ndarray A) n m p, nd_array a n m p 1 -> (0 <= p)%Z -> (Z.of_nat (nd_start a) + Z.of_nat n * Z.of_nat m <= Z.of_nat (length (nd_mem a)))%Z ->
  to_bmat a = Ok (table n m (nd_entry d a (Z.of_nat m) 1)).
Proof. exact @to_bmat_gen. Qed.
Print Assumptions C27_to_bmat_formula.

(** The memory 1 2 3 / 4 5 6 as a 2 x 3 array, its first two columns, its last two columns, its transpose and a 3 x 2 array. *)
Example C27_example : let mem := [1; 2; 3; 4; 5; 6] in
  nd_array (Nd mem 0 [2; 3] [24; 8]%Z) 2 3 3 1 /\ to_mat (Nd mem 0 [2; 3] [24; 8]%Z) = Ok [[1; 2; 3]; [4; 5; 6]] /\
  to_boost_mat (Nd mem 0 [2; 3] [24; 8]%Z) = Ok [[1; 2; 3]; [3; 4; 5]] /\
  nd_array (Nd mem 0 [2; 2] [24; 8]%Z) 2 2 3 1 /\ to_mat (Nd mem 0 [2; 2] [24; 8]%Z) = Ok [[1; 2; 3]; [4; 5; 6]] /\ to_bmat (Nd mem 0 [2; 2] [24; 8]%Z) = Ok [[1; 2]; [3; 4]] /\
  nd_array (Nd mem 1 [2; 2] [24; 8]%Z) 2 2 3 1 /\ to_mat (Nd mem 1 [2; 2] [24; 8]%Z) = Ub /\
  nd_array (Nd mem 0 [3; 2] [8; 24]%Z) 3 2 1 3 /\ to_mat (Nd mem 0 [3; 2] [8; 24]%Z) = Throw "ROWS_NOT_CONTIGUOUS" /\
  nd_array (Nd mem 0 [3; 2] [16; 8]%Z) 3 2 2 1 /\ to_boost_mat (Nd mem 0 [3; 2] [16; 8]%Z) = Ub.
Proof.
  cbn zeta. repeat match goal with |- _ /\ _ => split end; try (vm_compute; reflexivity); unfold nd_array; cbn [nd_shape nd_strides nd_mem nd_start length]; repeat split; lia.
Qed.
