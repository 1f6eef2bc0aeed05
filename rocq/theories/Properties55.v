(** Property C119: core.triple_products and core.triple_products_fourier for every Python int.  Model: TripleModel, CalcModel.  Specification: CalcSpec (Hermite polynomials, Fourier basis, [cell T k i j] for T[k][i][j]). *)
From Coq Require Import String List Bool Arith ZArith Reals Lia Lra.
From Verif Require Import Base Num Fnum LinModel LinSpec CalcModel CalcSpec CalcHermite Facts6 TripleModel TripleFacts TripleFacts2.
Import ListNotations.
Local Open Scope R_scope.

(** C119: for every int from 0 to 2^30 - 1 the table of the products of the Hermite polynomials comes back; a negative one from -2^30 raises RuntimeError, one that does not fit into a C++ int raises OverflowError, and for
    the others the size 2 * degree + 1 overflows. *)
Theorem C119_hermite : forall d : Z,
  ((0 <= d < 2 ^ 30)%Z -> let n := Z.to_nat d in exists T, py_triple_products fnum_R d = Ok T /\ cube_for (2 * n + 1) (n + 1) T /\
    forall i j x, (i <= n)%nat -> (j <= n)%nat -> hermite i x * hermite j x = rsum (map (fun k => cell T k i j * hermite k x) (seq 0 (2 * n + 1)))) /\
  ((- 2 ^ 30 <= d < 0)%Z -> py_triple_products fnum_R d = Throw "RuntimeError"%string) /\
  ((d < - 2 ^ 31 \/ 2 ^ 31 <= d)%Z -> py_triple_products fnum_R d = Throw "OverflowError"%string) /\
  ((- 2 ^ 31 <= d < - 2 ^ 30 \/ 2 ^ 30 <= d < 2 ^ 31)%Z -> py_triple_products fnum_R d = Ub).
Proof.
  intros d. destruct (py_cases fnum_R d) as (H1 & H2 & H3 & H4). split; [|split; [|split]]; intros H; [|apply H3; exact H|apply H1; exact H|apply H2; exact H].
  intros n. destruct (triple_hermite n) as (T & E & C & _ & _ & L). exists T. split; [rewrite (proj1 (H4 H)); exact E|]. split; [exact C|exact L].
Qed.
Print Assumptions C119_hermite.
Example C119_hermite_example : (exists T, py_triple_products fnum_R 5 = Ok T) /\ py_triple_products fnum_R (-1) = Throw "RuntimeError"%string /\ py_triple_products fnum_R (2 ^ 30) = Ub /\ py_triple_products fnum_R (2 ^ 40) = Throw "OverflowError"%string.
Proof.
  split; [|split; [|split]].
  - destruct (proj1 (C119_hermite 5)) as (T & E & _); [lia|]. exists T. exact E.
  - apply (C119_hermite (-1)). lia.
  - apply (C119_hermite (2 ^ 30)). lia.
  - apply (C119_hermite (2 ^ 40)). lia.
Qed.

(** C119: the same for the Fourier basis and an even degree; an odd one that is not negative ends the process. *)
Theorem C119_fourier : forall d : Z,
  ((0 <= d < 2 ^ 30)%Z -> Z.even d = true -> let n := Z.to_nat d in exists T, py_triple_products_fourier fnum_R d = Ok T /\ cube_for (2 * n + 1) (n + 1) T /\
    forall i j x, (i <= n)%nat -> (j <= n)%nat -> fourier i x * fourier j x = rsum (map (fun k => cell T k i j * fourier k x) (seq 0 (2 * n + 1)))) /\
  ((0 <= d < 2 ^ 30)%Z -> Z.even d = false -> py_triple_products_fourier fnum_R d = Exit 1) /\
  ((- 2 ^ 30 <= d < 0)%Z -> py_triple_products_fourier fnum_R d = Throw "RuntimeError"%string) /\
  ((d < - 2 ^ 31 \/ 2 ^ 31 <= d)%Z -> py_triple_products_fourier fnum_R d = Throw "OverflowError"%string) /\
  ((- 2 ^ 31 <= d < - 2 ^ 30 \/ 2 ^ 30 <= d < 2 ^ 31)%Z -> py_triple_products_fourier fnum_R d = Ub).
Proof.
  intros d. destruct (py_cases fnum_R d) as (H1 & H2 & H3 & H4).
  assert (P : (0 <= d)%Z -> Nat.even (Z.to_nat d) = Z.even d).
  { intros H. rewrite <- (Z2Nat.id d H) at 2. generalize (Z.to_nat d). clear. intros n. destruct (Nat.even n) eqn:E.
    - apply Nat.even_spec in E as [k ->]. symmetry. apply Z.even_spec. exists (Z.of_nat k). lia.
    - rewrite <- Nat.negb_odd in E. apply negb_false_iff, Nat.odd_spec in E as [k ->]. rewrite <- Z.negb_odd. symmetry. apply negb_false_iff, Z.odd_spec. exists (Z.of_nat k). lia. }
  split; [|split; [|split; [|split]]]; intros H; [| |apply H3; exact H|apply H1; exact H|apply H2; exact H]; intros Ev; rewrite <- P in Ev by lia.
  - intros n. destruct (triple_fourier n Ev) as (T & E & C & _ & L). exists T. split; [rewrite (proj2 (H4 H)); exact E|]. split; [exact C|exact L].
  - rewrite (proj2 (H4 H)). exact (triple_fourier_odd fnum_R _ Ev).
Qed.
Print Assumptions C119_fourier.
Example C119_fourier_example : (exists T, py_triple_products_fourier fnum_R 4 = Ok T) /\ py_triple_products_fourier fnum_R 3 = Exit 1 /\ py_triple_products_fourier fnum_R (-3) = Throw "RuntimeError"%string.
Proof.
  split; [|split].
  - destruct (proj1 (C119_fourier 4)) as (T & E & _); [lia|reflexivity|]. exists T. exact E.
  - apply (C119_fourier 3); [lia|reflexivity].
  - apply (C119_fourier (-3)). lia.
Qed.

(** C119: the table is the only one of its shape with the products of the polynomials. *)
Theorem C119_unique : forall n T T', py_triple_products fnum_R (Z.of_nat n) = Ok T -> cube_for (2 * n + 1) (n + 1) T' ->
  (forall i j x, (i <= n)%nat -> (j <= n)%nat -> hermite i x * hermite j x = rsum (map (fun k => cell T' k i j * hermite k x) (seq 0 (2 * n + 1)))) -> T' = T.
Proof. intros n T T' H. exact (table_unique n T T' (py_nat n T H)). Qed.
Print Assumptions C119_unique.
(** x * x = 1 + sqrt 2 * h_2. *)
Example C119_unique_example : py_triple_products fnum_R 1 = Ok [[[1; 0]; [0; 1]]; [[0; 1]; [1; 0]]; [[0; 0]; [0; sqrt 2]]].
Proof.
  destruct (proj1 (C119_hermite 1)) as (T & E & _); [lia|]. rewrite E. f_equal. symmetry. apply (C119_unique 1 T); [exact E|repeat constructor|].
  intros i j x Hi Hj. assert (S2 : sqrt 2 * sqrt 2 = 2) by (apply sqrt_sqrt; lra). assert (S0 : 0 < sqrt 2) by (apply sqrt_lt_R0; lra).
  assert (H2 : sqrt 2 * hermite 2 x = x * x - 1).
  { rewrite hermite_SS, hermite_1, hermite_0. cbn [INR]. rewrite sqrt_1. replace (1 + 1) with 2 by ring. field. lra. }
  destruct i as [|[|i]], j as [|[|j]]; try lia; unfold cell, rsum; cbn [nth seq map fold_right Nat.mul Nat.add]; rewrite ?H2, ?hermite_0, ?hermite_1; ring.
Qed.

(** C119: tables for two degrees have the same entries, and T[k][i][j] does not depend on the order of the three indices. *)
Theorem C119_entries : forall n n' T T', py_triple_products fnum_R (Z.of_nat n) = Ok T -> py_triple_products fnum_R (Z.of_nat n') = Ok T' ->
  (forall k i j, (k <= 2 * n)%nat -> (i <= n)%nat -> (j <= n)%nat -> (k <= 2 * n')%nat -> (i <= n')%nat -> (j <= n')%nat -> cell T k i j = cell T' k i j) /\
  (forall k i j, (k <= n)%nat -> (i <= n)%nat -> (j <= n)%nat -> cell T k i j = cell T i j k /\ cell T k i j = cell T k j i).
Proof.
  intros n n' T T' H H'. apply py_nat in H. apply py_nat in H'. split.
  - intros k i j A B C A' B' C'. apply (tables_agree n n' T T' k i j H H'); lia.
  - intros k i j A B C. split; [exact (table_symmetric n T i j k H B C A)|]. destruct (triple_hermite n) as (U & E & _ & S & _). rewrite H in E. injection E as <-. apply S; assumption.
Qed.
Print Assumptions C119_entries.
Example C119_entries_example : exists T, py_triple_products fnum_R 2 = Ok T /\ cell T 2 1 1 = sqrt 2 /\ cell T 1 1 2 = sqrt 2 /\ cell T 0 1 1 = 1.
Proof.
  destruct (proj1 (C119_hermite 2)) as (T & E & _); [lia|]. exists T. split; [exact E|].
  destruct (C119_entries 2 1 T _ E C119_unique_example) as (A & S). assert (B : cell T 2 1 1 = sqrt 2) by (rewrite A by lia; reflexivity).
  split; [exact B|]. split; [|rewrite A by lia; reflexivity]. rewrite <- (proj1 (S 2%nat 1%nat 1%nat ltac:(lia) ltac:(lia) ltac:(lia))). exact B.
Qed.

(** C119: the same for the Fourier functions. *)
Theorem C119_fourier_unique : forall n T T', py_triple_products_fourier fnum_R (Z.of_nat n) = Ok T -> cube_for (2 * n + 1) (n + 1) T' ->
  (forall i j x, (i <= n)%nat -> (j <= n)%nat -> fourier i x * fourier j x = rsum (map (fun k => cell T' k i j * fourier k x) (seq 0 (2 * n + 1)))) -> T' = T.
Proof. intros n T T' H. exact (fourier_table_unique n T T' (py_fourier_nat n T H)). Qed.
Print Assumptions C119_fourier_unique.
(** The only product for the degree 0 is (1/sqrt(2 pi))^2. *)
Example C119_fourier_unique_example : py_triple_products_fourier fnum_R 0 = Ok [[[1 / sqrt (2 * PI)]]].
Proof.
  destruct (proj1 (C119_fourier 0)) as (T & E & _); [lia|reflexivity|]. rewrite E. f_equal. symmetry. apply (C119_fourier_unique 0 T); [exact E|repeat constructor|].
  intros i j x Hi Hj. replace i with 0%nat by lia. replace j with 0%nat by lia. unfold cell, rsum. cbn [nth seq map fold_right Nat.mul Nat.add]. unfold fourier. cbn -[sqrt Rdiv]. ring.
Qed.

Theorem C119_fourier_entries : forall n n' T T', py_triple_products_fourier fnum_R (Z.of_nat n) = Ok T -> py_triple_products_fourier fnum_R (Z.of_nat n') = Ok T' ->
  (forall k i j, (k <= 2 * n)%nat -> (i <= n)%nat -> (j <= n)%nat -> (k <= 2 * n')%nat -> (i <= n')%nat -> (j <= n')%nat -> cell T k i j = cell T' k i j) /\
  (forall k i j, (k <= n)%nat -> (i <= n)%nat -> (j <= n)%nat -> cell T k i j = cell T i j k /\ cell T k i j = cell T k j i).
Proof.
  intros n n' T T' H H'. apply py_fourier_nat in H. apply py_fourier_nat in H'. split.
  - intros k i j A B C A' B' C'. apply (fourier_tables_agree n n' T T' k i j H H'); lia.
  - intros k i j A B C. exact (fourier_table_symmetric n T i j k H B C A).
Qed.
Print Assumptions C119_fourier_entries.
Example C119_fourier_entries_example : exists T, py_triple_products_fourier fnum_R 4 = Ok T /\ cell T 0 0 0 = 1 / sqrt (2 * PI) /\ cell T 0 1 1 = cell T 1 1 0.
Proof.
  destruct (proj1 (C119_fourier 4)) as (T & E & _); [lia|reflexivity|]. exists T. split; [exact E|].
  destruct (C119_fourier_entries 4 0 T _ E C119_fourier_unique_example) as (A & S). split; [rewrite A by lia; reflexivity|]. exact (proj1 (S 0%nat 1%nat 1%nat ltac:(lia) ltac:(lia) ltac:(lia))).
Qed.
