(** Vocabulary of C110. *)
From Coq Require Import List Arith Reals.
From Verif Require Import Base Num LinSpec CalcSpec VecModel.
Import ListNotations.

Definition entry {N : num} (A : list (list N)) (i j : nat) : N := nth j (nth i A []) n0.
(** The sum of a_ik b_kj over k < n, and of v_k w_k. *)
Definition row_col {N : num} (n : nat) (A B : list (list N)) (i j : nat) : N := nsum (map (fun k => nmul (entry A i k) (entry B k j)) (seq 0 n)).
Definition dot {N : num} (n : nat) (v w : list N) : N := nsum (map (fun k => nmul (nth k v n0) (nth k w n0)) (seq 0 n)).
(** The identity matrix. *)
Definition identity {N : num} (n : nat) : list (list N) := map (fun i => map (fun j => if i =? j then n1 else n0) (seq 0 n)) (seq 0 n).
(** Sums of squares. *)
Definition squares (v : list R) : R := rsum (map (fun x => x * x)%R v).
(** A ublas matrix, stored by rows, with the entries of A. *)
Definition b_holds {N : num} (B : boost_mat N) (n m : nat) (A : list (list N)) : Prop :=
  b_size1 N B = n /\ b_size2 N B = m /\ length (b_data N B) = n * m /\ forall i j, i < n -> j < m -> nth (i * m + j) (b_data N B) n0 = entry A i j.
