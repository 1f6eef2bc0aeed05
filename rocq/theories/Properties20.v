(** Property C73: the dimension of a triangle from the degree and the number of polynomials. *)
From Coq Require Import List Arith ZArith Lia.
From Verif Require Import Base IndexModel Spec LinSpec FindDimFacts.
Import ListNotations.
Local Open Scope nat_scope.

(** C73: for a degree of at least 1, Triangle_iterator::s_find_dim finds the dimension from the degree and the number of multi-indices. *)
Theorem C73_found : forall degree dim fuel, 1 <= degree -> dim < fuel -> let n := Z.of_nat (length (points Triangle dim degree)) in (n < 2 ^ 32)%Z -> s_find_dim fuel degree n = Ok dim.
Proof. exact find_dim_found. Qed.
Print Assumptions C73_found.
Example C73_found_example : 1 <= 2 /\ 3 < 5 /\ (Z.of_nat (length (points Triangle 3 2)) < 2 ^ 32)%Z /\ s_find_dim 5 2 10 = Ok 3.
Proof. repeat split; vm_compute; try lia; reflexivity. Qed.

(** For a number that is not the number of multi-indices of any dimension, the process exits, provided that the number of multi-indices of
    the first dimension that has more is less than 2^32 (otherwise the conversion from double is undefined behaviour). *)
Theorem C73_not_found : forall degree n, 1 <= degree -> (0 <= n < 2 ^ 32)%Z -> (forall d, Z.of_nat (length (points Triangle d degree)) <> n) ->
  exists dim, let size := Z.of_nat (length (points Triangle dim degree)) in (n < size)%Z /\ (forall d, d < dim -> (Z.of_nat (length (points Triangle d degree)) < n)%Z) /\
    forall fuel, dim < fuel -> s_find_dim fuel degree n = if (size <? 2 ^ 32)%Z then Exit 1 else Ub.
Proof. exact find_dim_not_found. Qed.
Print Assumptions C73_not_found.
Example C73_not_found_example : 1 <= 2 /\ (forall d, Z.of_nat (length (points Triangle d 2)) <> 7%Z) /\ s_find_dim 5 2 7 = Exit 1.
Proof.
  split; [lia|]. split; [|vm_compute; reflexivity]. intros d H. destruct (le_lt_dec d 2) as [L|L].
  - destruct d as [|[|[|d]]]; [vm_compute in H; discriminate H|vm_compute in H; discriminate H|vm_compute in H; discriminate H|lia].
  - pose proof (count_lt 2 ltac:(lia) d 2 L) as G. assert (E : length (points Triangle 2 2) = 6) by (vm_compute; reflexivity). pose proof (count_lt 2 ltac:(lia) 3 2 ltac:(lia)) as G3.
    assert (E3 : length (points Triangle 3 2) = 10) by (vm_compute; reflexivity). destruct (Nat.eq_dec d 3) as [->|N]; [lia|]. pose proof (count_lt 2 ltac:(lia) d 3 ltac:(lia)). lia.
Qed.

(** For degree 0 it does not return when there is more than one polynomial, instead of rejecting the number. *)
Theorem C73_degree0_loops : forall n fuel, (1 < n < 2 ^ 32)%Z -> s_find_dim fuel 0 n = NoFuel.
Proof. exact find_dim_degree0. Qed.
Print Assumptions C73_degree0_loops.
Example C73_degree0_loops_example : (1 < 2 < 2 ^ 32)%Z /\ s_find_dim 20 0 2 = NoFuel.
Proof. split; [lia|vm_compute; reflexivity]. Qed.
