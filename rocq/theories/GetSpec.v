(** The element that a subscript names: counted from the start, or from the end if it is negative. *)
From Coq Require Import List ZArith.
Definition named {A} (L : list A) (i : Z) (m : A) : Prop := exists k, nth_error L k = Some m /\ (i = Z.of_nat k \/ i = (Z.of_nat k - Z.of_nat (length L))%Z).
