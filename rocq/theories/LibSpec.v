(** Vocabulary for C118. *)
From Coq Require Import List Bool Arith ZArith.
Import ListNotations.
Local Open Scope nat_scope.

(** The multi-index with the entry [k] in the direction [dir] and 0 in the others. *)
Definition single (dim dir k : nat) : list nat := map (fun j => if j =? dir then k else 0) (seq 0 dim).
(** The number with the digits [v], the lowest first, in base [b]. *)
Fixpoint digits (b : Z) (v : list nat) : Z := match v with [] => 0%Z | x :: t => (Z.of_nat x + b * digits b t)%Z end.
