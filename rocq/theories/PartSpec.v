(** Partitions of a set of numbers. *)
From Coq Require Import List.
Import ListNotations.

(** [P] is a partition of [X]: a list of blocks that cover [X], no two of which share an element.  (An empty block may be
    among them: Function.split puts one there for the constant factor.) *)
Definition disjoint (a b : list nat) : Prop := forall x, In x a -> ~ In x b.
Definition partition (X : nat -> Prop) (P : list (list nat)) : Prop :=
  (forall x, X x <-> exists b, In b P /\ In x b) /\ ForallOrdPairs disjoint P.

(** Every (non-empty) block of [P] lies in a block of [R]. *)
Definition refines (P R : list (list nat)) : Prop := forall b, In b P -> b <> [] -> exists c, In c R /\ incl b c.
