(** Independent specification vocabulary for index sets. *)
From Coq Require Import List Arith ZArith.
From Verif Require Import Base IndexModel.
Import ListNotations.

(** Product of max(1, m_i). *)
Definition cross_prod (m : mi) : nat := fold_right Nat.mul 1 (map (Nat.max 1) m).

(** The mathematical definition of each index set (on multi-indices of a given length). *)
Definition in_set (s : iset) (degree : nat) (m : mi) : Prop :=
  match s with
  | Triangle => list_sum m <= degree
  | Cube => Forall (fun x => x <= degree) m
  | Rectangle =>
      match m with
      | [] => True
      | x :: t => x <= degree /\ Forall (fun y => 2 * y <= degree) t
      end
  | Cross | CrossNc => cross_prod m <= Nat.max 1 degree
  end.

(** [l1] is a prefix of [l2]. *)
Definition prefix {A} (l1 l2 : list A) : Prop := exists l3, l2 = l1 ++ l3.

(** Pascal's triangle. *)
Fixpoint binom (n k : nat) : nat :=
  match n, k with
  | _, 0 => 1
  | 0, S _ => 0
  | S n', S k' => binom n' k' + binom n' (S k')
  end.

(** Size of the product test of the non-consistent cross stays within 32 bits. *)
Definition nc_no_overflow (dim degree : nat) : Prop :=
  forall m, length m = dim -> list_sum m <= Nat.max 1 degree + dim - 1 ->
    (Z.of_nat (cross_prod m) < 2 ^ 32)%Z.

(** Strict lexicographic order on vectors of the same length (first entry most significant). *)
Fixpoint lex_lt (v w : list nat) : Prop :=
  match v, w with
  | x :: v', y :: w' => x < y \/ (x = y /\ lex_lt v' w')
  | _, _ => False
  end.

(** side condition under which the machine arithmetic of the enumeration is exact *)
Definition set_ok (s : iset) (dim degree : nat) : Prop :=
  match s with CrossNc => nc_no_overflow dim degree | _ => True end.

(** Histories of calls on an iterator object. *)
Inductive op := Inc | Reset.
Definition apply_op (o : op) (it : iterator) : res iterator :=
  match o with Inc => it_increment it | Reset => Ok (it_reset it) end.
Fixpoint run (ops : list op) (it : iterator) : res iterator :=
  match ops with
  | [] => Ok it
  | o :: ops' => it' <- apply_op o it ;; run ops' it'
  end.

(** number of increments since the last reset *)
Definition since_reset (ops : list op) : nat :=
  fold_left (fun k o => match o with Inc => S k | Reset => 0 end) ops 0.

