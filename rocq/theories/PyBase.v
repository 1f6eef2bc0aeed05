(** Python built-ins used by the model of the hermipy package. *)
From Coq Require Import String List Bool Arith.
From Verif Require Import Base.
Import ListNotations.
Local Open Scope string_scope. Local Open Scope list_scope. Local Open Scope nat_scope.

(** [l.index(d)] on a list of ints: the first position; ValueError if there is none. *)
Fixpoint py_index (l : list nat) (d : nat) : res nat :=
  match l with
  | [] => Throw "ValueError"
  | x :: t => if x =? d then Ok 0 else i <- py_index t d ;; Ok (S i)
  end.

(** [d in l], [l.count(d)] on a list of ints. *)
Definition py_in (d : nat) (l : list nat) : bool := existsb (Nat.eqb d) l.
Fixpoint py_count (l : list nat) (d : nat) : nat :=
  match l with
  | [] => 0
  | x :: t => (if x =? d then 1 else 0) + py_count t d
  end.

(** [sorted(l)] on a list of ints. *)
Fixpoint insert (d : nat) (l : list nat) : list nat :=
  match l with
  | [] => [d]
  | x :: t => if d <=? x then d :: x :: t else x :: insert d t
  end.
Definition py_sorted (l : list nat) : list nat := fold_right insert [] l.

(** [l[i]] on a list or an array, with a non-negative index: IndexError out of range. *)
Definition py_get {A} (l : list A) (i : nat) : res A :=
  match nth_error l i with Some x => Ok x | None => Throw "IndexError" end.

(** [l == l'] on lists of ints. *)
Fixpoint nats_eqb (l l' : list nat) : bool :=
  match l, l' with
  | [], [] => true
  | x :: t, y :: t' => (x =? y) && nats_eqb t t'
  | _, _ => false
  end.

(** [if not cond: raise e]. *)
Definition require (c : bool) (e : string) : res unit := if c then Ok tt else Throw e.

(** [x is not None and not dim == x] is false. *)
Definition agrees (dim : nat) (x : option nat) : bool := match x with None => true | Some y => dim =? y end.
