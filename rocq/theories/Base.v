(** Outcomes, bounds-checked vectors and loops used by every model file. *)
From Coq Require Import String List Arith ZArith Lia.
Import ListNotations.

(** Outcome of a piece of C++ / Python code.  Undefined behaviour, process
    termination, exceptions and exhausted fuel are all distinct from a result. *)
Inductive res (A : Type) : Type :=
| Ok (a : A)
| Ub                      (* undefined behaviour: out-of-bounds access, out-of-range conversion, ... *)
| Exit (code : nat)       (* exit(code) *)
| Throw (what : string)   (* C++ exception or Python exception *)
| NoFuel.                 (* the fuel given to a loop was not enough *)
Arguments Ok {A} a.
Arguments Ub {A}.
Arguments Exit {A} code.
Arguments Throw {A} what.
Arguments NoFuel {A}.

Definition bind {A B} (x : res A) (f : A -> res B) : res B :=
  match x with
  | Ok a => f a
  | Ub => Ub
  | Exit c => Exit c
  | Throw w => Throw w
  | NoFuel => NoFuel
  end.

Declare Scope res_scope.
Delimit Scope res_scope with res.
Notation "x <- e ;; f" := (bind e (fun x => f))
  (at level 61, e at next level, right associativity) : res_scope.
Notation "' p <- e ;; f" := (bind e (fun x => match x with p => f end))
  (at level 61, p pattern, e at next level, right associativity) : res_scope.
Open Scope res_scope.

(** std::vector element access [v[i]]: out of range is undefined behaviour. *)
Definition vget {A} (v : list A) (i : nat) : res A :=
  match nth_error v i with Some x => Ok x | None => Ub end.

(** Pure element replacement (no effect out of range). *)
Fixpoint upd {A} (v : list A) (i : nat) (x : A) : list A :=
  match v, i with
  | [], _ => []
  | _ :: t, 0 => x :: t
  | y :: t, S i => y :: upd t i x
  end.

(** std::vector element write [v[i] = x]: out of range is undefined behaviour. *)
Definition vset {A} (v : list A) (i : nat) (x : A) : res (list A) :=
  if i <? length v then Ok (upd v i x) else Ub.

(** [for (i = i0; i < i0 + n; i++) body] where the body may continue, break or
    return from the enclosing function.  [inl r]: the function returned [r];
    [inr (i, s)]: the loop ended with loop variable [i] and state [s]. *)
Inductive ctl (S R : Type) : Type :=
| Next (s : S)
| Break (s : S)
| Return (r : R).
Arguments Next {S R} s.
Arguments Break {S R} s.
Arguments Return {S R} r.

Fixpoint for_loop {S R} (body : nat -> S -> res (ctl S R)) (n i : nat) (s : S)
  : res (R + nat * S) :=
  match n with
  | 0 => Ok (inr (i, s))
  | S n' =>
      c <- body i s ;;
      match c with
      | Next s' => for_loop body n' (Datatypes.S i) s'
      | Break s' => Ok (inr (i, s'))
      | Return r => Ok (inl r)
      end
  end.

(** [for (i = i0; i < i0 + n; i++) s = body(i, s)] without break or return. *)
Fixpoint for_each {S} (body : nat -> S -> res S) (n i : nat) (s : S) : res S :=
  match n with
  | 0 => Ok s
  | S n' => s' <- body i s ;; for_each body n' (Datatypes.S i) s'
  end.

(** [for (x : l) s = body(x, s)] (range-based loop). *)
Fixpoint for_in {A S} (body : A -> S -> res S) (l : list A) (s : S) : res S :=
  match l with
  | [] => Ok s
  | x :: t => s' <- body x s ;; for_in body t s'
  end.

(** Apply a function with outcomes to every element, left to right. *)
Fixpoint mapM {A B} (f : A -> res B) (l : list A) : res (list B) :=
  match l with
  | [] => Ok []
  | x :: t => y <- f x ;; ys <- mapM f t ;; Ok (y :: ys)
  end.

(** Multi-indices ([ivec]).  Entries are natural numbers; the theorems on
    bounded entries (property C15) justify dropping the 32-bit wrap-around. *)
Notation mi := (list nat) (only parsing).
