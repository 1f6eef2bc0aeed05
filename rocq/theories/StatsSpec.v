(** What happens when code runs, without any statistics. *)
From Coq Require Import String List Bool Arith.
From Verif Require Import StatsModel.
Import ListNotations.
Local Open Scope string_scope. Local Open Scope list_scope. Local Open Scope nat_scope.

(** The decorated calls that return, and those that raise, in the order in which they end. *)
Inductive event := Returned (key : string) | Raised (key : string).

(** [happens c l ok]: running [c] produces these events, and returns or raises. *)
Inductive happens : code -> list event -> bool -> Prop :=
| h_return : happens Return [] true
| h_raise : happens Raise [] false
| h_call_ok : forall key body rest l l' ok, happens body l true -> happens rest l' ok -> happens (Call key body rest) (l ++ Returned key :: l') ok
| h_call_raise : forall key body rest l, happens body l false -> happens (Call key body rest) (l ++ [Raised key]) false
| h_try_ok : forall key body rest l l' ok, happens body l true -> happens rest l' ok -> happens (Try key body rest) (l ++ Returned key :: l') ok
| h_try_raise : forall key body rest l l' ok, happens body l false -> happens rest l' ok -> happens (Try key body rest) (l ++ Raised key :: l') ok.

Definition returns (key : string) (l : list event) : nat := length (filter (fun e => match e with Returned k => String.eqb k key | Raised _ => false end) l).
Definition raises (l : list event) : nat := length (filter (fun e => match e with Returned _ => false | Raised _ => true end) l).
