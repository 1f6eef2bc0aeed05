(** Identifiers and numbers in a text. *)
From Coq Require Import String Ascii List Arith.
From Verif Require Import IndexModel CcodeModel.
Import ListNotations.
Local Open Scope list_scope. Local Open Scope nat_scope.

Fixpoint chars (s : string) : list ascii := match s with EmptyString => [] | String c s => c :: chars s end.
(** An identifier or a number: a non-empty text of letters, digits and underscores. *)
Definition name (t : string) : Prop := t <> EmptyString /\ Forall (fun c => is_word c = true) (chars t).
(** Another character. *)
Definition sign (t : string) : Prop := exists c, t = String c EmptyString /\ is_word c = false.
Definition joined (ts : list string) : string := fold_right append EmptyString ts.
(** [ts] are the names in the text [s], as long as possible, and the characters between them. *)
Definition parts_of (s : string) (ts : list string) : Prop :=
  s = joined ts /\ Forall (fun t => name t \/ sign t) ts /\ forall a t u b, ts = a ++ t :: u :: b -> ~ (name t /\ name u).

(** The name of the variable of direction [d], and of the coordinate number [i] in C++. *)
Definition variable (d : nat) : string := append "x" (to_string d).
Definition coordinate (i : nat) : string := append "v[" (append (to_string i) "]").
(** [u] is the name [t] with the variables [dirs] written as the coordinates. *)
Definition rewritten (dirs : list nat) (t u : string) : Prop :=
  (exists i d, nth_error dirs i = Some d /\ t = variable d /\ u = coordinate i) \/ (forall d, In d dirs -> t <> variable d) /\ u = t.
