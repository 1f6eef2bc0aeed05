(** The words of C111. *)
From Coq Require Import String List Bool Arith.
From Verif Require Import CacheRaceModel.
Import ListNotations.
Local Open Scope string_scope. Local Open Scope list_scope. Local Open Scope nat_scope.

(** The format of the file: the whole content gives the result back; every part of it that begins at the beginning raises an exception. *)
Definition format {B V} (v : V) (content : list B) (load : list B -> V + string) : Prop :=
  load content = inl v /\ forall n, n < length content -> exists e, load (firstn n content) = inr e.
(** .npy: that exception is a ValueError. *)
Definition format_npy {B V} (v : V) (content : list B) (load : list B -> V + string) : Prop :=
  load content = inl v /\ forall n, n < length content -> load (firstn n content) = inr "ValueError".

(** No process has made a call; the file is absent, complete, or the beginning of it. *)
Definition fresh {B V} (content : list B) (s : state B V) : Prop :=
  (forall p, at_ s p = Idle) /\ forall c, file s = Some c -> exists n, c = firstn n content.
(** At most one process is writing. *)
Definition one_writer {B V} (s : state B V) : Prop := forall p q j k, at_ s p = Writing j -> at_ s q = Writing k -> p = q.
(** It is so in every state of a history. *)
Definition throughout {B V} (zero : B) (v : V) content load (P : state B V -> Prop) (s : state B V) (h : list event) : Prop :=
  forall h1 h2, h = h1 ++ h2 -> P (run B V zero v content load s h1).
(** Nobody is in a call. *)
Definition quiet {B V} (s : state B V) : Prop := forall p, running B V (at_ s p) = false.
Definition no_crash (h : list event) : Prop := forall p, ~ In (Crash p) h.
(** Every byte is the right one, or the byte that fills holes; there are not too many. *)
Definition right_or_zero {B} (zero : B) (content c : list B) : Prop :=
  length c <= length content /\ forall i b, nth_error c i = Some b -> b = zero \/ nth_error content i = Some b.
