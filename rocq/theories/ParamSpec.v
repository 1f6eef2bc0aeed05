(** Dictionaries of parameters as sets of keys with values. *)
From Coq Require Import String List.
Import ListNotations.

(** The dictionary has these keys with these values. *)
Definition given {E : Type} (p l : list (string * E)) : Prop := Forall (fun kv => In kv p) l.
(** One of these keys is missing. *)
Definition lacks {E : Type} (p : list (string * E)) (keys : list string) : Prop := Exists (fun k => ~ In k (map fst p)) keys.
(** A dictionary has every key at most once. *)
Definition is_dict {E : Type} (p : list (string * E)) : Prop := NoDup (map fst p).
