(** When a cache is transparent. *)
From Coq Require Import String List Bool Arith.
From Verif Require Import Base CacheModel.
Import ListNotations.
Local Open Scope string_scope. Local Open Scope list_scope.

Section Spec.
Variable A V : Type.
Variable f : A -> res V.
Variable savefile : A -> string.
Variable is_sparse : V -> bool.
Variable cast : V -> V.

(** The outcome of a cached call for a call whose outcome is [o]: the same, but for the type of a number ([cast]). *)
Definition faithful (o out : res V) : Prop := out = o \/ exists v, o = Ok v /\ out = Ok (cast v).

(** The files with the names the cache looks up hold what the function returns, in the right format. *)
Definition consistent (d : disk V) : Prop :=
  forall a v, (d (savefile a ++ ".npy")%string = Some (Good v) -> f a = Ok v /\ is_sparse v = false) /\
              (d (savefile a ++ ".npz")%string = Some (Good v) -> f a = Ok v /\ is_sparse v = true).

(** Damaged files raise ValueError when they are loaded. *)
Definition value_errors (d : disk V) : Prop := forall name e, d name = Some (Bad e) -> e = "ValueError".
Definition only_value_errors (h : list (action A)) : Prop := forall name e, In (Damage name e) h -> e = "ValueError".
End Spec.
Arguments faithful {V}. Arguments consistent {A V}. Arguments value_errors {V}. Arguments only_value_errors {A}.
