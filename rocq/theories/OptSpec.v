(** What the options of a call mean. *)
From Coq Require Import String List Bool Arith.
From Verif Require Import Base OptModel.
Import ListNotations.
Local Open Scope string_scope. Local Open Scope list_scope. Local Open Scope nat_scope.

(** The methods with the decorator. *)
Definition methods : list signature := [sig_integrate; sig_transform; sig_varf; sig_varfd].
Definition names (sig : signature) : list string := map fst sig.

(** An option: what the caller gives it, or else its default. *)
Definition option_value (sig : signature) (kw : keywords) (name : string) : option arg :=
  match lookup name kw with
  | Some v => Some v
  | None => match find (fun '(n, _) => String.eqb n name) sig with Some (_, d) => d | None => None end
  end.

(** The caller asks for a tensorized computation: with the option, or with the setting if the option is None or missing. *)
Definition wanted (setting : bool) (kw : keywords) : bool :=
  match lookup "tensorize" kw with None | Some ANone => setting | Some v => truth v end.
(** A function, not an array or a series. *)
Definition splittable (function : arg) : bool := match function with AArr | ASer => false | _ => true end.

(** All the parameters that a keyword names exist, and those without default are given. *)
Definition complete (sig : signature) (kw : keywords) : Prop :=
  NoDup (map fst kw) /\ (forall k, In k (map fst kw) -> In k (names (skipn 2 sig))) /\ (forall n, In (n, None) (skipn 2 sig) -> In n (map fst kw)).
