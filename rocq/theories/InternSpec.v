(** The conditions on the use of /tmp, C44. *)
From Coq Require Import String List Bool Arith.
From Verif Require Import Base Num Fnum CalcModel InternModel.
Import ListNotations.

Section InternSpec.
Variable F : fnum.
Variable junk : F.
Variable name : string -> string.
Variable compiler : string -> option (list F -> F).
Notation run := (run F junk name compiler).

(** The right result of a call: the compiled function of its own body, discretized. *)
Definition right (c : call F) (r : res (list F)) : Prop :=
  exists func, compiler (source (c_body c)) = Some func /\ r = discretize F junk func (c_nodes c) (c_translation c) (c_dilation c).

(** Every object in /tmp is the compiled function of one of the [bodies]. *)
Definition tidy (bodies : string -> Prop) (t : tmp F) : Prop :=
  forall n o, so t n = Some o -> exists body func, bodies body /\ name body = n /\ compiler (source body) = Some func /\ o = Complete func.
(** The bodies that are discretized in a history. *)
Definition uses (bodies : string -> Prop) (history : list (event F)) : Prop :=
  forall pid body nodes t d, In (Start pid body nodes t d) history -> bodies body.

(** The object of the call does not exist yet and the call is making it. *)
Definition building (c : call F) : Prop :=
  match c_stage c with Open | Write | Compile | Link _ => True | _ => False end.
(** While a call is making an object, no other call uses the same file. *)
Definition exclusive (s : system F) : Prop :=
  forall pid pid' c c', calls s pid = Some c -> calls s pid' = Some c' -> pid <> pid' -> building c -> live c' = true -> name (c_body c) <> name (c_body c').
Definition always (P : system F -> Prop) (s : system F) (history : list (event F)) : Prop :=
  forall past future, history = past ++ future -> P (run s past).
(** No process dies while the linker writes the object. *)
Definition no_crash_in_link (s : system F) (history : list (event F)) : Prop :=
  forall past pid future c func, history = past ++ Crash pid :: future -> calls (run s past) pid = Some c -> c_stage c <> Link func.
(** At most one call at a time. *)
Definition one_at_a_time (s : system F) : Prop :=
  forall pid pid' c c', calls s pid = Some c -> calls s pid' = Some c' -> live c = true -> live c' = true -> pid = pid'.
End InternSpec.
Arguments tidy {F}. Arguments uses {F}. Arguments building {F}. Arguments one_at_a_time {F}. Arguments exclusive {F}.

(** For examples: a compiler that knows two functions. *)
From Coq Require Import ZArith.
Definition two_functions (text : string) : option (list fnum_Z -> fnum_Z) :=
  if String.eqb text (source "v[0]") then Some (fun v => nth 0 v 0%Z)
  else if String.eqb text (source "2*v[0]") then Some (fun v => (2 * nth 0 v 0)%Z) else None.
(** Empty /tmp, no calls. *)
Definition fresh : system fnum_Z := Sys (Tmp (fun _ => None) (fun _ => None)) (fun _ => None).
(** A call on the one-dimensional grid 3, 4 and its steps. *)
Definition begin (pid : nat) (body : string) : event fnum_Z := Start (F := fnum_Z) pid body [[3; 4]]%Z [0]%Z [[1]]%Z.
Definition steps (pid n : nat) : list (event fnum_Z) := repeat (Step pid 300) n.
