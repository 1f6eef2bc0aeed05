(** What the printed trail of a program should be, and the times of its calls. *)
From Coq Require Import String List Bool Arith ZArith.
From Verif Require Import TrailModel.
Import ListNotations.
Local Open Scope list_scope. Local Open Scope nat_scope.

(** The calls that return, with their durations, in the order in which they end, and whether the code returns. *)
Inductive ends : code -> list (string * Z) -> bool -> Prop :=
| e_return : ends Return [] true
| e_raise : ends Raise [] false
| e_ok : forall key force start stop caught body rest l l' ok, ends body l true -> ends rest l' ok -> ends (Call key force start stop caught body rest) (l ++ (key, (stop - start)%Z) :: l') ok
| e_passed : forall key force start stop body rest l, ends body l false -> ends (Call key force start stop false body rest) l false
| e_caught : forall key force start stop body rest l l' ok, ends body l false -> ends rest l' ok -> ends (Call key force start stop true body rest) (l ++ l') ok.

Definition times (key : string) (l : list (string * Z)) : list Z := map snd (filter (fun p => String.eqb (fst p) key) l).
Fixpoint zsum (l : list Z) : Z := match l with [] => 0%Z | x :: l => (x + zsum l)%Z end.
(** What stats holds for a key: (0, 0) if there is nothing. *)
Fixpoint recorded (key : string) (stats : list (string * (nat * Z))) : nat * Z :=
  match stats with [] => (0, 0%Z) | (k, x) :: stats => if String.eqb k key then x else recorded key stats end.

(** The code raises nothing. *)
Fixpoint quiet (c : code) : Prop := match c with Return => True | Raise => False | Call _ _ _ _ _ body rest => quiet body /\ quiet rest end.

(** The lines of a trail: a function is entered, or it has returned after some time; both with the depth of the call. *)
Inductive line := Entering (depth : nat) (key : string) | Finished (depth : nat) (key : string) (time : Z).
(** A well-nested trail at some depth: each call's line is followed by the trail of the calls it makes, one deeper, and, if it took longer than the threshold,
    by the line of its end. *)
Inductive nested (threshold : Z) : nat -> list line -> Prop :=
| n_nil : forall d, nested threshold d []
| n_long : forall d key t inner rest, nested threshold (S d) inner -> (threshold < t)%Z -> nested threshold d rest -> nested threshold d (Entering d key :: inner ++ Finished d key t :: rest)
| n_short : forall d key inner rest, nested threshold (S d) inner -> nested threshold d rest -> nested threshold d (Entering d key :: inner ++ rest).
(** The calls whose lines are in a trail, with their depths. *)
Definition entered (l : list line) : list (nat * string) := flat_map (fun x => match x with Entering d k => [(d, k)] | Finished _ _ _ => [] end) l.
Definition finished (l : list line) : list (string * Z) := flat_map (fun x => match x with Entering _ _ => [] | Finished _ k t => [(k, t)] end) l.
(** The calls of a program, in the order in which they begin, with the number of calls around them. *)
Fixpoint begins (d : nat) (c : code) : list (nat * string) := match c with Return | Raise => [] | Call key _ _ _ _ body rest => (d, key) :: begins (S d) body ++ begins d rest end.
(** A line as it is printed. *)
Definition shown (str_int : nat -> string) (str_time : Z -> string) (x : line) : string :=
  match x with
  | Entering d key => String.concat "" (repeat " " d ++ [str_int d; " Entering "; key])
  | Finished d key t => String.concat "" (repeat " " d ++ [str_int d; " Function "; key; ": "; str_time t])
  end%string.
(** No decorator has the option force. *)
Fixpoint unforced (c : code) : Prop := match c with Return | Raise => True | Call _ force _ _ _ body rest => force = false /\ unforced body /\ unforced rest end.
(** The elements of a list, each at its first place. *)
Definition firsts (l : list string) : list string := fold_left (fun acc k => if existsb (String.eqb k) acc then acc else acc ++ [k]) l [].
