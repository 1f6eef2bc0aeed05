(** What stats.py prints and the times it adds up: log_stats with the option trails, print_stats and debug. *)
From Coq Require Import String List Bool Arith ZArith.
Import ListNotations.
Local Open Scope string_scope. Local Open Scope list_scope. Local Open Scope nat_scope.

(** The code a Python program runs, as far as functions decorated with log_stats are concerned, as in StatsModel.v: it returns, raises, or calls
    a decorated function and goes on.  A call has the key [function.__name__ + '-' + function.__module__], the option [force] of its
    decorator, the values of time.time() at its start and at its end, and whether it stands in a try statement that catches every
    exception.  The times are integers, in any unit: the rounding of their differences and sums is not modelled. *)
Inductive code :=
| Return
| Raise
| Call (key : string) (force : bool) (start stop : Z) (caught : bool) (body rest : code).

Section Trails.
(** str of an int and of a time. *)
Variable str_int : nat -> string.
Variable str_time : Z -> string.
(** rc.settings['trails'] and stats.threshold, stats.py:26; neither changes during the run. *)
Variable trails : bool.
Variable threshold : Z.

(** The module's globals stats and indent, stats.py:24-25, and what has been printed, line by line. *)
Record globals := Glob { g_stats : list (string * (nat * Z)); g_indent : nat; g_out : list string }.

(** indent_str, stats.py:63. *)
Definition spaces (n : nat) : string := String.concat "" (repeat " " n).
Definition indent_str (n : nat) : string := (spaces n ++ str_int n ++ " ")%string.

(** [if key not in stats: ...; stats[key]['Calls'] += 1; stats[key]['Time'] += time_end - time_start], stats.py:74-77. *)
Fixpoint tick (key : string) (delta : Z) (stats : list (string * (nat * Z))) : list (string * (nat * Z)) :=
  match stats with
  | [] => [(key, (1, delta))]
  | (k, (n, t)) :: stats => if String.eqb k key then (k, (n + 1, (t + delta)%Z)) :: stats else (k, (n, t)) :: tick key delta stats
  end.

(** The wrapper of log_stats, stats.py:57-85: the globals afterwards, and whether the code returned. *)
Fixpoint run (c : code) (g : globals) : globals * bool :=
  match c with
  | Return => (g, true)
  | Raise => (g, false)
  | Call key force start stop caught body rest =>
      let prefix := indent_str (g_indent g) in
      let out := if trails || force then g_out g ++ [(prefix ++ "Entering " ++ key)%string] else g_out g in
      let '(g, ok) := run body (Glob (g_stats g) (g_indent g + 1) out) in
      if ok then
        let delta := (stop - start)%Z in
        let out := if (trails || force) && (threshold <? delta)%Z then g_out g ++ [(prefix ++ "Function " ++ key ++ ": " ++ str_time delta)%string] else g_out g in
        run rest (Glob (tick key delta (g_stats g)) (g_indent g - 1) out)
      else if caught then run rest g
      else (g, false)
  end.

(** print_stats, stats.py:88-93.  The first line printed is empty: the string begins with a newline. *)
Definition print_stats (stats : list (string * (nat * Z))) : list string :=
  [""; "-- [statistics] --"] ++
  map (fun '(key, (n, t)) => ("| '" ++ key ++ "': Calls: " ++ str_int n ++ ", Time: " ++ str_time t)%string) stats ++
  ["--"].
End Trails.

(** debug, stats.py:29-54: the lines that a call prints before the function runs.  [stringify] is stringify_arg, stats.py:31-37; the
    arguments are abstract. *)
Section Debug.
Variable V : Type.
Variable stringify : V -> string.
Definition debug_lines (enabled force : bool) (key : string) (args : list V) (kwargs : list (string * V)) : list string :=
  if enabled || force then
    [("▶ Entering function " ++ key)%string; "-▲ args"] ++ map (fun a => ("--● A " ++ stringify a)%string) args ++
    ["-▲ kwargs"] ++ map (fun '(kw, v) => ("--● KW " ++ kw ++ ": " ++ stringify v)%string) kwargs
  else [].
End Debug.
