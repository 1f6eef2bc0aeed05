(** stats.log_stats, hermipy/stats.py. *)
From Coq Require Import String List Bool Arith.
Import ListNotations.
Local Open Scope string_scope. Local Open Scope list_scope. Local Open Scope nat_scope.

(** The code a Python program runs, as far as decorated functions are concerned: it returns, raises, or calls a decorated function
    (given by its key, [function.__name__ + '-' + function.__module__], and its body) and goes on.  [Try] is such a call in a try
    statement that catches every exception. *)
Inductive code := Return | Raise | Call (key : string) (body rest : code) | Try (key : string) (body rest : code).

(** The module's globals, stats.py:25-26; [stats[key]['Calls']] only, the times are not modelled. *)
Record globals := Glob { g_stats : list (string * nat); g_indent : nat }.

(** [if key not in stats: stats[key] = {'Calls': 0, 'Time': 0}; stats[key]['Calls'] += 1], stats.py:74-77. *)
Fixpoint tick (key : string) (stats : list (string * nat)) : list (string * nat) :=
  match stats with
  | [] => [(key, 1)]
  | (k, n) :: stats => if String.eqb key k then (k, n + 1) :: stats else (k, n) :: tick key stats
  end.

(** Running code: the globals afterwards, and whether it returned.  The wrapper of log_stats, stats.py:57-85: an exception leaves it
    between [indent += 1] and [indent -= 1]. *)
Fixpoint run (c : code) (g : globals) : globals * bool :=
  match c with
  | Return => (g, true)
  | Raise => (g, false)
  | Call key body rest =>
      let '(g, ok) := run body (Glob (g_stats g) (g_indent g + 1)) in
      if ok then run rest (Glob (tick key (g_stats g)) (g_indent g - 1)) else (g, false)
  | Try key body rest =>
      let '(g, ok) := run body (Glob (g_stats g) (g_indent g + 1)) in
      if ok then run rest (Glob (tick key (g_stats g)) (g_indent g - 1)) else run rest g
  end.

(** [stats[key]['Calls']], 0 if the key is absent. *)
Fixpoint calls (key : string) (stats : list (string * nat)) : nat :=
  match stats with
  | [] => 0
  | (k, n) :: stats => if String.eqb key k then n else calls key stats
  end.
