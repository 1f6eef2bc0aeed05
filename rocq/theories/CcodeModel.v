(** The C++ code of a function: function.py:118-123. *)
From Coq Require Import String Ascii List Bool Arith.
From Verif Require Import IndexModel.
Import ListNotations.
Local Open Scope string_scope. Local Open Scope list_scope. Local Open Scope nat_scope.

(** The word characters [\w] of Python's re.  Simplification: ASCII. *)
Definition in_range (a c b : ascii) : bool := (nat_of_ascii a <=? nat_of_ascii c) && (nat_of_ascii c <=? nat_of_ascii b).
Definition is_word (c : ascii) : bool := in_range "0" c "9" || in_range "A" c "Z" || in_range "a" c "z" || Ascii.eqb c "_".

(** [re.sub(r'\b' + pat, rep, s)] for a pattern without special characters: the matches are searched from left to right and do not overlap.
    [word] tells whether the preceding character is a word character, [skip] is the number of characters of a match still to be skipped. *)
Fixpoint re_sub (pat rep : string) (skip : nat) (word : bool) (s : string) : string :=
  match s with
  | EmptyString => EmptyString
  | String c s' =>
      match skip with
      | S k => re_sub pat rep k (is_word c) s'
      | 0 =>
          if xorb word (is_word c) && String.prefix pat s then append rep (re_sub pat rep (String.length pat - 1) (is_word c) s')
          else String c (re_sub pat rep 0 (is_word c) s')
      end
  end.

(** The loop [for i, direction in enumerate(self.dirs)], function.py:120-122. *)
Fixpoint ccode_loop (i : nat) (dirs : list nat) (function : string) : string :=
  match dirs with
  | [] => function
  | direction :: dirs => ccode_loop (S i) dirs (re_sub (append "x" (to_string direction)) (append "v[" (append (to_string i) "]")) 0 false function)
  end.

(** Function.ccode, function.py:118-123; [printed] is [sympy.ccode(self.sym)]. *)
Definition ccode (dirs : list nat) (printed : string) : string := ccode_loop 0 dirs printed.
