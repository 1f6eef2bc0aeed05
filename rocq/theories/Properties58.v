(** C122: the printed vectors, matrices and cubes of unsigned integers can be read back. *)
From Coq Require Import String Ascii List.
From Verif Require Import Base IndexModel VecModel IoSpec IoFacts.
Import ListNotations.
Local Open Scope string_scope.

(** What is printed is the expected text; printing is undefined exactly when a vector, a row or a matrix to print is empty. *)
Theorem C122_text :
  (forall v, print_vec to_string v = if vec_ok v then Ok (vec_text v) else Ub) /\
  (forall m, print_mat to_string m = if mat_ok m then Ok (mat_text m) else Ub) /\
  (forall c, print_cube to_string c = if cube_ok c then Ok (cube_text c) else Ub).
Proof. exact (conj vec_print (conj mat_print cube_print)). Qed.
Print Assumptions C122_text.
Example C122_text_example :
  print_vec to_string [1; 12; 0] = Ok "[1, 12, 0]" /\
  print_mat to_string [[1; 2]; [3]] = Ok ("[[1, 2]" ++ newline ++ " [3]]") /\
  print_cube to_string [[[1]; [2]]; [[3]]] = Ok ("[[[1]" ++ newline ++ " [2]]" ++ newline ++ "  [[3]]]" ++ newline) /\
  print_vec to_string [] = Ub /\ print_mat to_string [[1]; []] = Ub /\ print_cube to_string [[[1]]; []] = Ub.
Proof. repeat split; vm_compute; reflexivity. Qed.

(** The printed text, whatever is written after it, tells what was printed and where the text ends. *)
Theorem C122_readable :
  (forall v w after after' r s, print_vec to_string v = Ok r -> print_vec to_string w = Ok s -> r ++ after = s ++ after' -> v = w /\ after = after') /\
  (forall m n after after' r s, print_mat to_string m = Ok r -> print_mat to_string n = Ok s -> r ++ after = s ++ after' -> m = n /\ after = after') /\
  (forall c d after after' r s, print_cube to_string c = Ok r -> print_cube to_string d = Ok s -> r ++ after = s ++ after' -> c = d /\ after = after').
Proof.
  exact (conj (print_inj _ _ _ vec_print vec_read) (conj (print_inj _ _ _ mat_print mat_read) (print_inj _ _ _ cube_print cube_read))).
Qed.
Print Assumptions C122_readable.
Example C122_readable_example :
  print_mat to_string [[1; 2]] = Ok "[[1, 2]]" /\ print_mat to_string [[12]] = Ok "[[12]]" /\
  print_mat to_string [[1]; [2]] = Ok ("[[1]" ++ newline ++ " [2]]").
Proof. repeat split; vm_compute; reflexivity. Qed.
