(** Vocabulary for C105. *)
From Coq Require Import String List Arith.
From Verif Require Import Base IndexModel Num LinModel LinSpec SeriesModel SeriesSpec.
Import ListNotations.
Local Open Scope string_scope. Local Open Scope list_scope. Local Open Scope nat_scope.

(** The number of basis functions of degree at most [n]. *)
Definition count_upto (s : iset) (dim n : nat) : nat := length (points s dim n).

(** Entry (i, j) of a matrix given as a list of rows is [a]. *)
Definition dense_entry {A : Type} (M : list (list A)) (i j : nat) (a : A) : Prop := exists row, nth_error M i = Some row /\ nth_error row j = Some a.

(** The text "index: coefficient", ended by a line feed (character 10). *)
Definition text_line (index coefficient : string) : string := index ++ ": " ++ coefficient ++ String (Ascii.ascii_of_nat 10) EmptyString.
