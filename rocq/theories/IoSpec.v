(** The texts that vectors, matrices and cubes should be printed as, and which of them can be printed. *)
From Coq Require Import String Ascii List Bool Decimal DecimalString DecimalNat.
Import ListNotations.
Local Open Scope string_scope.

(** The decimal digits of a number. *)
Definition digits (n : nat) : string := NilEmpty.string_of_uint (Nat.to_uint n).
Definition newline : string := String "010" "".

(** [1, 2, 3] *)
Definition vec_text (v : list nat) : string := "[" ++ String.concat ", " (map digits v) ++ "]".
(** The rows below each other, between brackets. *)
Definition mat_text (m : list (list nat)) : string := "[" ++ String.concat (newline ++ " ") (map vec_text m) ++ "]".
(** The matrices below each other, between brackets, and a newline. *)
Definition cube_text (c : list (list (list nat))) : string := "[" ++ String.concat (newline ++ "  ") (map mat_text c) ++ "]" ++ newline.

Definition nonempty {A} (l : list A) : bool := match l with [] => false | _ => true end.
Definition vec_ok (v : list nat) : bool := nonempty v.
Definition mat_ok (m : list (list nat)) : bool := nonempty m && forallb vec_ok m.
Definition cube_ok (c : list (list (list nat))) : bool := nonempty c && forallb mat_ok c.
