(** Arguments among which the cache distinguishes. *)
From Coq Require Import String List Bool Arith ZArith.
From Verif Require Import KeyModel.
Import ListNotations.
Local Open Scope Z_scope.

(** [alike x y]: values of the same type; ints of moderate size other than -1; arrays of the same shape; lists of values that are
    pairwise alike, as long as both lists go. *)
Fixpoint alike (x y : pyval) : Prop :=
  match x, y with
  | VStr _, VStr _ => True
  | VInt a, VInt b => - modulus < a < modulus /\ - modulus < b < modulus /\ a <> -1 /\ b <> -1
  | VNone, VNone => True
  | VArr _ s, VArr _ t => s = t
  | VList l, VList m =>
      (fix go (l m : list pyval) : Prop := match l, m with x :: l, y :: m => alike x y /\ go l m | _, _ => True end) l m
  | _, _ => False
  end.
Fixpoint all_alike (l m : list pyval) : Prop := match l, m with x :: l, y :: m => alike x y /\ all_alike l m | _, _ => True end.

(** The strings that are hashed on the way to the hash of a value, and to the key of a call. *)
Section Hashed.
Variable md5 : string -> string.
Fixpoint hashed (x : pyval) : list string :=
  match x with
  | VStr s => [s]
  | VInt z => [str_int (int_hash z)]
  | VNone => [""%string]
  | VArr bytes _ => [bytes]
  | VList l => ("list" ++ join (map (the_hash md5) l))%string :: flat_map hashed l
  end.
Definition key_hashed (args : list pyval) (kwargs : list (string * pyval)) : list string :=
  join (key_hashes md5 args kwargs) :: flat_map hashed args ++ flat_map (fun '(kw, x) => kw :: hashed x) kwargs.

(** MD5 has no collision among these strings. *)
Definition collision_free (l : list string) : Prop := forall s t, In s l -> In t l -> md5 s = md5 t -> s = t.
End Hashed.
