(** cache.gen_hash and the keys of the cache, hermipy/cache.py. *)
From Coq Require Import String List Bool Arith ZArith DecimalString.
Import ListNotations.
Local Open Scope string_scope. Local Open Scope list_scope. Local Open Scope nat_scope.

(** Python values: strings, ints, None, contiguous numpy arrays (the bytes and the shape), lists (also tuples).  The hash of a sparse matrix is
    that of a list, those of sympy expressions and of unknown types are those of strings (cache.py:43-46, 49-50, 62); floats are not modelled. *)
Inductive pyval := VStr (s : string) | VInt (z : Z) | VNone | VArr (bytes : string) (shape : list nat) | VList (l : list pyval).

(** CPython's [hash] of an int (64 bits): the remainder modulo 2^61 - 1, with the sign; -1 is replaced by -2. *)
Definition modulus : Z := (2 ^ 61 - 1)%Z.
Definition int_hash (z : Z) : Z := let h := Z.rem z modulus in if (h =? -1)%Z then (-2)%Z else h.

(** [str] of an int. *)
Definition str_int (z : Z) : string := NilEmpty.string_of_int (Z.to_int z).

(** ['-'.join(l)]. *)
Definition join (l : list string) : string := String.concat "-" l.

Section Key.
(** [hashlib.md5(s).hexdigest()]. *)
Variable md5 : string -> string.

(** the_hash, cache.py:39-62. *)
Fixpoint the_hash (x : pyval) : string :=
  match x with
  | VStr s => md5 s
  | VInt z => md5 (str_int (int_hash z))
  | VNone => md5 ""
  | VArr bytes _ => md5 bytes
  | VList l => md5 ("list" ++ join (map the_hash l))%string
  end.

(** The name of the file without its suffix, cache.py:113-127, for positional and keyword arguments. *)
Definition key_hashes (args : list pyval) (kwargs : list (string * pyval)) : list string :=
  map the_hash args ++ flat_map (fun '(kw, x) => [md5 kw; the_hash x]) kwargs.
Definition key (prefix : string) (args : list pyval) (kwargs : list (string * pyval)) : string :=
  (prefix ++ "-" ++ md5 (join (key_hashes args kwargs)))%string.
End Key.
