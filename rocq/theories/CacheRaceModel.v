(** cache.cache, hermipy/cache.py, used by several processes at a time that share the directory of the cache: the system calls of the wrapper, one at a time.
    Simplifications: all calls have the same function and the same arguments (other arguments have other files, C56), settings['cache'] is true and the keyword
    argument [cache] is absent, so that what is read is returned; the result is dense or sparse and only the file with its suffix is looked at; a file is read from
    its beginning to its end (zipfile seeks); how many bytes one system call moves is up to the system; the computation of the hashes, cache.py:111-121, touches no file. *)
From Coq Require Import String List Bool Arith.
Import ListNotations.
Local Open Scope string_scope. Local Open Scope list_scope. Local Open Scope nat_scope.

(** What a call returned or raised. *)
Inductive outcome (V : Type) := Return (v : V) | Raise (e : string).
Arguments Return {V}. Arguments Raise {V}.
(** Where a process is in the wrapper. *)
Inductive phase (B V : Type) :=
| Idle                       (** no call yet *)
| TestDir | MakeDir          (** at os.path.exists(cachedir), at os.makedirs(cachedir), cache.py:123-125 *)
| TestFile                   (** at os.path.isfile(savefile + suffix), cache.py:129-135 *)
| Reading (buf : list B)     (** in load(savefile), with what has been read, cache.py:137-147 *)
| Computing                  (** result = function( *args, **kwargs), cache.py:149, and up to the opening of the file in save *)
| Writing (k : nat)          (** in save(savefile, result), with the number of bytes written, cache.py:162-164 *)
| Ended (o : outcome V)
| Dead.                      (** the process was killed *)
Arguments Idle {B V}. Arguments TestDir {B V}. Arguments MakeDir {B V}. Arguments TestFile {B V}. Arguments Reading {B V}. Arguments Computing {B V}. Arguments Writing {B V}. Arguments Ended {B V}. Arguments Dead {B V}.

Section Race.
(** Bytes, with the byte that fills holes; the results; the result of the function. *)
Variable B V : Type.
Variable zero : B.
Variable v : V.
(** The content of the file that np.save or save_npz writes for [v]. *)
Variable content : list B.
(** What np.load (with extended_load and the conversion of cache.py:142-144) or load_npz makes of the content of a file: a result, or the name of an exception. *)
Variable load : list B -> V + string.

(** The directory of the cache exists; the content of the file, if it exists; the processes. *)
Record state := St { dir : bool; file : option (list B); at_ : nat -> phase B V }.

Definition move (p : nat) (x : phase B V) (s : state) : state := St (dir s) (file s) (fun q => if q =? p then x else at_ s q).
Definition store (c : list B) (s : state) : state := St (dir s) (Some c) (at_ s).
(** write(fd, bytes) at offset [k]: a gap between the end of the file and the offset is filled with zeros. *)
Definition write_at (c : list B) (k : nat) (bytes : list B) : list B :=
  firstn k (c ++ repeat zero (k - length c)) ++ bytes ++ skipn (k + length bytes) c.

(** The rest of the wrapper after [load], cache.py:139-147: only ValueError is caught. *)
Definition loaded (buf : list B) : phase B V :=
  match load buf with
  | inl w => Ended (Return w)
  | inr e => if String.eqb e "ValueError" then Computing else Ended (Raise e)
  end.

(** The next system call of process [p]; [S n] is the number of bytes that a read or a write moves (fewer at the end). *)
Definition step (p n : nat) (s : state) : state :=
  match at_ s p with
  | TestDir => move p (if dir s then TestFile else MakeDir) s
  | MakeDir => if dir s then move p (Ended (Raise "FileExistsError")) s else move p TestFile (St true (file s) (at_ s))
  | TestFile => move p (match file s with Some _ => Reading [] | None => Computing end) s
  | Reading buf =>
      match file s with
      | Some c => match firstn (S n) (skipn (length buf) c) with
                  | [] => move p (loaded buf) s
                  | bytes => move p (Reading (buf ++ bytes)) s
                  end
      | None => move p (Ended (Raise "FileNotFoundError")) s
      end
  | Computing => move p (Writing 0) (store [] s)
  | Writing k =>
      let bytes := firstn (S n) (skipn k content) in
      let c := match file s with Some c => c | None => [] end in
      move p (if length content <=? k + S n then Ended (Return v) else Writing (k + S n)) (store (write_at c k bytes) s)
  | _ => s
  end.

(** What happens: a process that is not in a call (a new process, or one whose call has ended) calls the function; a process goes on; a process is killed. *)
Inductive event := Begin (p : nat) | Step (p n : nat) | Crash (p : nat).
Definition running (x : phase B V) : bool := match x with Idle | Ended _ | Dead => false | _ => true end.
Definition happen (s : state) (e : event) : state :=
  match e with
  | Begin p => if running (at_ s p) then s else move p TestDir s
  | Step p n => step p n s
  | Crash p => move p Dead s
  end.
Definition run (s : state) (h : list event) : state := fold_left happen h s.
End Race.
Arguments St {B V}. Arguments dir {B V}. Arguments file {B V}. Arguments at_ {B V}.
