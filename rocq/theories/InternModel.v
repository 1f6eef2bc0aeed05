(** intern_function and discretize_from_string, cpp/src/hermite/discretize.cpp:88-127: functions are compiled to files in /tmp, which any
    number of processes share.  A call is a sequence of atomic steps on the files, so that steps of several processes can be interleaved
    and a process can crash between any two steps. *)
From Coq Require Import String List Bool Arith.
From Verif Require Import Base Num Fnum CalcModel.
Import ListNotations.
Local Open Scope string_scope. Local Open Scope list_scope. Local Open Scope nat_scope.

(** The file written by intern_function, discretize.cpp:98-102. *)
Definition newline : string := String (Ascii.ascii_of_nat 10) EmptyString.
Definition quote : string := String (Ascii.ascii_of_nat 34) EmptyString.
Definition source (body : string) : string :=
  ("#define M_PI 3.14159265358979323846" ++ newline ++ "#include <vector>" ++ newline ++ "#include <cmath>" ++ newline ++
   "extern " ++ quote ++ "C" ++ quote ++ " double toIntegrate(double *v) {" ++ newline ++ "    return " ++ body ++ ";" ++ newline ++ "}")%string.

Section Intern.
Variable F : fnum.
(** See CalcModel.v. *)
Variable junk : F.
(** [to_string(hash<string>()(function_body))], discretize.cpp:90 and 119. *)
Variable name : string -> string.
(** The function toIntegrate that the C++ compiler makes of a text; [None] if it reports an error. *)
Variable compiler : string -> option (list F -> F).

(** A shared object: complete, or a file the linker has not finished. *)
Inductive object := Complete (func : list F -> F) | Partial.
(** The files /tmp/name.cpp and /tmp/name.so. *)
Record tmp := Tmp { cpp : string -> option string; so : string -> option object }.
Definition set_file {A} (files : string -> option A) (n : string) (x : A) : string -> option A := fun m => if String.eqb m n then Some x else files m.
Definition set_cpp (t : tmp) (n : string) (x : string) : tmp := Tmp (set_file (cpp t) n x) (so t).
Definition set_so (t : tmp) (n : string) (x : object) : tmp := Tmp (cpp t) (set_file (so t) n x).

(** Where a call of discretize_from_string is: the test whether the object exists (93-95); the opening of the source file, which empties
    it (97); the writing, which reaches the file in pieces (98-103); the start of the compiler (107), which reads the source; the end of
    the linker; the loading (121-124); finished. *)
Inductive stage := Test | Open | Write | Compile | Link (func : list F -> F) | Load | Returned (result : res (list F)).
Record call := Call { c_body : string; c_nodes : list (list F); c_translation : list F; c_dilation : list (list F); c_stage : stage }.
Definition at_stage (c : call) (s : stage) : call := Call (c_body c) (c_nodes c) (c_translation c) (c_dilation c) s.

(** One step of a call.  [k]: when writing, the number of characters of the text that are in the file after the step; writing is
    finished when that is the whole text.  A text that does not compile leaves no object, and the call goes on (108-109).  Loading an
    object that does not exist gives the null handle, and the null function is called; loading an unfinished one is undefined too. *)
Definition step (k : nat) (c : call) (t : tmp) : call * tmp :=
  let n := name (c_body c) in
  match c_stage c with
  | Test => match so t n with Some _ => (at_stage c Load, t) | None => (at_stage c Open, t) end
  | Open => (at_stage c Write, set_cpp t n "")
  | Write => let text := source (c_body c) in
             (at_stage c (if String.length text <=? k then Compile else Write), set_cpp t n (String.substring 0 k text))
  | Compile => match cpp t n with
               | Some text => match compiler text with Some func => (at_stage c (Link func), set_so t n Partial) | None => (at_stage c Load, t) end
               | None => (at_stage c Load, t)
               end
  | Link func => (at_stage c Load, set_so t n (Complete func))
  | Load => (at_stage c (Returned match so t n with
                                  | Some (Complete func) => discretize F junk func (c_nodes c) (c_translation c) (c_dilation c)
                                  | _ => Ub
                                  end), t)
  | Returned _ => (c, t)
  end.

(** The files and the current or last call of each process. *)
Record system := Sys { files : tmp; calls : nat -> option call }.
Definition set_call (s : nat -> option call) (pid : nat) (c : option call) : nat -> option call := fun p => if p =? pid then c else s p.
Definition live (c : call) : bool := match c_stage c with Returned _ => false | _ => true end.

(** A process starts a call (if it is not in one), makes a step, or dies. *)
Inductive event := Start (pid : nat) (body : string) (nodes : list (list F)) (translation : list F) (dilation : list (list F)) | Step (pid : nat) (k : nat) | Crash (pid : nat).
Definition exec (s : system) (e : event) : system :=
  match e with
  | Start pid body nodes translation dilation =>
      if match calls s pid with Some c => live c | None => false end then s
      else Sys (files s) (set_call (calls s) pid (Some (Call body nodes translation dilation Test)))
  | Step pid k => match calls s pid with
                  | Some c => let '(c, t) := step k c (files s) in Sys t (set_call (calls s) pid (Some c))
                  | None => s
                  end
  | Crash pid => Sys (files s) (set_call (calls s) pid None)
  end.
Definition run (s : system) (history : list event) : system := fold_left exec history s.
End Intern.
Arguments Complete {F}. Arguments Partial {F}. Arguments Tmp {F}. Arguments cpp {F}. Arguments so {F}. Arguments set_cpp {F}. Arguments set_so {F}.
Arguments Test {F}. Arguments Open {F}. Arguments Write {F}. Arguments Compile {F}. Arguments Link {F}. Arguments Load {F}. Arguments Returned {F}.
Arguments Call {F}. Arguments c_body {F}. Arguments c_nodes {F}. Arguments c_translation {F}. Arguments c_dilation {F}. Arguments c_stage {F}. Arguments at_stage {F}.
Arguments Sys {F}. Arguments files {F}. Arguments calls {F}. Arguments set_call {F}. Arguments live {F}. Arguments Start {F}. Arguments Step {F}. Arguments Crash {F}.
