(** cache.cache, hermipy/cache.py. *)
From Coq Require Import String List Bool Arith.
From Verif Require Import Base PyBase.
Import ListNotations.
Local Open Scope string_scope. Local Open Scope list_scope. Local Open Scope nat_scope.

Section Cache.
(** The arguments of the cached function ([cache=...] apart) and its results. *)
Variable A V : Type.
(** The cached function; it may raise. *)
Variable f : A -> res V.
(** [savefile] without the suffix, cache.py:127: the function's name and the hash of the arguments. *)
Variable savefile : A -> string.
(** [isinstance(result, sparse.csr_matrix)]. *)
Variable is_sparse : V -> bool.
(** [extended_load] makes a float of a 0-dimensional array, cache.py:99-103; a float that is an integer becomes an int, cache.py:142-144. *)
Variable extended as_int : V -> V.
(** [error_fun(result, result_cache) < 1e-10], cache.py:153-154, gen_error 67-91; its exceptions (types that do not match) are not modelled. *)
Variable close : V -> V -> bool.
(** The [quiet] argument of cache. *)
Variable quiet : bool.

(** A file: its content can be loaded, or loading raises ValueError, or another exception. *)
Inductive file := Good (v : V) | Bad (e : string).
Definition disk := string -> option file.
Definition write (name : string) (c : option file) (d : disk) : disk := fun n => if String.eqb n name then c else d n.

(** [load(savefile)] for an existing file. *)
Definition load (sparse_cache : bool) (c : file) : res V :=
  match c with Good v => Ok (if sparse_cache then v else extended v) | Bad e => Throw e end.

(** The name that np.save and scipy.sparse.save_npz give to the file: they append the suffix unless it is there. *)
Definition ends_with (suffix name : string) : bool :=
  let n := String.length name in let k := String.length suffix in (k <=? n) && String.eqb (String.substring (n - k) k name) suffix.
Definition with_suffix (suffix name : string) : string := if ends_with suffix name then name else (name ++ suffix)%string.
Definition save (name : string) (v : V) (d : disk) : disk :=
  write (with_suffix (if is_sparse v then ".npz" else ".npy") name) (Some (Good v)) d.

(** The rest of the wrapper: the function is called, cache.py:149-164.  [cached] is [result_cache] with [is_sparse_cache] if the cached result
    exists.  The result comes with the files and whether the function was called. *)
Definition compute (settings_cache : bool) (a : A) (name : string) (cached : option (bool * V)) (d : disk) : res V * disk * bool :=
  match f a with
  | Ok result =>
      match cached with
      | Some (sparse_cache, result_cache) =>
          if negb quiet && negb (Bool.eqb sparse_cache (is_sparse result) && close result result_cache) then (Throw "ValueError", d, true)
          else (Ok result, d, true)
      | None => (Ok result, (if settings_cache then save name result d else d), true)
      end
  | e => (e, d, true)
  end.

(** The wrapper, cache.py:107-164; [kw] is the keyword argument [cache]. *)
Definition wrapper (settings_cache : bool) (a : A) (kw : option bool) (d : disk) : res V * disk * bool :=
  let use_cache := match kw with Some b => b | None => settings_cache end in
  let name := savefile a in
  let found :=
    match d (name ++ ".npy")%string with
    | Some c => Some ((name ++ ".npy")%string, false, c)
    | None => match d (name ++ ".npz")%string with Some c => Some ((name ++ ".npz")%string, true, c) | None => None end
    end in
  match found with
  | Some (name, sparse_cache, c) =>
      match load sparse_cache c with
      | Ok result_cache => if use_cache then (Ok (as_int result_cache), d, false) else compute settings_cache a name (Some (sparse_cache, result_cache)) d
      | Throw e => if String.eqb e "ValueError" then compute settings_cache a name None d else (Throw e, d, false)
      | e => (e, d, false)
      end
  | None => compute settings_cache a name None d
  end.

(** What happens to the cache: calls, changes of settings['cache'], files damaged (a process that dies while it saves leaves part of a file behind) or removed. *)
Inductive action := Do (a : A) (kw : option bool) | Set_cache (b : bool) | Damage (name e : string) | Remove (name : string).
Fixpoint history (h : list action) (settings_cache : bool) (d : disk) : list (A * res V) :=
  match h with
  | [] => []
  | Do a kw :: h => let '(out, d, _) := wrapper settings_cache a kw d in (a, out) :: history h settings_cache d
  | Set_cache b :: h => history h b d
  | Damage name e :: h => history h settings_cache (write name (Some (Bad e)) d)
  | Remove name :: h => history h settings_cache (write name None d)
  end.
End Cache.
Arguments Good {V}. Arguments Bad {V}. Arguments Do {A}. Arguments Set_cache {A}. Arguments Damage {A}. Arguments Remove {A}.
