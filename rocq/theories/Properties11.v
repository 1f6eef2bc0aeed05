(** Properties C55 and C56: the cache of results and its keys. *)
From Coq Require Import String List Bool Arith ZArith Lia.
From Verif Require Import Base CacheModel CacheSpec CacheFacts KeyModel KeySpec KeyFacts.
Import ListNotations.
Local Open Scope string_scope. Local Open Scope list_scope. Local Open Scope nat_scope.

(** C55: for every history of calls, changes of settings['cache'] and files damaged or removed, every call returns what the function returns (a stored number comes back with another
    type: [as_int (extended v)]), or raises what it raises.  Here the file names have no collision between arguments for which the function differs, the function's result is close to what the
    cache restores from it, and damaged files raise ValueError when they are loaded. *)
Theorem C55_transparent : forall (A V : Type) (f : A -> res V) savefile (is_sparse : V -> bool) (extended as_int : V -> V) (close : V -> V -> bool) quiet,
  (forall a, ends_with ".npy" (savefile a) = false /\ ends_with ".npz" (savefile a) = false) -> (forall a b, savefile a = savefile b -> f a = f b) ->
  (forall v, close v (if is_sparse v then v else extended v) = true) -> (forall v, is_sparse v = true -> as_int v = as_int (extended v)) ->
  forall h s d, consistent f savefile is_sparse d -> value_errors d -> only_value_errors h ->
  forall a out, In (a, out) (history A V f savefile is_sparse extended as_int close quiet h s d) -> faithful (fun v => as_int (extended v)) (f a) out.
Proof. exact history_ok. Qed.
Print Assumptions C55_transparent.

(** A call whose result is not stored yet stores it, in one file, and later calls that use the cache do not call the function. *)
Theorem C55_once : forall (A V : Type) (f : A -> res V) savefile (is_sparse : V -> bool) (extended as_int : V -> V) (close : V -> V -> bool) quiet,
  (forall a, ends_with ".npy" (savefile a) = false /\ ends_with ".npz" (savefile a) = false) ->
  forall a v d kw, f a = Ok v -> d (savefile a ++ ".npy")%string = None -> d (savefile a ++ ".npz")%string = None ->
  exists d', wrapper A V f savefile is_sparse extended as_int close quiet true a kw d = (Ok v, d', true) /\
    (forall n, d' n <> d n -> n = (savefile a ++ (if is_sparse v then ".npz" else ".npy"))%string) /\
    forall s kw', (match kw' with Some b => b | None => s end) = true ->
      wrapper A V f savefile is_sparse extended as_int close quiet s a kw' d' = (Ok (as_int (if is_sparse v then v else extended v)), d', false).
Proof. exact stored_once. Qed.
Print Assumptions C55_once.

(** With settings['cache'] off, no call writes, whatever its argument [cache]. *)
Theorem C55_no_write : forall (A V : Type) (f : A -> res V) savefile (is_sparse : V -> bool) (extended as_int : V -> V) (close : V -> V -> bool) quiet a d kw,
  snd (fst (wrapper A V f savefile is_sparse extended as_int close quiet false a kw d)) = d.
Proof. exact nothing_written. Qed.
Print Assumptions C55_no_write.

(** A damaged file whose loading raises something else than ValueError (EOFError for an empty file, BadZipFile for part of a .npz) makes every call raise it, with or without the cache; the
    function is not called and the file stays. *)
Theorem C55_unreadable : forall (A V : Type) (f : A -> res V) savefile (is_sparse : V -> bool) (extended as_int : V -> V) (close : V -> V -> bool) quiet s a d kw e,
  d (savefile a ++ ".npy")%string = Some (Bad e) -> e <> "ValueError" -> wrapper A V f savefile is_sparse extended as_int close quiet s a kw d = (Throw e, d, false).
Proof. exact unreadable. Qed.
Print Assumptions C55_unreadable.

(** A damaged .npy file and a sparse result: the result is right but it is computed every time, the damaged file stays. *)
Theorem C55_sparse_lost : forall (A V : Type) (f : A -> res V) savefile (is_sparse : V -> bool) (extended as_int : V -> V) (close : V -> V -> bool) quiet s a v d kw,
  f a = Ok v -> is_sparse v = true -> d (savefile a ++ ".npy")%string = Some (Bad "ValueError") ->
  let '(out, d', called) := wrapper A V f savefile is_sparse extended as_int close quiet s a kw d in out = Ok v /\ called = true /\ d' (savefile a ++ ".npy")%string = Some (Bad "ValueError").
Proof. exact sparse_lost. Qed.
Print Assumptions C55_sparse_lost.

(** A function of a bool; a number comes with a flag: whether it is a float. *)
Definition exf (a : bool) : res (bool * Z) := if a then Ok (false, 7%Z) else Throw "KeyError".
Definition ex_savefile (a : bool) : string := if a then "exf-1" else "exf-0".
Definition ex_sparse (v : bool * Z) : bool := (snd v <? 0)%Z.
Definition ex_extended (v : bool * Z) : bool * Z := (true, snd v).
Definition ex_int (v : bool * Z) : bool * Z := (false, snd v).
Definition ex_close (v w : bool * Z) : bool := (snd v =? snd w)%Z.
Notation ex_history := (history bool (bool * Z) exf ex_savefile ex_sparse ex_extended ex_int ex_close false).
Example C55_example :
  (forall a, ends_with ".npy" (ex_savefile a) = false /\ ends_with ".npz" (ex_savefile a) = false) /\ (forall a b, ex_savefile a = ex_savefile b -> exf a = exf b) /\
  (forall v, ex_close v (if ex_sparse v then v else ex_extended v) = true) /\ (forall v, ex_sparse v = true -> ex_int v = ex_int (ex_extended v)) /\
  consistent exf ex_savefile ex_sparse (fun _ => None) /\ value_errors (V := bool * Z) (fun _ => None) /\
  only_value_errors [Do true None; Do true (Some false); Damage "exf-1.npy" "ValueError"; Do true None; Set_cache false; Do false None] /\
  ex_history [Do true None; Do true (Some false); Damage "exf-1.npy" "ValueError"; Do true None; Set_cache false; Do false None] true (fun _ => None) =
    [(true, Ok (false, 7%Z)); (true, Ok (false, 7%Z)); (true, Ok (false, 7%Z)); (false, Throw "KeyError")].
Proof.
  split; [intros [|]; split; reflexivity|]. split; [intros [|] [|] E; try reflexivity; discriminate E|]. split; [intros [b z]; unfold ex_close; destruct (ex_sparse (b, z)); apply Z.eqb_refl|].
  split; [reflexivity|]. split; [intros a v; split; intros E; discriminate E|]. split; [intros n e E; discriminate E|]. split; [|reflexivity].
  intros n e H. cbn in H. repeat destruct H as [H|H]; try discriminate H; [injection H as <- <-; reflexivity|destruct H].
Qed.

(** With files damaged otherwise, the property does not hold. *)
Theorem C55_refuted : ~ forall (A V : Type) (f : A -> res V) savefile (is_sparse : V -> bool) (extended as_int : V -> V) (close : V -> V -> bool) quiet,
  (forall a, ends_with ".npy" (savefile a) = false /\ ends_with ".npz" (savefile a) = false) -> (forall a b, savefile a = savefile b -> f a = f b) ->
  (forall v, close v (if is_sparse v then v else extended v) = true) -> (forall v, is_sparse v = true -> as_int v = as_int (extended v)) ->
  forall h s, forall a out, In (a, out) (history A V f savefile is_sparse extended as_int close quiet h s (fun _ => None)) -> faithful (fun v => as_int (extended v)) (f a) out.
Proof.
  intros H. destruct C55_example as (H1 & H2 & H3 & H4 & _).
  destruct (H _ _ exf ex_savefile ex_sparse ex_extended ex_int ex_close false H1 H2 H3 H4 [Damage "exf-1.npy" "EOFError"; Do true None] true true (Throw "EOFError") (or_introl eq_refl)) as [E|(v & _ & E)]; discriminate E.
Qed.
Print Assumptions C55_refuted.

(** C56: calls with different arguments have different keys, if they pass the same number of keyword arguments, if the values are alike (same types; ints other than -1 and of moderate size;
    arrays of the same shape), and if MD5 has no collision among the strings hashed for the two calls. *)
Theorem C56_injective : forall md5, (forall s, String.length (md5 s) = 32) ->
  forall prefix args kwargs args' kwargs', collision_free md5 (key_hashed md5 args kwargs ++ key_hashed md5 args' kwargs') ->
  length kwargs = length kwargs' -> all_alike args args' -> all_alike (map snd kwargs) (map snd kwargs') ->
  key md5 prefix args kwargs = key md5 prefix args' kwargs' -> args = args' /\ kwargs = kwargs'.
Proof. exact key_inj. Qed.
Print Assumptions C56_injective.

(** Without these conditions, different arguments share a key whatever MD5 is: -1 and -2; 0 and 2^61 - 1; arrays of different shapes with the same bytes; None and the empty string; a number and
    its digits; a positional and a keyword argument. *)
Theorem C56_refuted : forall md5 prefix,
  key md5 prefix [VInt (-1)] [] = key md5 prefix [VInt (-2)] [] /\
  key md5 prefix [VInt 0] [] = key md5 prefix [VInt (2 ^ 61 - 1)] [] /\
  (forall bytes shape shape', key md5 prefix [VArr bytes shape] [] = key md5 prefix [VArr bytes shape'] []) /\
  key md5 prefix [VNone] [] = key md5 prefix [VStr ""] [] /\
  key md5 prefix [VInt 5] [] = key md5 prefix [VStr "5"] [] /\
  (forall kw x, key md5 prefix [VStr kw; x] [] = key md5 prefix [] [(kw, x)]).
Proof. exact collisions. Qed.
Print Assumptions C56_refuted.

(** A stand-in for MD5 with 32 characters. *)
Fixpoint weigh (s : string) (h : Z) : Z := match s with EmptyString => h | String c s => weigh s ((h * 257 + Z.of_nat (Ascii.nat_of_ascii c) + 1) mod 1000000007)%Z end.
Definition ex_md5 (s : string) : string := let t := str_int (weigh s 0) in String.substring 0 32 (t ++ "--------------------------------").
Definition ex_args := [VArr "abcdefgh" [2; 2]; VInt 3; VList [VInt (-2); VStr "triangle"]].
Definition ex_args' := [VArr "abcdefgh" [2; 2]; VInt 3; VList [VInt (-3); VStr "triangle"]].
Example C56_example : (forall s, String.length (ex_md5 s) = 32) /\
  collision_free ex_md5 (key_hashed ex_md5 ex_args [("sparse", VInt 1)] ++ key_hashed ex_md5 ex_args' [("sparse", VInt 1)]) /\
  all_alike ex_args ex_args' /\ all_alike [VInt 1] [VInt 1] /\ String.eqb (key ex_md5 "varf" ex_args [("sparse", VInt 1)]) (key ex_md5 "varf" ex_args' [("sparse", VInt 1)]) = false.
Proof.
  split.
  { intros s. unfold ex_md5. apply padded_length. }
  split.
  { intros s t Hs Ht E. apply (same_hash ex_md5 (key_hashed ex_md5 ex_args [("sparse", VInt 1)] ++ key_hashed ex_md5 ex_args' [("sparse", VInt 1)])); try assumption. vm_compute. reflexivity. }
  split; [cbn; unfold modulus; repeat split; lia|]. split; [cbn; unfold modulus; repeat split; lia|]. vm_compute. reflexivity.
Qed.
