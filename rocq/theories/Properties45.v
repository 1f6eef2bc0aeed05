(** C111: the cache when processes are killed and when several run at the same time. *)
From Coq Require Import String List Bool Arith Lia.
From Verif Require Import CacheRaceModel CacheRaceSpec CacheRaceFacts CacheRaceFacts2.
Import ListNotations.
Local Open Scope string_scope. Local Open Scope list_scope. Local Open Scope nat_scope.

(** A small format for the examples: the number of values plus one, then the values; [e] is raised if some are missing. *)
Definition toy_content (v : list nat) : list nat := S (length v) :: v.
Definition toy_load (e : string) (c : list nat) : list nat + string :=
  match c with S n :: d => if length d =? n then inl d else inr e | _ => inr e end.
Lemma toy_short : forall e v n, n < length (toy_content v) -> toy_load e (firstn n (toy_content v)) = inr e.
Proof.
  intros e v [|n] H; [reflexivity|]. unfold toy_content, toy_load in *. cbn [firstn length] in *. rewrite firstn_length. destruct (Nat.eqb_spec (Nat.min n (length v)) (length v)); [lia|reflexivity].
Qed.
Lemma toy_whole : forall e v, toy_load e (toy_content v) = inl v.
Proof. intros. unfold toy_load, toy_content. rewrite Nat.eqb_refl. reflexivity. Qed.
Lemma toy_npy : forall v, format_npy v (toy_content v) (toy_load "ValueError").
Proof. intros v. split; [apply toy_whole|apply toy_short]. Qed.
Lemma toy_npz : forall v, format v (toy_content v) (toy_load "BadZipFile").
Proof. intros v. split; [apply toy_whole|]. intros n Hn. exists "BadZipFile". apply toy_short. exact Hn. Qed.
Definition nobody (d : bool) (f : option (list nat)) : state nat (list nat) := St d f (fun _ => Idle).
Lemma nobody_fresh : forall v d f n, f = None \/ f = Some (firstn n (toy_content v)) -> fresh (toy_content v) (nobody d f).
Proof. intros v d f n [->| ->]; (split; [reflexivity|]); cbn; [discriminate|]. intros c Hc. exists n. congruence. Qed.
Definition trun (e : string) (v : list nat) := run nat (list nat) 0 v (toy_content v) (toy_load e).
Ltac each_state := apply (check_ok _ _ 3); [reflexivity|vm_compute; reflexivity].

(** While at most one process writes at a time, and whoever is killed when: every call that ends returns the result of the function, or the directory of the
    cache did not exist before and it raises FileExistsError, or it raises the exception, not a ValueError, that reading an incomplete file raises;
    the file is always the beginning of the right one. *)
Theorem C111_one_writer : forall (B V : Type) (zero : B) (v : V) (content : list B) (load : list B -> V + string), format v content load ->
  forall s h, fresh content s -> throughout zero v content load one_writer s h ->
  let s' := run B V zero v content load s h in
  (forall c, file s' = Some c -> exists n, c = firstn n content) /\
  forall p o, at_ s' p = Ended o ->
    o = Return v \/ (o = Raise "FileExistsError" /\ dir s = false) \/
    exists n e, n < length content /\ load (firstn n content) = inr e /\ e <> "ValueError" /\ o = Raise e.
Proof. exact outcomes. Qed.
Print Assumptions C111_one_writer.
(** A process is killed when it has written two bytes; another one reads these and raises the exception. *)
Definition killed : list event := [Begin 0; Step 0 0; Step 0 0; Step 0 0; Step 0 0; Step 0 0; Begin 1; Crash 0; Step 1 0; Step 1 0; Step 1 0; Step 1 5; Step 1 0].
Example C111_one_writer_example : format [7; 8] (toy_content [7; 8]) (toy_load "BadZipFile") /\ fresh (toy_content [7; 8]) (nobody true None) /\
  throughout 0 [7; 8] (toy_content [7; 8]) (toy_load "BadZipFile") one_writer (nobody true None) killed /\
  let s' := trun "BadZipFile" [7; 8] (nobody true None) killed in file s' = Some [3; 7] /\ at_ s' 1 = Ended (Raise "BadZipFile").
Proof. split; [apply toy_npz|]. split; [apply (nobody_fresh _ _ _ 0); auto|]. split; [unfold killed; each_state|]. split; reflexivity. Qed.

(** Dense results, where every incomplete file raises ValueError: every call returns the result of the function, if the directory exists. *)
Theorem C111_dense : forall (B V : Type) (zero : B) (v : V) (content : list B) (load : list B -> V + string), format_npy v content load ->
  forall s h, fresh content s -> dir s = true -> throughout zero v content load one_writer s h ->
  forall p o, at_ (run B V zero v content load s h) p = Ended o -> o = Return v.
Proof. exact npy_outcomes. Qed.
Print Assumptions C111_dense.
Definition killed_then : list event := killed ++ [Step 1 0; Step 1 1; Step 1 1].
Example C111_dense_example : format_npy [7; 8] (toy_content [7; 8]) (toy_load "ValueError") /\ fresh (toy_content [7; 8]) (nobody true None) /\
  throughout 0 [7; 8] (toy_content [7; 8]) (toy_load "ValueError") one_writer (nobody true None) killed_then /\
  at_ (trun "ValueError" [7; 8] (nobody true None) killed_then) 1 = Ended (Return [7; 8]).
Proof. split; [apply toy_npy|]. split; [apply (nobody_fresh _ _ _ 0); auto|]. split; [unfold killed_then, killed; cbn [app]; each_state|]. reflexivity. Qed.

(** Dense results: after any such history, however many processes were killed, a call on its own ends after a bounded number of system calls,
    returns the result and leaves the right file. *)
Theorem C111_repaired : forall (B V : Type) (zero : B) (v : V) (content : list B) (load : list B -> V + string), format_npy v content load ->
  forall s h, fresh content s -> throughout zero v content load one_writer s h -> quiet (run B V zero v content load s h) ->
  forall p sizes, 2 * length content + 6 <= length sizes ->
  let s' := run B V zero v content load (run B V zero v content load s h) (Begin p :: map (Step p) sizes) in
  at_ s' p = Ended (Return v) /\ file s' = Some content.
Proof. exact repaired. Qed.
Print Assumptions C111_repaired.
Example C111_repaired_example : let h := [Begin 0; Step 0 0; Step 0 0; Step 0 0; Step 0 0; Step 0 0; Crash 0] in
  throughout 0 [7; 8] (toy_content [7; 8]) (toy_load "ValueError") one_writer (nobody true None) h /\
  quiet (trun "ValueError" [7; 8] (nobody true None) h) /\ file (trun "ValueError" [7; 8] (nobody true None) h) = Some [3; 7] /\
  let s' := trun "ValueError" [7; 8] (trun "ValueError" [7; 8] (nobody true None) h) (Begin 1 :: map (Step 1) (repeat 0 12)) in
  at_ s' 1 = Ended (Return [7; 8]) /\ file s' = Some [3; 7; 8].
Proof. cbn zeta. split; [each_state|]. split; [intros [|p]; reflexivity|]. split; [reflexivity|]. split; vm_compute; reflexivity. Qed.

(** Nobody is killed: whatever the number of processes and however they write over each other, once nobody writes the file is absent or right. *)
Theorem C111_settles : forall (B V : Type) (zero : B) (v : V) (content : list B) (load : list B -> V + string),
  forall s h, (forall p, at_ s p = Idle) -> (file s = None \/ file s = Some content) -> no_crash h ->
  let s' := run B V zero v content load s h in
  (forall p k, at_ s' p <> Writing k) -> file s' = None \/ file s' = Some content.
Proof. exact settles. Qed.
Print Assumptions C111_settles.
(** Two writers; the second one opens the file when the first one has written two bytes, and a third process reads before the second one has ended. *)
Definition two_writers : list event :=
  [Begin 1; Begin 2; Step 1 0; Step 1 0; Step 2 0; Step 2 0; Step 1 0; Step 1 1; Step 2 0; Step 1 0; Step 2 0; Begin 3; Step 3 0; Step 3 0; Step 3 5; Step 3 0].
Example C111_settles_example : let h := two_writers ++ [Step 2 5] in no_crash h /\
  let s' := trun "ValueError" [7; 8] (nobody true None) h in (forall p k, at_ s' p <> Writing k) /\ file s' = Some [3; 7; 8] /\
  file (trun "ValueError" [7; 8] (nobody true None) two_writers) = Some [3; 0; 8].
Proof.
  cbn zeta. split; [intros p H; repeat (destruct H as [H|H]; [discriminate|]); destruct H|]. split; [|split; reflexivity].
  intros p k K. assert (Hp : p < 4). { destruct (Nat.lt_ge_cases p 4) as [Hp|Hp]; [exact Hp|]. unfold trun in K. rewrite (run_other _ _ _ _ _ _ 4) in K; [discriminate K|reflexivity|exact Hp]. }
  destruct p as [|[|[|[|p]]]]; [| | | |lia]; vm_compute in K; discriminate K.
Qed.

(** Whatever happens, every byte of the file is the right one or a zero, and what a call returns is the result, or what such bytes are read as. *)
Theorem C111_corruption : forall (B V : Type) (zero : B) (v : V) (content : list B) (load : list B -> V + string),
  forall s h, fresh content s ->
  let s' := run B V zero v content load s h in
  (forall c, file s' = Some c -> right_or_zero zero content c) /\
  forall p w, at_ s' p = Ended (Return w) -> w = v \/ exists c, right_or_zero zero content c /\ load c = inl w.
Proof. exact corruption. Qed.
Print Assumptions C111_corruption.
Example C111_corruption_example : fresh (toy_content [7; 8]) (nobody true None) /\
  let s' := trun "ValueError" [7; 8] (nobody true None) two_writers in file s' = Some [3; 0; 8] /\ at_ s' 3 = Ended (Return [0; 8]).
Proof. split; [apply (nobody_fresh _ _ _ 0); auto|]. split; reflexivity. Qed.

(** Two writers at the same time: a call may return a wrong result, without an exception, although nobody is killed. *)
Theorem C111_race_refuted :
  ~ forall (B V : Type) (zero : B) (v : V) (content : list B) (load : list B -> V + string), format_npy v content load ->
    forall s h, fresh content s -> dir s = true -> no_crash h ->
    forall p w, at_ (run B V zero v content load s h) p = Ended (Return w) -> w = v.
Proof.
  intros H. enough ([0; 8] = [7; 8]) by discriminate. apply (H nat (list nat) 0 [7; 8] (toy_content [7; 8]) (toy_load "ValueError") (toy_npy _) (nobody true None) two_writers) with (p := 3); [|reflexivity| |reflexivity].
  - apply (nobody_fresh _ _ _ 0); auto.
  - intros p K. repeat (destruct K as [K|K]; [discriminate|]); destruct K.
Qed.
Print Assumptions C111_race_refuted.

(** The first two calls at the same time, before the directory exists: one of them raises FileExistsError. *)
Theorem C111_directory_refuted :
  ~ forall (B V : Type) (zero : B) (v : V) (content : list B) (load : list B -> V + string), format_npy v content load ->
    forall s h, fresh content s -> no_crash h -> throughout zero v content load one_writer s h ->
    forall p o, at_ (run B V zero v content load s h) p = Ended o -> o = Return v.
Proof.
  intros H. enough (@Raise (list nat) "FileExistsError" = Return [7; 8]) by discriminate.
  apply (H nat (list nat) 0 [7; 8] (toy_content [7; 8]) (toy_load "ValueError") (toy_npy _) (nobody false None) [Begin 0; Begin 1; Step 0 0; Step 1 0; Step 0 0; Step 1 0]) with (p := 1); [| | |reflexivity].
  - apply (nobody_fresh _ _ _ 0); auto.
  - intros p K. repeat (destruct K as [K|K]; [discriminate|]); destruct K.
  - each_state.
Qed.
Print Assumptions C111_directory_refuted.

(** If some incomplete file raises another exception than ValueError, a process killed at that point leaves a file that nobody ever repairs: all later calls raise it. *)
Theorem C111_stuck : forall (B V : Type) (zero : B) (v : V) (content : list B) (load : list B -> V + string) (n : nat) (e : string),
  n < length content -> load (firstn n content) = inr e -> e <> "ValueError" ->
  forall s, (forall p, at_ s p = Idle) -> dir s = true -> file s = None ->
  exists h1, quiet (run B V zero v content load s h1) /\
  forall h2, file (run B V zero v content load s (h1 ++ h2)) = Some (firstn n content) /\
    forall p o, at_ (run B V zero v content load s (h1 ++ h2)) p = Ended o -> o = Raise e.
Proof. exact stuck. Qed.
Print Assumptions C111_stuck.
Example C111_stuck_example : 2 < length (toy_content [7; 8]) /\ toy_load "BadZipFile" (firstn 2 (toy_content [7; 8])) = inr "BadZipFile" /\
  at_ (trun "BadZipFile" [7; 8] (nobody true None) (killed ++ [Begin 4; Step 4 0; Step 4 0; Step 4 5; Step 4 0])) 4 = Ended (Raise "BadZipFile").
Proof. split; [cbn; lia|]. split; vm_compute; reflexivity. Qed.
