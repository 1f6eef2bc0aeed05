(** Property C44: the compiled functions in /tmp. *)
From Coq Require Import String List Bool Arith ZArith Lia.
From Verif Require Import Base Num Fnum CalcModel InternModel InternSpec InternFacts.
Import ListNotations.
Local Open Scope string_scope. Local Open Scope list_scope. Local Open Scope nat_scope.

(** C44: if the hashes of the bodies in use do not collide, no process dies while the linker writes an object, and no two processes
    make or use the same object while it is being made, then in every history of any number of processes, with crashes at any
    other point, every call whose body compiles returns the values of its own body. *)
Theorem C44_right : forall (F : fnum) junk name compiler (bodies : string -> Prop), (forall b b', bodies b -> bodies b' -> name b = name b' -> b = b') ->
  forall s history, tidy name compiler bodies (files s) -> (forall pid, calls s pid = None) -> uses bodies history -> always F junk name compiler (exclusive name) s history -> no_crash_in_link F junk name compiler s history ->
  forall pid c r, calls (run F junk name compiler s history) pid = Some c -> c_stage c = Returned r -> compiler (source (c_body c)) <> None -> right F junk compiler c r.
Proof. exact intern_right. Qed.
Print Assumptions C44_right.
(** In particular if there is at most one call at a time. *)
Theorem C44_sequential : forall (F : fnum) junk name compiler (bodies : string -> Prop), (forall b b', bodies b -> bodies b' -> name b = name b' -> b = b') ->
  forall s history, tidy name compiler bodies (files s) -> (forall pid, calls s pid = None) -> uses bodies history -> always F junk name compiler one_at_a_time s history -> no_crash_in_link F junk name compiler s history ->
  forall pid c r, calls (run F junk name compiler s history) pid = Some c -> c_stage c = Returned r -> compiler (source (c_body c)) <> None -> right F junk compiler c r.
Proof. exact intern_sequential. Qed.
Print Assumptions C44_sequential.
(** A call that is not interrupted returns. *)
Theorem C44_returns : forall (F : fnum) junk name compiler (s : system F) pid body nodes t d k, (forall c, calls s pid = Some c -> live c = false) -> String.length (source body) <= k ->
  exists r, calls (run F junk name compiler s (Start pid body nodes t d :: repeat (Step pid k) 6)) pid = Some (Call body nodes t d (Returned r)).
Proof. exact intern_returns. Qed.
Print Assumptions C44_returns.
(** A body that does not compile: undefined behaviour. *)
Theorem C44_uncompilable : forall (F : fnum) junk name compiler (bodies : string -> Prop), (forall b b', bodies b -> bodies b' -> name b = name b' -> b = b') ->
  forall s history, tidy name compiler bodies (files s) -> (forall pid, calls s pid = None) -> uses bodies history -> always F junk name compiler (exclusive name) s history -> no_crash_in_link F junk name compiler s history ->
  forall pid c r, calls (run F junk name compiler s history) pid = Some c -> c_stage c = Returned r -> compiler (source (c_body c)) = None -> r = Ub.
Proof. exact intern_uncompilable. Qed.
Print Assumptions C44_uncompilable.
(** An object left unfinished by a crash is never repaired: every later call of that body, by any process, is undefined behaviour. *)
Theorem C44_unfinished_for_ever : forall (F : fnum) junk name compiler (s : system F) n, so (files s) n = Some Partial -> (forall pid c, calls s pid = Some c -> name (c_body c) <> n) ->
  forall history pid c r, calls (run F junk name compiler s history) pid = Some c -> name (c_body c) = n -> c_stage c = Returned r -> r = Ub.
Proof. exact intern_unfinished. Qed.
Print Assumptions C44_unfinished_for_ever.

(** None of the conditions can be left out: colliding hashes give the values of another body ... *)
Theorem C44_collision_refuted : ~ forall name (s : system fnum_Z) history, tidy name two_functions (fun _ => True) (files s) -> (forall pid, calls s pid = None) ->
  always fnum_Z 0%Z name two_functions one_at_a_time s history -> no_crash_in_link fnum_Z 0%Z name two_functions s history ->
  forall pid c r, calls (run fnum_Z 0%Z name two_functions s history) pid = Some c -> c_stage c = Returned r -> two_functions (source (c_body c)) <> None -> right fnum_Z 0%Z two_functions c r.
Proof. exact intern_collision. Qed.
Print Assumptions C44_collision_refuted.
(** ... a crash during linking ... *)
Theorem C44_crash_refuted : ~ forall (s : system fnum_Z) history, tidy (fun b => b) two_functions (fun _ => True) (files s) -> (forall pid, calls s pid = None) ->
  always fnum_Z 0%Z (fun b => b) two_functions one_at_a_time s history ->
  forall pid c r, calls (run fnum_Z 0%Z (fun b => b) two_functions s history) pid = Some c -> c_stage c = Returned r -> two_functions (source (c_body c)) <> None -> r <> Ub.
Proof. exact intern_crash. Qed.
Print Assumptions C44_crash_refuted.
(** ... and two processes that discretize the same body for the first time give undefined behaviour. *)
Theorem C44_overlap_refuted : ~ forall (s : system fnum_Z) history, tidy (fun b => b) two_functions (fun _ => True) (files s) -> (forall pid, calls s pid = None) ->
  (forall pid, ~ In (Crash pid) history) ->
  forall pid c r, calls (run fnum_Z 0%Z (fun b => b) two_functions s history) pid = Some c -> c_stage c = Returned r -> two_functions (source (c_body c)) <> None -> r <> Ub.
Proof. exact intern_overlap. Qed.
Print Assumptions C44_overlap_refuted.

(** Process 0 dies while it writes the source, then makes v[0]; process 1 makes 2*v[0] at the same time, and then uses v[0]. *)
Notation busy := (begin 0 "v[0]" :: steps 0 2 ++ Step 0 40 :: Crash 0 :: begin 1 "2*v[0]" :: begin 0 "v[0]" :: steps 0 3 ++ steps 1 5 ++ steps 0 3 ++ steps 1 1 ++ begin 1 "v[0]" :: steps 1 2).
Example C44_right_example :
  uses (fun b => b = "v[0]" \/ b = "2*v[0]") busy /\ always fnum_Z 0%Z (fun b => b) two_functions (exclusive (fun b => b)) fresh busy /\
  no_crash_in_link fnum_Z 0%Z (fun b => b) two_functions fresh busy /\
  exists c, calls (run fnum_Z 0%Z (fun b => b) two_functions fresh busy) 1 = Some c /\ c_body c = "v[0]" /\ c_stage c = Returned (F := fnum_Z) (Ok [3; 4]%Z).
Proof.
  split; [|split; [|split]].
  - intros pid body nodes t d H. unfold begin, steps in H. cbn [repeat app] in H. repeat (destruct H as [H|H]; [try discriminate H; injection H; intros; subst; auto|]). destruct H.
  - apply exclusive_two; [reflexivity|unfold begin, steps; cbn [repeat app In pid_of]; intros e H; repeat (destruct H as [<-|H]; [cbn [pid_of]; auto|]); destruct H|vm_compute; reflexivity].
  - intros past pid future c f E H. unfold begin, steps in E. cbn [repeat app] in E. do 4 (destruct past as [|e past]; [discriminate E|injection E as <- E]). destruct past as [|e past]; [|injection E as <- E].
    + injection E as <- _. vm_compute in H. injection H as <-. discriminate.
    + exfalso. assert (K : In (Crash (F := fnum_Z) pid) (past ++ Crash pid :: future)) by (apply in_or_app; right; left; reflexivity). rewrite <- E in K. cbn [In] in K. intuition discriminate.
  - eexists. split; [vm_compute; reflexivity|]. split; reflexivity.
Qed.
(** The hypotheses of C44_unfinished_for_ever hold after a crash in the linker. *)
Example C44_unfinished_for_ever_example : let s := run fnum_Z 0%Z (fun b => b) two_functions fresh (begin 0 "v[0]" :: steps 0 4 ++ [Crash 0]) in
  match so (files s) "v[0]" with Some Partial => True | _ => False end /\ calls s 0 = None.
Proof. split; [vm_compute; exact I|vm_compute; reflexivity]. Qed.
Example C44_returns_example : forall c, calls fresh 3 = Some c -> live c = false.
Proof. discriminate. Qed.
(** "v[0" does not compile. *)
Example C44_uncompilable_example : two_functions (source "v[0") = None /\
  always fnum_Z 0%Z (fun b => b) two_functions (exclusive (fun b => b)) fresh (begin 0 "v[0" :: steps 0 6) /\
  match calls (run fnum_Z 0%Z (fun b => b) two_functions fresh (begin 0 "v[0" :: steps 0 6)) 0 with Some c => c_body c = "v[0" /\ match c_stage c with Returned Ub => True | _ => False end | None => False end.
Proof.
  split; [vm_compute; reflexivity|]. split; [apply exclusive_two; [reflexivity|intros e H; unfold steps in H; cbn [repeat In] in H; repeat (destruct H as [<-|H]; [left; reflexivity|]); destruct H|vm_compute; reflexivity]|].
  vm_compute. split; [reflexivity|exact I].
Qed.
Example C44_sequential_example : let history := begin 0 "v[0]" :: steps 0 6 ++ begin 0 "2*v[0]" :: steps 0 6 in
  always fnum_Z 0%Z (fun b => b) two_functions one_at_a_time fresh history /\ no_crash_in_link fnum_Z 0%Z (fun b => b) two_functions fresh history /\
  match calls (run fnum_Z 0%Z (fun b => b) two_functions fresh history) 0 with Some c => match c_stage c with Returned (Ok r) => r = [6; 8]%Z | _ => False end | None => False end.
Proof.
  intros history. split; [apply (one_process _ _ _ _ _ _ 0); [reflexivity|cbn; intuition (subst; reflexivity)]|]. split; [apply no_crash; cbn; intuition discriminate|]. vm_compute. reflexivity.
Qed.
