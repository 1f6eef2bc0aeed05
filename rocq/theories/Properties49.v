(** Property C114: what stats.py records and prints. *)
From Coq Require Import String Ascii List Bool Arith ZArith Lia.
From Verif Require Import TrailModel TrailSpec TrailFacts TrailFacts2.
Import ListNotations.
Local Open Scope string_scope. Local Open Scope list_scope. Local Open Scope nat_scope.

(** discretize calls transform twice, for 3 and 0 units of time, and raises in a third call; the exception is caught and varf is called. *)
Definition ex_code : code := Call "discretize" false 0 9 true (Call "transform" false 1 4 false Return (Call "transform" false 5 5 false Return (Call "third" false 6 7 false Raise Return))) (Call "varf" false 9 11 false Return Return).
(** The same without the exception. *)
Definition ex_quiet : code := Call "discretize" false 0 9 true (Call "transform" false 1 4 false Return (Call "transform" false 5 5 false Return Return)) (Call "varf" false 9 11 false Return Return).
Definition digit (n : nat) : string := match n with 0 => "0" | 1 => "1" | 2 => "2" | _ => "9" end.
Definition duration (t : Z) : string := if (t <? 3)%Z then "short" else "long".

(** C114: whatever the program, its exceptions and the settings, the calls and the time recorded for a function are the number and the total duration of its calls that returned, added to what was recorded before. *)
Theorem C114_times : forall str_int str_time trails threshold c, (exists l ok, ends c l ok) /\ forall l ok, ends c l ok -> forall g, exists g', run str_int str_time trails threshold c g = (g', ok) /\
  forall key, recorded key (g_stats g') = (fst (recorded key (g_stats g)) + length (times key l), (snd (recorded key (g_stats g)) + zsum (times key l))%Z).
Proof. intros str_int str_time trails threshold c. split; [exact (ends_total c)|]. exact (run_times str_int str_time trails threshold c). Qed.
Print Assumptions C114_times.
Example C114_times_example : ends ex_code [("transform", 3); ("transform", 0); ("varf", 2)]%Z true /\
  recorded "transform" (g_stats (fst (run digit duration true 0 ex_code (Glob [] 0 [])))) = (2, 3%Z).
Proof.
  split; [|reflexivity]. apply (e_caught "discretize" false 0 9 _ _ [("transform", 3); ("transform", 0)]%Z [("varf", 2)]%Z true).
  - apply (e_ok "transform" false 1 4 false _ _ [] _ _ e_return). apply (e_ok "transform" false 5 5 false _ _ [] _ _ e_return). apply e_passed. constructor.
  - apply (e_ok "varf" false 9 11 false _ _ [] _ _ e_return e_return).
Qed.

(** C114: the settings do not change what a program does: it returns or raises, records and indents in the same way with and without trails. *)
Theorem C114_settings : forall str_int str_time trails threshold trails' threshold' c g, let x := run str_int str_time trails threshold c g in let y := run str_int str_time trails' threshold' c g in
  snd x = snd y /\ g_stats (fst x) = g_stats (fst y) /\ g_indent (fst x) = g_indent (fst y).
Proof. intros str_int str_time trails threshold trails' threshold' c g. exact (run_settings str_int str_time trails threshold trails' threshold' c g g eq_refl eq_refl). Qed.
Print Assumptions C114_settings.

(** C114: without trails, and without a decorator that forces them, nothing is printed. *)
Theorem C114_silent : forall str_int str_time threshold c g, unforced c -> g_out (fst (run str_int str_time false threshold c g)) = g_out g.
Proof. exact run_silent. Qed.
Print Assumptions C114_silent.
Example C114_silent_example : unforced ex_code /\ g_out (fst (run digit duration true 0 ex_code (Glob [] 0 []))) <> [].
Proof. split; [cbn; tauto|vm_compute; discriminate]. Qed.

(** C114: the trail of a program that raises nothing is well nested and shows all calls at their depths, in the order in which they begin, and the durations of those that took longer than the threshold, in the order in which they end. *)
Theorem C114_trail : forall str_int str_time threshold c, quiet c -> forall g, exists g' lines l, run str_int str_time true threshold c g = (g', true) /\ ends c l true /\ g_indent g' = g_indent g /\
  g_out g' = g_out g ++ map (shown str_int str_time) lines /\ nested threshold (g_indent g) lines /\ entered lines = begins (g_indent g) c /\ finished lines = filter (fun p => (threshold <? snd p)%Z) l.
Proof. exact run_trail. Qed.
Print Assumptions C114_trail.
Example C114_trail_example : quiet ex_quiet /\ g_out (fst (run digit duration true 0 ex_quiet (Glob [] 0 []))) =
  ["0 Entering discretize"; " 1 Entering transform"; " 1 Function transform: long"; " 1 Entering transform"; "0 Function discretize: long"; "0 Entering varf"; "0 Function varf: short"].
Proof. split; [cbn; tauto|reflexivity]. Qed.

(** C114, false with exceptions: after a caught exception the trail shows later calls too deep, as if they were made by the function that raised, for every way of writing numbers without a leading space. *)
Theorem C114_trail_refuted : forall str_int str_time ch rest, str_int 0 = String ch rest -> ch <> " "%char ->
  ~ forall c, snd (run str_int str_time true 0 c (Glob [] 0 [])) = true ->
    exists lines, g_out (fst (run str_int str_time true 0 c (Glob [] 0 []))) = map (shown str_int str_time) lines /\ entered lines = begins 0 c.
Proof. intros str_int str_time ch rest H0 Hc H. exact (misled str_int str_time ch rest H0 Hc (H misleading eq_refl)). Qed.
Print Assumptions C114_trail_refuted.
Example C114_trail_refuted_example : digit 0 = String "0" "" /\ "0"%char <> " "%char /\
  g_out (fst (run digit duration true 0 ex_code (Glob [] 0 []))) =
  ["0 Entering discretize"; " 1 Entering transform"; " 1 Function transform: long"; " 1 Entering transform"; " 1 Entering third"; "  2 Entering varf"; "  2 Function varf: short"].
Proof. split; [reflexivity|]. split; [discriminate|reflexivity]. Qed.

(** C114: from empty statistics, print_stats prints one line for each function with a call that returned, in the order of their first returns, with the number and the total duration of these calls. *)
Theorem C114_print_stats : forall str_int str_time trails threshold c l ok indent out, ends c l ok ->
  print_stats str_int str_time (g_stats (fst (run str_int str_time trails threshold c (Glob [] indent out)))) =
  [""; "-- [statistics] --"] ++ map (fun key => String.concat "" ["| '"; key; "': Calls: "; str_int (length (times key l)); ", Time: "; str_time (zsum (times key l))]) (firsts (map fst l)) ++ ["--"].
Proof. exact run_print. Qed.
Print Assumptions C114_print_stats.
(** The order of the first returns. *)
Theorem C114_firsts : forall l, NoDup (firsts l) /\ forall k, In k (firsts l) <-> In k l.
Proof. intros l. destruct (firsts_spec l [] (NoDup_nil _)) as [H1 H2]. split; [exact H1|]. intros k. rewrite (H2 k). cbn. tauto. Qed.
Print Assumptions C114_firsts.
Example C114_print_stats_example : print_stats digit duration (g_stats (fst (run digit duration true 0 ex_quiet (Glob [] 0 [])))) =
  [""; "-- [statistics] --"; "| 'transform': Calls: 2, Time: long"; "| 'discretize': Calls: 1, Time: long"; "| 'varf': Calls: 1, Time: short"; "--"].
Proof. reflexivity. Qed.

(** C114: debug prints nothing unless it is enabled or forced; otherwise one line for each argument, between the lines of the name, the arguments and the keywords. *)
Theorem C114_debug : forall V (stringify : V -> string) enabled force key args kwargs,
  (enabled = false -> force = false -> debug_lines V stringify enabled force key args kwargs = []) /\
  (enabled = true \/ force = true ->
     length (debug_lines V stringify enabled force key args kwargs) = 3 + length args + length kwargs /\
     nth_error (debug_lines V stringify enabled force key args kwargs) 0 = Some ("▶ Entering function " ++ key)%string /\
     nth_error (debug_lines V stringify enabled force key args kwargs) 1 = Some "-▲ args" /\ nth_error (debug_lines V stringify enabled force key args kwargs) (2 + length args) = Some "-▲ kwargs" /\
     (forall i a, nth_error args i = Some a -> nth_error (debug_lines V stringify enabled force key args kwargs) (2 + i) = Some ("--● A " ++ stringify a)%string) /\
     (forall i k v, nth_error kwargs i = Some (k, v) -> nth_error (debug_lines V stringify enabled force key args kwargs) (3 + length args + i) = Some ("--● KW " ++ k ++ ": " ++ stringify v)%string)).
Proof.
  intros V stringify enabled force key args kwargs. split; [intros -> ->; reflexivity|]. intros H. unfold debug_lines. replace (enabled || force) with true by (destruct enabled, force; intuition congruence). cbn [app].
  split; [cbn [length]; rewrite !app_length, !map_length; cbn [length]; rewrite map_length; lia|]. split; [reflexivity|]. split; [reflexivity|]. split; [|split].
  - replace (2 + length args) with (S (S (length (map (fun a => "--● A " ++ stringify a)%string args) + 0))) by (rewrite map_length; lia). cbn [nth_error]. rewrite nth_error_app2 by lia. rewrite Nat.add_comm, Nat.add_sub. reflexivity.
  - intros i a Ha. cbn [nth_error Nat.add]. rewrite nth_error_app1 by (rewrite map_length; apply nth_error_Some; congruence). rewrite (map_nth_error _ _ _ Ha). reflexivity.
  - intros i k v Hk. replace (3 + length args + i) with (S (S (length (map (fun a => "--● A " ++ stringify a)%string args) + S i))) by (rewrite map_length; lia).
    cbn [nth_error]. rewrite nth_error_app2 by lia. rewrite Nat.add_comm, Nat.add_sub. cbn [nth_error]. rewrite (map_nth_error _ _ _ Hk). reflexivity.
Qed.
Print Assumptions C114_debug.
Example C114_debug_example : debug_lines nat digit true false "transform-core" [1; 2] [("degree", 0)] =
  ["▶ Entering function transform-core"; "-▲ args"; "--● A 1"; "--● A 2"; "-▲ kwargs"; "--● KW degree: 0"].
Proof. reflexivity. Qed.
