(** Facts on the trails. *)
From Coq Require Import String List Bool Arith ZArith Lia.
From Verif Require Import TrailModel TrailSpec.
Import ListNotations.
Local Open Scope list_scope. Local Open Scope nat_scope.

Lemma app_str_assoc : forall a b c : string, ((a ++ b) ++ c)%string = (a ++ (b ++ c))%string.
Proof. induction a as [|x a IH]; intros b c; [reflexivity|]. cbn. rewrite IH. reflexivity. Qed.
Lemma app_str_nil : forall a : string, (a ++ "")%string = a.
Proof. induction a as [|x a IH]; [reflexivity|]. cbn. rewrite IH. reflexivity. Qed.
Lemma concat_cons : forall x l, String.concat "" (x :: l) = (x ++ String.concat "" l)%string.
Proof. intros x [|y l]; cbn; [rewrite app_str_nil; reflexivity|reflexivity]. Qed.
Lemma concat_app : forall l l', String.concat "" (l ++ l') = (String.concat "" l ++ String.concat "" l')%string.
Proof. induction l as [|x l IH]; intros l'; [reflexivity|]. cbn [app]. rewrite !concat_cons, IH, app_str_assoc. reflexivity. Qed.

Lemma ends_total : forall c, exists l ok, ends c l ok.
Proof.
  induction c as [| |key force start stop caught body [lb [[|] Hb]] rest [lr [okr Hr]]].
  - exists [], true. constructor.
  - exists [], false. constructor.
  - eexists _, _. eapply e_ok; eassumption.
  - destruct caught; [exists (lb ++ lr), okr; apply e_caught; assumption|exists lb, false; apply e_passed; assumption].
Qed.

Lemma recorded_tick : forall key k d stats, recorded key (tick k d stats) = if String.eqb k key then (fst (recorded key stats) + 1, (snd (recorded key stats) + d)%Z) else recorded key stats.
Proof.
  intros key k d stats. induction stats as [|[k' [n t]] stats IH]; cbn [tick recorded].
  - destruct (String.eqb k key); reflexivity.
  - destruct (String.eqb_spec k' k) as [->|D]; cbn [recorded].
    + destruct (String.eqb_spec k key) as [->|D']; reflexivity.
    + rewrite IH. destruct (String.eqb_spec k' key) as [->|D']; [|reflexivity]. destruct (String.eqb_spec k key) as [->|D'']; [congruence|reflexivity].
Qed.
Lemma times_app : forall key l l', times key (l ++ l') = times key l ++ times key l'.
Proof. intros. unfold times. rewrite filter_app, map_app. reflexivity. Qed.
Lemma zsum_app : forall l l', zsum (l ++ l') = (zsum l + zsum l')%Z.
Proof. induction l as [|x l IH]; intros l'; cbn [zsum app]; [reflexivity|]. rewrite IH. lia. Qed.
Lemma times_cons : forall key k d l, times key ((k, d) :: l) = if String.eqb k key then d :: times key l else times key l.
Proof. intros. unfold times. cbn [filter fst]. destruct (String.eqb k key); reflexivity. Qed.

Section Run.
Variables (str_int : nat -> string) (str_time : Z -> string).

Lemma run_times : forall trails threshold c l ok, ends c l ok -> forall g, exists g', run str_int str_time trails threshold c g = (g', ok) /\
  forall key, recorded key (g_stats g') = (fst (recorded key (g_stats g)) + length (times key l), (snd (recorded key (g_stats g)) + zsum (times key l))%Z).
Proof.
  intros trails threshold c l ok H. induction H as [| |key force start stop caught body rest l l' ok H1 IH1 H2 IH2|key force start stop body rest l H IH|key force start stop body rest l l' ok H1 IH1 H2 IH2]; intros g; cbn [run].
  - exists g. split; [reflexivity|]. intros key. cbn. rewrite Nat.add_0_r, Z.add_0_r. destruct (recorded key (g_stats g)); reflexivity.
  - exists g. split; [reflexivity|]. intros key. cbn. rewrite Nat.add_0_r, Z.add_0_r. destruct (recorded key (g_stats g)); reflexivity.
  - match goal with |- context [run _ _ _ _ body ?g0] => destruct (IH1 g0) as (g1 & E1 & K1) end. rewrite E1.
    match goal with |- context [run _ _ _ _ rest ?g0] => destruct (IH2 g0) as (g2 & E2 & K2) end. exists g2. split; [exact E2|].
    intros k. rewrite K2. cbn [g_stats] in *. rewrite recorded_tick, K1, times_app, times_cons. destruct (String.eqb key k); rewrite ?app_length, ?zsum_app; cbn [length zsum fst snd]; f_equal; lia.
  - match goal with |- context [run _ _ _ _ body ?g0] => destruct (IH g0) as (g1 & E1 & K1) end. rewrite E1. exists g1. split; [reflexivity|]. exact K1.
  - match goal with |- context [run _ _ _ _ body ?g0] => destruct (IH1 g0) as (g1 & E1 & K1) end. rewrite E1. destruct (IH2 g1) as (g2 & E2 & K2). exists g2. split; [exact E2|].
    intros k. rewrite K2, K1, times_app, app_length, zsum_app. cbn [fst snd g_stats]. f_equal; lia.
Qed.

Lemma run_settings : forall trails threshold trails' threshold' c g g', g_stats g = g_stats g' -> g_indent g = g_indent g' ->
  let x := run str_int str_time trails threshold c g in let y := run str_int str_time trails' threshold' c g' in
  snd x = snd y /\ g_stats (fst x) = g_stats (fst y) /\ g_indent (fst x) = g_indent (fst y).
Proof.
  intros trails threshold trails' threshold' c. induction c as [| |key force start stop caught body IH1 rest IH2]; intros g g' Hs Hi; cbn zeta; [cbn; auto|cbn; auto|]. cbn [run].
  match goal with |- context [run _ _ trails _ body ?a] => match goal with |- context [run _ _ trails' _ body ?b] => specialize (IH1 a b) end end.
  cbn [g_stats g_indent] in IH1. rewrite Hs, Hi in IH1 at 1. specialize (IH1 ltac:(congruence) ltac:(congruence)).
  destruct (run _ _ trails _ body _) as [g1 ok1]. destruct (run _ _ trails' _ body _) as [g2 ok2]. cbn [fst snd] in IH1. destruct IH1 as (-> & E1 & E2).
  destruct ok2; [apply IH2; cbn [g_stats g_indent]; congruence|]. destruct caught; [apply IH2; assumption|cbn; auto].
Qed.

Lemma run_silent : forall threshold c g, unforced c -> g_out (fst (run str_int str_time false threshold c g)) = g_out g.
Proof.
  intros threshold c. induction c as [| |key force start stop caught body IH1 rest IH2]; intros g H; [reflexivity|reflexivity|]. destruct H as (-> & H1 & H2). cbn [run orb andb].
  match goal with |- context [run _ _ _ _ body ?a] => specialize (IH1 a H1) end. destruct (run _ _ _ _ body _) as [g1 ok1]. cbn [fst g_out] in IH1. destruct ok1.
  - rewrite IH2 by exact H2. exact IH1.
  - destruct caught; [rewrite IH2 by exact H2|]; exact IH1.
Qed.

Lemma entering_shown : forall d key, (indent_str str_int d ++ "Entering " ++ key)%string = shown str_int str_time (Entering d key).
Proof. intros d key. unfold indent_str, spaces, shown. rewrite concat_app, !app_str_assoc. reflexivity. Qed.
Lemma finished_shown : forall d key t, (indent_str str_int d ++ "Function " ++ key ++ ": " ++ str_time t)%string = shown str_int str_time (Finished d key t).
Proof. intros d key t. unfold indent_str, spaces, shown. rewrite concat_app, !app_str_assoc. reflexivity. Qed.

Lemma run_trail : forall threshold c, quiet c -> forall g, exists g' lines l, run str_int str_time true threshold c g = (g', true) /\ ends c l true /\ g_indent g' = g_indent g /\
  g_out g' = g_out g ++ map (shown str_int str_time) lines /\ nested threshold (g_indent g) lines /\ entered lines = begins (g_indent g) c /\ finished lines = filter (fun p => (threshold <? snd p)%Z) l.
Proof.
  intros threshold c. induction c as [| |key force start stop caught body IH1 rest IH2]; intros H g.
  - exists g, [], []. cbn. rewrite app_nil_r. repeat split; constructor.
  - destruct H.
  - destruct H as (H1 & H2). cbn [run orb].
    match goal with |- context [run _ _ _ _ body ?a] => destruct (IH1 H1 a) as (g1 & lines1 & l1 & E1 & F1 & I1 & O1 & N1 & B1 & D1) end. rewrite E1. cbn [g_indent g_out] in I1, O1, N1, B1.
    match goal with |- context [run _ _ _ _ rest ?a] => destruct (IH2 H2 a) as (g2 & lines2 & l2 & E2 & F2 & I2 & O2 & N2 & B2 & D2) end. rewrite E2. cbn [g_indent g_out] in I2, O2, N2, B2.
    rewrite I1, Nat.add_sub in I2, N2, B2. rewrite Nat.add_1_r in N1, B1.
    exists g2, (Entering (g_indent g) key :: lines1 ++ (if (threshold <? stop - start)%Z then Finished (g_indent g) key (stop - start) :: lines2 else lines2)), (l1 ++ (key, (stop - start)%Z) :: l2).
    split; [reflexivity|]. split; [apply e_ok; assumption|]. split; [exact I2|]. split; [|split; [|split]].
    + rewrite O2, O1, entering_shown. cbn [andb]. cbn [map]. rewrite map_app. destruct (threshold <? stop - start)%Z; cbn [map]; rewrite ?O1, ?entering_shown, ?finished_shown, <- ?app_assoc; reflexivity.
    + destruct (threshold <? stop - start)%Z eqn:Et; [apply n_long; [exact N1|apply Z.ltb_lt; exact Et|exact N2]|apply n_short; assumption].
    + unfold entered in *. cbn [flat_map begins]. rewrite flat_map_app, B1. cbn [app]. f_equal. f_equal. destruct (threshold <? stop - start)%Z; cbn [flat_map app]; exact B2.
    + unfold finished in *. cbn [flat_map app]. rewrite flat_map_app, D1, filter_app. f_equal. cbn [filter snd]. destruct (threshold <? stop - start)%Z; cbn [flat_map app]; rewrite D2; reflexivity.
Qed.
End Run.
