(** Call statistics *)
From Coq Require Import String List Bool Arith Lia.
From Verif Require Import StatsModel StatsSpec.
Import ListNotations.
Local Open Scope string_scope. Local Open Scope list_scope. Local Open Scope nat_scope.

Lemma calls_tick : forall key key' s, calls key (tick key' s) = calls key s + (if String.eqb key' key then 1 else 0).
Proof.
  intros key key'. induction s as [|[k n] s IH]; cbn [tick calls].
  - rewrite String.eqb_sym. destruct (String.eqb key' key); reflexivity.
  - destruct (String.eqb_spec key' k) as [->|Hk]; cbn [calls]; destruct (String.eqb_spec key k) as [->|Hk'].
    + rewrite String.eqb_refl. lia.
    + replace (String.eqb k key) with false by (symmetry; apply String.eqb_neq; congruence). lia.
    + replace (String.eqb key' k) with false by (symmetry; apply String.eqb_neq; congruence). lia.
    + exact IH.
Qed.
Lemma returns_app : forall key l l', returns key (l ++ l') = returns key l + returns key l'.
Proof. intros. unfold returns. rewrite filter_app, app_length. reflexivity. Qed.
Lemma raises_app : forall l l', raises (l ++ l') = raises l + raises l'.
Proof. intros. unfold raises. rewrite filter_app, app_length. reflexivity. Qed.

Theorem run_exact : forall c l ok, happens c l ok -> forall g, exists g', run c g = (g', ok) /\ g_indent g' = g_indent g + raises l /\ forall key, calls key (g_stats g') = calls key (g_stats g) + returns key l.
Proof.
  intros c l ok H. induction H as [| |k body rest l l' ok H1 IH1 H2 IH2|k body rest l H1 IH1|k body rest l l' ok H1 IH1 H2 IH2|k body rest l l' ok H1 IH1 H2 IH2]; intros g; cbn [run].
  - exists g. cbn. repeat split; lia.
  - exists g. cbn. repeat split; lia.
  - destruct (IH1 (Glob (g_stats g) (g_indent g + 1))) as (g1 & E1 & E2 & E3). rewrite E1. destruct (IH2 (Glob (tick k (g_stats g1)) (g_indent g1 - 1))) as (g2 & F1 & F2 & F3). exists g2. split; [exact F1|].
    cbn [g_indent g_stats] in *. split; [rewrite F2, raises_app; change (raises (Returned k :: l')) with (raises l'); lia|]. intros key. rewrite F3, calls_tick, E3, returns_app. change (returns key (Returned k :: l')) with (length (if String.eqb k key then Returned k :: filter (fun e => match e with Returned k => String.eqb k key | Raised _ => false end) l' else filter (fun e => match e with Returned k => String.eqb k key | Raised _ => false end) l')).
    unfold returns. destruct (String.eqb k key); cbn [length]; lia.
  - destruct (IH1 (Glob (g_stats g) (g_indent g + 1))) as (g1 & E1 & E2 & E3). rewrite E1. exists g1. split; [reflexivity|]. cbn [g_indent g_stats] in *. rewrite raises_app. split; [change (raises [Raised k]) with 1; lia|]. intros key. rewrite E3, returns_app. change (returns key [Raised k]) with 0. lia.
  - destruct (IH1 (Glob (g_stats g) (g_indent g + 1))) as (g1 & E1 & E2 & E3). rewrite E1. destruct (IH2 (Glob (tick k (g_stats g1)) (g_indent g1 - 1))) as (g2 & F1 & F2 & F3). exists g2. split; [exact F1|].
    cbn [g_indent g_stats] in *. split; [rewrite F2, raises_app; change (raises (Returned k :: l')) with (raises l'); lia|]. intros key. rewrite F3, calls_tick, E3, returns_app. change (returns key (Returned k :: l')) with (length (if String.eqb k key then Returned k :: filter (fun e => match e with Returned k => String.eqb k key | Raised _ => false end) l' else filter (fun e => match e with Returned k => String.eqb k key | Raised _ => false end) l')).
    unfold returns. destruct (String.eqb k key); cbn [length]; lia.
  - destruct (IH1 (Glob (g_stats g) (g_indent g + 1))) as (g1 & E1 & E2 & E3). rewrite E1. destruct (IH2 g1) as (g2 & F1 & F2 & F3). exists g2. split; [exact F1|]. cbn [g_indent g_stats] in *. rewrite raises_app. split; [change (raises (Raised k :: l')) with (S (raises l')); lia|].
    intros key. rewrite F3, E3, returns_app. change (returns key (Raised k :: l')) with (returns key l'). lia.
Qed.
Lemma happens_total : forall c, exists l ok, happens c l ok.
Proof.
  induction c as [| |key body [l1 [ok1 H1]] rest [l2 [ok2 H2]]|key body [l1 [ok1 H1]] rest [l2 [ok2 H2]]].
  - exists [], true. constructor.
  - exists [], false. constructor.
  - destruct ok1; [exists (l1 ++ Returned key :: l2), ok2|exists (l1 ++ [Raised key]), false]; constructor; assumption.
  - destruct ok1; [exists (l1 ++ Returned key :: l2), ok2|exists (l1 ++ Raised key :: l2), ok2]; constructor; assumption.
Qed.
Lemma counters_exact : forall c, (exists l ok, happens c l ok) /\ forall l ok, happens c l ok -> forall g, exists g', run c g = (g', ok) /\ forall key, calls key (g_stats g') = calls key (g_stats g) + returns key l.
Proof. intros c. split; [apply happens_total|]. intros l ok H g. destruct (run_exact c l ok H g) as (g' & E1 & _ & E2). exists g'. auto. Qed.
Lemma indent_exact : forall c l ok, happens c l ok -> forall g, g_indent (fst (run c g)) = g_indent g + raises l.
Proof. intros c l ok H g. destruct (run_exact c l ok H g) as (g' & E1 & E2 & _). rewrite E1. exact E2. Qed.
Lemma indent_balanced : forall c l ok, happens c l ok -> (forall key, ~ In (Raised key) l) -> forall g, g_indent (fst (run c g)) = g_indent g.
Proof.
  intros c l ok H Hr g. rewrite (indent_exact c l ok H g). replace (raises l) with 0; [lia|]. symmetry. unfold raises. replace (filter _ l) with (@nil event); [reflexivity|]. symmetry.
  clear H. induction l as [|[k|k] l IH]; [reflexivity| |exfalso; apply (Hr k); left; reflexivity]. cbn [filter]. apply IH. intros key Hk. apply (Hr key). right. exact Hk.
Qed.
Lemma indent_refuted : ~ forall c g, snd (run c g) = true -> g_indent (fst (run c g)) = g_indent g.
Proof. intros H. specialize (H (Try "f" Raise Return) (Glob [] 0) eq_refl). discriminate H. Qed.
