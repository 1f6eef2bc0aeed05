(** Further lemmas for C111: histories without crashes, and files that stay broken. *)
From Coq Require Import String List Bool Arith Lia.
From Verif Require Import CacheRaceModel CacheRaceSpec CacheRaceFacts.
Import ListNotations.
Local Open Scope string_scope. Local Open Scope list_scope. Local Open Scope nat_scope.

Lemma nth_error_firstn_lt : forall A (l : list A) n i, i < n -> nth_error (firstn n l) i = nth_error l i.
Proof. induction l as [|x l IH]; intros [|n] [|i] H; try reflexivity; try lia. cbn. apply IH. lia. Qed.
Lemma nth_error_skipn : forall A (l : list A) k i, nth_error (skipn k l) i = nth_error l (k + i).
Proof. induction l as [|x l IH]; intros [|k] i; try reflexivity. - cbn [skipn]. destruct i; reflexivity. - apply IH. Qed.
Lemma nth_error_same : forall A (l l' : list A), (forall i, nth_error l i = nth_error l' i) -> l = l'.
Proof.
  induction l as [|x l IH]; intros [|y l'] H; [reflexivity|discriminate (H 0)|discriminate (H 0)|]. f_equal; [injection (H 0) as E; exact E|]. apply IH. intros i. apply (H (S i)).
Qed.

Section Facts.
Variable B V : Type.
Variable zero : B.
Variable v : V.
Variable e : list B.
Variable load : list B -> V + string.
Notation state := (state B V).
Notation run := (run B V zero v e load).
Notation happen := (happen B V zero v e load).
Notation step := (step B V zero v e load).
Notation write_at := (write_at B zero).
Notation L := (length e).

Section Write.
Variable c : list B.
Variable k m : nat.
Hypothesis Hk : k <= L.
Let c' := write_at c k (firstn m (skipn k e)).
Let w := Nat.min m (L - k).
Lemma bytes_length : length (firstn m (skipn k e)) = w.
Proof. rewrite firstn_length, skipn_length. reflexivity. Qed.
Lemma head_length : length (firstn k (c ++ repeat zero (k - length c))) = k.
Proof. rewrite firstn_length, app_length, repeat_length. lia. Qed.
Lemma write_length : length c' = Nat.max (length c) (k + w).
Proof. unfold c', CacheRaceModel.write_at. rewrite !app_length, head_length, bytes_length, skipn_length. lia. Qed.
Lemma write_before : forall i, i < k -> i < length c -> nth_error c' i = nth_error c i.
Proof.
  intros i H1 H2. unfold c', CacheRaceModel.write_at. rewrite nth_error_app1 by (rewrite head_length; exact H1). rewrite nth_error_firstn_lt by exact H1. apply nth_error_app1. exact H2.
Qed.
Lemma write_inside : forall i, k <= i -> i < k + w -> nth_error c' i = nth_error e i.
Proof.
  intros i H1 H2. unfold c', CacheRaceModel.write_at. rewrite nth_error_app2 by (rewrite head_length; exact H1). rewrite head_length. rewrite nth_error_app1 by (rewrite bytes_length; lia).
  rewrite nth_error_firstn_lt by lia. rewrite nth_error_skipn. f_equal. lia.
Qed.
Lemma write_after : forall i, k + w <= i -> nth_error c' i = nth_error c i.
Proof.
  intros i H. unfold c', CacheRaceModel.write_at. rewrite nth_error_app2 by (rewrite head_length; lia). rewrite head_length. rewrite nth_error_app2 by (rewrite bytes_length; lia).
  rewrite bytes_length, nth_error_skipn. f_equal. lia.
Qed.
(** What is right stays right. *)
Lemma write_keeps : forall i, i < L -> nth_error c i = nth_error e i -> nth_error c' i = nth_error e i.
Proof.
  intros i Hi E. assert (Hc : i < length c) by (apply nth_error_Some; rewrite E; apply nth_error_Some; exact Hi).
  destruct (Nat.lt_ge_cases i k) as [H|H]; [rewrite write_before by assumption; exact E|]. destruct (Nat.lt_ge_cases i (k + w)) as [H'|H']; [apply write_inside; assumption|rewrite write_after by exact H'; exact E].
Qed.
End Write.

(** * Without crashes *)
Definition right_up_to (k : nat) (c : list B) : Prop := forall i, i < k -> nth_error c i = nth_error e i.
Definition settling (s : state) : Prop :=
  (forall p k, at_ s p = Writing k -> k <= L /\ file s <> None) /\
  forall c, file s = Some c -> length c <= L /\ (c = e \/ exists p k, at_ s p = Writing k /\ right_up_to k c).

Lemma right_all : forall c, length c <= L -> right_up_to L c -> c = e.
Proof.
  intros c H R. apply nth_error_same. intros i. destruct (Nat.lt_ge_cases i L) as [Hi|Hi]; [apply R; exact Hi|]. rewrite (proj2 (nth_error_None c i)) by lia. symmetry. apply nth_error_None. exact Hi.
Qed.
(** A process that was not writing, and is not writing, moves. *)
Lemma settling_move : forall s s' p x, settling s -> file s' = file s -> (forall q, at_ s' q = at_ s q) -> (forall k, at_ s p <> Writing k) -> (forall k, x <> Writing k) -> settling (move B V p x s').
Proof.
  intros s s' p x [H1 H2] Ef Ea Hp Hx. split.
  - intros q k. rewrite at_move. cbn [file move]. rewrite Ef. destruct (Nat.eqb_spec q p) as [->|Hq]; intros K; [exfalso; apply (Hx k K)|]. rewrite Ea in K. apply (H1 q k K).
  - cbn [file move]. rewrite Ef. intros c Hc. destruct (H2 c Hc) as [Hl [->|(q & k & Hq & R)]]; split; auto. right. exists q, k. rewrite at_move. destruct (Nat.eqb_spec q p) as [->|Hne]; [exfalso; apply (Hp k Hq)|]. rewrite Ea. auto.
Qed.
Lemma settling_happen : forall s ev, (forall p, ev <> Crash p) -> settling s -> settling (happen s ev).
Proof.
  intros s ev NC HS. pose proof HS as [H1 H2]. destruct ev as [p|p n|p]; cbn [CacheRaceModel.happen]; [| |exfalso; apply (NC p); reflexivity].
  - destruct (at_ s p) as [| | | |buf| |k|o|] eqn:Ep; cbn [running]; try exact HS; apply (settling_move s); auto; try discriminate; rewrite Ep; discriminate.
  - unfold CacheRaceModel.step. destruct (at_ s p) as [| | | |buf| |k|o|] eqn:Ep; try exact HS.
    + apply (settling_move s); auto; [rewrite Ep; discriminate|destruct (dir s); discriminate].
    + destruct (dir s); (apply (settling_move s); auto; [rewrite Ep; discriminate|discriminate]).
    + apply (settling_move s); auto; [rewrite Ep; discriminate|destruct (file s); discriminate].
    + destruct (file s) as [c|] eqn:Ef; [|apply (settling_move s); auto; [rewrite Ep; discriminate|discriminate]].
      destruct (firstn (S n) (skipn (length buf) c)); (apply (settling_move s); auto; [rewrite Ep; discriminate|]); [|discriminate].
      intros k. unfold loaded. destruct (load buf) as [|x]; [discriminate|]. destruct (String.eqb x "ValueError"); discriminate.
    + split.
      * intros q k. rewrite at_move. cbn [file move store]. intros K. split; [|discriminate]. destruct (Nat.eqb_spec q p); [injection K as <-; lia|apply (H1 q k K)].
      * cbn [file move store]. intros c Hc. injection Hc as <-. split; [cbn; lia|]. right. exists p, 0. rewrite at_move, Nat.eqb_refl. split; [reflexivity|]. intros i Hi. lia.
    + destruct (H1 p k Ep) as [Hk Hf]. destruct (file s) as [c|] eqn:Ef; [|contradiction]. destruct (H2 c eq_refl) as [Hl R]. split.
      * intros q j. rewrite at_move. cbn [file move store]. intros K. split; [|discriminate]. destruct (Nat.eqb_spec q p); [|apply (H1 q j K)].
        destruct (Nat.leb_spec L (k + S n)); [discriminate|]. injection K as <-. lia.
      * cbn [file move store]. intros c' Hc'. injection Hc' as <-. assert (Hl' : length (write_at c k (firstn (S n) (skipn k e))) <= L) by (rewrite write_length by exact Hk; lia).
        split; [exact Hl'|]. destruct R as [->|(q & j & Hq & R)].
        -- left. apply right_all; [exact Hl'|]. intros i Hi. apply (write_keeps e k (S n) Hk i Hi eq_refl).
        -- assert (Hj : j <= L) by apply (H1 q j Hq). destruct (Nat.eq_dec q p) as [->|Hne].
           ++ assert (j = k) by congruence. subst j. assert (R' : right_up_to (Nat.min L (k + S n)) (write_at c k (firstn (S n) (skipn k e)))).
              { intros i Hi. destruct (Nat.lt_ge_cases i k) as [H|H]; [apply (write_keeps c k (S n) Hk i); [lia|apply R; exact H]|apply (write_inside c k (S n) Hk i); lia]. }
              destruct (Nat.leb_spec L (k + S n)) as [H|H].
              ** left. apply right_all; [exact Hl'|]. rewrite Nat.min_l in R' by exact H. exact R'.
              ** right. exists p, (k + S n). rewrite at_move, Nat.eqb_refl. rewrite Nat.min_r in R' by lia. auto.
           ++ right. exists q, j. rewrite at_move. destruct (Nat.eqb_spec q p); [contradiction|]. split; [exact Hq|]. intros i Hi. apply (write_keeps c k (S n) Hk i); [lia|apply R; exact Hi].
Qed.
Lemma settling_run : forall h s, no_crash h -> settling s -> settling (run s h).
Proof.
  induction h as [|ev h IH]; intros s NC HS; [exact HS|]. apply (IH (happen s ev)); [intros p K; apply (NC p); right; exact K|]. apply settling_happen; [|exact HS]. intros p ->. apply (NC p). left. reflexivity.
Qed.
Lemma settles : forall s h, (forall p, at_ s p = Idle) -> (file s = None \/ file s = Some e) -> no_crash h -> (forall p k, at_ (run s h) p <> Writing k) -> file (run s h) = None \/ file (run s h) = Some e.
Proof.
  intros s h Hi Hf NC HW. assert (HS : settling s).
  { split; [intros p k K; rewrite Hi in K; discriminate|]. intros c Hc. destruct Hf as [Hf|Hf]; [congruence|]. assert (c = e) by congruence. subst. auto. }
  destruct (settling_run h s NC HS) as [_ H]. destruct (file (run s h)) as [c|]; [|left; reflexivity]. right. destruct (H c eq_refl) as [_ [->|(p & k & K & _)]]; [reflexivity|]. exfalso. apply (HW p k K).
Qed.

(** * A file that stays broken *)
Definition broken (c : list B) (x : string) (s : state) : Prop :=
  dir s = true /\ file s = Some c /\ forall p,
  match at_ s p with
  | Idle | TestDir | TestFile | Dead => True
  | Reading buf => exists j, buf = firstn j c
  | Ended o => o = Raise x
  | _ => False
  end.
Lemma broken_happen : forall c x, load c = inr x -> x <> "ValueError" -> forall s ev, broken c x s -> broken c x (happen s ev).
Proof.
  intros c x Hx Hne s ev (Hd & Hf & Hp). assert (M : forall p y, match y with Idle | TestDir | TestFile | Dead => True | Reading buf => exists j, buf = firstn j c | Ended o => o = Raise x | _ => False end -> broken c x (move B V p y s)).
  { intros p y Hy. split; [exact Hd|]. split; [exact Hf|]. intros q. rewrite at_move. destruct (q =? p); [exact Hy|apply Hp]. }
  destruct ev as [p|p n|p]; cbn [CacheRaceModel.happen].
  - destruct (running B V (at_ s p)); [split; auto|]. apply M. exact I.
  - unfold CacheRaceModel.step. pose proof (Hp p) as H. destruct (at_ s p) as [| | | |buf| |k|o|] eqn:Ep; try (split; auto; fail); try contradiction.
    + rewrite Hd. apply M. exact I.
    + rewrite Hf. apply M. exists 0. reflexivity.
    + rewrite Hf. destruct H as [j Hj]. destruct (firstn (S n) (skipn (length buf) c)) as [|b t] eqn:Ec.
      * assert (Eb : buf = c).
        { assert (K : length (skipn (length buf) c) = 0) by (destruct (skipn (length buf) c); [reflexivity|discriminate]). rewrite skipn_length in K. rewrite Hj in K |- *. rewrite firstn_length in K. apply firstn_all2. lia. }
        unfold loaded. rewrite Eb, Hx. destruct (String.eqb_spec x "ValueError"); [contradiction|]. apply M. reflexivity.
      * apply M. exists (length buf + S n). rewrite <- Ec, <- firstn_glue. f_equal. rewrite Hj at 1. rewrite Hj, firstn_length. rewrite <- (firstn_all c) at 1. rewrite firstn_firstn. reflexivity.
  - apply M. exact I.
Qed.
Lemma broken_run : forall c x, load c = inr x -> x <> "ValueError" -> forall h s, broken c x s -> broken c x (run s h).
Proof. intros c x H1 H2. induction h as [|ev h IH]; intros s H; [exact H|]. apply (IH (happen s ev)). apply broken_happen; assumption. Qed.

Lemma stuck : forall n x, n < L -> load (firstn n e) = inr x -> x <> "ValueError" ->
  forall s, (forall p, at_ s p = Idle) -> dir s = true -> file s = None ->
  exists h1, quiet (run s h1) /\ forall h2, file (run s (h1 ++ h2)) = Some (firstn n e) /\ forall p o, at_ (run s (h1 ++ h2)) p = Ended o -> o = Raise x.
Proof.
  intros n x Hn Hx Hne s Hi Hd Hf.
  set (h1 := [Begin 0; Step 0 0; Step 0 0; Step 0 0] ++ (match n with 0 => [] | S m => [Step 0 m] end) ++ [Crash 0]).
  assert (E : file (run s h1) = Some (firstn n e) /\ dir (run s h1) = true /\ forall q, at_ (run s h1) q = if q =? 0 then Dead else Idle).
  { unfold h1. rewrite run_app. set (s1 := run s _).
    assert (E1 : file s1 = Some [] /\ dir s1 = true /\ forall q, at_ s1 q = if q =? 0 then Writing 0 else Idle).
    { unfold s1, CacheRaceModel.run, fold_left. cbn [CacheRaceModel.happen]. rewrite Hi. cbn [running]. repeat (unfold CacheRaceModel.step; rewrite at_move, Nat.eqb_refl; cbn [dir file move]; rewrite ?Hd, ?Hf).
      cbn [dir file move store]. split; [reflexivity|]. split; [exact Hd|]. intros q. rewrite at_move. destruct (Nat.eqb_spec q 0) as [|Hq]; [reflexivity|]. cbn [store at_ move]. apply Nat.eqb_neq in Hq. rewrite !Hq. apply Hi. }
    destruct E1 as (F1 & D1 & A1). destruct n as [|m].
    - cbn [app CacheRaceModel.run fold_left CacheRaceModel.happen file dir move]. split; [exact F1|]. split; [exact D1|]. intros q. rewrite at_move. destruct (Nat.eqb_spec q 0) as [|Hq]; [reflexivity|]. rewrite A1. apply Nat.eqb_neq in Hq. rewrite Hq. reflexivity.
    - cbn [app CacheRaceModel.run fold_left CacheRaceModel.happen]. unfold CacheRaceModel.step. rewrite A1. cbn [Nat.eqb]. rewrite F1. cbn [skipn file dir move store]. split.
      + f_equal. pose proof (write_end B zero e 0 m) as W. cbn [firstn skipn plus] in W. apply W. lia.
      + split; [exact D1|]. intros q. rewrite !at_move. destruct (Nat.eqb_spec q 0) as [|Hq]; [reflexivity|]. cbn [store at_]. rewrite A1. apply Nat.eqb_neq in Hq. rewrite Hq. reflexivity. }
  destruct E as (EF & ED & EA). exists h1. split.
  - intros p. rewrite EA. destruct (p =? 0); reflexivity.
  - intros h2. rewrite run_app. destruct (broken_run (firstn n e) x Hx Hne h2 (run s h1)) as (_ & Q & R).
    + split; [exact ED|]. split; [exact EF|]. intros p. rewrite EA. destruct (p =? 0); exact I.
    + split; [exact Q|]. intros p o K. specialize (R p). rewrite K in R. exact R.
Qed.

(** * Whatever happens *)
Lemma write_gap : forall c k m i, k <= L -> i < k -> length c <= i -> nth_error (write_at c k (firstn m (skipn k e))) i = Some zero.
Proof.
  intros c k m i Hk H1 H2. unfold CacheRaceModel.write_at. rewrite nth_error_app1 by (rewrite (head_length c k m Hk); exact H1). rewrite nth_error_firstn_lt by exact H1. rewrite nth_error_app2 by exact H2.
  apply nth_error_repeat. lia.
Qed.
Notation rz := (right_or_zero zero e).
Definition sane (s : state) (x : phase B V) : Prop :=
  match x with
  | Reading buf => rz buf
  | Writing k => k <= L
  | Ended (Return w) => w = v \/ exists b, rz b /\ load b = inl w
  | _ => True
  end.
Definition sound_ (s : state) : Prop := (forall c, file s = Some c -> rz c) /\ forall p, sane s (at_ s p).
Lemma rz_write : forall c k m, k <= L -> rz c -> rz (write_at c k (firstn m (skipn k e))).
Proof.
  intros c k m Hk [Hl H]. split; [rewrite write_length by exact Hk; lia|]. intros i b E. destruct (Nat.lt_ge_cases i k) as [H1|H1].
  - destruct (Nat.lt_ge_cases i (length c)) as [H2|H2]; [rewrite write_before in E by assumption; auto|rewrite write_gap in E by assumption; left; congruence].
  - destruct (Nat.lt_ge_cases i (k + Nat.min m (L - k))) as [H2|H2]; [rewrite write_inside in E by assumption; auto|rewrite write_after in E by assumption; auto].
Qed.
Lemma rz_read : forall buf c n, rz buf -> rz c -> rz (buf ++ firstn n (skipn (length buf) c)).
Proof.
  intros buf c n [Hl H] [Hl' H']. split; [rewrite app_length, firstn_length, skipn_length; lia|]. intros i b E. destruct (Nat.lt_ge_cases i (length buf)) as [Hi|Hi]; [rewrite nth_error_app1 in E by exact Hi; auto|].
  rewrite nth_error_app2 in E by exact Hi. assert (K : i - length buf < n). { destruct (Nat.lt_ge_cases (i - length buf) n) as [K|K]; [exact K|]. rewrite (proj2 (nth_error_None _ _)) in E by (rewrite firstn_length; lia). discriminate. }
  rewrite nth_error_firstn_lt, nth_error_skipn in E by exact K. replace (length buf + (i - length buf)) with i in E by lia. auto.
Qed.
Lemma sound_happen : forall s ev, sound_ s -> sound_ (happen s ev).
Proof.
  intros s ev HS. pose proof HS as [H1 H2]. assert (M : forall p x s', (forall c, file s' = Some c -> rz c) -> (forall q, at_ s' q = at_ s q) -> sane s x -> sound_ (move B V p x s')).
  { intros p x s' Ha Hb Hx. split; [exact Ha|]. intros q. rewrite at_move. destruct (q =? p); [exact Hx|]. rewrite Hb. apply H2. }
  destruct ev as [p|p n|p]; cbn [CacheRaceModel.happen].
  - destruct (running B V (at_ s p)); [exact HS|]. apply M; auto. exact I.
  - unfold CacheRaceModel.step. pose proof (H2 p) as Hp. destruct (at_ s p) as [| | | |buf| |k|o|] eqn:Ep; try exact HS.
    + apply M; auto. destruct (dir s); exact I.
    + destruct (dir s); (apply M; auto; exact I).
    + apply M; auto. destruct (file s); [|exact I]. split; [cbn; lia|]. intros [|i] b; discriminate.
    + destruct (file s) as [c|] eqn:Ef; [|apply M; auto; [rewrite Ef; exact H1|exact I]]. destruct (firstn (S n) (skipn (length buf) c)) as [|b t] eqn:Ec; (apply M; auto; [rewrite Ef; exact H1|]).
      * unfold loaded. destruct (load buf) as [w|x] eqn:El; [cbn; right; exists buf; auto|]. destruct (String.eqb x "ValueError"); exact I.
      * rewrite <- Ec. apply rz_read; [exact Hp|apply H1; reflexivity].
    + apply M; auto; [|cbn; lia]. cbn [file store]. intros c Hc. injection Hc as <-. split; [cbn; lia|]. intros [|i] b; discriminate.
    + apply M; auto.
      * cbn [file store]. intros c Hc. injection Hc as <-. apply (rz_write _ k (S n)); [exact Hp|]. destruct (file s); [apply H1; reflexivity|]. split; [cbn; lia|]. intros [|i] b; discriminate.
      * destruct (Nat.leb_spec L (k + S n)); cbn; [left; reflexivity|lia].
  - apply M; auto. exact I.
Qed.
Lemma rz_prefix : forall n, rz (firstn n e).
Proof.
  intros n. split; [rewrite firstn_length; lia|]. intros i b E. right. destruct (Nat.lt_ge_cases i n) as [H|H]; [rewrite nth_error_firstn_lt in E by exact H; exact E|].
  rewrite (proj2 (nth_error_None _ _)) in E by (rewrite firstn_length; lia). discriminate.
Qed.
Lemma corruption : forall s h, fresh e s ->
  (forall c, file (run s h) = Some c -> rz c) /\ forall p w, at_ (run s h) p = Ended (Return w) -> w = v \/ exists b, rz b /\ load b = inl w.
Proof.
  intros s h [Hi Hf]. assert (HS : sound_ (run s h)).
  { assert (H0 : sound_ s) by (split; [intros c Hc; destruct (Hf c Hc) as [n ->]; apply rz_prefix|intros p; rewrite Hi; exact I]). clear Hi Hf. revert s H0. induction h as [|ev h IH]; intros s H0; [exact H0|]. apply (IH (happen s ev)). apply sound_happen. exact H0. }
  destruct HS as [H1 H2]. split; [exact H1|]. intros p w K. specialize (H2 p). rewrite K in H2. exact H2.
Qed.
End Facts.

(** * A check of [throughout one_writer], for examples *)
Definition actor (ev : event) : nat := match ev with Begin p => p | Step p _ => p | Crash p => p end.
Definition writes {B V} (x : phase B V) : bool := match x with Writing _ => true | _ => false end.
Definition check_state {B V} (N : nat) (s : state B V) : bool :=
  forallb (fun p => forallb (fun q => negb (writes (at_ s p) && writes (at_ s q)) || (p =? q)) (seq 0 N)) (seq 0 N).
Definition check_history {B V} (N : nat) (zero : B) (v : V) e load s h : bool :=
  forallb (fun ev => actor ev <? N) h && forallb (fun n => check_state N (run B V zero v e load s (firstn n h))) (seq 0 (S (length h))).
Lemma step_other : forall B V zero v e load s ev q, q <> actor ev -> at_ (happen B V zero v e load s ev) q = at_ s q.
Proof.
  intros B V zero v e load s ev q H. apply Nat.eqb_neq in H. destruct ev as [p|p n|p]; cbn [happen actor] in *.
  - destruct (running B V (at_ s p)); [reflexivity|]. rewrite at_move, H. reflexivity.
  - unfold step. destruct (at_ s p); try reflexivity; rewrite ?at_move, ?H; try reflexivity.
    + destruct (dir s); rewrite at_move, H; reflexivity.
    + destruct (file s) as [c|]; [|rewrite at_move, H; reflexivity]. destruct (firstn _ _); rewrite at_move, H; reflexivity.
  - rewrite at_move, H. reflexivity.
Qed.
Lemma run_other : forall B V zero v e load N h s q, forallb (fun ev => actor ev <? N) h = true -> N <= q -> at_ (run B V zero v e load s h) q = at_ s q.
Proof.
  intros B V zero v e load N. induction h as [|ev h IH]; intros s q H Hq; [reflexivity|]. cbn [forallb] in H. apply andb_prop in H. destruct H as [H1 H2]. apply Nat.ltb_lt in H1.
  change (run B V zero v e load s (ev :: h)) with (run B V zero v e load (happen B V zero v e load s ev) h). rewrite IH by assumption. apply step_other. lia.
Qed.
Lemma check_ok : forall B V N (zero : B) (v : V) e load s h, (forall p, at_ s p = Idle) -> check_history N zero v e load s h = true -> throughout zero v e load one_writer s h.
Proof.
  intros B V N zero v e load s h Hi C h1 h2 E. apply andb_prop in C. destruct C as [C1 C2]. rewrite forallb_forall in C2.
  specialize (C2 (length h1)). rewrite E, firstn_app, Nat.sub_diag, firstn_all, firstn_O, app_nil_r in C2.
  assert (C : check_state N (run B V zero v e load s h1) = true) by (apply C2; apply in_seq; rewrite app_length; lia). clear C2.
  assert (A : forallb (fun ev => actor ev <? N) h1 = true) by (rewrite E, forallb_app in C1; apply andb_prop in C1; apply C1).
  assert (K : forall p j, at_ (run B V zero v e load s h1) p = Writing j -> p < N).
  { intros p j H. destruct (Nat.lt_ge_cases p N) as [Hp|Hp]; [exact Hp|]. rewrite (run_other _ _ _ _ _ _ N) in H by assumption. rewrite Hi in H. discriminate. }
  intros p q j k Hp Hq. unfold check_state in C. rewrite forallb_forall in C. specialize (C p). rewrite forallb_forall in C.
  assert (C' : negb (writes (at_ (run B V zero v e load s h1) p) && writes (at_ (run B V zero v e load s h1) q)) || (p =? q) = true).
  { apply C; apply in_seq; [pose proof (K p j Hp)|pose proof (K q k Hq)]; lia. }
  rewrite Hp, Hq in C'. cbn in C'. apply Nat.eqb_eq. exact C'.
Qed.
