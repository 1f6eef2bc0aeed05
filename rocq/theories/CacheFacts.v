(** The result cache *)
From Coq Require Import String List Bool Arith Lia.
From Verif Require Import Base PyBase CacheModel CacheSpec.
Import ListNotations.
Local Open Scope string_scope. Local Open Scope list_scope. Local Open Scope nat_scope.

Lemma append_inj : forall x y s t : string, String.length s = String.length t -> (x ++ s = y ++ t)%string -> x = y /\ s = t.
Proof.
  assert (Hlen : forall x y, String.length (x ++ y)%string = String.length x + String.length y) by (induction x as [|c x IH]; intros y; cbn; [reflexivity|rewrite IH; reflexivity]).
  induction x as [|c x IH]; intros [|c' y] s t H E; cbn in E.
  - auto.
  - subst s. cbn in H. rewrite Hlen in H. lia.
  - subst t. cbn in H. rewrite Hlen in H. lia.
  - injection E as -> E. destruct (IH y s t H E) as [-> ->]. auto.
Qed.
Lemma length_append : forall x y, String.length (x ++ y)%string = String.length x + String.length y.
Proof. induction x as [|c x IH]; intros y; cbn; [reflexivity|rewrite IH; reflexivity]. Qed.
Lemma substring_whole : forall s, String.substring 0 (String.length s) s = s.
Proof. induction s as [|c s IH]; [reflexivity|]. cbn. rewrite IH. reflexivity. Qed.
Lemma substring_append : forall x s, String.substring (String.length x) (String.length s) (x ++ s)%string = s.
Proof. induction x as [|c x IH]; intros s; [apply substring_whole|]. cbn. apply IH. Qed.
Lemma ends_append : forall t x s, String.length s = String.length t -> ends_with t (x ++ s)%string = String.eqb s t.
Proof.
  intros t x s H. unfold ends_with. rewrite length_append. replace (String.length t <=? String.length x + String.length s) with true by (symmetry; apply Nat.leb_le; lia). cbn [andb].
  replace (String.length x + String.length s - String.length t) with (String.length x) by lia. rewrite <- H, substring_append. reflexivity.
Qed.

Section Cache.
Variable A V : Type.
Variable f : A -> res V.
Variable savefile : A -> string.
Variable is_sparse : V -> bool.
Variable extended as_int : V -> V.
Variable close : V -> V -> bool.
Variable quiet : bool.
Hypothesis plain : forall a, ends_with ".npy" (savefile a) = false /\ ends_with ".npz" (savefile a) = false.
Hypothesis no_collision : forall a b, savefile a = savefile b -> f a = f b.
Hypothesis same_close : forall v, close v (if is_sparse v then v else extended v) = true.
Hypothesis sparse_int : forall v, is_sparse v = true -> as_int v = as_int (extended v).
Notation consistent := (consistent f savefile is_sparse).
Notation wrapper := (wrapper A V f savefile is_sparse extended as_int close quiet).
Notation faithful := (faithful (fun v => as_int (extended v))).

Lemma write_other : forall name c (d : disk V) n, n <> name -> write V name c d n = d n.
Proof. intros name c d n H. unfold write. rewrite (proj2 (String.eqb_neq n name) H). reflexivity. Qed.
Lemma write_same : forall name c (d : disk V), write V name c d name = c.
Proof. intros name c d. unfold write. rewrite String.eqb_refl. reflexivity. Qed.
Lemma no_suffix : forall a b, savefile a <> (savefile b ++ ".npy")%string /\ savefile a <> (savefile b ++ ".npz")%string.
Proof. intros a b. destruct (plain a) as [P1 P2]. split; intros G; rewrite G in *; rewrite ends_append in *; try discriminate; reflexivity. Qed.

Lemma consistent_write : forall d name c, consistent d ->
  (forall a v, c = Some (Good v) -> name = (savefile a ++ ".npy")%string -> f a = Ok v /\ is_sparse v = false) -> (forall a v, c = Some (Good v) -> name = (savefile a ++ ".npz")%string -> f a = Ok v /\ is_sparse v = true) -> consistent (write V name c d).
Proof.
  intros d name c Hd H1 H2 a w. unfold write. split; intros G.
  - destruct (String.eqb_spec (savefile a ++ ".npy")%string name) as [E|E]; [apply H1; [exact G|symmetry; exact E]|apply (Hd a w); exact G].
  - destruct (String.eqb_spec (savefile a ++ ".npz")%string name) as [E|E]; [apply H2; [exact G|symmetry; exact E]|apply (Hd a w); exact G].
Qed.

(** the names a result may be saved under *)
Definition a_name (a : A) (name : string) : Prop := name = savefile a \/ name = (savefile a ++ ".npy")%string \/ name = (savefile a ++ ".npz")%string.
Lemma save_consistent : forall d a v name, consistent d -> f a = Ok v -> a_name a name -> consistent (save V is_sparse name v d).
Proof.
  intros d a v name Hd Hf Hn. unfold save. destruct (plain a) as [P1 P2].
  assert (Hw : forall sfx, sfx = (if is_sparse v then ".npz" else ".npy") -> with_suffix sfx name = (savefile a ++ sfx)%string \/ exists o, (o = ".npy" \/ o = ".npz") /\ with_suffix sfx name = ((savefile a ++ o) ++ sfx)%string).
  { intros sfx Hs. unfold with_suffix. assert (Hs' : sfx = ".npy" \/ sfx = ".npz") by (destruct (is_sparse v); auto). destruct Hn as [->|[->| ->]].
    - left. destruct Hs' as [->| ->]; [rewrite P1|rewrite P2]; reflexivity.
    - rewrite ends_append by (destruct Hs' as [->| ->]; reflexivity). destruct Hs' as [->| ->]; [left; reflexivity|]. right. exists ".npy". split; [auto|reflexivity].
    - rewrite ends_append by (destruct Hs' as [->| ->]; reflexivity). destruct Hs' as [->| ->]; [right; exists ".npz"; split; [auto|reflexivity]|left; reflexivity]. }
  specialize (Hw _ eq_refl).
  assert (Hsfx : forall b sfx, (sfx = ".npy" \/ sfx = ".npz") -> with_suffix (if is_sparse v then ".npz" else ".npy") name = (savefile b ++ sfx)%string -> savefile b = savefile a /\ sfx = (if is_sparse v then ".npz" else ".npy")).
  { intros b sfx Hs E. assert (Hl : String.length (if is_sparse v then ".npz" else ".npy") = String.length sfx) by (destruct Hs as [->| ->]; destruct (is_sparse v); reflexivity). destruct Hw as [Hw|(o & Ho & Hw)]; rewrite Hw in E; apply append_inj in E as [E1 E2]; auto.
    exfalso. destruct (no_suffix b a) as [G1 G2]. destruct Ho as [->| ->]; [apply G1|apply G2]; symmetry; exact E1. }
  apply consistent_write; [exact Hd| |]; intros b w Ew Eb; injection Ew as ->; [destruct (Hsfx b ".npy" (or_introl eq_refl) Eb) as [E1 E2]|destruct (Hsfx b ".npz" (or_intror eq_refl) Eb) as [E1 E2]]; (split; [rewrite (no_collision b a E1); exact Hf|]); destruct (is_sparse w); try reflexivity; discriminate E2.
Qed.

Lemma compute_ok : forall s a name cached d, consistent d -> a_name a name -> (forall sp w, cached = Some (sp, w) -> exists v, f a = Ok v /\ sp = is_sparse v /\ w = if is_sparse v then v else extended v) ->
  consistent (snd (fst (compute A V f is_sparse close quiet s a name cached d))) /\ fst (fst (compute A V f is_sparse close quiet s a name cached d)) = f a.
Proof.
  intros s a name cached d Hd Hn Hc. unfold compute. destruct (f a) as [v| | | |] eqn:Ef; cbn; auto. destruct cached as [[sp w]|].
  - destruct (Hc sp w eq_refl) as (v' & E1 & E2 & E3). injection E1 as <-. subst sp w. rewrite Bool.eqb_reflx, same_close, andb_false_r. cbn. auto.
  - cbn. split; [|reflexivity]. destruct s; [|exact Hd]. apply (save_consistent d a v name Hd Ef Hn).
Qed.

Lemma wrapper_ok : forall s a kw d, consistent d -> value_errors d -> consistent (snd (fst (wrapper s a kw d))) /\ faithful (f a) (fst (fst (wrapper s a kw d))).
Proof.
  intros s a kw d Hd Hv. unfold CacheModel.wrapper.
  assert (Hcomp : forall name cached, a_name a name -> (forall sp w, cached = Some (sp, w) -> exists v, f a = Ok v /\ sp = is_sparse v /\ w = if is_sparse v then v else extended v) ->
    consistent (snd (fst (compute A V f is_sparse close quiet s a name cached d))) /\ faithful (f a) (fst (fst (compute A V f is_sparse close quiet s a name cached d)))).
  { intros name cached H1 H2. destruct (compute_ok s a name cached d Hd H1 H2) as [G1 G2]. split; [exact G1|]. left. exact G2. }
  destruct (d (savefile a ++ ".npy")%string) as [c|] eqn:E1.
  - destruct c as [v|e]; cbn [load].
    + destruct (proj1 (Hd a v) E1) as [F1 F2]. destruct (match kw with Some b => b | None => s end).
      * cbn. split; [exact Hd|]. right. exists v. auto.
      * apply Hcomp; [right; left; reflexivity|]. intros sp w G. injection G as <- <-. exists v. rewrite F2. auto.
    + rewrite (Hv _ _ E1). cbn. apply Hcomp; [right; left; reflexivity|discriminate].
  - destruct (d (savefile a ++ ".npz")%string) as [c|] eqn:E2.
    + destruct c as [v|e]; cbn [load].
      * destruct (proj2 (Hd a v) E2) as [F1 F2]. destruct (match kw with Some b => b | None => s end).
        -- cbn. split; [exact Hd|]. right. exists v. split; [exact F1|]. rewrite (sparse_int v F2). reflexivity.
        -- apply Hcomp; [right; right; reflexivity|]. intros sp w G. injection G as <- <-. exists v. rewrite F2. auto.
      * rewrite (Hv _ _ E2). cbn. apply Hcomp; [right; right; reflexivity|discriminate].
    + apply Hcomp; [left; reflexivity|discriminate].
Qed.

Lemma wrapper_errors : forall s a kw d, value_errors d -> value_errors (snd (fst (wrapper s a kw d))).
Proof.
  intros s a kw d Hv. unfold CacheModel.wrapper, compute, save.
  assert (Hw : forall n v, value_errors (write V n (Some (Good v)) d)) by (intros n v n' e; unfold write; destruct (String.eqb n' n); [discriminate|apply Hv]).
  repeat match goal with |- context [match ?x with _ => _ end] => destruct x end; cbn; auto.
Qed.

Theorem history_ok : forall h s d, consistent d -> value_errors d -> only_value_errors h -> forall a out, In (a, out) (history A V f savefile is_sparse extended as_int close quiet h s d) -> faithful (f a) out.
Proof.
  induction h as [|[b kw|b|name e|name] h IH]; intros s d Hd Hv Hh a out Hin; [destruct Hin| | | |]; cbn [history] in Hin; assert (Hh' : only_value_errors h) by (intros n e' G; apply (Hh n e'); right; exact G).
  - destruct (wrapper s b kw d) as [[out' d'] called] eqn:Ew. assert (Hw := wrapper_ok s b kw d Hd Hv). assert (He := wrapper_errors s b kw d Hv). rewrite Ew in Hw, He. cbn [fst snd] in Hw, He. destruct Hin as [Hin|Hin]; [injection Hin as <- <-; apply Hw|]. apply (IH s d'); [apply Hw|exact He|exact Hh'|exact Hin].
  - apply (IH b d); assumption.
  - apply (IH s (write V name (Some (Bad e)) d)); [| |exact Hh'|exact Hin].
    + apply consistent_write; [exact Hd| |]; intros; discriminate.
    + intros n e'. unfold write. destruct (String.eqb n name); [intros G; injection G as <-; apply (Hh name e); left; reflexivity|apply Hv].
  - apply (IH s (write V name None d)); [| |exact Hh'|exact Hin].
    + apply consistent_write; [exact Hd| |]; intros; discriminate.
    + intros n e'. unfold write. destruct (String.eqb n name); [discriminate|apply Hv].
Qed.
(** A call that stores its result, and a later call that looks it up. *)
Theorem stored_once : forall a v d kw, f a = Ok v -> d (savefile a ++ ".npy")%string = None -> d (savefile a ++ ".npz")%string = None ->
  exists d', wrapper true a kw d = (Ok v, d', true) /\ (forall n, d' n <> d n -> n = (savefile a ++ (if is_sparse v then ".npz" else ".npy"))%string) /\
    forall s kw', (match kw' with Some b => b | None => s end) = true -> wrapper s a kw' d' = (Ok (as_int (if is_sparse v then v else extended v)), d', false).
Proof.
  intros a v d kw Ef H1 H2. unfold CacheModel.wrapper. rewrite H1, H2. unfold compute. rewrite Ef. eexists. split; [reflexivity|].
  assert (Es : save V is_sparse (savefile a) v d = write V (savefile a ++ (if is_sparse v then ".npz" else ".npy"))%string (Some (Good v)) d).
  { unfold save, with_suffix. destruct (is_sparse v); [rewrite (proj2 (plain a))|rewrite (proj1 (plain a))]; reflexivity. }
  rewrite Es. split.
  - intros n Hn. destruct (string_dec n (savefile a ++ (if is_sparse v then ".npz" else ".npy"))%string) as [E|E]; [exact E|]. rewrite write_other in Hn by exact E. contradiction.
  - intros s kw' ->. destruct (is_sparse v).
    + rewrite (write_other _ _ d (savefile a ++ ".npy")%string), H1 by (intros G; apply append_inj in G as [_ G]; [discriminate G|reflexivity]). rewrite write_same. reflexivity.
    + rewrite write_same. reflexivity.
Qed.
(** settings['cache'] off: nothing is written. *)
Theorem nothing_written : forall a d kw, snd (fst (wrapper false a kw d)) = d.
Proof.
  intros a d kw. unfold CacheModel.wrapper, compute. repeat match goal with |- context [match ?x with _ => _ end] => destruct x end; reflexivity.
Qed.
(** A file that cannot be loaded for another reason than a ValueError is fatal. *)
Theorem unreadable : forall s a d kw e, d (savefile a ++ ".npy")%string = Some (Bad e) -> e <> "ValueError" -> wrapper s a kw d = (Throw e, d, false).
Proof.
  intros s a d kw e Hd He. unfold CacheModel.wrapper. rewrite Hd. cbn [load]. rewrite (proj2 (String.eqb_neq _ _) He). reflexivity.
Qed.
(** A sparse result is never stored where it is looked up if there is a damaged file in the other format. *)
Theorem sparse_lost : forall s a v d kw, f a = Ok v -> is_sparse v = true -> d (savefile a ++ ".npy")%string = Some (Bad "ValueError") ->
  let '(out, d', called) := wrapper s a kw d in out = Ok v /\ called = true /\ d' (savefile a ++ ".npy")%string = Some (Bad "ValueError").
Proof.
  intros s a v d kw Ef Hs Hd. unfold CacheModel.wrapper. rewrite Hd. cbn [load String.eqb]. unfold compute. rewrite Ef. split; [reflexivity|]. split; [reflexivity|].
  destruct s; [|exact Hd]. unfold save. rewrite Hs. unfold with_suffix. rewrite ends_append by reflexivity. change (String.eqb ".npy" ".npz") with false. cbv iota. rewrite write_other; [exact Hd|].
  intros G. apply (f_equal String.length) in G. rewrite !length_append in G. cbn in G. lia.
Qed.
End Cache.
