(** Facts about the compiled functions in /tmp, C44. *)
From Coq Require Import String List Bool Arith Lia.
From Verif Require Import Base Num Fnum CalcModel InternModel InternSpec.
Import ListNotations.
Local Open Scope string_scope. Local Open Scope list_scope. Local Open Scope nat_scope.

Lemma substring_all : forall s k, String.length s <= k -> String.substring 0 k s = s.
Proof. induction s as [|a s IH]; intros k H; [destruct k; reflexivity|]. destruct k as [|k]; [cbn in H; lia|]. cbn [String.substring]. f_equal. apply IH. cbn in H. lia. Qed.

Section Facts.
Variable F : fnum.
Variable junk : F.
Variable name : string -> string.
Variable compiler : string -> option (list F -> F).
Notation run := (run F junk name compiler).
Notation exec := (exec F junk name compiler).
Definition result_ok (c : call F) (r : res (list F)) : Prop := match compiler (source (c_body c)) with Some _ => right F junk compiler c r | None => r = Ub end.
Variable bodies : string -> Prop.
Hypothesis inj : forall b b', bodies b -> bodies b' -> name b = name b' -> b = b'.

Definition stage_ok (t : tmp F) (c : call F) : Prop :=
  let n := name (c_body c) in
  match c_stage c with
  | Test => True
  | Open | Write => so t n = None
  | Compile => so t n = None /\ cpp t n = Some (source (c_body c))
  | Link f => so t n = Some Partial /\ compiler (source (c_body c)) = Some f
  | Load => match compiler (source (c_body c)) with Some _ => exists f, so t n = Some (Complete f) | None => so t n = None end
  | Returned r => result_ok c r
  end.
Definition inv (s : system F) : Prop :=
  (forall n o, so (files s) n = Some o -> (exists body func, bodies body /\ name body = n /\ compiler (source body) = Some func /\ o = Complete func) \/
     (o = Partial /\ exists pid c func, calls s pid = Some c /\ c_stage c = Link func /\ name (c_body c) = n)) /\
  (forall pid c, calls s pid = Some c -> bodies (c_body c) /\ stage_ok (files s) c).

Lemma set_file_eq : forall A (f : string -> option A) n x, set_file f n x n = Some x.
Proof. intros. unfold set_file. rewrite String.eqb_refl. reflexivity. Qed.
Lemma set_file_neq : forall A (f : string -> option A) n m x, m <> n -> set_file f n x m = f m.
Proof. intros A f n m x H. unfold set_file. apply String.eqb_neq in H. rewrite H. reflexivity. Qed.
Lemma set_call_eq : forall (s : nat -> option (call F)) p c, set_call s p c p = c.
Proof. intros. unfold set_call. rewrite Nat.eqb_refl. reflexivity. Qed.
Lemma set_call_neq : forall (s : nat -> option (call F)) p q c, q <> p -> set_call s p c q = s q.
Proof. intros s p q c H. unfold set_call. apply Nat.eqb_neq in H. rewrite H. reflexivity. Qed.
Lemma stage_frame : forall t t' c, so t' (name (c_body c)) = so t (name (c_body c)) -> cpp t' (name (c_body c)) = cpp t (name (c_body c)) -> stage_ok t c -> stage_ok t' c.
Proof. intros t t' c H1 H2. unfold stage_ok. rewrite H1, H2. exact (fun x => x). Qed.
Lemma stage_done : forall t t' c, live c = false -> stage_ok t c -> stage_ok t' c.
Proof. intros t t' c H. unfold stage_ok, live in *. destruct (c_stage c); try discriminate H. exact (fun x => x). Qed.

(** A step that keeps the files *)
Lemma inv_quiet : forall s pid c c', inv s -> calls s pid = Some c -> c_body c' = c_body c -> stage_ok (files s) c' -> (forall f, c_stage c <> Link f) -> inv (Sys (files s) (set_call (calls s) pid (Some c'))).
Proof.
  intros s pid c c' [A B] Hc Hb Hs Hl. split; cbn [files calls].
  - intros n o Ho. destruct (A n o Ho) as [H|(H1 & p & d & f & H2 & H3 & H4)]; [left; exact H|]. right. split; [exact H1|]. exists p, d, f. split; [|split; assumption]. rewrite set_call_neq; [exact H2|]. intros ->. rewrite Hc in H2. injection H2 as <-. exact (Hl f H3).
  - intros p d Hd. destruct (Nat.eq_dec p pid) as [->|Hp]; [|rewrite set_call_neq in Hd by exact Hp; exact (B p d Hd)].
    rewrite set_call_eq in Hd. injection Hd as <-. split; [rewrite Hb; exact (proj1 (B pid c Hc))|exact Hs].
Qed.
(** A step of a call that is making its object *)
Lemma inv_build : forall s pid c c' t', inv s -> exclusive name s -> calls s pid = Some c -> building c -> c_body c' = c_body c ->
  (forall m, m <> name (c_body c) -> so t' m = so (files s) m /\ cpp t' m = cpp (files s) m) -> stage_ok t' c' ->
  (forall o, so t' (name (c_body c)) = Some o -> (exists f, o = Complete f /\ compiler (source (c_body c)) = Some f) \/ (o = Partial /\ exists f, c_stage c' = Link f)) ->
  inv (Sys t' (set_call (calls s) pid (Some c'))).
Proof.
  intros s pid c c' t' [A B] He Hc Hbu Hb Hf Hs Ho. split; cbn [files calls].
  - intros n o Hn. destruct (String.eqb_spec n (name (c_body c))) as [->|Hne].
    + destruct (Ho o Hn) as [(f & H1 & H2)|(H1 & f & H2)].
      * left. exists (c_body c), f. split; [exact (proj1 (B pid c Hc))|]. split; [reflexivity|]. split; assumption.
      * right. split; [exact H1|]. exists pid, c', f. split; [apply set_call_eq|]. split; [exact H2|]. rewrite Hb. reflexivity.
    + rewrite (proj1 (Hf n Hne)) in Hn. destruct (A n o Hn) as [H|(H1 & p & d & f & H2 & H3 & H4)]; [left; exact H|]. right. split; [exact H1|]. exists p, d, f. split; [|split; assumption].
      rewrite set_call_neq; [exact H2|]. intros ->. rewrite Hc in H2. injection H2 as <-. exact (Hne (eq_sym H4)).
  - intros p d Hd. destruct (Nat.eq_dec p pid) as [->|Hp].
    + rewrite set_call_eq in Hd. injection Hd as <-. split; [rewrite Hb; exact (proj1 (B pid c Hc))|exact Hs].
    + rewrite set_call_neq in Hd by exact Hp. destruct (B p d Hd) as [B1 B2]. split; [exact B1|]. destruct (live d) eqn:Hl; [|exact (stage_done _ _ _ Hl B2)].
      assert (Hne := He pid p c d Hc Hd (fun e => Hp (eq_sym e)) Hbu Hl). destruct (Hf (name (c_body d)) (fun e => Hne (eq_sym e))) as [F1 F2]. exact (stage_frame _ _ _ F1 F2 B2).
Qed.

Lemma inv_step : forall s pid k c, inv s -> exclusive name s -> calls s pid = Some c -> inv (let '(c, t) := step F junk name compiler k c (files s) in Sys t (set_call (calls s) pid (Some c))).
Proof.
  intros s pid k c Hi He Hc. destruct Hi as [A B] eqn:Ei. clear Ei. destruct (B pid c Hc) as [B1 B2]. unfold stage_ok in B2. unfold step. destruct (c_stage c) as [| | | |f| |r] eqn:Es; cbn zeta.
  - destruct (so (files s) (name (c_body c))) as [o|] eqn:Eo.
    + apply (inv_quiet s pid c); [exact Hi|exact Hc|reflexivity| |intros f; rewrite Es; discriminate]. unfold stage_ok. cbn [c_stage at_stage c_body].
      destruct (A _ _ Eo) as [(b & f & H1 & H2 & H3 & ->)|(-> & p & d & f & H2 & H3 & H4)]; [rewrite <- (inj b (c_body c) H1 B1 H2), H3; exists f; rewrite H2; exact Eo|]. exfalso. assert (Hp : p <> pid) by (intros ->; rewrite Hc in H2; injection H2 as <-; rewrite Es in H3; discriminate H3).
      apply (He p pid d c H2 Hc Hp); [unfold building; rewrite H3; exact I|unfold live; rewrite Es; reflexivity|exact H4].
    + apply (inv_quiet s pid c); [exact Hi|exact Hc|reflexivity| |intros f; rewrite Es; discriminate]. exact Eo.
  - apply (inv_build s pid c); [exact Hi|exact He|exact Hc|unfold building; rewrite Es; exact I|reflexivity| | |].
    + intros m Hm. cbn [so cpp set_cpp]. rewrite set_file_neq by exact Hm. split; reflexivity.
    + unfold stage_ok. cbn [c_stage at_stage c_body so set_cpp]. exact B2.
    + cbn [so set_cpp]. intros o Ho. rewrite B2 in Ho. discriminate Ho.
  - apply (inv_build s pid c); [exact Hi|exact He|exact Hc|unfold building; rewrite Es; exact I|reflexivity| | |].
    + intros m Hm. cbn [so cpp set_cpp]. rewrite set_file_neq by exact Hm. split; reflexivity.
    + unfold stage_ok. cbn [c_stage at_stage c_body so cpp set_cpp]. destruct (Nat.leb_spec (String.length (source (c_body c))) k) as [Hk|Hk]; [|exact B2]. split; [exact B2|]. rewrite set_file_eq, substring_all by exact Hk. reflexivity.
    + cbn [so set_cpp]. intros o Ho. rewrite B2 in Ho. discriminate Ho.
  - destruct B2 as [B2 B3]. rewrite B3. destruct (compiler (source (c_body c))) as [f|] eqn:Ef.
    2: { apply (inv_quiet s pid c); [exact Hi|exact Hc|reflexivity| |intros f; rewrite Es; discriminate]. unfold stage_ok. cbn [c_stage at_stage c_body]. rewrite Ef. exact B2. }
    apply (inv_build s pid c); [exact Hi|exact He|exact Hc|unfold building; rewrite Es; exact I|reflexivity| | |].
    + intros m Hm. cbn [so cpp set_so]. rewrite set_file_neq by exact Hm. split; reflexivity.
    + unfold stage_ok. cbn [c_stage at_stage c_body so set_so]. rewrite set_file_eq. split; [reflexivity|exact Ef].
    + cbn [so set_so]. rewrite set_file_eq. intros o Ho. injection Ho as <-. right. split; [reflexivity|]. exists f. reflexivity.
  - destruct B2 as [B2 B3]. apply (inv_build s pid c); [exact Hi|exact He|exact Hc|unfold building; rewrite Es; exact I|reflexivity| | |].
    + intros m Hm. cbn [so cpp set_so]. rewrite set_file_neq by exact Hm. split; reflexivity.
    + unfold stage_ok. cbn [c_stage at_stage c_body so set_so]. rewrite B3, set_file_eq. exists f. reflexivity.
    + cbn [so set_so]. rewrite set_file_eq. intros o Ho. injection Ho as <-. left. exists f. split; [reflexivity|exact B3].
  - apply (inv_quiet s pid c); [exact Hi|exact Hc|reflexivity| |intros g; rewrite Es; discriminate]. unfold stage_ok, result_ok. cbn [c_stage at_stage c_body]. destruct (compiler (source (c_body c))) as [h|] eqn:Eh; [|rewrite B2; reflexivity].
    destruct B2 as [f B2]. rewrite B2. destruct (A _ _ B2) as [(b & g & H1 & H2 & H3 & H4)|[H _]]; [|discriminate H]. injection H4 as ->. rewrite (inj b (c_body c) H1 B1 H2), Eh in H3. injection H3 as ->. exists g. split; [exact Eh|reflexivity].
  - apply (inv_quiet s pid c); [exact Hi|exact Hc|reflexivity|exact (proj2 (B pid c Hc))|intros f; rewrite Es; discriminate].
Qed.

Lemma inv_exec : forall s e, inv s -> exclusive name s -> (forall pid body nodes t d, e = Start pid body nodes t d -> bodies body) ->
  (forall pid c f, e = Crash pid -> calls s pid = Some c -> c_stage c <> Link f) -> inv (exec s e).
Proof.
  intros s e Hi He Hu Hl. destruct e as [pid body nodes t d|pid k|pid]; cbn [InternModel.exec].
  - destruct (match calls s pid with Some c => live c | None => false end) eqn:El; [exact Hi|]. destruct Hi as [A B]. split; cbn [files calls].
    + intros n o Ho. destruct (A n o Ho) as [H|(H1 & p & c & f & H2 & H3 & H4)]; [left; exact H|]. right. split; [exact H1|]. exists p, c, f. split; [|split; assumption]. rewrite set_call_neq; [exact H2|].
      intros ->. rewrite H2 in El. unfold live in El. rewrite H3 in El. discriminate El.
    + intros p c Hc. destruct (Nat.eq_dec p pid) as [->|Hp]; [|rewrite set_call_neq in Hc by exact Hp; exact (B p c Hc)]. rewrite set_call_eq in Hc. injection Hc as <-. split; [exact (Hu _ _ _ _ _ eq_refl)|exact I].
  - destruct (calls s pid) as [c|] eqn:Ec; [|exact Hi]. apply inv_step; assumption.
  - destruct Hi as [A B]. split; cbn [files calls].
    + intros n o Ho. destruct (A n o Ho) as [H|(H1 & p & c & f & H2 & H3 & H4)]; [left; exact H|]. right. split; [exact H1|]. exists p, c, f. split; [|split; assumption]. rewrite set_call_neq; [exact H2|].
      intros ->. exact (Hl pid c f eq_refl H2 H3).
    + intros p c Hc. destruct (Nat.eq_dec p pid) as [->|Hp]; [rewrite set_call_eq in Hc; discriminate Hc|rewrite set_call_neq in Hc by exact Hp; exact (B p c Hc)].
Qed.

Lemma inv_run : forall history s, inv s -> uses bodies history -> always F junk name compiler (exclusive name) s history -> no_crash_in_link F junk name compiler s history -> inv (run s history).
Proof.
  induction history as [|e history IH]; intros s Hi Hu He Hl; [exact Hi|]. cbn [InternModel.run fold_left]. apply IH.
  - apply inv_exec; [exact Hi|apply (He [] (e :: history)); reflexivity| |].
    + intros pid body nodes t d ->. apply (Hu pid body nodes t d). left. reflexivity.
    + intros pid c f -> Hc. exact (Hl [] pid history c f eq_refl Hc).
  - intros pid body nodes t d H. apply (Hu pid body nodes t d). right. exact H.
  - intros past future ->. exact (He (e :: past) future eq_refl).
  - intros past pid future c f -> Hc. exact (Hl (e :: past) pid future c f eq_refl Hc).
Qed.
End Facts.

Theorem intern_result : forall (F : fnum) junk name compiler (bodies : string -> Prop), (forall b b', bodies b -> bodies b' -> name b = name b' -> b = b') ->
  forall s history, tidy name compiler bodies (files s) -> (forall pid, calls s pid = None) -> uses bodies history -> always F junk name compiler (exclusive name) s history -> no_crash_in_link F junk name compiler s history ->
  forall pid c r, calls (run F junk name compiler s history) pid = Some c -> c_stage c = Returned r -> result_ok F junk compiler c r.
Proof.
  intros F junk name compiler bodies Hinj s history Ht Hi Hu He Hl pid c r Hc Hr.
  destruct (inv_run F junk name compiler bodies Hinj history s) as [A B]; try assumption.
  - split; [intros n o Ho; left; destruct (Ht n o Ho) as (b & f & H); exists b, f; exact H|]. intros p d Hd. rewrite Hi in Hd. discriminate Hd.
  - destruct (B pid c Hc) as [_ H]. unfold stage_ok in H. rewrite Hr in H. exact H.
Qed.
Theorem intern_right : forall (F : fnum) junk name compiler (bodies : string -> Prop), (forall b b', bodies b -> bodies b' -> name b = name b' -> b = b') ->
  forall s history, tidy name compiler bodies (files s) -> (forall pid, calls s pid = None) -> uses bodies history -> always F junk name compiler (exclusive name) s history -> no_crash_in_link F junk name compiler s history ->
  forall pid c r, calls (run F junk name compiler s history) pid = Some c -> c_stage c = Returned r -> compiler (source (c_body c)) <> None -> right F junk compiler c r.
Proof.
  intros F junk name compiler bodies Hinj s history Ht Hi Hu He Hl pid c r Hc Hr H. assert (K := intern_result F junk name compiler bodies Hinj s history Ht Hi Hu He Hl pid c r Hc Hr).
  unfold result_ok in K. destruct (compiler (source (c_body c))); [exact K|destruct (H eq_refl)].
Qed.
Theorem intern_uncompilable : forall (F : fnum) junk name compiler (bodies : string -> Prop), (forall b b', bodies b -> bodies b' -> name b = name b' -> b = b') ->
  forall s history, tidy name compiler bodies (files s) -> (forall pid, calls s pid = None) -> uses bodies history -> always F junk name compiler (exclusive name) s history -> no_crash_in_link F junk name compiler s history ->
  forall pid c r, calls (run F junk name compiler s history) pid = Some c -> c_stage c = Returned r -> compiler (source (c_body c)) = None -> r = Ub.
Proof.
  intros F junk name compiler bodies Hinj s history Ht Hi Hu He Hl pid c r Hc Hr H. assert (K := intern_result F junk name compiler bodies Hinj s history Ht Hi Hu He Hl pid c r Hc Hr).
  unfold result_ok in K. rewrite H in K. exact K.
Qed.
Lemma one_exclusive : forall (F : fnum) name (s : system F), one_at_a_time s -> exclusive name s.
Proof.
  intros F name s H pid pid' c c' H1 H2 Hne Hb Hl. exfalso. apply Hne. apply (H pid pid' c c' H1 H2); [|exact Hl]. unfold building in Hb. unfold live. destruct (c_stage c); try reflexivity. destruct Hb.
Qed.
Theorem intern_sequential : forall (F : fnum) junk name compiler (bodies : string -> Prop), (forall b b', bodies b -> bodies b' -> name b = name b' -> b = b') ->
  forall s history, tidy name compiler bodies (files s) -> (forall pid, calls s pid = None) -> uses bodies history -> always F junk name compiler one_at_a_time s history -> no_crash_in_link F junk name compiler s history ->
  forall pid c r, calls (run F junk name compiler s history) pid = Some c -> c_stage c = Returned r -> compiler (source (c_body c)) <> None -> right F junk compiler c r.
Proof.
  intros F junk name compiler bodies Hinj s history Ht Hi Hu He Hl. apply (intern_right F junk name compiler bodies Hinj s history Ht Hi Hu); [|exact Hl]. intros past future E. apply one_exclusive. exact (He past future E).
Qed.

(** A call that runs alone returns. *)
Theorem intern_returns : forall (F : fnum) junk name compiler (s : system F) pid body nodes t d k, (forall c, calls s pid = Some c -> live c = false) -> String.length (source body) <= k ->
  exists r, calls (run F junk name compiler s (Start pid body nodes t d :: repeat (Step pid k) 6)) pid = Some (Call body nodes t d (Returned r)).
Proof.
  intros F junk name compiler s pid body nodes t d k Hf Hk.
  assert (E0 : match calls s pid with Some c => live c | None => false end = false) by (destruct (calls s pid) as [c|]; [exact (Hf c eq_refl)|reflexivity]).
  assert (Kb : (String.length (source body) <=? k) = true) by (apply Nat.leb_le; exact Hk).
  assert (X : forall (s : system F) st, calls s pid = Some (Call body nodes t d st) -> forall n, calls (run F junk name compiler s (repeat (Step pid k) (S n))) pid = calls (run F junk name compiler (Sys (snd (step F junk name compiler k (Call body nodes t d st) (files s))) (set_call (calls s) pid (Some (fst (step F junk name compiler k (Call body nodes t d st) (files s)))))) (repeat (Step pid k) n)) pid).
  { intros s0 st H n. cbn [repeat InternModel.run fold_left InternModel.exec]. rewrite H. destruct (step F junk name compiler k (Call body nodes t d st) (files s0)). reflexivity. }
  assert (R : forall n (s : system F) r, calls s pid = Some (Call body nodes t d (Returned r)) -> calls (run F junk name compiler s (repeat (Step pid k) n)) pid = Some (Call body nodes t d (Returned r))).
  { induction n as [|n IH]; intros s0 r H; [exact H|]. rewrite (X s0 _ H). apply IH. cbn [calls]. rewrite set_call_eq. reflexivity. }
  assert (L : forall n (s : system F), calls s pid = Some (Call body nodes t d Load) -> exists r, calls (run F junk name compiler s (repeat (Step pid k) (S n))) pid = Some (Call body nodes t d (Returned r))).
  { intros n s0 H. rewrite (X s0 _ H). eexists. apply R. cbn [calls]. rewrite set_call_eq. reflexivity. }
  cbn [InternModel.run fold_left InternModel.exec]. rewrite E0. match goal with |- context [fold_left _ _ ?a] => set (s1 := a) end.
  change (exists r, calls (run F junk name compiler s1 (repeat (Step pid k) 6)) pid = Some (Call body nodes t d (Returned r))).
  assert (H1 : calls s1 pid = Some (Call body nodes t d Test)) by apply set_call_eq. rewrite (X s1 _ H1). unfold step at 1 2. cbn [c_stage c_body]. destruct (so (files s1) (name body)) as [o|]; cbn [fst snd].
  { apply L. cbn [calls]. rewrite set_call_eq. reflexivity. }
  erewrite X by (cbn [calls]; rewrite set_call_eq; reflexivity). unfold step at 1 2. cbn [c_stage c_body at_stage c_nodes c_translation c_dilation fst snd].
  erewrite X by (cbn [calls]; rewrite set_call_eq; reflexivity). unfold step at 1 2. cbn [c_stage c_body at_stage c_nodes c_translation c_dilation fst snd]. rewrite Kb.
  erewrite X by (cbn [calls]; rewrite set_call_eq; reflexivity). unfold step at 1 2. cbn [c_stage c_body at_stage c_nodes c_translation c_dilation fst snd files cpp set_cpp]. rewrite set_file_eq, substring_all by exact Hk. destruct (compiler (source body)) as [f|]; cbn [fst snd].
  2: { apply L. cbn [calls]. rewrite set_call_eq. reflexivity. }
  erewrite X by (cbn [calls]; rewrite set_call_eq; reflexivity). unfold step at 1 2. cbn [c_stage c_body at_stage c_nodes c_translation c_dilation fst snd]. apply L. cbn [calls]. rewrite set_call_eq. reflexivity.
Qed.

(** An unfinished object is never repaired. *)
Theorem intern_unfinished : forall (F : fnum) junk name compiler (s : system F) n, so (files s) n = Some Partial -> (forall pid c, calls s pid = Some c -> name (c_body c) <> n) ->
  forall history pid c r, calls (run F junk name compiler s history) pid = Some c -> name (c_body c) = n -> c_stage c = Returned r -> r = Ub.
Proof.
  intros F junk name compiler s n Hs Hc history.
  assert (G : so (files (run F junk name compiler s history)) n = Some Partial /\ forall pid c, calls (run F junk name compiler s history) pid = Some c -> name (c_body c) = n -> c_stage c = Test \/ c_stage c = Load \/ c_stage c = Returned Ub).
  2: { intros pid c r H1 H2 H3. destruct (proj2 G pid c H1 H2) as [H|[H|H]]; rewrite H in H3; try discriminate H3. injection H3 as <-. reflexivity. }
  assert (I0 : forall pid c, calls s pid = Some c -> name (c_body c) = n -> c_stage c = Test \/ c_stage c = Load \/ c_stage c = Returned Ub) by (intros pid c H1 H2; destruct (Hc pid c H1 H2)). clear Hc.
  revert s Hs I0. induction history as [|e history IH]; intros s Hs Hc; [split; assumption|]. cbn [InternModel.run fold_left]. apply IH.
  - destruct e as [pid body nodes t d|pid k|pid]; cbn [InternModel.exec].
    + destruct (match calls s pid with Some c => live c | None => false end); exact Hs.
    + destruct (calls s pid) as [c|] eqn:Ec; [|exact Hs]. unfold step. destruct (String.eqb_spec (name (c_body c)) n) as [He|Hne].
      * rewrite He. destruct (Hc pid c Ec He) as [H|[H|H]]; rewrite H; rewrite ?Hs; exact Hs.
      * destruct (c_stage c); try exact Hs.
        -- destruct (so (files s) (name (c_body c))); exact Hs.
        -- destruct (cpp (files s) (name (c_body c))) as [text|]; [|exact Hs]. destruct (compiler text); [|exact Hs]. cbn [files so set_so]. rewrite set_file_neq by congruence. exact Hs.
        -- cbn [files so set_so]. rewrite set_file_neq by congruence. exact Hs.
    + exact Hs.
  - intros p c Hp Hn. destruct e as [pid body nodes t d|pid k|pid]; cbn [InternModel.exec] in Hp.
    + destruct (match calls s pid with Some c => live c | None => false end); [exact (Hc p c Hp Hn)|]. cbn [calls] in Hp. destruct (Nat.eq_dec p pid) as [->|Hne]; [rewrite set_call_eq in Hp; injection Hp as <-; left; reflexivity|rewrite set_call_neq in Hp by exact Hne; exact (Hc p c Hp Hn)].
    + destruct (calls s pid) as [c0|] eqn:Ec; [|exact (Hc p c Hp Hn)]. destruct (Nat.eq_dec p pid) as [->|Hne].
      * assert (Hb : c_body c = c_body c0). { destruct (step F junk name compiler k c0 (files s)) as [c1 t1] eqn:E1. cbn [calls] in Hp. rewrite set_call_eq in Hp. injection Hp as <-. revert E1. unfold step. clear.
          destruct (c_stage c0); repeat match goal with |- context [match ?x with _ => _ end] => destruct x end; intros E1; injection E1 as <- _; reflexivity. }
        rewrite Hb in Hn. revert Hp. unfold step. destruct (Hc pid c0 Ec Hn) as [H|[H|H]]; rewrite H, ?Hn, ?Hs; cbn [calls]; rewrite set_call_eq; intros Hp; injection Hp as <-; cbn [c_stage at_stage]; auto.
      * destruct (step F junk name compiler k c0 (files s)) as [c1 t1]. cbn [calls] in Hp. rewrite set_call_neq in Hp by exact Hne. exact (Hc p c Hp Hn).
    + cbn [calls] in Hp. destruct (Nat.eq_dec p pid) as [->|Hne]; [rewrite set_call_eq in Hp; discriminate Hp|rewrite set_call_neq in Hp by exact Hne; exact (Hc p c Hp Hn)].
Qed.

Definition pid_of {F : fnum} (e : event F) : nat := match e with Start pid _ _ _ _ => pid | Step pid _ => pid | Crash pid => pid end.
Lemma one_process : forall (F : fnum) junk name compiler (s : system F) history q, (forall pid, calls s pid = None) -> (forall e, In e history -> pid_of e = q) -> always F junk name compiler one_at_a_time s history.
Proof.
  intros F junk name compiler s history q Hs He past future E.
  assert (G : forall pid c, calls (run F junk name compiler s past) pid = Some c -> pid = q).
  { assert (Hp : forall e, In e past -> pid_of e = q) by (intros e H; apply He; rewrite E; apply in_or_app; left; exact H). clear He E. assert (Hs' : forall pid c, calls s pid = Some c -> pid = q) by (intros pid c H; rewrite Hs in H; discriminate H). clear Hs.
    revert s Hs'. induction past as [|e past IH]; intros s Hs; [exact Hs|]. cbn [InternModel.run fold_left]. apply IH; [intros; apply Hp; right; assumption|]. assert (Hq := Hp e (or_introl eq_refl)).
    intros pid c H. destruct (Nat.eq_dec pid q) as [Hpq|Hne]; [exact Hpq|]. destruct e as [p body nodes t d|p k|p]; cbn [pid_of] in Hq; subst p; cbn [InternModel.exec] in H.
    - destruct (match calls s q with Some c => live c | None => false end); [exact (Hs pid c H)|]. cbn [calls] in H. rewrite set_call_neq in H by exact Hne. exact (Hs pid c H).
    - destruct (calls s q); [|exact (Hs pid c H)]. destruct (step _ _ _ _ _ _ _). cbn [calls] in H. rewrite set_call_neq in H by exact Hne. exact (Hs pid c H).
    - cbn [calls] in H. rewrite set_call_neq in H by exact Hne. exact (Hs pid c H). }
  intros pid pid' c c' H1 H2 _ _. rewrite (G pid c H1), (G pid' c' H2). reflexivity.
Qed.
Lemma no_crash : forall (F : fnum) junk name compiler (s : system F) history, (forall pid, ~ In (Crash pid) history) -> no_crash_in_link F junk name compiler s history.
Proof. intros F junk name compiler s history H past pid future c f E _ _. apply (H pid). rewrite E. apply in_or_app. right. left. reflexivity. Qed.

(** The value of the last call of a process. *)
Definition outcome {F : fnum} (s : system F) (pid : nat) : option (res (list F)) := match calls s pid with Some c => match c_stage c with Returned r => Some r | _ => None end | None => None end.
Lemma outcome_call : forall (F : fnum) (s : system F) pid r, outcome s pid = Some r -> exists c, calls s pid = Some c /\ c_stage c = Returned r.
Proof. intros F s pid r H. unfold outcome in H. destruct (calls s pid) as [c|]; [|discriminate H]. exists c. split; [reflexivity|]. destruct (c_stage c); try discriminate H. injection H as ->. reflexivity. Qed.
Lemma fresh_tidy : forall name bodies, tidy name two_functions bodies (files fresh).
Proof. intros name bodies n o H. discriminate H. Qed.

From Coq Require Import ZArith.
Lemma intern_collision : ~ forall name (s : system fnum_Z) history, tidy name two_functions (fun _ => True) (files s) -> (forall pid, calls s pid = None) ->
  always fnum_Z 0%Z name two_functions one_at_a_time s history -> no_crash_in_link fnum_Z 0%Z name two_functions s history ->
  forall pid c r, calls (run fnum_Z 0%Z name two_functions s history) pid = Some c -> c_stage c = Returned r -> two_functions (source (c_body c)) <> None -> right fnum_Z 0%Z two_functions c r.
Proof.
  intros H. set (history := begin 0 "v[0]" :: steps 0 6 ++ begin 0 "2*v[0]" :: steps 0 6).
  specialize (H (fun _ => "17") fresh history (fresh_tidy _ _) (fun _ => eq_refl)).
  specialize (H (one_process fnum_Z 0%Z (fun _ => "17") two_functions fresh history 0 (fun _ => eq_refl) ltac:(cbn; intuition (subst; reflexivity)))).
  specialize (H (no_crash fnum_Z 0%Z (fun _ => "17") two_functions fresh history ltac:(cbn; intuition discriminate)) 0).
  assert (O : exists r, calls (run fnum_Z 0%Z (fun _ => "17") two_functions fresh history) 0 = Some (Call (F := fnum_Z) "2*v[0]" [[3; 4]]%Z [0]%Z [[1]]%Z (Returned (Ok r))) /\ r = [3; 4]%Z) by (eexists; split; [vm_compute; reflexivity|reflexivity]).
  destruct O as (r & O1 & ->). destruct (H _ _ O1 eq_refl) as (f & F1 & F2); [cbn [c_body]; vm_compute; discriminate|].
  cbn [c_body c_nodes c_translation c_dilation] in *. assert (F3 : two_functions (source "2*v[0]") = Some (fun v => (2 * nth 0 v 0)%Z)) by (vm_compute; reflexivity).
  rewrite F3 in F1. injection F1 as <-. vm_compute in F2. discriminate F2.
Qed.
Lemma intern_crash : ~ forall (s : system fnum_Z) history, tidy (fun b => b) two_functions (fun _ => True) (files s) -> (forall pid, calls s pid = None) ->
  always fnum_Z 0%Z (fun b => b) two_functions one_at_a_time s history ->
  forall pid c r, calls (run fnum_Z 0%Z (fun b => b) two_functions s history) pid = Some c -> c_stage c = Returned r -> two_functions (source (c_body c)) <> None -> r <> Ub.
Proof.
  intros H. set (history := begin 0 "v[0]" :: steps 0 4 ++ Crash 0 :: begin 0 "v[0]" :: steps 0 6).
  specialize (H fresh history (fresh_tidy _ _) (fun _ => eq_refl)).
  specialize (H (one_process fnum_Z 0%Z (fun b => b) two_functions fresh history 0 (fun _ => eq_refl) ltac:(cbn; intuition (subst; reflexivity))) 0).
  assert (O : calls (run fnum_Z 0%Z (fun b => b) two_functions fresh history) 0 = Some (Call (F := fnum_Z) "v[0]" [[3; 4]]%Z [0]%Z [[1]]%Z (Returned Ub))) by (vm_compute; reflexivity).
  apply (H _ _ O eq_refl); [cbn [c_body]; vm_compute; discriminate|reflexivity].
Qed.
Lemma intern_overlap : ~ forall (s : system fnum_Z) history, tidy (fun b => b) two_functions (fun _ => True) (files s) -> (forall pid, calls s pid = None) ->
  (forall pid, ~ In (Crash pid) history) ->
  forall pid c r, calls (run fnum_Z 0%Z (fun b => b) two_functions s history) pid = Some c -> c_stage c = Returned r -> two_functions (source (c_body c)) <> None -> r <> Ub.
Proof.
  intros H. set (history := begin 0 "v[0]" :: steps 0 4 ++ begin 1 "v[0]" :: steps 1 2).
  specialize (H fresh history (fresh_tidy _ _) (fun _ => eq_refl) ltac:(cbn; intuition discriminate) 1).
  assert (O : calls (run fnum_Z 0%Z (fun b => b) two_functions fresh history) 1 = Some (Call (F := fnum_Z) "v[0]" [[3; 4]]%Z [0]%Z [[1]]%Z (Returned Ub))) by (vm_compute; reflexivity).
  apply (H _ _ O eq_refl); [cbn [c_body]; vm_compute; discriminate|reflexivity].
Qed.

(** Deciding the conditions for histories of the processes 0 and 1, for examples. *)
Lemma run_pids : forall (F : fnum) junk name compiler (Q : nat -> Prop) past (s : system F), (forall e, In e past -> Q (pid_of e)) -> (forall pid c, calls s pid = Some c -> Q pid) ->
  forall pid c, calls (run F junk name compiler s past) pid = Some c -> Q pid.
Proof.
  intros F junk name compiler Q. induction past as [|e past IH]; intros s Hp Hs; [exact Hs|]. cbn [InternModel.run fold_left]. apply IH; [intros; apply Hp; right; assumption|]. assert (Hq := Hp e (or_introl eq_refl)).
  intros pid c H. destruct (Nat.eq_dec pid (pid_of e)) as [->|Hne]; [exact Hq|]. destruct e as [p body nodes t d|p k|p]; cbn [pid_of] in Hne; cbn [InternModel.exec] in H.
  - destruct (match calls s p with Some c => live c | None => false end); [exact (Hs pid c H)|]. cbn [calls] in H. rewrite set_call_neq in H by exact Hne. exact (Hs pid c H).
  - destruct (calls s p); [|exact (Hs pid c H)]. destruct (step _ _ _ _ _ _ _). cbn [calls] in H. rewrite set_call_neq in H by exact Hne. exact (Hs pid c H).
  - cbn [calls] in H. rewrite set_call_neq in H by exact Hne. exact (Hs pid c H).
Qed.
Definition building_b {F : fnum} (c : call F) : bool := match c_stage c with Open | Write | Compile | Link _ => true | _ => false end.
Definition exclusive_b {F : fnum} (s : system F) : bool :=
  match calls s 0, calls s 1 with
  | Some c, Some c' => negb (String.eqb (c_body c) (c_body c')) || ((negb (live c) || negb (building_b c')) && (negb (live c') || negb (building_b c)))
  | _, _ => true
  end.
Lemma exclusive_two : forall (F : fnum) junk compiler (s : system F) history, (forall pid, calls s pid = None) -> (forall e, In e history -> pid_of e = 0 \/ pid_of e = 1) ->
  forallb (fun n => exclusive_b (run F junk (fun b => b) compiler s (firstn n history))) (seq 0 (S (length history))) = true -> always F junk (fun b => b) compiler (exclusive (fun b => b)) s history.
Proof.
  intros F junk compiler s history Hs He Hb past future E pid pid' c c' H1 H2 Hne Hbu Hl Hn.
  assert (P : forall pid c, calls (run F junk (fun b => b) compiler s past) pid = Some c -> pid = 0 \/ pid = 1).
  { apply (run_pids F junk (fun b => b) compiler (fun p => p = 0 \/ p = 1)); [intros e H; apply He; rewrite E; apply in_or_app; left; exact H|]. intros q d H. rewrite Hs in H. discriminate H. }
  assert (B : exclusive_b (run F junk (fun b => b) compiler s past) = true).
  { apply forallb_forall with (x := length past) in Hb; [|apply in_seq; rewrite E, app_length; lia]. rewrite E, firstn_app, Nat.sub_diag, firstn_all, app_nil_r in Hb. exact Hb. }
  unfold exclusive_b in B. cbn [building] in Hbu. assert (Bb : building_b c = true) by (unfold building_b, building in *; destruct (c_stage c); try reflexivity; destruct Hbu).
  destruct (P _ _ H1) as [-> | ->], (P _ _ H2) as [-> | ->]; try (apply Hne; reflexivity); rewrite H1, H2 in B; rewrite Hn, String.eqb_refl in B; cbn [negb orb] in B; rewrite Hl, Bb in B; cbn [negb orb andb] in B; rewrite ?andb_false_r in B; discriminate B.
Qed.
