(** Lemmas for C111. *)
From Coq Require Import String List Bool Arith Lia.
From Verif Require Import CacheRaceModel CacheRaceSpec.
Import ListNotations.
Local Open Scope string_scope. Local Open Scope list_scope. Local Open Scope nat_scope.

Section Facts.
Variable B V : Type.
Variable zero : B.
Variable v : V.
Variable e : list B.
Variable load : list B -> V + string.
Notation state := (state B V).
Notation run := (run B V zero v e load).
Notation happen := (happen B V zero v e load).
Notation step := (step B V zero v e load).
Notation write_at := (write_at B zero).
Notation L := (length e).

Lemma run_app : forall h1 h2 s, run s (h1 ++ h2) = run (run s h1) h2.
Proof. intros. unfold CacheRaceModel.run. apply fold_left_app. Qed.
Lemma at_move : forall p x s q, at_ (move B V p x s) q = if q =? p then x else at_ s q.
Proof. reflexivity. Qed.

Lemma firstn_glue : forall A (l : list A) k m, firstn k l ++ firstn m (skipn k l) = firstn (k + m) l.
Proof. induction l as [|x l IH]; intros [|k] m; cbn [firstn skipn app plus]; [reflexivity|rewrite !firstn_nil; reflexivity|reflexivity|]. f_equal. apply IH. Qed.
Lemma write_end : forall k n, k <= L -> write_at (firstn k e) k (firstn (S n) (skipn k e)) = firstn (k + S n) e.
Proof.
  intros k n Hk. unfold CacheRaceModel.write_at. rewrite firstn_length_le by exact Hk. rewrite Nat.sub_diag. cbn [repeat]. rewrite app_nil_r, firstn_firstn, Nat.min_id.
  rewrite (skipn_all2 (firstn k e)) by (rewrite firstn_length_le; lia). rewrite app_nil_r. apply firstn_glue.
Qed.

Definition good (d0 : bool) (o : outcome V) : Prop :=
  o = Return v \/ (o = Raise "FileExistsError" /\ d0 = false) \/ exists n x, n < L /\ load (firstn n e) = inr x /\ x <> "ValueError" /\ o = Raise x.
Definition fine (d0 : bool) (s : state) (x : phase B V) : Prop :=
  match x with
  | MakeDir => d0 = false
  | Reading buf => (exists n, buf = firstn n e) /\ file s <> None
  | Writing k => k <= L /\ file s = Some (firstn k e)
  | Ended o => good d0 o
  | _ => True
  end.
Definition inv (d0 : bool) (s : state) : Prop :=
  (d0 = true -> dir s = true) /\ (forall c, file s = Some c -> exists n, c = firstn n e) /\ forall p, fine d0 s (at_ s p).

Lemma loaded_good : format v e load -> forall d0 s n, fine d0 s (loaded B V load (firstn n e)).
Proof.
  intros [F1 F2] d0 s n. unfold loaded. destruct (Nat.lt_ge_cases n L) as [Hn|Hn].
  - destruct (F2 n Hn) as [x Hx]. rewrite Hx. destruct (String.eqb_spec x "ValueError") as [->|Hne]; [exact I|]. cbn. right. right. exists n, x. auto.
  - rewrite firstn_all2 by exact Hn. rewrite F1. left. reflexivity.
Qed.

(** Processes other than the one that moves. *)
Lemma fine_other : forall d0 (s s' : state) x, (file s <> None -> file s' <> None) -> (forall k, x = Writing k -> file s' = file s) -> fine d0 s x -> fine d0 s' x.
Proof.
  intros d0 s s' x H1 H2 H. destruct x; cbn in *; try exact H; try exact I.
  - destruct H as [Ha Hb]. split; [exact Ha|apply H1; exact Hb].
  - destruct H as [Ha Hb]. split; [exact Ha|]. rewrite (H2 k eq_refl). exact Hb.
Qed.
Lemma inv_move : forall d0 (s s' : state) p x, inv d0 s -> (dir s = true -> dir s' = true) -> (file s <> None -> file s' <> None) -> (forall c, file s' = Some c -> exists n, c = firstn n e) ->
  (forall q k, q <> p -> at_ s q = Writing k -> file s' = file s) -> (forall q, at_ s' q = at_ s q) -> fine d0 s' x -> inv d0 (move B V p x s').
Proof.
  intros d0 s s' p x (I1 & I2 & I3) Hd Hf Hc Ho Ha Hx. split; [intros K; apply Hd, I1, K|]. split; [exact Hc|]. intros q. rewrite at_move. destruct (Nat.eqb_spec q p) as [->|Hq]; [exact Hx|].
  rewrite Ha. change (fine d0 (move B V p x s') (at_ s q)) with (fine d0 s' (at_ s q)). apply (fine_other d0 s); [exact Hf| |apply I3]. intros k Hk. eapply Ho; eassumption.
Qed.

Lemma inv_happen : format v e load -> forall d0 s ev, inv d0 s -> one_writer s -> one_writer (happen s ev) -> inv d0 (happen s ev).
Proof.
  intros F d0 s ev HI W W'. pose proof HI as (I1 & I2 & I3). destruct ev as [p|p n|p]; cbn [CacheRaceModel.happen] in *.
  - destruct (running B V (at_ s p)); [exact HI|]. apply (inv_move d0 s); auto. exact I.
  - unfold CacheRaceModel.step in *. pose proof (I3 p) as Hp. destruct (at_ s p) as [| | | |buf| |k|o|] eqn:Ep; try exact HI.
    + apply (inv_move d0 s); auto. destruct (dir s) eqn:Ed; [exact I|]. cbn. destruct d0; [|reflexivity]. specialize (I1 eq_refl). congruence.
    + destruct (dir s) eqn:Ed.
      * apply (inv_move d0 s); auto. cbn. right. left. split; [reflexivity|exact Hp].
      * apply (inv_move d0 s (St true (file s) (at_ s))); auto. exact I.
    + apply (inv_move d0 s); auto. destruct (file s) as [c|] eqn:Ef; [|exact I]. cbn. split; [exists 0; reflexivity|rewrite Ef; discriminate].
    + destruct Hp as [[j ->] Hf]. destruct (file s) as [c|] eqn:Ef; [|contradiction]. destruct (firstn (S n) (skipn (length (firstn j e)) c)) as [|b t] eqn:Ec.
      * apply (inv_move d0 s); auto; [rewrite Ef; exact I2|]. apply loaded_good. exact F.
      * apply (inv_move d0 s); auto; [rewrite Ef; exact I2|]. cbn [fine]. split; [|rewrite Ef; discriminate]. rewrite <- Ec. destruct (I2 c eq_refl) as [m ->].
        exists (length (firstn j e) + Nat.min (S n) (m - length (firstn j e))). rewrite <- firstn_glue. f_equal.
        -- apply (f_equal (fun l => l)). rewrite <- (firstn_all (firstn j e)) at 1. rewrite firstn_firstn. f_equal. rewrite firstn_length. lia.
        -- rewrite skipn_firstn_comm, firstn_firstn. reflexivity.
    + apply (inv_move d0 s (store B V [] s)); auto; cbn [file store]; try discriminate.
      * intros c Hc. exists 0. injection Hc as <-. reflexivity.
      * intros q k Hq Hk. exfalso. apply Hq. apply (W' q p k 0).
        -- rewrite at_move. destruct (Nat.eqb_spec q p); [contradiction|exact Hk].
        -- rewrite at_move, Nat.eqb_refl. reflexivity.
      * cbn. split; [lia|reflexivity].
    + destruct Hp as [Hk Hf]. rewrite Hf in *. rewrite write_end in * by exact Hk.
      apply (inv_move d0 s (store B V (firstn (k + S n) e) s)); auto; cbn [file store]; try discriminate.
      * intros c Hc. exists (k + S n). congruence.
      * intros q j Hq Hj. exfalso. apply Hq. apply (W q p j k); assumption.
      * destruct (Nat.leb_spec L (k + S n)) as [H|H]; cbn; [left; reflexivity|]. split; [lia|reflexivity].
  - apply (inv_move d0 s); auto. exact I.
Qed.

Lemma fresh_inv : forall s, fresh e s -> inv (dir s) s.
Proof. intros s [H1 H2]. split; [auto|]. split; [exact H2|]. intros p. rewrite H1. exact I. Qed.

Lemma run_inv : format v e load -> forall h s d0, inv d0 s -> throughout zero v e load one_writer s h -> inv d0 (run s h).
Proof.
  intros F. induction h as [|ev h IH]; intros s d0 HI T; [exact HI|]. apply (IH (happen s ev)).
  - apply inv_happen; auto; [apply (T [] (ev :: h) eq_refl)|apply (T [ev] h eq_refl)].
  - intros h1 h2 ->. apply (T (ev :: h1) h2). reflexivity.
Qed.

Lemma outcomes : format v e load -> forall s h, fresh e s -> throughout zero v e load one_writer s h ->
  (forall c, file (run s h) = Some c -> exists n, c = firstn n e) /\ forall p o, at_ (run s h) p = Ended o -> good (dir s) o.
Proof.
  intros F s h Hf T. destruct (run_inv F h s (dir s) (fresh_inv s Hf) T) as (I1 & I2 & I3). split; [exact I2|]. intros p o E. pose proof (I3 p) as H. rewrite E in H. exact H.
Qed.

Lemma npy_format : format_npy v e load -> format v e load.
Proof. intros [H1 H2]. split; [exact H1|]. intros n Hn. exists "ValueError". auto. Qed.
Lemma npy_outcomes : format_npy v e load -> forall s h, fresh e s -> dir s = true -> throughout zero v e load one_writer s h ->
  forall p o, at_ (run s h) p = Ended o -> o = Return v.
Proof.
  intros F s h Hf Hd T p o E. destruct (outcomes (npy_format F) s h Hf T) as [_ G]. destruct (G p o E) as [->|[[_ K]|(n & x & Hn & Hx & Hne & _)]]; [reflexivity|congruence|].
  destruct F as [_ F]. rewrite F in Hx by exact Hn. injection Hx as <-. contradiction.
Qed.

(** * A call on its own *)
Definition solo (p : nat) (s : state) : Prop :=
  match at_ s p with
  | MakeDir => dir s = false /\ forall c, file s = Some c -> exists n, c = firstn n e
  | Reading buf => exists c n j, file s = Some c /\ c = firstn n e /\ buf = firstn j c
  | Writing k => k <= L /\ file s = Some (firstn k e)
  | Ended o => o = Return v /\ file s = Some e
  | Idle | Dead => False
  | _ => forall c, file s = Some c -> exists n, c = firstn n e
  end.
Definition left_to_do (p : nat) (s : state) : nat :=
  match at_ s p with
  | TestDir => 2 * L + 6 | MakeDir => 2 * L + 5 | TestFile => 2 * L + 4
  | Reading buf => L + 3 + (match file s with Some c => length c | None => 0 end - length buf)
  | Computing => L + 2 | Writing k => L - k + 1 | _ => 0
  end.
Lemma solo_step : format_npy v e load -> forall p n s, solo p s -> solo p (step p n s) /\ (left_to_do p (step p n s) < left_to_do p s \/ left_to_do p (step p n s) = 0).
Proof.
  intros [F1 F2] p n s H. unfold solo, left_to_do in *. unfold CacheRaceModel.step. destruct (at_ s p) as [| | | |buf| |k|o|] eqn:Ep; try contradiction.
  - rewrite at_move, Nat.eqb_refl. destruct (dir s) eqn:Ed; cbn [file move dir]; split; auto; lia.
  - destruct H as [Hd H]. rewrite Hd. rewrite at_move, Nat.eqb_refl. cbn [file move]. split; [exact H|lia].
  - rewrite at_move, Nat.eqb_refl. destruct (file s) as [c|] eqn:Ef; cbn [file move]; rewrite ?Ef.
    + destruct (H c eq_refl) as [m Hm]. split; [exists c, m, 0; auto|]. assert (length c <= L) by (rewrite Hm, firstn_length; lia). cbn [length]. left. lia.
    + split; [discriminate|left; lia].
  - destruct H as (c & m & j & Ef & Hc & Hb). rewrite Ef. destruct (firstn (S n) (skipn (length buf) c)) as [|b t] eqn:Ec.
    + assert (Eb : buf = c).
      { assert (K : length (skipn (length buf) c) = 0) by (destruct (skipn (length buf) c); [reflexivity|discriminate]). rewrite skipn_length in K. rewrite Hb in K |- *. rewrite firstn_length in K.
        apply firstn_all2. lia. }
      subst buf. rewrite at_move, Nat.eqb_refl. cbn [file move]. rewrite Ef. unfold loaded. rewrite Eb, Hc. destruct (Nat.lt_ge_cases m L) as [Hm|Hm].
      * rewrite F2 by exact Hm. cbn. split; [|left; lia]. intros c' Hc'. exists m. congruence.
      * rewrite firstn_all2 by exact Hm. rewrite F1. split; [split; [reflexivity|reflexivity]|right; reflexivity].
    + rewrite at_move, Nat.eqb_refl. cbn [file move]. rewrite Ef. rewrite <- Ec. split.
      * exists c, m, (length buf + S n). split; [reflexivity|]. split; [exact Hc|]. rewrite <- firstn_glue. f_equal. rewrite Hb at 1. rewrite Hb, firstn_length. rewrite <- (firstn_all c) at 1. rewrite firstn_firstn. reflexivity.
      * left. rewrite app_length. assert (K : 0 < length (firstn (S n) (skipn (length buf) c))) by (rewrite Ec; cbn; lia). rewrite firstn_length, skipn_length in K |- *. lia.
  - rewrite at_move, Nat.eqb_refl. cbn [file move store]. split; [split; [lia|reflexivity]|left; lia].
  - destruct H as [Hk Hf]. rewrite at_move, Nat.eqb_refl. rewrite Hf, write_end by exact Hk. destruct (Nat.leb_spec L (k + S n)) as [H|H]; cbn [file move store].
    + split; [split; [reflexivity|]|right; reflexivity]. f_equal. apply firstn_all2. exact H.
    + split; [split; [lia|reflexivity]|left; lia].
  - rewrite Ep. split; [exact H|right; reflexivity].
Qed.
Lemma solo_run : format_npy v e load -> forall p ns s, solo p s -> solo p (run s (map (Step p) ns)) /\ (left_to_do p s <= length ns -> left_to_do p (run s (map (Step p) ns)) = 0).
Proof.
  intros F p. induction ns as [|n ns IH]; intros s H; [split; [exact H|cbn; lia]|]. destruct (solo_step F p n s H) as [H1 H2]. destruct (IH (step p n s) H1) as [H3 H4].
  split; [exact H3|]. intros Hl. cbn [map CacheRaceModel.run fold_left] in *. apply H4. cbn [length] in Hl. lia.
Qed.
Lemma left_ended : forall p s, solo p s -> left_to_do p s = 0 -> at_ s p = Ended (Return v) /\ file s = Some e.
Proof. intros p s H H0. unfold solo, left_to_do in *. destruct (at_ s p); try contradiction; try lia. destruct H as [-> H]. auto. Qed.
Lemma repaired : format_npy v e load -> forall s h, fresh e s -> throughout zero v e load one_writer s h -> quiet (run s h) ->
  forall p ns, 2 * L + 6 <= length ns -> let s' := run (run s h) (Begin p :: map (Step p) ns) in at_ s' p = Ended (Return v) /\ file s' = Some e.
Proof.
  intros F s h Hf T Q p ns Hn. cbn zeta. change (run (run s h) (Begin p :: map (Step p) ns)) with (run (happen (run s h) (Begin p)) (map (Step p) ns)).
  assert (E : happen (run s h) (Begin p) = move B V p TestDir (run s h)) by (cbn [CacheRaceModel.happen]; rewrite Q; reflexivity). rewrite E.
  destruct (outcomes (npy_format F) s h Hf T) as [P _].
  destruct (solo_run F p ns (move B V p TestDir (run s h))) as [H1 H2].
  - unfold solo. rewrite at_move, Nat.eqb_refl. exact P.
  - apply left_ended; [exact H1|]. apply H2. unfold left_to_do. rewrite at_move, Nat.eqb_refl. exact Hn.
Qed.
End Facts.
