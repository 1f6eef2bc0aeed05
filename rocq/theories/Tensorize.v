(** tensorize.cpp: tensorized vectors and matrices are products of coefficients. *)
From Coq Require Import String List Bool Arith ZArith Lia Sorted Permutation.
From Verif Require Import Base Lists IndexModel Spec Machine IndexSet Degree Num LinModel LinSpec LinBase MatBase Project.
Import ListNotations.

Lemma for_each_fold : forall S (body : nat -> S -> res S) (f : S -> nat -> S) n i s,
  (forall j s, i <= j < i + n -> body j s = Ok (f s j)) -> for_each body n i s = Ok (fold_left f (seq i n) s).
Proof.
  intros S body f. induction n as [|n IH]; intros i s H; [reflexivity|]. rewrite for_each_S. rewrite H by lia. cbn [bind seq fold_left].
  apply IH. intros. apply H. lia.
Qed.

(** invariant form *)
Lemma for_each_state : forall St (P : nat -> St -> Prop) (body : nat -> St -> res St) n i s,
  (forall j s, i <= j < i + n -> P j s -> exists s', body j s = Ok s' /\ P (j + 1) s') -> P i s ->
  exists s', for_each body n i s = Ok s' /\ P (i + n) s'.
Proof.
  intros St P body. induction n as [|n IH]; intros i s H Hs.
  - exists s. rewrite Nat.add_0_r. split; [reflexivity|assumption].
  - rewrite for_each_S. destruct (H i s ltac:(lia) Hs) as [s1 [E1 H1]]. rewrite E1. cbn [bind]. replace (i + 1) with (S i) in H1 by lia.
    destruct (IH (S i) s1) as [s' [E' H']]; [intros; apply H; [lia|assumption]|assumption|].
    exists s'. replace (i + S n) with (S i + n) by lia. split; assumption.
Qed.

Lemma fold_left_map_seq : forall A B (g : A -> B) (l : list A) d (f : B -> B -> B) acc,
  fold_left f (map g l) acc = fold_left (fun acc j => f acc (g (nth j l d))) (seq 0 (length l)) acc.
Proof.
  intros A B g l d f. assert (G : forall l' k acc, (forall j, j < length l' -> nth (k + j) l d = nth j l' d) ->
    fold_left f (map g l') acc = fold_left (fun acc j => f acc (g (nth j l d))) (seq k (length l')) acc).
  { induction l' as [|x l' IH]; intros k acc H; [reflexivity|]. cbn [map fold_left length seq].
    pose proof (H 0 ltac:(cbn [length]; lia)) as H0. rewrite Nat.add_0_r in H0. rewrite H0. cbn [nth]. apply IH.
    intros j Hj. specialize (H (S j) ltac:(cbn [length]; lia)). cbn [nth] in H. rewrite <- H. f_equal. lia. }
  intros acc. apply G. reflexivity.
Qed.

Section Tensorize.
Variable N : num.

(** one factor of the product *)
Definition factor (s : iset) (dim degree : nat) (m : list nat) (x : list nat * list N) : N :=
  value n0 (spec_list s (pred (length (fst x))) degree) (snd x) (reindex (seq 0 dim) (fst x) m).

Definition good_dirs (dim : nat) (dirs : list (list nat)) : Prop := Forall (dirs_in dim) dirs.

Lemma tensorize_vec_list : forall s d degree dirs inputs, list_sum (map (@length nat) dirs) = S d ->
  good_dirs (S d) dirs -> usable s (S d) degree ->
  Forall2 (fun dj v => length v = length (spec_list s (pred (length dj)) degree)) dirs inputs ->
  tensorize_vec N s inputs dirs = Ok (map (fun m => nprod (map (factor s (S d) degree m) (combine dirs inputs))) (spec_list s d degree)).
Proof.
  intros s d degree dirs inputs Hdim Hg Hu H2. unfold tensorize_vec. rewrite Hdim.
  assert (Hsub : forall dj, In dj dirs -> usable s (S (pred (length dj))) degree /\ length dj = S (pred (length dj))).
  { intros dj Hj. unfold good_dirs in Hg. rewrite Forall_forall in Hg. apply Hg, dirs_in_length in Hj. split; [|lia].
    eapply usable_sub; [exact Hu|lia]. }
  destruct dirs as [|d0 dirs0] eqn:Edirs; [discriminate|]. rewrite <- Edirs in *.
  destruct inputs as [|v0 inputs0] eqn:Einp; [rewrite Edirs in H2; inversion H2|]. rewrite <- Einp in *.
  assert (E0 : vget (map (@length nat) dirs) 0 = Ok (length d0)) by (rewrite Edirs; reflexivity). rewrite E0. cbn [bind].
  assert (E1 : vget inputs 0 = Ok v0) by (rewrite Einp; reflexivity). rewrite E1. cbn [bind].
  assert (Hd0 : In d0 dirs) by (rewrite Edirs; left; reflexivity). destruct (Hsub d0 Hd0) as [Hu0 Hl0].
  unfold usize. rewrite Edirs, Einp in H2. inversion H2 as [|? ? ? ? Hv0 H2']; subst x y l l'. rewrite <- Edirs, <- Einp in H2. rewrite Hv0, Hl0. cbn [pred].
  rewrite usable_get_degree by assumption. cbn [bind].
  assert (Em : mapM (fun d1 => make_iterator s d1 (recovered s degree)) (map (@length nat) dirs) =
    Ok (map (fun dj => fresh s (pred (length dj)) degree) dirs)).
  { clear - Hsub. induction dirs as [|dj dirs IH]; [reflexivity|]. cbn [map mapM]. destruct (Hsub dj (or_introl eq_refl)) as [Hj Hl].
    rewrite Hl at 1. rewrite usable_make_iterator by assumption. cbn [bind]. rewrite IH by (intros; apply Hsub; right; assumption). reflexivity. }
  rewrite Em. cbn [bind]. rewrite usable_s_size by assumption. cbn [bind]. rewrite Nat2Z.id.
  rewrite usable_make_iterator by assumption. cbn [bind]. rewrite it_for_fresh by (apply usable_set_ok; assumption).
  set (l := spec_list s d degree).
  set (prod := fun m => nprod (map (factor s (S d) degree m) (combine dirs inputs))).
  assert (Hlen : length inputs = length dirs) by (symmetry; eapply Forall2_length; exact H2).
  destruct (for_in_fold _ _ (fun r : list N => length r = length l)
    (fun '(i, mm) results =>
      x <- for_each (fun j (acc : N) =>
          dj <- vget dirs j ;;
          sub <- extract mm dj ;;
          it <- vget (map (fun dj => fresh s (pred (length dj)) degree) dirs) j ;;
          ind <- it_index it sub ;;
          input <- vget inputs j ;;
          y <- vget input ind ;;
          Ok (nmul acc y)) (length dirs) 0 n1 ;;
      vset results i x) (fun st x => if (fun _ => true) x then upd st (fst x) (prod (snd x)) else st) (enum l) (repeat n0 (length l))) as [E _].
  - intros [i m] r Hin Hr. apply enum_nth in Hin. assert (Hm : In m l) by (eapply nth_error_In; exact Hin).
    assert (Hi : i < length l) by (apply nth_error_Some; congruence). cbn [fst snd].
    rewrite (for_each_fold _ _ (fun acc j => nmul acc (factor s (S d) degree m (nth j (combine dirs inputs) ([], []))))).
    + cbn [bind]. replace (fold_left _ (seq 0 (length dirs)) n1) with (prod m).
      * rewrite vset_ok by lia. split; [reflexivity|]. rewrite upd_length. assumption.
      * unfold prod, nprod. rewrite (fold_left_map_seq _ _ _ (combine dirs inputs) ([], [])). rewrite combine_length, Hlen, Nat.min_id. reflexivity.
    + intros j acc Hj. rewrite (vget_nth_ok _ dirs j []) by lia. cbn [bind].
      set (dj := nth j dirs []). assert (Hdj : In dj dirs) by (apply nth_In; lia). destruct (Hsub dj Hdj) as [Huj Hlj].
      assert (Hgj : dirs_in (S d) dj) by (unfold good_dirs in Hg; rewrite Forall_forall in Hg; apply Hg; assumption).
      rewrite (extract_l s d degree dj Hgj) by assumption. cbn [bind].
      rewrite (vget_nth_ok _ _ j (fresh s (pred (length (@nil nat))) degree)) by (rewrite map_length; lia). cbn [bind].
      rewrite (map_nth (fun dj => fresh s (pred (length dj)) degree)). fold dj.
      assert (Hin' : In (restrict (S d) dj m) (spec_list s (pred (length dj)) degree)) by (apply (restrict_lsub s d _ degree dj Hgj Hlj); assumption).
      rewrite it_index_idx by assumption. cbn [bind]. rewrite (vget_nth_ok _ inputs j []) by lia. cbn [bind].
      rewrite combine_nth by (symmetry; assumption). fold dj. unfold factor. cbn [fst snd].
      assert (Hvj : length (nth j inputs []) = length (spec_list s (pred (length dj)) degree)).
      { clear - H2 Hj. subst dj. revert j Hj. induction H2 as [|a b la lb Hab _ IH]; intros j Hj; [cbn in Hj; lia|].
        destruct j; [exact Hab|]. cbn [nth]. apply IH. cbn [length] in Hj. lia. }
      rewrite (vget_nth_ok _ _ _ n0) by (rewrite Hvj; apply idx_lt; assumption). cbn [bind].
      rewrite value_idx by (auto; apply NoDup_spec_list). reflexivity.
  - apply repeat_length.
  - etransitivity; [exact E|]. f_equal.
    destruct (fold_scatter _ _ (fun _ => true) fst (fun x : nat * list nat => prod (snd x)) n0 (enum l) (repeat n0 (length l))) as [Hl [G1 G2]].
    { intros [i m] [i' m'] H H' _ _ Ep. cbn [fst snd] in *. subst i'. apply enum_nth in H, H'. congruence. }
    { intros [i m] H _. cbn [fst]. rewrite repeat_length. apply enum_nth in H. apply nth_error_Some. congruence. }
    rewrite repeat_length in Hl. apply list_ext_nth with (d := n0); [rewrite map_length; exact Hl|]. intros p Hp. 
    assert (Hp' : p < length l) by (rewrite <- Hl; exact Hp).
    rewrite (nth_map_lt _ _ prod l p n0 []) by assumption.
    apply (G1 (p, nth p l [])); [|reflexivity]. apply enum_nth. rewrite (nth_error_nth' _ []) by assumption. reflexivity.
Qed.

End Tensorize.
