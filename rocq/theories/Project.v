(** project.cpp: projections of vectors and matrices keep the coefficients of the aligned multi-indices. *)
From Coq Require Import String List Bool Arith ZArith Lia Sorted.
From Verif Require Import Base Lists IndexModel Spec Machine IndexSet Degree Num LinModel LinSpec LinBase MatBase.
Import ListNotations.

(** directions inside 0..dim-1 *)
Definition dirs_in (dim : nat) (dirs : list nat) : Prop := increasing dirs /\ dirs <> [] /\ Forall (fun x => x < dim) dirs.

Lemma dirs_in_length : forall dim dirs, dirs_in dim dirs -> 1 <= length dirs <= dim.
Proof.
  intros dim dirs [H1 [H2 H3]]. split; [destruct dirs; [contradiction|cbn [length]; lia]|].
  rewrite <- (seq_length dim 0). apply NoDup_incl_length; [apply increasing_NoDup; assumption|].
  intros x Hx. rewrite Forall_forall in H3. apply in_seq. specialize (H3 x Hx). lia.
Qed.

Section Project.
Variable N : num.

Definition restrict (dim : nat) (dirs m : list nat) := reindex (seq 0 dim) dirs m.
Definition embed (dim : nat) (dirs m : list nat) := reindex dirs (seq 0 dim) m.

Lemma restrict_embed : forall dim dirs m, dirs_in dim dirs -> length m = length dirs -> restrict dim dirs (embed dim dirs m) = m.
Proof.
  intros dim dirs m [H1 [H2 H3]] Hl. unfold restrict, embed. rewrite reindex_reindex.
  - apply reindex_id; [apply increasing_NoDup; assumption|assumption].
  - intros x Hx. left. rewrite Forall_forall in H3. apply in_seq. specialize (H3 x Hx). lia.
Qed.

Lemma restrict_in : forall s dim degree dirs m, dirs_in dim dirs -> in_set s degree m -> in_set s degree (restrict dim dirs m).
Proof.
  intros s dim degree dirs m [H1 [H2 H3]] Hm. apply in_set_reindex; [apply increasing_NoDup; assumption| |assumption].
  intros _ x Hx. rewrite hd_seq. destruct dim; [discriminate|]. intros E. injection E as E. apply increasing_tl_pos in Hx; [lia|assumption].
Qed.

Lemma embed_length : forall dim dirs m, length (embed dim dirs m) = dim.
Proof. intros. unfold embed. rewrite reindex_length, seq_length. reflexivity. Qed.

Section Fixed.
Variable (s : iset) (d dsub degree : nat) (dirs : list nat).
Hypothesis Hd : dirs_in (S d) dirs.
Hypothesis Hlen : length dirs = S dsub.
Notation l := (spec_list s d degree).
Notation lsub := (spec_list s dsub degree).

Lemma len_l : forall m, In m l -> length m = S d.
Proof. intros m H. apply in_spec_list in H. tauto. Qed.
Lemma len_lsub : forall m, In m lsub -> length m = S dsub.
Proof. intros m H. apply in_spec_list in H. tauto. Qed.
Lemma restrict_lsub : forall m, In m l -> In (restrict (S d) dirs m) lsub.
Proof.
  intros m H. apply in_spec_list in H as [H1 H2]. apply in_spec_list. split; [unfold restrict; rewrite reindex_length; assumption|].
  apply restrict_in; assumption.
Qed.
Lemma sel_embed : forall m, In m l -> alignedb m dirs = true -> m = embed (S d) dirs (restrict (S d) dirs m).
Proof.
  intros m Hm H. pose proof (len_l m Hm) as Hl. apply aligned_reindex in H; [|apply increasing_NoDup; apply Hd]. rewrite Hl in H. exact H.
Qed.
Lemma embed_sel : forall m, In m lsub -> alignedb (embed (S d) dirs m) dirs = true.
Proof.
  intros m Hm. apply aligned_reindex; [apply increasing_NoDup; apply Hd|]. rewrite embed_length.
  change (embed (S d) dirs m = embed (S d) dirs (restrict (S d) dirs (embed (S d) dirs m))).
  rewrite restrict_embed; auto. rewrite Hlen. apply len_lsub. assumption.
Qed.

Lemma extract_l : forall m, In m l -> extract m dirs = Ok (restrict (S d) dirs m).
Proof.
  intros m Hm. pose proof (len_l m Hm) as Hl. rewrite extract_ok; [rewrite Hl; reflexivity|]. rewrite Hl. apply Hd.
Qed.

Lemma enum_In : forall i m, In (i, m) (enum l) -> In m l /\ i < length l /\ idx l m = i.
Proof.
  intros i m H. apply enum_nth in H. split; [eapply nth_error_In; exact H|]. split; [apply nth_error_Some; congruence|].
  apply idx_of_nth; [apply NoDup_spec_list|assumption].
Qed.

Lemma project_vec_list : forall input, usable s (S d) degree -> length input = length l ->
  project_vec N s input (S d) dirs = Ok (map (fun ms => value n0 l input (embed (S d) dirs ms)) lsub).
Proof.
  intros input Hu Hi. assert (Hu' : usable s (S dsub) degree).
  { eapply usable_sub; [exact Hu|]. pose proof (dirs_in_length _ _ Hd). lia. }
  unfold project_vec, usize. rewrite Hi, Hlen. rewrite usable_get_degree by assumption. cbn [bind].
  rewrite usable_s_size by assumption. cbn [bind]. rewrite Nat2Z.id.
  rewrite !usable_make_iterator by assumption. cbn [bind]. rewrite reset_fresh, it_for_fresh by (apply usable_set_ok; assumption).
  pose (sel := fun '((i, m) : nat * list nat) => alignedb m dirs).
  pose (pos := fun '((i, m) : nat * list nat) => idx lsub (restrict (S d) dirs m)).
  pose (val := fun '((i, m) : nat * list nat) => nth i input n0).
  destruct (for_in_fold _ _ (fun r : list N => length r = length lsub)
    (fun '(i, mm) results =>
      aligned <- is_aligned mm dirs ;;
      if aligned : bool then
        sub <- extract mm dirs ;;
        ind <- it_index (fresh s dsub degree) sub ;;
        x <- vget input i ;;
        vset results ind x
      else Ok results) (fun st x => if sel x then upd st (pos x) (val x) else st) (enum l) (repeat n0 (length lsub))) as [E _].
  - intros [i m] r Hin Hr. apply enum_In in Hin as [Hm [Hilt _]]. rewrite is_aligned_ok. cbn [bind sel pos val].
    destruct (alignedb m dirs); [|split; auto]. rewrite extract_l by assumption. cbn [bind].
    pose proof (restrict_lsub m Hm) as Hs. rewrite it_index_idx by assumption. cbn [bind].
    rewrite (vget_nth_ok _ _ _ n0) by lia. cbn [bind]. rewrite vset_ok by (rewrite Hr; apply idx_lt; assumption).
    split; [reflexivity|]. rewrite upd_length. assumption.
  - apply repeat_length.
  - etransitivity; [exact E|]. f_equal. clear E.
    destruct (fold_scatter _ _ sel pos val n0 (enum l) (repeat n0 (length lsub))) as [Hl [G1 G2]].
    { intros [i m] [i' m'] H H' S1 S2 Ep. cbn [sel pos val] in *. apply enum_In in H as [Hm [_ <-]], H' as [Hm' [_ <-]].
      f_equal. f_equal. apply idx_inj in Ep; try (apply restrict_lsub; assumption).
      rewrite (sel_embed m), (sel_embed m') by assumption. rewrite Ep. reflexivity. }
    { intros [i m] H _. cbn [pos]. rewrite repeat_length. apply idx_lt, restrict_lsub. apply enum_In in H. tauto. }
    rewrite repeat_length in Hl. apply list_ext_nth with (d := n0); [rewrite map_length; assumption|]. intros p Hp. rewrite Hl in Hp.
    destruct (nth_error lsub p) as [ms|] eqn:Ems; [|apply nth_error_None in Ems; lia].
    pose proof (nth_error_In _ _ Ems) as Hms.
    rewrite (nth_map_lt _ _ (fun ms => value n0 l input (embed (S d) dirs ms)) lsub p n0 []) by assumption. rewrite (nth_error_nth _ _ [] Ems).
    destruct (in_dec (list_eq_dec Nat.eq_dec) (embed (S d) dirs ms) l) as [Hin|Hin].
    + pose proof (idx_nth _ _ Hin) as Hn. assert (He : In (idx l (embed (S d) dirs ms), embed (S d) dirs ms) (enum l)) by (apply enum_nth; assumption).
      specialize (G1 _ He (embed_sel ms Hms)). cbn [pos val] in G1. rewrite restrict_embed in G1 by (auto; rewrite Hlen; apply len_lsub; assumption).
      rewrite (idx_of_nth _ p ms) in G1 by (auto; apply NoDup_spec_list). rewrite G1. symmetry. apply value_idx; auto. apply NoDup_spec_list.
    + rewrite value_notin by assumption. rewrite G2; [apply nth_repeat|]. intros [i m] H Hs Ep. cbn [sel pos] in *.
      apply enum_In in H as [Hm _]. apply Hin. pose proof (restrict_lsub m Hm) as Hr. apply idx_nth in Hr. rewrite Ep, Ems in Hr. injection Hr as ->.
      rewrite <- sel_embed by assumption. assumption.
Qed.

Lemma project_mat_list : forall O rep wf, ops_ok N O rep wf -> forall input, usable s (S d) degree -> wf input (length l) (length l) ->
  exists out, project_mat N O s input (S d) dirs = Ok out /\ wf out (length lsub) (length lsub) /\
    forall r c, In r lsub -> In c lsub -> mvalue lsub (rep out) r c = mvalue l (rep input) (embed (S d) dirs r) (embed (S d) dirs c).
Proof.
  intros O rep wf Hok input Hu Hw. assert (Hu' : usable s (S dsub) degree).
  { eapply usable_sub; [exact Hu|]. pose proof (dirs_in_length _ _ Hd). lia. }
  unfold project_mat. rewrite (ok_size _ _ _ _ Hok _ _ _ Hw), Hlen. rewrite usable_get_degree by assumption. cbn [bind].
  rewrite usable_s_size by assumption. cbn [bind]. rewrite Nat2Z.id.
  rewrite !usable_make_iterator by assumption. cbn [bind]. rewrite reset_fresh, it_for_fresh by (apply usable_set_ok; assumption).
  pose (sel := fun '(((i, m), (j, m')) : (nat * list nat) * (nat * list nat)) => alignedb m dirs && alignedb m' dirs).
  pose (p := fun '(((i, m), (j, m')) : (nat * list nat) * (nat * list nat)) => idx lsub (restrict (S d) dirs m)).
  pose (q := fun '(((i, m), (j, m')) : (nat * list nat) * (nat * list nat)) => idx lsub (restrict (S d) dirs m')).
  pose (v := fun '(((i, m), (j, m')) : (nat * list nat) * (nat * list nat)) => mnth N (rep input) i j).
  destruct (ok_construct _ _ _ _ Hok (length lsub) (length lsub)) as [Wc Rc].
  destruct (set_loop N O rep wf Hok _ sel p q v (length lsub) (length lsub) (list_prod (enum l) (enum l)) (m_construct N O (length lsub) (length lsub)) Wc)
    as [out [E [W [G1 G2]]]].
  { intros [[i m] [j m']] H Hs. apply in_prod_iff in H as [H H']. apply enum_In in H as [Hm _], H' as [Hm' _]. cbn [p q].
    split; apply idx_lt, restrict_lsub; assumption. }
  { intros [[i m] [j m']] [[i1 m1] [j1 m1']] H H1 Hs Hs1 Ep Eq. apply in_prod_iff in H as [H H'], H1 as [H1 H1'].
    cbn [sel p q v] in *. apply andb_true_iff in Hs as [Sa Sb], Hs1 as [Sc Sd].
    apply enum_In in H as [Hm [_ <-]], H' as [Hm' [_ <-]], H1 as [Hm1 [_ <-]], H1' as [Hm1' [_ <-]].
    apply idx_inj in Ep; try (apply restrict_lsub; assumption). apply idx_inj in Eq; try (apply restrict_lsub; assumption).
    rewrite (sel_embed m), (sel_embed m1), (sel_embed m'), (sel_embed m1') by assumption. rewrite Ep, Eq. reflexivity. }
  exists out. split; [|split; [assumption|]].
  - rewrite <- E.
    rewrite (for_in_ext _ _ _ (fun x => for_in (fun y r => if sel (x, y) then m_set N O r (p (x, y)) (q (x, y)) (v (x, y)) else Ok r) (enum l))).
    + rewrite (for_in_prod _ _ _ (fun x y r => if sel (x, y) then m_set N O r (p (x, y)) (q (x, y)) (v (x, y)) else Ok r)).
      apply for_in_ext. intros [x y] r _. reflexivity.
    + intros [i m] r Hin. apply enum_In in Hin as [Hm [Hi _]]. rewrite is_aligned_ok; cbn [bind]. destruct (alignedb m dirs) eqn:Em.
      * rewrite extract_l by assumption. cbn [bind]. rewrite it_index_idx by (apply restrict_lsub; assumption). cbn [bind].
        rewrite it_for_fresh by (apply usable_set_ok; assumption). apply for_in_ext. intros [j m'] r' Hin'. apply enum_In in Hin' as [Hm' [Hj _]].
        rewrite is_aligned_ok. cbn [bind sel p q v]. rewrite Em. cbn [andb]. destruct (alignedb m' dirs); [|reflexivity].
        rewrite extract_l by assumption. cbn [bind]. rewrite it_index_idx by (apply restrict_lsub; assumption). cbn [bind].
        rewrite (ok_get _ _ _ _ Hok _ _ _ _ _ Hw) by assumption. reflexivity.
      * symmetry. apply for_in_skip. intros [j m'] r' _. cbn [sel]. rewrite Em. reflexivity.
  - intros r c Hr Hc. rewrite mvalue_nth; auto; [|apply NoDup_spec_list|eapply ok_mat; eassumption].
    assert (Wi : mat_wf (length l) (length l) (rep input)) by (eapply ok_mat; eassumption).
    destruct (in_dec (list_eq_dec Nat.eq_dec) (embed (S d) dirs r) l) as [Hir|Hir].
    2: { unfold mvalue. rewrite (value_notin _ [] l (rep input)) by assumption.
      assert (value n0 l ([] : list N) (embed (S d) dirs c) = n0) as -> by (destruct l; reflexivity).
      rewrite G2; [rewrite Rc; apply mnth_construct|]. intros [[i m] [j m']] H Hs [Ep Eq]. apply in_prod_iff in H as [H H'].
      apply enum_In in H as [Hm _], H' as [Hm' _]. cbn [sel p q] in *. apply andb_true_iff in Hs as [Sa Sb].
      apply idx_inj in Ep; [|apply restrict_lsub; assumption|assumption]. apply Hir. rewrite <- Ep, <- sel_embed by assumption. assumption. }
    destruct (in_dec (list_eq_dec Nat.eq_dec) (embed (S d) dirs c) l) as [Hic|Hic].
    2: { unfold mvalue. rewrite (value_notin _ n0 l) by assumption.
      rewrite G2; [rewrite Rc; apply mnth_construct|]. intros [[i m] [j m']] H Hs [Ep Eq]. apply in_prod_iff in H as [H H'].
      apply enum_In in H as [Hm _], H' as [Hm' _]. cbn [sel p q] in *. apply andb_true_iff in Hs as [Sa Sb].
      apply idx_inj in Eq; [|apply restrict_lsub; assumption|assumption]. apply Hic. rewrite <- Eq, <- sel_embed by assumption. assumption. }
    rewrite mvalue_nth; auto; [|apply NoDup_spec_list].
    assert (Hin : In ((idx l (embed (S d) dirs r), embed (S d) dirs r), (idx l (embed (S d) dirs c), embed (S d) dirs c)) (list_prod (enum l) (enum l))).
    { apply in_prod_iff. split; apply enum_nth, idx_nth; assumption. }
    specialize (G1 _ Hin). cbn [sel p q v] in G1. rewrite !embed_sel in G1 by assumption. specialize (G1 eq_refl).
    rewrite !restrict_embed in G1 by (auto; rewrite Hlen; apply len_lsub; assumption). exact G1.
Qed.

End Fixed.
End Project.
