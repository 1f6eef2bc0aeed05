(** tensorize.cpp: tensor products of matrices. *)
From Coq Require Import String List Bool Arith ZArith Lia Sorted Permutation.
From Verif Require Import Base Lists IndexModel Spec Machine IndexSet Degree Num LinModel LinSpec LinBase MatBase Project Tensorize Dirs Sparse.
Import ListNotations.

Lemma NoDup_app_l : forall A (l l' : list A), NoDup (l ++ l') -> NoDup l.
Proof. intros A l l' H. induction l as [|x l IH]; [constructor|]. cbn [app] in H. inversion H; subst. constructor; [|apply IH; assumption]. intros G. apply H2. apply in_app_iff. left. assumption. Qed.
Lemma NoDup_app_r : forall A (l l' : list A), NoDup (l ++ l') -> NoDup l'.
Proof. intros A l l' H. induction l as [|x l IH]; [assumption|]. cbn [app] in H. inversion H; subst. apply IH. assumption. Qed.
Lemma NoDup_app_disj : forall A (l l' : list A), NoDup (l ++ l') -> forall x, In x l -> In x l' -> False.
Proof.
  intros A l l' H. induction l as [|y l IH]; intros x Hx Hx'; [contradiction|]. cbn [app] in H. inversion H; subst. destruct Hx as [->|Hx].
  - apply H2. apply in_app_iff. right. assumption.
  - apply (IH H3 x); assumption.
Qed.

(** is a position stored? *)
Lemma classic_entry : forall (N : num) (A : spmat N) i j,
  {x | In (i, j, x) (sp_entries N A)} + {forall x, ~ In (i, j, x) (sp_entries N A)}.
Proof.
  intros N A i j. induction (sp_entries N A) as [|[[a b] x] t IH]; [right; intros x []|].
  destruct (Nat.eq_dec a i) as [->|Ha].
  - destruct (Nat.eq_dec b j) as [->|Hb].
    + left. exists x. left. reflexivity.
    + destruct IH as [[y H]|H]; [left; exists y; right; assumption|]. right. intros y [E|Hy]; [congruence|exact (H y Hy)].
  - destruct IH as [[y H]|H]; [left; exists y; right; assumption|]. right. intros y [E|Hy]; [congruence|exact (H y Hy)].
Qed.

Section TensorMat.
Variable N : num.
Hypothesis mul0l : forall x : N, nmul n0 x = n0.
Hypothesis mul0r : forall x : N, nmul x n0 = n0.

Section Two.
Variable (s : iset) (pA pB p degree : nat) (dA dB : list nat).
Hypothesis HA : increasing dA.
Hypothesis HB : increasing dB.
Hypothesis Hdis : disjoint dA dB.
Hypothesis LA : length dA = S pA.
Hypothesis LB : length dB = S pB.
Hypothesis Ld : length dA + length dB = S p.
Hypothesis Hu : usable s (S p) degree.
Notation lA := (spec_list s pA degree).
Notation lB := (spec_list s pB degree).
Notation l := (spec_list s p degree).

Lemma tensorize_sp_list : forall A B, sp_wf2 N A (length lA) (length lA) -> sp_wf2 N B (length lB) (length lB) ->
  exists d C, increasing d /\ Permutation d (dA ++ dB) /\ (exists a b, tensorize_dirs dA dB = Ok (d, a, b)) /\
    tensorize_sp N s A B dA dB = Ok C /\ sp_wf2 N C (length l) (length l) /\
    forall r c, In r l -> In c l -> mvalue l (dense C) r c =
      nmul (mvalue lA (dense A) (reindex d dA r) (reindex d dA c)) (mvalue lB (dense B) (reindex d dB r) (reindex d dB c)).
Proof.
  intros A B WA WB. destruct (tensorize_dirs_ok dA dB HA HB Hdis) as (d & a & b & Ed & Hd & Hp & PA & PB).
  assert (Hld : length d = S p) by (rewrite (Permutation_length Hp), app_length; assumption).
  assert (NA : NoDup dA) by (apply increasing_NoDup; assumption). assert (NB : NoDup dB) by (apply increasing_NoDup; assumption).
  assert (ND : NoDup d) by (apply increasing_NoDup; assumption).
  assert (UA : usable s (S pA) degree) by (eapply usable_sub; [exact Hu|lia]).
  assert (UB : usable s (S pB) degree) by (eapply usable_sub; [exact Hu|lia]).
  assert (LlA : forall m, In m lA -> length m = length dA) by (intros m H; apply in_spec_list in H; lia).
  assert (LlB : forall m, In m lB -> length m = length dB) by (intros m H; apply in_spec_list in H; lia).
  assert (Ll : forall m, In m l -> length m = length d) by (intros m H; apply in_spec_list in H; lia).
  assert (RA : forall m, In m l -> In (reindex d dA m) lA).
  { intros m H. apply in_spec_list in H as [_ H]. apply in_spec_list. split; [rewrite reindex_length; assumption|]. apply in_set_sub; auto.
    intros x Hx. apply (comb_in dA dB d Hp). left. assumption. }
  assert (RB : forall m, In m l -> In (reindex d dB m) lB).
  { intros m H. apply in_spec_list in H as [_ H]. apply in_spec_list. split; [rewrite reindex_length; assumption|]. apply in_set_sub; auto.
    intros x Hx. apply (comb_in dA dB d Hp). right. assumption. }
  pose (row := fun '(((rA, cA, xA), (rB, cB, xB)) : (nat * nat * N) * (nat * nat * N)) => comb dA dB d (nth rA lA []) (nth rB lB [])).
  pose (col := fun '(((rA, cA, xA), (rB, cB, xB)) : (nat * nat * N) * (nat * nat * N)) => comb dA dB d (nth cA lA []) (nth cB lB [])).
  pose (sel := fun z => inb (row z) l && inb (col z) l).
  pose (v := fun '(((rA, cA, xA), (rB, cB, xB)) : (nat * nat * N) * (nat * nat * N)) => nmul xA xB).
  pose proof (spmat_ops_ok N) as Hok. destruct (ok_construct _ _ _ _ Hok (length l) (length l)) as [Wc Rc].
  assert (EA : forall r c x, In (r, c, x) (sp_entries N A) -> r < length lA /\ c < length lA /\ mnth N (dense A) r c = x).
  { destruct WA as [WA1 [WA2 WA3]]. intros r c x H. apply sp_entries_spec in H; [|assumption]. rewrite WA2, WA3 in H. assumption. }
  assert (EB : forall r c x, In (r, c, x) (sp_entries N B) -> r < length lB /\ c < length lB /\ mnth N (dense B) r c = x).
  { destruct WB as [WB1 [WB2 WB3]]. intros r c x H. apply sp_entries_spec in H; [|assumption]. rewrite WB2, WB3 in H. assumption. }
  assert (IA : forall k, k < length lA -> length (nth k lA []) = length dA) by (intros; apply LlA, nth_In; assumption).
  assert (IB : forall k, k < length lB -> length (nth k lB []) = length dB) by (intros; apply LlB, nth_In; assumption).
  assert (JA : forall k k', k < length lA -> k' < length lA -> nth k lA [] = nth k' lA [] -> k = k').
  { intros k k' Hk Hk' E. exact (proj1 (NoDup_nth lA []) (NoDup_spec_list s pA degree) k k' Hk Hk' E). }
  assert (JB : forall k k', k < length lB -> k' < length lB -> nth k lB [] = nth k' lB [] -> k = k').
  { intros k k' Hk Hk' E. exact (proj1 (NoDup_nth lB []) (NoDup_spec_list s pB degree) k k' Hk Hk' E). }
  assert (CI : forall k k' h h', k < length lA -> k' < length lA -> h < length lB -> h' < length lB ->
    comb dA dB d (nth k lA []) (nth h lB []) = comb dA dB d (nth k' lA []) (nth h' lB []) -> k = k' /\ h = h').
  { intros k k' h h' Hk Hk' Hh Hh' E. split.
    - apply JA; auto. rewrite <- (comb_A dA dB d NA Hp Hdis (nth k lA []) (nth h lB [])), E by auto. apply comb_A; auto.
    - apply JB; auto. rewrite <- (comb_B dA dB d NB Hp (nth k lA []) (nth h lB [])), E by auto. apply comb_B; auto. }
  set (zs := list_prod (sp_entries N A) (sp_entries N B)).
  destruct (set_loop N (spmat_ops N) _ _ Hok _ sel (fun z => idx l (row z)) (fun z => idx l (col z)) v (length l) (length l) zs _ Wc)
    as [C [E [W [G1 G2]]]].
  { intros z _ Hs. unfold sel in Hs. apply andb_true_iff in Hs as [S1 S2]. apply inb_In in S1, S2. split; apply idx_lt; assumption. }
  { intros [[[rA cA] xA] [[rB cB] xB]] [[[rA' cA'] xA'] [[rB' cB'] xB']] H H' Hs Hs' E1 E2. apply in_prod_iff in H as [H1 H2], H' as [H1' H2'].
    unfold sel in *. apply andb_true_iff in Hs as [S1 S2], Hs' as [S1' S2']. apply inb_In in S1, S2, S1', S2'.
    apply idx_inj in E1, E2; auto. cbn [row col v] in *. apply EA in H1, H1'. apply EB in H2, H2'.
    apply CI in E1 as [-> ->]; try tauto. apply CI in E2 as [-> ->]; try tauto.
    destruct H1 as (_ & _ & <-), H1' as (_ & _ & <-), H2 as (_ & _ & <-), H2' as (_ & _ & <-). reflexivity. }
  exists d, C. split; [assumption|]. split; [assumption|]. split; [exists a, b; assumption|]. split; [|split; [assumption|]].
  - refine (eq_trans _ E). unfold tensorize_sp. rewrite Ed. cbn [bind].
    destruct WA as [WA1 [WA2 WA3]]. rewrite WA2, LA. rewrite usable_get_degree by assumption. cbn [bind].
    rewrite <- LA, Ld. rewrite usable_s_size by assumption. cbn [bind]. rewrite Nat2Z.id.
    rewrite usable_make_iterator by assumption. cbn [bind]. rewrite LA, usable_s_list by assumption. cbn [bind].
    rewrite LB, usable_s_list by assumption. cbn [bind].
    rewrite (for_in_ext _ _ _ (fun x => for_in (fun y r => if sel (x, y) then sp_set N r (idx l (row (x, y))) (idx l (col (x, y))) (v (x, y)) else Ok r) (sp_entries N B))).
    + rewrite (for_in_prod _ _ _ (fun x y r => if sel (x, y) then sp_set N r (idx l (row (x, y))) (idx l (col (x, y))) (v (x, y)) else Ok r)).
      apply for_in_ext. intros [x y] r _. reflexivity.
    + intros [[rA cA] xA] r Hin. apply EA in Hin as (H1 & H2 & _). rewrite (vget_nth_ok _ lA rA []), (vget_nth_ok _ lA cA []) by assumption. cbn [bind].
      rewrite <- Hld, repeat_map0, <- LA. rewrite !(scatter_ok dA d a) by (auto). cbn [bind].
      apply for_in_ext. intros [[rB cB] xB] r' Hin'. apply EB in Hin' as (H1' & H2' & _).
      rewrite (vget_nth_ok _ lB rB []), (vget_nth_ok _ lB cB []) by assumption. cbn [bind].
      rewrite <- LB. rewrite !(scatter_ok dB d b) by (auto). cbn [bind].
      fold (comb dA dB d (nth rA lA []) (nth rB lB [])). fold (comb dA dB d (nth cA lA []) (nth cB lB [])).
      rewrite !it_has_inb. unfold sel. cbn [row col v].
      destruct (inb (comb dA dB d (nth rA lA []) (nth rB lB [])) l) eqn:S1; [|reflexivity].
      destruct (inb (comb dA dB d (nth cA lA []) (nth cB lB [])) l) eqn:S2; [|reflexivity]. cbn [negb orb andb].
      apply inb_In in S1, S2. rewrite !it_index_idx by assumption. reflexivity.
  - intros r c Hr Hc. assert (WmA : mat_wf (length lA) (length lA) (dense A)) by (exact (ok_mat _ _ _ _ Hok _ _ _ WA)).
    assert (WmB : mat_wf (length lB) (length lB) (dense B)) by (exact (ok_mat _ _ _ _ Hok _ _ _ WB)).
    assert (WmC : mat_wf (length l) (length l) (dense C)) by (exact (ok_mat _ _ _ _ Hok _ _ _ W)).
    rewrite !mvalue_nth by (auto; apply NoDup_spec_list).
    set (rA := idx lA (reindex d dA r)). set (cA := idx lA (reindex d dA c)). set (rB := idx lB (reindex d dB r)). set (cB := idx lB (reindex d dB c)).
    assert (HrA : rA < length lA) by (apply idx_lt; auto). assert (HcA : cA < length lA) by (apply idx_lt; auto).
    assert (HrB : rB < length lB) by (apply idx_lt; auto). assert (HcB : cB < length lB) by (apply idx_lt; auto).
    assert (VrA : nth rA lA [] = reindex d dA r) by (apply nth_error_nth, idx_nth; auto).
    assert (VcA : nth cA lA [] = reindex d dA c) by (apply nth_error_nth, idx_nth; auto).
    assert (VrB : nth rB lB [] = reindex d dB r) by (apply nth_error_nth, idx_nth; auto).
    assert (VcB : nth cB lB [] = reindex d dB c) by (apply nth_error_nth, idx_nth; auto).
    assert (Er : comb dA dB d (nth rA lA []) (nth rB lB []) = r) by (rewrite VrA, VrB; apply comb_id; auto).
    assert (Ec : comb dA dB d (nth cA lA []) (nth cB lB []) = c) by (rewrite VcA, VcB; apply comb_id; auto).
    destruct (classic_entry N A rA cA) as [[xA HxA]|HnA].
    + destruct (classic_entry N B rB cB) as [[xB HxB]|HnB].
      * assert (Hz : In ((rA, cA, xA), (rB, cB, xB)) zs) by (apply in_prod_iff; split; assumption).
        specialize (G1 _ Hz). unfold sel in G1. cbn [row col v] in G1. rewrite Er, Ec in G1.
        rewrite (proj2 (inb_In r l) Hr), (proj2 (inb_In c l) Hc) in G1. rewrite (G1 eq_refl).
        apply EA in HxA as (_ & _ & <-). apply EB in HxB as (_ & _ & <-). reflexivity.
      * destruct WB as [WB1 [WB2 WB3]]. rewrite (sp_entries_absent N B rB cB), mul0r by (auto; lia).
        rewrite G2; [rewrite Rc; apply mnth_construct|]. intros [[[rA' cA'] xA'] [[rB' cB'] xB']] Hz Hs [E1 E2]. apply in_prod_iff in Hz as [H1 H2].
        unfold sel in Hs. apply andb_true_iff in Hs as [S1 S2]. apply inb_In in S1, S2. apply idx_inj in E1, E2; auto. cbn [row col] in *.
        pose proof (EA _ _ _ H1). pose proof (EB _ _ _ H2). rewrite <- Er in E1. rewrite <- Ec in E2.
        apply CI in E1 as [-> ->]; try tauto. apply CI in E2 as [-> ->]; try tauto. exact (HnB _ H2).
    + destruct WA as [WA1 [WA2 WA3]]. rewrite (sp_entries_absent N A rA cA), mul0l by (auto; lia).
      rewrite G2; [rewrite Rc; apply mnth_construct|]. intros [[[rA' cA'] xA'] [[rB' cB'] xB']] Hz Hs [E1 E2]. apply in_prod_iff in Hz as [H1 H2].
      unfold sel in Hs. apply andb_true_iff in Hs as [S1 S2]. apply inb_In in S1, S2. apply idx_inj in E1, E2; auto. cbn [row col] in *.
      pose proof (EA _ _ _ H1). pose proof (EB _ _ _ H2). rewrite <- Er in E1. rewrite <- Ec in E2.
      apply CI in E1 as [-> ->]; try tauto. apply CI in E2 as [-> ->]; try tauto. exact (HnA _ H1).
Qed.
End Two.

Hypothesis mul1l : forall x : N, nmul n1 x = x.

(** one factor of the product *)
Definition mfactor (s : iset) (degree : nat) (d r c : list nat) (x : list nat * spmat N) : N :=
  mvalue (spec_list s (pred (length (fst x))) degree) (dense (snd x)) (reindex d (fst x) r) (reindex d (fst x) c).

Lemma nprod_snoc : forall (l : list N) x, nprod (l ++ [x]) = nmul (nprod l) x.
Proof. intros. unfold nprod. rewrite fold_left_app. reflexivity. Qed.

Lemma firstn_S_nth : forall A (l : list A) k d, k < length l -> firstn (S k) l = firstn k l ++ [nth k l d].
Proof.
  intros A. induction l as [|y l IH]; intros k d Hk; [cbn in Hk; lia|]. destruct k as [|k]; [reflexivity|]. cbn [length] in Hk.
  rewrite firstn_cons. rewrite (IH k d) by lia. reflexivity.
Qed.

Lemma Forall2_nth : forall A B (P : A -> B -> Prop) la lb k a b, Forall2 P la lb -> k < length la -> P (nth k la a) (nth k lb b).
Proof.
  intros A B P la lb k a b H. revert k. induction H as [|x y la lb Hxy H IH]; intros k Hk; [cbn in Hk; lia|].
  destruct k; [exact Hxy|]. cbn [nth]. apply IH. cbn [length] in Hk. lia.
Qed.

Lemma combine_firstn_snoc : forall A B (la : list A) (lb : list B) k a b, k < length la -> length lb = length la ->
  combine (firstn (S k) la) (firstn (S k) lb) = combine (firstn k la) (firstn k lb) ++ [(nth k la a, nth k lb b)].
Proof.
  intros A B. induction la as [|x la IH]; intros lb k a b Hk Hl; [cbn in Hk; lia|]. destruct lb as [|y lb]; [discriminate|].
  destruct k as [|k]; [reflexivity|]. cbn [length] in *. rewrite !firstn_cons. cbn [combine app nth]. f_equal. apply IH; lia.
Qed.

Lemma in_concat_firstn : forall (dirs : list (list nat)) k dj, In dj (firstn k dirs) -> incl dj (concat (firstn k dirs)).
Proof. intros dirs k dj H x Hx. apply in_concat. exists dj. split; assumption. Qed.

Lemma tensorize_sps_list : forall s p degree dirs inputs, length (concat dirs) = S p -> usable s (S p) degree -> NoDup (concat dirs) ->
  Forall (fun dj => increasing dj /\ dj <> []) dirs ->
  Forall2 (fun dj A => sp_wf2 N A (length (spec_list s (pred (length dj)) degree)) (length (spec_list s (pred (length dj)) degree))) dirs inputs ->
  exists d C, increasing d /\ Permutation d (concat dirs) /\ tensorize_sps N s inputs dirs = Ok C /\
    sp_wf2 N C (length (spec_list s p degree)) (length (spec_list s p degree)) /\
    forall r c, In r (spec_list s p degree) -> In c (spec_list s p degree) ->
      mvalue (spec_list s p degree) (dense C) r c = nprod (map (mfactor s degree d r c) (combine dirs inputs)).
Proof.
  intros s p degree dirs inputs Hlen Hu Hnd Hdirs H2. pose proof (Forall2_length _ _ _ _ _ H2) as Hl2.
  rewrite Forall_forall in Hdirs.
  assert (Hn : 0 < length dirs) by (destruct dirs; [discriminate|cbn [length]; lia]).
  unfold tensorize_sps. rewrite (vget_nth_ok _ inputs 0 (sp_construct N 0 0)) by lia. cbn [bind]. rewrite (vget_nth_ok _ dirs 0 []) by lia. cbn [bind].
  set (P := fun i '((C, d) : spmat N * list nat) => increasing d /\ Permutation d (concat (firstn (i + 1) dirs)) /\
    sp_wf2 N C (length (spec_list s (pred (length d)) degree)) (length (spec_list s (pred (length d)) degree)) /\
    forall r c, In r (spec_list s (pred (length d)) degree) -> In c (spec_list s (pred (length d)) degree) ->
      mvalue (spec_list s (pred (length d)) degree) (dense C) r c =
      nprod (map (mfactor s degree d r c) (combine (firstn (i + 1) dirs) (firstn (i + 1) inputs)))).
  match goal with |- context [for_each ?bd _ _ _] => set (body := bd) end.
  destruct (for_each_state _ P body (length inputs - 1) 0 (nth 0 inputs (sp_construct N 0 0), nth 0 dirs [])) as [[C d] [E HP]].
  - intros i [C d] Hi (I1 & I2 & I3 & I4). unfold body. rewrite (vget_nth_ok _ dirs (i + 1) []) by lia. cbn [bind].
    rewrite (vget_nth_ok _ inputs (i + 1) (sp_construct N 0 0)) by lia.
    set (dj := nth (i + 1) dirs []). set (Aj := nth (i + 1) inputs (sp_construct N 0 0)).
    assert (Hdj : In dj dirs) by (apply nth_In; lia). destruct (Hdirs dj Hdj) as [Hj1 Hj2].
    pose proof (Forall2_nth _ _ _ dirs inputs (i + 1) [] (sp_construct N 0 0) H2 ltac:(lia)) as Wj. cbv beta in Wj. fold dj Aj in Wj.
    pose proof (firstn_S_nth _ dirs (i + 1) [] ltac:(lia)) as EF. fold dj in EF.
    assert (Econc : concat (firstn (S (i + 1)) dirs) = concat (firstn (i + 1) dirs) ++ dj) by (rewrite EF, concat_app; cbn [concat]; rewrite app_nil_r; reflexivity).
    assert (Esplit : concat dirs = concat (firstn (S (i + 1)) dirs) ++ concat (skipn (S (i + 1)) dirs)) by (rewrite <- concat_app, firstn_skipn; reflexivity).
    assert (Hdis : disjoint d dj).
    { intros x Hx Hx'. eapply Permutation_in in Hx; [|exact I2]. rewrite Esplit in Hnd. apply NoDup_app_l in Hnd. rewrite Econc in Hnd.
      revert Hx Hx'. apply NoDup_app_disj. assumption. }
    assert (Hd1 : 1 <= length d).
    { rewrite (Permutation_length I2). destruct dirs as [|d0 dirs']; [cbn in Hn; lia|]. replace (i + 1) with (S i) by lia. rewrite firstn_cons. cbn [concat].
      rewrite app_length. destruct (Hdirs d0 (or_introl eq_refl)) as [_ G]. destruct d0; [contradiction|]. cbn [length]. lia. }
    assert (Hdj1 : 1 <= length dj) by (destruct dj; [contradiction|cbn [length]; lia]).
    assert (Htot : length d + length dj <= S p).
    { rewrite (Permutation_length I2). rewrite <- Hlen, Esplit, Econc, !app_length. lia. }
    destruct (tensorize_sp_list s (pred (length d)) (pred (length dj)) (pred (length d + length dj)) degree d dj I1 Hj1 Hdis ltac:(lia) ltac:(lia) ltac:(lia)
      ltac:(eapply usable_sub; [exact Hu|lia]) C Aj I3 Wj) as (d' & C' & D1 & D2 & (a & b & D3) & D4 & D5 & D6).
    rewrite D3. cbn [bind]. rewrite D4. cbn [bind]. eexists. split; [reflexivity|]. unfold P.
    assert (Ld' : length d' = length d + length dj) by (rewrite (Permutation_length D2), app_length; reflexivity).
    replace (i + 1 + 1) with (S (i + 1)) by lia.
    split; [assumption|]. split; [rewrite Econc; etransitivity; [exact D2|]; apply Permutation_app_tail; assumption|].
    rewrite Ld'. split; [assumption|]. intros r c Hr Hc. rewrite D6 by assumption.
    assert (Hrd : forall m, In m (spec_list s (pred (length d + length dj)) degree) -> In (reindex d' d m) (spec_list s (pred (length d)) degree)).
    { intros m Hm. apply in_spec_list in Hm as [_ Hm]. apply in_spec_list. split; [rewrite reindex_length; lia|]. apply in_set_sub; auto.
      intros x Hx. eapply Permutation_in; [apply Permutation_sym; exact D2|]. apply in_app_iff. left. assumption. }
    rewrite I4 by (apply Hrd; assumption). rewrite (combine_firstn_snoc _ _ dirs inputs (i + 1) [] (sp_construct N 0 0)) by lia. fold dj Aj.
    rewrite map_app. cbn [map]. rewrite nprod_snoc. f_equal. f_equal. apply map_ext_in. intros [dk Ak] Hk. unfold mfactor. cbn [fst snd].
    apply in_combine_l in Hk. rewrite !reindex_reindex; [reflexivity| |]; intros x Hx; left; (eapply Permutation_in; [apply Permutation_sym; exact I2|]); eapply in_concat_firstn; eassumption.
  - destruct dirs as [|d0 dirs']; [cbn in Hn; lia|]. destruct inputs as [|A0 inputs']; [discriminate|]. unfold P. cbn [plus nth]. rewrite !firstn_cons. cbn [firstn concat combine map].
    rewrite app_nil_r. destruct (Hdirs d0 (or_introl eq_refl)) as [G1 G2]. inversion H2; subst.
    split; [assumption|]. split; [reflexivity|]. split; [assumption|]. intros r c Hr Hc. unfold nprod. cbn [fold_left]. rewrite mul1l. unfold mfactor. cbn [fst snd].
    apply in_spec_list in Hr, Hc. assert (1 <= length d0) by (destruct d0; [contradiction|cbn [length]; lia]).
    rewrite !reindex_id by (try (apply increasing_NoDup; assumption); lia). reflexivity.
  - unfold P in HP. destruct HP as (I1 & I2 & I3 & I4). replace (0 + (length inputs - 1) + 1) with (length dirs) in * by lia.
    rewrite firstn_all in *. replace (length dirs) with (length inputs) in I4 by lia. rewrite firstn_all in I4.
    assert (Lp : length d = S p) by (rewrite (Permutation_length I2); assumption). rewrite Lp in *. cbn [pred] in *.
    exists d, C. split; [assumption|]. split; [assumption|]. split; [|split; assumption].
    rewrite E. reflexivity.
Qed.

End TensorMat.
