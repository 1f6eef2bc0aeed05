(** Lists of directions: merging, and copying multi-indices by position. *)
From Coq Require Import String List Bool Arith ZArith Lia Sorted Permutation.
From Verif Require Import Base Lists IndexModel Spec Machine IndexSet Degree Num LinModel LinSpec LinBase MatBase Project Tensorize.
Import ListNotations.

Definition disjoint (a b : list nat) : Prop := forall x, In x a -> In x b -> False.
Definition memb (x : nat) (d : list nat) : bool := existsb (Nat.eqb x) d.

Lemma memb_In : forall x d, memb x d = true <-> In x d.
Proof.
  intros. unfold memb. rewrite existsb_exists. split.
  - intros [y [H E]]. apply Nat.eqb_eq in E. subst. assumption.
  - intros H. exists x. split; [assumption|apply Nat.eqb_refl].
Qed.
Lemma memb_notIn : forall x d, memb x d = false <-> ~ In x d.
Proof. intros. rewrite <- memb_In. destruct (memb x d); intuition congruence. Qed.

(** increasing, by position *)
Lemma increasing_nth : forall d, increasing d <-> (forall p q, p < q -> q < length d -> nth p d 0 < nth q d 0).
Proof.
  intros d. split.
  - intros H. induction H as [|x d Hs IH Hf]; intros p q Hpq Hq; [cbn in Hq; lia|]. destruct q as [|q]; [lia|]. cbn [length] in Hq.
    destruct p as [|p]; cbn [nth].
    + rewrite Forall_forall in Hf. apply Hf, nth_In. lia.
    + apply IH; lia.
  - induction d as [|x d IH]; intros H; [constructor|]. constructor.
    + apply IH. intros p q Hpq Hq. apply (H (S p) (S q)); cbn [length]; lia.
    + apply Forall_forall. intros y Hy. apply (In_nth _ _ 0) in Hy as [q [Hq <-]]. apply (H 0 (S q)); cbn [length]; lia.
Qed.

(** an increasing list is determined by its elements *)
Lemma increasing_perm : forall a b, increasing a -> increasing b -> Permutation a b -> a = b.
Proof.
  induction a as [|x a IH]; intros b Ha Hb Hp; [apply Permutation_nil in Hp; congruence|].
  destruct b as [|y b]; [apply Permutation_sym, Permutation_nil in Hp; discriminate|].
  inversion Ha as [|? ? Ha1 Ha2]; subst. inversion Hb as [|? ? Hb1 Hb2]; subst.
  assert (x = y).
  { rewrite Forall_forall in Ha2, Hb2.
    assert (Hx : In x (y :: b)) by (eapply Permutation_in; [exact Hp|left; reflexivity]).
    assert (Hy : In y (x :: a)) by (eapply Permutation_in; [apply Permutation_sym; exact Hp|left; reflexivity]).
    destruct Hx as [->|Hx]; [reflexivity|]. destruct Hy as [->|Hy]; [reflexivity|]. apply Ha2 in Hy. apply Hb2 in Hx. lia. }
  subst. f_equal. apply IH; auto. eapply Permutation_cons_inv. exact Hp.
Qed.

(** positions [ind] of the elements of [a] in [d] *)
Definition positions (a d ind : list nat) : Prop :=
  length ind = length a /\ forall k, k < length a -> nth k ind 0 < length d /\ nth (nth k ind 0) d 0 = nth k a 0.

Lemma nth_upd_eq : forall A (v : list A) i x d, i < length v -> nth i (upd v i x) d = x.
Proof. intros. rewrite nth_upd, Nat.eqb_refl. replace (i <? length v) with true by (symmetry; apply Nat.ltb_lt; assumption). reflexivity. Qed.
Lemma nth_upd_neq : forall A (v : list A) i j x d, j <> i -> nth j (upd v i x) d = nth j v d.
Proof. intros. rewrite nth_upd. replace (j =? i) with false by (symmetry; apply Nat.eqb_neq; assumption). reflexivity. Qed.

Section Merge.
Variable dA dB : list nat.
Hypothesis HA : increasing dA.
Hypothesis HB : increasing dB.
Hypothesis Hdis : disjoint dA dB.

Definition minv (i : nat) (st : nat * nat * list nat * list nat * list nat) : Prop :=
  let '(iA, iB, r, a, b) := st in
  iA + iB = i /\ iA <= length dA /\ iB <= length dB /\ length r = length dA + length dB /\ length a = length dA /\ length b = length dB /\
  (forall p q, p < q -> q < i -> nth p r 0 < nth q r 0) /\
  (forall p k, p < i -> iA <= k < length dA -> nth p r 0 < nth k dA 0) /\
  (forall p k, p < i -> iB <= k < length dB -> nth p r 0 < nth k dB 0) /\
  (forall k, k < iA -> nth k a 0 < i /\ nth (nth k a 0) r 0 = nth k dA 0) /\
  (forall k, k < iB -> nth k b 0 < i /\ nth (nth k b 0) r 0 = nth k dB 0).

Lemma tensorize_dirs_ok : exists d a b, tensorize_dirs dA dB = Ok (d, a, b) /\ increasing d /\ Permutation d (dA ++ dB) /\
  positions dA d a /\ positions dB d b.
Proof.
  pose proof (proj1 (increasing_nth dA) HA) as HA'. pose proof (proj1 (increasing_nth dB) HB) as HB'.
  unfold tensorize_dirs.
  match goal with |- context [for_each ?bd _ _ _] => set (body := bd) end.
  destruct (for_each_state _ minv body (length dA + length dB) 0 (0, 0, repeat 0 (length dA + length dB), repeat 0 (length dA), repeat 0 (length dB)))
    as [[[[[iA iB] r] a] b] [E H]].
  - intros i [[[[iA iB] r] a] b] Hi (I1 & I2 & I3 & I4 & I5 & I6 & I7 & I8 & I9 & I10 & I11). unfold body. cbv beta iota.
    assert (E : exists t, (if iB =? length dB then Ok true else if iA <? length dA then
        a0 <- vget dA iA;; b0 <- vget dB iB;; Ok (a0 <? b0) else Ok false) = Ok t /\
      (t = true -> iA < length dA /\ (iB < length dB -> nth iA dA 0 < nth iB dB 0)) /\
      (t = false -> iB < length dB /\ (iA < length dA -> nth iB dB 0 < nth iA dA 0))).
    { destruct (Nat.eqb_spec iB (length dB)).
      - exists true. split; [reflexivity|]. split; [intros _; split; [lia|intros; lia]|discriminate].
      - destruct (Nat.ltb_spec iA (length dA)).
        + rewrite (vget_nth_ok _ dA iA 0), (vget_nth_ok _ dB iB 0) by lia. cbn [bind]. eexists. split; [reflexivity|].
          destruct (Nat.ltb_spec (nth iA dA 0) (nth iB dB 0)); split; try discriminate; intros _; (split; [lia|]); intros; [assumption|].
          assert (nth iA dA 0 <> nth iB dB 0); [|lia]. intros Eq. apply (Hdis (nth iA dA 0)); [apply nth_In; lia|rewrite Eq; apply nth_In; lia].
        + exists false. split; [reflexivity|]. split; [discriminate|]. intros _. split; [lia|intros; lia]. }
    destruct E as [t [-> [Ht Hf]]]. cbn [bind]. destruct t.
    + destruct (Ht eq_refl) as [T1 T2]. rewrite (vget_nth_ok _ dA iA 0) by lia. cbn [bind]. rewrite vset_ok by lia. cbn [bind].
      rewrite vset_ok by lia. cbn [bind]. eexists. split; [reflexivity|]. unfold minv.
      split; [lia|]. split; [lia|]. split; [lia|]. rewrite !upd_length. do 3 (split; [assumption|]).
      assert (L : forall p, p < i -> nth p r 0 < nth iA dA 0) by (intros; apply I8; lia).
      split; [|split; [|split; [|split]]].
      * intros p q Hpq Hq. destruct (Nat.eq_dec q i) as [->|].
        -- rewrite nth_upd_eq, nth_upd_neq by lia. apply L. lia.
        -- rewrite !nth_upd_neq by lia. apply I7; lia.
      * intros p k Hp Hk. destruct (Nat.eq_dec p i) as [->|]; [rewrite nth_upd_eq by lia; apply HA'; lia|]. rewrite nth_upd_neq by lia. apply I8; lia.
      * intros p k Hp Hk. destruct (Nat.eq_dec p i) as [->|].
        -- rewrite nth_upd_eq by lia. specialize (T2 ltac:(lia)). destruct (Nat.eq_dec k iB) as [->|]; [assumption|]. specialize (HB' iB k ltac:(lia) ltac:(lia)). lia.
        -- rewrite nth_upd_neq by lia. apply I9; lia.
      * intros k Hk. destruct (Nat.eq_dec k iA) as [->|].
        -- rewrite nth_upd_eq by lia. rewrite nth_upd_eq by lia. split; [lia|reflexivity].
        -- rewrite (nth_upd_neq _ a) by lia. destruct (I10 k ltac:(lia)) as [G1 G2]. split; [lia|]. rewrite nth_upd_neq by lia. assumption.
      * intros k Hk. destruct (I11 k ltac:(lia)) as [G1 G2]. split; [lia|]. rewrite nth_upd_neq by lia. assumption.
    + destruct (Hf eq_refl) as [T1 T2]. rewrite (vget_nth_ok _ dB iB 0) by lia. cbn [bind]. rewrite vset_ok by lia. cbn [bind].
      rewrite vset_ok by lia. cbn [bind]. eexists. split; [reflexivity|]. unfold minv.
      split; [lia|]. split; [lia|]. split; [lia|]. rewrite !upd_length. do 3 (split; [assumption|]).
      assert (L : forall p, p < i -> nth p r 0 < nth iB dB 0) by (intros; apply I9; lia).
      split; [|split; [|split; [|split]]].
      * intros p q Hpq Hq. destruct (Nat.eq_dec q i) as [->|].
        -- rewrite nth_upd_eq, nth_upd_neq by lia. apply L. lia.
        -- rewrite !nth_upd_neq by lia. apply I7; lia.
      * intros p k Hp Hk. destruct (Nat.eq_dec p i) as [->|].
        -- rewrite nth_upd_eq by lia. specialize (T2 ltac:(lia)). destruct (Nat.eq_dec k iA) as [->|]; [assumption|]. specialize (HA' iA k ltac:(lia) ltac:(lia)). lia.
        -- rewrite nth_upd_neq by lia. apply I8; lia.
      * intros p k Hp Hk. destruct (Nat.eq_dec p i) as [->|]; [rewrite nth_upd_eq by lia; apply HB'; lia|]. rewrite nth_upd_neq by lia. apply I9; lia.
      * intros k Hk. destruct (I10 k ltac:(lia)) as [G1 G2]. split; [lia|]. rewrite nth_upd_neq by lia. assumption.
      * intros k Hk. destruct (Nat.eq_dec k iB) as [->|].
        -- rewrite nth_upd_eq by lia. rewrite nth_upd_eq by lia. split; [lia|reflexivity].
        -- rewrite (nth_upd_neq _ b) by lia. destruct (I11 k ltac:(lia)) as [G1 G2]. split; [lia|]. rewrite nth_upd_neq by lia. assumption.
  - unfold minv. rewrite !repeat_length. repeat split; try lia; intros; lia.
  - rewrite E. cbn [bind]. exists r, a, b. split; [reflexivity|]. destruct H as (I1 & I2 & I3 & I4 & I5 & I6 & I7 & I8 & I9 & I10 & I11).
    assert (iA = length dA) by lia. assert (iB = length dB) by lia. subst iA iB. cbn [plus] in *.
    assert (Hr : increasing r) by (apply increasing_nth; intros p q Hp Hq; apply I7; lia).
    assert (PA : positions dA r a) by (split; [assumption|]; intros k Hk; destruct (I10 k Hk); split; [lia|assumption]).
    assert (PB : positions dB r b) by (split; [assumption|]; intros k Hk; destruct (I11 k Hk); split; [lia|assumption]).
    split; [assumption|]. split; [|split; assumption].
    apply Permutation_sym, NoDup_Permutation_bis.
    + apply NoDup_app_intro; try (apply increasing_NoDup; assumption). intros x Hx Hy. exact (Hdis x Hx Hy).
    + rewrite app_length. lia.
    + intros x Hx. apply in_app_iff in Hx as [Hx|Hx]; apply (In_nth _ _ 0) in Hx as [k [Hk <-]].
      * destruct PA as [_ PA]. destruct (PA k Hk) as [P1 <-]. apply nth_In. assumption.
      * destruct PB as [_ PB]. destruct (PB k Hk) as [P1 <-]. apply nth_In. assumption.
Qed.
End Merge.

(** * scatter *)
Definition over (a m : list nat) (f : nat -> nat) (x : nat) : nat := if memb x a then lookup a m x else f x.

Lemma memb_firstn_S : forall a k x, k < length a -> memb x (firstn (S k) a) = memb x (firstn k a) || (x =? nth k a 0).
Proof.
  intros a k x Hk. assert (E : firstn (S k) a = firstn k a ++ [nth k a 0]).
  { revert k Hk. induction a as [|y a IH]; intros k Hk; [cbn in Hk; lia|]. destruct k as [|k]; [reflexivity|]. cbn [length] in Hk.
    rewrite firstn_cons. rewrite IH by lia. reflexivity. }
  rewrite E. unfold memb. rewrite existsb_app. cbn [existsb]. rewrite orb_false_r. reflexivity.
Qed.

Lemma scatter_ok : forall a d ind m f, NoDup a -> NoDup d -> positions a d ind -> length m = length a ->
  scatter ind m (map f d) (length a) = Ok (map (over a m f) d).
Proof.
  intros a d ind m f Ha Hd [Hl Hp] Hm. unfold scatter.
  destruct (for_each_state _ (fun k t => t = map (fun x => if memb x (firstn k a) then lookup a m x else f x) d)
    (fun i t => k <- vget ind i ;; x <- vget m i ;; vset t k x) (length a) 0 (map f d)) as [t [E H]].
  - intros k t Hk ->. rewrite (vget_nth_ok _ ind k 0) by lia. cbn [bind]. rewrite (vget_nth_ok _ m k 0) by lia. cbn [bind].
    destruct (Hp k ltac:(lia)) as [P1 P2]. rewrite vset_ok by (rewrite map_length; assumption).
    eexists. split; [reflexivity|]. apply list_ext_nth with (d := 0); [rewrite upd_length, !map_length; reflexivity|].
    intros q Hq. rewrite upd_length, map_length in Hq. replace (k + 1) with (S k) by lia.
    rewrite (nth_map_lt _ _ _ d q 0 0) by assumption. rewrite memb_firstn_S by lia.
    destruct (Nat.eq_dec q (nth k ind 0)) as [->|Hne].
    + rewrite nth_upd_eq by (rewrite map_length; assumption). rewrite P2, Nat.eqb_refl, orb_true_r. symmetry. apply lookup_nth; auto.
      rewrite (nth_error_nth' _ 0) by lia. reflexivity.
    + rewrite nth_upd_neq by assumption. rewrite (nth_map_lt _ _ _ d q 0 0) by assumption.
      destruct (Nat.eqb_spec (nth q d 0) (nth k a 0)) as [Eq|]; [|rewrite orb_false_r; reflexivity].
      exfalso. apply Hne. rewrite <- P2 in Eq. exact (proj1 (NoDup_nth d 0) Hd q (nth k ind 0) Hq P1 Eq).
  - apply map_ext. intros x. reflexivity.
  - rewrite E, H. f_equal. cbn [plus]. rewrite firstn_all. reflexivity.
Qed.

Lemma repeat_map0 : forall (d : list nat), repeat 0 (length d) = map (fun _ => 0) d.
Proof. induction d as [|x d IH]; [reflexivity|]. cbn [length repeat map]. f_equal. assumption. Qed.

(** combining two multi-indices over disjoint directions *)
Definition comb (dA dB d mA mB : list nat) : list nat := map (over dB mB (over dA mA (fun _ => 0))) d.

Lemma over_lookup : forall a m x, over a m (fun _ => 0) x = lookup a m x.
Proof. intros. unfold over. destruct (memb x a) eqn:E; [reflexivity|]. symmetry. apply lookup_notin. apply memb_notIn. assumption. Qed.

Section Comb.
Variable dA dB d : list nat.
Hypothesis HA : NoDup dA.
Hypothesis HB : NoDup dB.
Hypothesis Hd : NoDup d.
Hypothesis Hp : Permutation d (dA ++ dB).
Hypothesis Hdis : disjoint dA dB.

Lemma comb_in : forall x, In x d <-> In x dA \/ In x dB.
Proof. intros. rewrite <- in_app_iff. split; apply Permutation_in; [|apply Permutation_sym]; assumption. Qed.

Lemma comb_len : forall mA mB, length (comb dA dB d mA mB) = length d.
Proof. intros. apply map_length. Qed.

Lemma comb_A : forall mA mB, length mA = length dA -> reindex d dA (comb dA dB d mA mB) = mA.
Proof.
  intros mA mB Hl. rewrite <- (reindex_id dA mA HA Hl) at 2. unfold reindex. apply map_ext_in. intros x Hx. unfold comb.
  rewrite lookup_map by (apply comb_in; left; assumption). unfold over at 1.
  replace (memb x dB) with false by (symmetry; apply memb_notIn; intros G; exact (Hdis x Hx G)). apply over_lookup.
Qed.
Lemma comb_B : forall mA mB, length mB = length dB -> reindex d dB (comb dA dB d mA mB) = mB.
Proof.
  intros mA mB Hl. rewrite <- (reindex_id dB mB HB Hl) at 2. unfold reindex. apply map_ext_in. intros x Hx. unfold comb.
  rewrite lookup_map by (apply comb_in; right; assumption). unfold over at 1.
  replace (memb x dB) with true by (symmetry; apply memb_In; assumption). reflexivity.
Qed.
Lemma comb_id : forall m, length m = length d -> comb dA dB d (reindex d dA m) (reindex d dB m) = m.
Proof.
  intros m Hl. rewrite <- (reindex_id d m Hd Hl) at 3. unfold reindex at 3. apply map_ext_in. intros x Hx. unfold over at 1.
  destruct (memb x dB) eqn:E.
  - apply memb_In in E. apply lookup_reindex. assumption.
  - apply memb_notIn in E. apply comb_in in Hx as [Hx|Hx]; [|contradiction]. rewrite over_lookup. apply lookup_reindex. assumption.
Qed.
End Comb.

(** restrictions stay in the set *)
Lemma in_set_sub : forall s degree d d' m, increasing d -> increasing d' -> incl d' d ->
  in_set s degree m -> in_set s degree (reindex d d' m).
Proof.
  intros s degree d d' m Hd Hd' Hi Hm. apply in_set_reindex; [apply increasing_NoDup; assumption| |assumption].
  intros _ x Hx E. destruct d as [|y d]; [discriminate|]. injection E as ->. destruct d' as [|z d']; [contradiction|]. cbn [tl] in Hx.
  inversion Hd' as [|? ? Hs' Hf']; subst. inversion Hd as [|? ? Hs Hf]; subst. rewrite Forall_forall in Hf, Hf'. apply Hf' in Hx.
  destruct (Hi z (or_introl eq_refl)) as [->|Hz]; [lia|]. apply Hf in Hz. lia.
Qed.
