(** varf.cpp: the tables of triple products. *)
From Coq Require Import String List Bool Arith ZArith Lia Reals Lra.
From Verif Require Import Base Lists IndexModel Spec Num Fnum LinModel LinSpec LinBase MatBase Tensorize CalcModel CalcSpec CalcBase CalcHermite CalcReal.
Import ListNotations.

(** * cubes *)
Section Cubes.
Variable F : fnum.
Notation cube := (list (list (list F))) (only parsing).
Definition cnth (c : cube) (k i j : nat) : F := nth j (nth i (nth k c []) []) n0.
Definition cwf (K n : nat) (c : cube) : Prop := length c = K /\ forall k, k < K -> mat_wf n n (nth k c []).

Lemma mat_wf_nth : forall (A : list (list F)) n m i, mat_wf n m A -> i < n -> length (nth i A []) = m.
Proof. intros A n m i [H1 H2] Hi. rewrite Forall_forall in H2. apply H2. apply nth_In. lia. Qed.

Lemma cget_ok : forall K n c k i j, cwf K n c -> k < K -> i < n -> j < n -> cget F c k i j = Ok (cnth c k i j).
Proof.
  intros K n c k i j [H1 H2] Hk Hi Hj. unfold cget, mat_get. rewrite (vget_nth_ok _ c k []) by lia. cbn [bind].
  specialize (H2 k Hk). rewrite (vget_nth_ok _ _ i []) by (destruct H2; lia). cbn [bind]. rewrite (vget_nth_ok _ _ j n0) by (rewrite (mat_wf_nth _ n n); auto). reflexivity.
Qed.

Lemma cset_ok : forall K n c k i j x, cwf K n c -> k < K -> i < n -> j < n ->
  exists c', cset F c k i j x = Ok c' /\ cwf K n c' /\
    forall k' i' j', cnth c' k' i' j' = if (k' =? k) && (i' =? i) && (j' =? j) then x else cnth c k' i' j'.
Proof.
  intros K n c k i j x [H1 H2] Hk Hi Hj. unfold cset, mat_set. rewrite (vget_nth_ok _ c k []) by lia. cbn [bind].
  pose proof (H2 k Hk) as [W1 W2]. rewrite (vget_nth_ok _ _ i []) by lia. cbn [bind].
  assert (Wl : length (nth i (nth k c []) []) = n) by (apply (mat_wf_nth _ n n); auto).
  rewrite vset_Ok by lia. cbn [bind]. rewrite vset_Ok by lia. cbn [bind]. rewrite vset_Ok by lia. eexists. split; [reflexivity|]. split.
  - split; [rewrite upd_length; assumption|]. intros k' Hk'. rewrite nth_upd. destruct ((k' =? k) && (k <? length c)); [|apply H2; assumption].
    split; [rewrite upd_length; assumption|]. rewrite Forall_forall in W2 |- *. intros row Hr. apply (In_nth _ _ []) in Hr as [a [Ha Hr]]. rewrite nth_upd in Hr.
    destruct ((a =? i) && (i <? length (nth k c []))); subst row; [rewrite upd_length; assumption|]. rewrite upd_length in Ha. apply W2. apply nth_In. assumption.
  - intros k' i' j'. unfold cnth. rewrite nth_upd, (proj2 (Nat.ltb_lt _ _)), andb_true_r by lia.
    destruct (Nat.eqb_spec k' k) as [->|]; cbn [andb]; [|reflexivity]. rewrite nth_upd, (proj2 (Nat.ltb_lt _ _)), andb_true_r by lia.
    destruct (Nat.eqb_spec i' i) as [->|]; cbn [andb]; [|reflexivity]. rewrite nth_upd, (proj2 (Nat.ltb_lt _ _)), andb_true_r by lia. reflexivity.
Qed.

Lemma cadd_ok : forall K n c k i j x, cwf K n c -> k < K -> i < n -> j < n ->
  exists c', cadd F c k i j x = Ok c' /\ cwf K n c' /\
    forall k' i' j', cnth c' k' i' j' = if (k' =? k) && (i' =? i) && (j' =? j) then nadd (cnth c k i j) x else cnth c k' i' j'.
Proof. intros K n c k i j x H Hk Hi Hj. unfold cadd. rewrite (cget_ok K n) by assumption. cbn [bind]. apply cset_ok; assumption. Qed.

Lemma cube0_wf : forall K n, cwf K n (repeat (repeat (repeat n0 n) n) K).
Proof.
  intros K n. split; [apply repeat_length|]. intros k Hk. rewrite (nth_indep _ [] (repeat (repeat (n0 : F) n) n)) by (rewrite repeat_length; assumption).
  rewrite nth_repeat. split; [apply repeat_length|]. apply Forall_forall. intros row Hr. apply repeat_spec in Hr. subst. apply repeat_length.
Qed.
Lemma nth_repeat_any : forall A (x d : A) n i, nth i (repeat x n) d = if i <? n then x else d.
Proof. intros A x d. induction n as [|n IH]; intros [|i]; cbn; auto. rewrite IH. reflexivity. Qed.
Lemma cube0_nth : forall K n k i j, cnth (repeat (repeat (repeat n0 n) n) K) k i j = n0.
Proof.
  intros K n k i j. unfold cnth. rewrite nth_repeat_any. destruct (k <? K); [|destruct i; destruct j; reflexivity].
  rewrite nth_repeat_any. destruct (i <? n); [|destruct j; reflexivity]. rewrite nth_repeat_any. destruct (j <? n); reflexivity.
Qed.

(** outside the bounds elements read as 0 *)
Lemma cnth_out : forall K n c k i j, cwf K n c -> K <= k -> cnth c k i j = n0.
Proof. intros K n c k i j [H1 H2] Hk. unfold cnth. rewrite (nth_overflow c) by lia. destruct i, j; reflexivity. Qed.

(** invariant form of the inclusive loop *)
Lemma for_range_state : forall St (P : nat -> St -> Prop) (body : nat -> St -> res St) lo hi s,
  (forall j s, lo <= j <= hi -> P j s -> exists s', body j s = Ok s' /\ P (S j) s') -> P lo s -> lo <= hi + 1 ->
  exists s', for_range body lo hi s = Ok s' /\ P (S hi) s'.
Proof.
  intros St P body lo hi s H Hs Hle. unfold for_range. destruct (for_each_state St P body (hi + 1 - lo) lo s) as [s' [E Hp]].
  - intros j s1 Hj HP. rewrite Nat.add_1_r. apply H; [lia|assumption].
  - assumption.
  - exists s'. split; [assumption|]. replace (lo + (hi + 1 - lo)) with (S hi) in Hp by lia. assumption.
Qed.
Lemma for_range_empty : forall St (body : nat -> St -> res St) lo hi s, hi < lo -> for_range body lo hi s = Ok s.
Proof. intros. unfold for_range. replace (hi + 1 - lo) with 0 by lia. reflexivity. Qed.

(** a loop that adds [g k] to each element (k, i, j), lo <= k <= hi, of a column *)
Definition same_off (i j : nat) (c c0 : cube) : Prop := forall k i' j', ~ (i' = i /\ j' = j) -> cnth c k i' j' = cnth c0 k i' j'.

Lemma for_cadd : forall K n i j lo hi (g : nat -> F) (body : nat -> cube -> res cube) c0,
  cwf K n c0 -> i < n -> j < n -> hi < K ->
  (forall k c, lo <= k <= hi -> cwf K n c -> same_off i j c c0 -> body k c = cadd F c k i j (g k)) ->
  exists c', for_range body lo hi c0 = Ok c' /\ cwf K n c' /\ same_off i j c' c0 /\
    forall k, cnth c' k i j = if (lo <=? k) && (k <=? hi) then nadd (cnth c0 k i j) (g k) else cnth c0 k i j.
Proof.
  intros K n i j lo hi g body c0 H0 Hi Hj Hhi Hb. destruct (Nat.lt_ge_cases hi lo) as [Hlt|Hge].
  - exists c0. split; [apply for_range_empty; assumption|]. split; [assumption|]. split; [intros k i' j' _; reflexivity|].
    intros k. destruct (Nat.leb_spec lo k), (Nat.leb_spec k hi); cbn [andb]; try reflexivity. lia.
  - destruct (for_range_state cube (fun t c => cwf K n c /\ same_off i j c c0 /\
      forall k, cnth c k i j = if (lo <=? k) && (k <? t) then nadd (cnth c0 k i j) (g k) else cnth c0 k i j) body lo hi c0) as [c' [E [P1 [P2 P3]]]].
    + intros k c Hk [P1 [P2 P3]]. rewrite Hb by assumption. destruct (cadd_ok K n c k i j (g k)) as [c' [E [W Hc]]]; try assumption; [lia|].
      exists c'. split; [exact E|]. split; [assumption|]. split.
      * intros k' i' j' Hne. rewrite Hc. destruct (Nat.eqb_spec i' i), (Nat.eqb_spec j' j); rewrite ?andb_false_r; cbn [andb]; try (apply P2; assumption).
        exfalso. apply Hne. auto.
      * intros k'. rewrite Hc, !Nat.eqb_refl, !andb_true_r. destruct (Nat.eqb_spec k' k) as [->|Hne].
        -- rewrite P3. destruct (Nat.leb_spec lo k); [|lia]. cbn [andb]. destruct (Nat.ltb_spec k k); [lia|]. destruct (Nat.ltb_spec k (S k)); [|lia]. reflexivity.
        -- rewrite P3. destruct (Nat.leb_spec lo k'); cbn [andb]; [|reflexivity]. destruct (Nat.ltb_spec k' k), (Nat.ltb_spec k' (S k)); try lia; reflexivity.
    + split; [assumption|]. split; [intros k i' j' _; reflexivity|]. intros k. destruct (Nat.leb_spec lo k), (Nat.ltb_spec k lo); cbn [andb]; try reflexivity. lia.
    + lia.
    + exists c'. split; [assumption|]. split; [assumption|]. split; [assumption|]. intros k. rewrite P3. reflexivity.
Qed.
End Cubes.
Arguments cnth {F}. Arguments cwf {F}. Arguments same_off {F}.

Local Open Scope R_scope.

Definition sumn (n : nat) (f : nat -> R) : R := rsum (map f (seq 0 n)).
Lemma sumn_S : forall n f, sumn (S n) f = sumn n f + f n.
Proof. intros. unfold sumn. rewrite seq_S, map_app, rsum_app. cbn [map plus]. rewrite rsum_cons. cbn. lra. Qed.
Lemma sumn_ext : forall n f g, (forall k, (k < n)%nat -> f k = g k) -> sumn n f = sumn n g.
Proof. intros. unfold sumn. apply rsum_map_ext. intros k Hk. apply in_seq in Hk. apply H. lia. Qed.
Lemma sumn_plus : forall n f g, sumn n (fun k => f k + g k) = sumn n f + sumn n g.
Proof. intros. apply rsum_map_plus. Qed.
Lemma sumn_mult : forall n f c, sumn n (fun k => c * f k) = c * sumn n f.
Proof. intros. apply rsum_map_mult. Qed.
Lemma sumn_0 : forall n f, (forall k, (k < n)%nat -> f k = 0) -> sumn n f = 0.
Proof. intros. unfold sumn. apply rsum_map_0. intros k Hk. apply in_seq in Hk. apply H. lia. Qed.
(** shift *)
Lemma sumn_shift : forall n f, sumn (S n) f = f 0%nat + sumn n (fun k => f (S k)).
Proof. induction n as [|n IH]; intros f; [rewrite sumn_S; unfold sumn; cbn; lra|]. rewrite sumn_S, IH, sumn_S. lra. Qed.
Lemma sumn_single : forall n f a, (a < n)%nat -> (forall k, (k < n)%nat -> k <> a -> f k = 0) -> sumn n f = f a.
Proof.
  intros n f a Ha H. unfold sumn. apply rsum_single; [apply seq_NoDup|apply in_seq; lia|]. intros x Hx. apply in_seq in Hx. apply H. lia.
Qed.

(** * Hermite *)

(** A column of a table linearises h_i h_j. *)
Definition lin (D : nat) (c : list (list (list R))) (i j : nat) : Prop :=
  (forall k, ((k < j - i)%nat \/ (i + j < k)%nat) -> cnth (F:=fnum_R) c k i j = 0) /\
  (forall x, hermite i x * hermite j x = sumn (2 * D + 1) (fun k => cnth (F:=fnum_R) c k i j * hermite k x)).

Lemma lin_step : forall D i j (T U W : nat -> R), (1 <= i)%nat -> (i <= j)%nat -> (j <= D)%nat ->
  (forall k, (k < j - (i - 1) \/ (i - 1) + j < k)%nat -> T k = 0) ->
  (forall x, hermite (i - 1) x * hermite j x = sumn (2 * D + 1) (fun k => T k * hermite k x)) ->
  ((2 <= i)%nat -> forall k, (k < j - (i - 2) \/ (i - 2) + j < k)%nat -> U k = 0) ->
  ((2 <= i)%nat -> forall x, hermite (i - 2) x * hermite j x = sumn (2 * D + 1) (fun k => U k * hermite k x)) ->
  (forall k, W k =
     (if ((j - i <=? k) && (k <=? j + i - 2))%nat then sqrt (INR (S k)) / sqrt (INR i) * T (k + 1)%nat else 0)
     + (if ((j - i + 2 <=? k) && (k <=? j + i - 2))%nat then - (sqrt (INR (i - 1)) / sqrt (INR i)) * U k else 0)
     + (if ((Nat.max (j - i + 2) 1 <=? k) && (k <=? i + j))%nat then sqrt (INR k) / sqrt (INR i) * T (k - 1)%nat else 0)) ->
  (forall k, (k < j - i \/ i + j < k)%nat -> W k = 0) /\
  (forall x, hermite i x * hermite j x = sumn (2 * D + 1) (fun k => W k * hermite k x)).
Proof.
  intros D i j T U W Hi Hij Hj HT0 HT HU0 HU HW.
  assert (Si := sqrt_INR_pos i ltac:(lia)).
  assert (HW' : forall k, W k = / sqrt (INR i) * (sqrt (INR (S k)) * T (S k) + sqrt (INR k) * (if (k =? 0)%nat then 0 else T (k - 1)%nat) - (if (i =? 1)%nat then 0 else sqrt (INR (i - 1)) * U k))).
  { intros k. rewrite HW. replace (k + 1)%nat with (S k) by lia.
    assert (E1 : (if ((j - i <=? k) && (k <=? j + i - 2))%nat then sqrt (INR (S k)) / sqrt (INR i) * T (S k) else 0) = sqrt (INR (S k)) / sqrt (INR i) * T (S k)).
    { destruct (Nat.leb_spec (j - i) k), (Nat.leb_spec k (j + i - 2)); cbn [andb]; try reflexivity; rewrite HT0 by lia; lra. }
    assert (E2 : (if ((Nat.max (j - i + 2) 1 <=? k) && (k <=? i + j))%nat then sqrt (INR k) / sqrt (INR i) * T (k - 1)%nat else 0) = sqrt (INR k) / sqrt (INR i) * (if (k =? 0)%nat then 0 else T (k - 1)%nat)).
    { destruct (Nat.eqb_spec k 0) as [->|Hk]; [cbn [INR]; rewrite sqrt_0; unfold Rdiv; rewrite ?Rmult_0_l; match goal with |- (if ?b then _ else _) = _ => destruct b end; reflexivity|].
      destruct (Nat.leb_spec (Nat.max (j - i + 2) 1) k), (Nat.leb_spec k (i + j)); cbn [andb]; try reflexivity; rewrite HT0 by lia; lra. }
    assert (E3 : (if ((j - i + 2 <=? k) && (k <=? j + i - 2))%nat then - (sqrt (INR (i - 1)) / sqrt (INR i)) * U k else 0) = - (/ sqrt (INR i) * (if (i =? 1)%nat then 0 else sqrt (INR (i - 1)) * U k))).
    { destruct (Nat.eqb_spec i 1) as [->|Hi1].
      - destruct (Nat.leb_spec (j - 1 + 2) k), (Nat.leb_spec k (j + 1 - 2)); cbn [andb]; try lra. lia.
      - destruct (Nat.leb_spec (j - i + 2) k), (Nat.leb_spec k (j + i - 2)); cbn [andb]; try (unfold Rdiv; lra); rewrite HU0 by lia; lra. }
    rewrite E1, E2, E3. unfold Rdiv. lra. }
  split.
  - intros k Hk. rewrite HW'. rewrite HT0 by lia.
    assert ((if (k =? 0)%nat then 0 else T (k - 1)%nat) = 0) as ->. { destruct (Nat.eqb_spec k 0); [reflexivity|]. apply HT0. lia. }
    assert ((if (i =? 1)%nat then 0 else sqrt (INR (i - 1)) * U k) = 0) as ->. { destruct (Nat.eqb_spec i 1); [reflexivity|]. rewrite HU0 by lia. lra. }
    lra.
  - intros x. set (h := fun k => hermite k x). change (hermite i x) with (h i). change (hermite j x) with (h j).
    specialize (HT x). change (hermite (i - 1) x * hermite j x) with (h (i - 1)%nat * h j) in HT.
    assert (HTx : x * (h (i - 1)%nat * h j) = sumn (2 * D + 1) (fun k => (sqrt (INR (S k)) * T (S k) + sqrt (INR k) * (if (k =? 0)%nat then 0 else T (k - 1)%nat)) * h k)).
    { rewrite HT. rewrite <- sumn_mult.
      rewrite (sumn_ext _ _ (fun k => sqrt (INR (S k)) * T k * h (S k) + sqrt (INR k) * T k * h (k - 1)%nat)).
      2:{ intros k _. replace (x * (T k * hermite k x)) with (T k * (x * hermite k x)) by lra. rewrite hermite_x. unfold h. lra. }
      rewrite sumn_plus. 
      symmetry. rewrite (sumn_ext _ _ (fun k => sqrt (INR (S k)) * T (S k) * h k + sqrt (INR k) * (if (k =? 0)%nat then 0 else T (k - 1)%nat) * h k)) by (intros; ring).
      rewrite sumn_plus. symmetry. rewrite Rplus_comm. f_equal.
      - replace (2 * D + 1)%nat with (S (2 * D)) at 1 by lia. rewrite sumn_shift. change (INR 0) with 0. rewrite sqrt_0.
        rewrite Nat.add_1_r. rewrite sumn_S. rewrite (HT0 (S (2 * D))) by lia.
        rewrite (sumn_ext _ (fun k => sqrt (INR (S k)) * T (S k) * h (S k - 1)%nat) (fun k => sqrt (INR (S k)) * T (S k) * h k)) by (intros; replace (S k - 1)%nat with k by lia; reflexivity). lra.
      - replace (2 * D + 1)%nat with (S (2 * D)) by lia. rewrite sumn_S, (HT0 (2 * D)%nat) by lia. rewrite sumn_shift. cbn [Nat.eqb]; change (INR 0) with 0. rewrite sqrt_0.
        rewrite (sumn_ext _ (fun k => sqrt (INR (S k)) * (if (S k =? 0)%nat then 0 else T (S k - 1)%nat) * h (S k)) (fun k => sqrt (INR (S k)) * T k * h (S k))) by (intros; cbn [Nat.eqb]; replace (S k - 1)%nat with k by lia; reflexivity). lra. }
    rewrite (sumn_ext _ _ (fun k => / sqrt (INR i) * ((sqrt (INR (S k)) * T (S k) + sqrt (INR k) * (if (k =? 0)%nat then 0 else T (k - 1)%nat)) * h k - (if (i =? 1)%nat then 0 else sqrt (INR (i - 1))) * (U k * h k)))).
    2:{ intros k _. rewrite HW'. fold (h k). destruct (i =? 1)%nat; ring. }
    rewrite sumn_mult. rewrite (sumn_ext _ _ (fun k => (sqrt (INR (S k)) * T (S k) + sqrt (INR k) * (if (k =? 0)%nat then 0 else T (k - 1)%nat)) * h k + (- (if (i =? 1)%nat then 0 else sqrt (INR (i - 1)))) * (U k * h k))) by (intros; ring).
    rewrite sumn_plus, sumn_mult. rewrite <- HTx. destruct (Nat.eqb_spec i 1) as [->|Hi1].
    + change (1 - 1)%nat with 0%nat. unfold h at 1 3. rewrite hermite_0, hermite_1. cbn [INR]. rewrite sqrt_1. field.
    + specialize (HU ltac:(lia) x). fold (h (i - 2)%nat) (h j) in HU. rewrite (sumn_ext _ (fun k => U k * h k) (fun k => U k * hermite k x)) by reflexivity. rewrite <- HU.
      destruct i as [|[|i]]; [lia|lia|]. replace (S (S i) - 1)%nat with (S i) in * by lia. replace (S (S i) - 2)%nat with i by lia.
      unfold h at 1. rewrite hermite_SS. fold (h (S i)) (h i). field. lra.
Qed.

Local Open Scope nat_scope.
Notation cn := (cnth (F:=fnum_R)) (only parsing).

(** phase 1: the first row *)
Lemma triple_row0 : forall D, exists c,
  for_range (fun i c => cset fnum_R c i 0 i n1) 0 D (repeat (repeat (repeat (n0 : fnum_R) (D + 1)) (D + 1)) (2 * D + 1)) = Ok c /\
  cwf (2 * D + 1) (D + 1) c /\ (forall k i j, cn c k i j = if (i =? 0) && (k =? j) && (j <=? D) then 1%R else 0%R).
Proof.
  intros D. destruct (for_range_state _ (fun t c => cwf (F:=fnum_R) (2 * D + 1) (D + 1) c /\ (forall k i j, cn c k i j = if (i =? 0) && (k =? j) && (j <? t) then 1%R else 0%R))
    (fun i c => cset fnum_R c i 0 i n1) 0 D (repeat (repeat (repeat (n0 : fnum_R) (D + 1)) (D + 1)) (2 * D + 1))) as [c [E [P1 P2]]].
  - intros t c Ht [P1 P2]. destruct (cset_ok fnum_R (2 * D + 1) (D + 1) c t 0 t n1 P1) as [c' [E [W Hc]]]; try lia.
    exists c'. split; [exact E|]. split; [assumption|]. intros k i j. rewrite Hc, P2.
    destruct (Nat.eqb_spec k t), (Nat.eqb_spec i 0), (Nat.eqb_spec j t), (Nat.eqb_spec k j), (Nat.ltb_spec j t), (Nat.ltb_spec j (S t)); cbn [andb]; try lia; reflexivity.
  - split; [apply cube0_wf|]. intros k i j. rewrite cube0_nth. rewrite andb_false_r. reflexivity.
  - lia.
  - exists c. split; [exact E|]. split; [assumption|]. intros. rewrite P2. reflexivity.
Qed.

Lemma vget_map_seq : forall A (f : nat -> A) n k, k < n -> vget (map f (seq 0 n)) k = Ok (f k).
Proof. intros A f n k H. rewrite (vget_nth_ok _ _ k (f 0)) by (rewrite map_length, seq_length; lia). rewrite map_nth, seq_nth by lia. reflexivity. Qed.

Lemma MAX_max : forall a b, MAX a b = Nat.max a b.
Proof. intros. unfold MAX. destruct (Nat.ltb_spec b a); lia. Qed.

Lemma sqrt_ratio : forall i k, (1 / sqrt (INR (S i)) / (1 / sqrt (INR (S k))) = sqrt (INR (S k)) / sqrt (INR (S i)))%R.
Proof.
  intros. assert (H1 := sqrt_INR_pos (S i) ltac:(lia)). assert (H2 := sqrt_INR_pos (S k) ltac:(lia)). field. lra.
Qed.

(** one column (i, j) of phase 2 *)
Lemma triple_column : forall D i j (c : list (list (list R))), 1 <= i -> i <= j -> j <= D ->
  cwf (F:=fnum_R) (2 * D + 1) (D + 1) c -> lin D c (i - 1) j -> (2 <= i -> lin D c (i - 2) j) -> (forall k, cn c k i j = 0%R) ->
  exists c',
   (c <- for_range (fun k c =>
              ak <- vget (map (rec_a fnum_R) (seq 0 (2 * D + 1))) k ;;
              x <- cget fnum_R c (k + 1) (i - 1) j ;;
              cadd fnum_R c k i j (nmul (fdiv (rec_a fnum_R (i - 1)) ak) x)) (MAX (j - i) 0) (j + i - 2) c ;;
    c <- for_range (fun k c =>
              x <- cget fnum_R c k (i - 2) j ;;
              cadd fnum_R c k i j (nmul (nopp (rec_b fnum_R (i - 1))) x)) (MAX (j - i + 2) 0) (j + i - 2) c ;;
    for_range (fun k c =>
              ak <- vget (map (rec_a fnum_R) (seq 0 (2 * D + 1))) k ;;
              bk <- vget (map (rec_b fnum_R) (seq 0 (2 * D + 1))) k ;;
              x <- cget fnum_R c (k - 1) (i - 1) j ;;
              cadd fnum_R c k i j (nmul (nmul (fdiv (rec_a fnum_R (i - 1)) ak) bk) x)) (MAX (j - i + 2) 1) (i + j) c) = Ok c' /\
   cwf (F:=fnum_R) (2 * D + 1) (D + 1) c' /\ same_off (F:=fnum_R) i j c' c /\ lin D c' i j.
Proof.
  intros D i j c Hi Hij Hj W0 L1 L2 Hz. rewrite !MAX_max, !Nat.max_0_r.
  destruct (for_cadd fnum_R (2 * D + 1) (D + 1) i j (j - i) (j + i - 2)
    (fun k => (sqrt (INR (S k)) / sqrt (INR i) * cn c (k + 1) (i - 1) j)%R)
    (fun k c => ak <- vget (map (rec_a fnum_R) (seq 0 (2 * D + 1))) k ;;
              x <- cget fnum_R c (k + 1) (i - 1) j ;;
              cadd fnum_R c k i j (nmul (fdiv (rec_a fnum_R (i - 1)) ak) x)) c W0) as [c1 [E1 [W1 [S1 V1]]]]; try lia.
  { intros k c1 Hk W S. rewrite vget_map_seq by lia. cbn [bind]. rewrite (cget_ok fnum_R (2 * D + 1) (D + 1)) by (assumption || lia). cbn [bind].
    f_equal. rewrite S by lia. rewrite !rec_a_R. replace (Datatypes.S (i - 1)) with i by lia. cbn [nmul fdiv fn fnum_R num_R].
    destruct i as [|i]; [lia|]. rewrite sqrt_ratio. reflexivity. }
  rewrite E1. cbn [bind].
  destruct (for_cadd fnum_R (2 * D + 1) (D + 1) i j (j - i + 2) (j + i - 2)
    (fun k => (- (sqrt (INR (i - 1)) / sqrt (INR i)) * cn c k (i - 2) j)%R)
    (fun k c => x <- cget fnum_R c k (i - 2) j ;;
              cadd fnum_R c k i j (nmul (nopp (rec_b fnum_R (i - 1))) x)) c1 W1) as [c2 [E2 [W2 [S2 V2]]]]; try lia.
  { intros k c2 Hk W S. rewrite (cget_ok fnum_R (2 * D + 1) (D + 1)) by (assumption || lia). cbn [bind].
    f_equal. rewrite S by lia. rewrite S1 by lia. rewrite !rec_b_R. replace (Datatypes.S (i - 1)) with i by lia. reflexivity. }
  rewrite E2. cbn [bind].
  destruct (for_cadd fnum_R (2 * D + 1) (D + 1) i j (Nat.max (j - i + 2) 1) (i + j)
    (fun k => (sqrt (INR k) / sqrt (INR i) * cn c (k - 1) (i - 1) j)%R)
    (fun k c => ak <- vget (map (rec_a fnum_R) (seq 0 (2 * D + 1))) k ;;
              bk <- vget (map (rec_b fnum_R) (seq 0 (2 * D + 1))) k ;;
              x <- cget fnum_R c (k - 1) (i - 1) j ;;
              cadd fnum_R c k i j (nmul (nmul (fdiv (rec_a fnum_R (i - 1)) ak) bk) x)) c2 W2) as [c3 [E3 [W3 [S3 V3]]]]; try lia.
  { intros k c3 Hk W S. rewrite !vget_map_seq by lia. cbn [bind]. rewrite (cget_ok fnum_R (2 * D + 1) (D + 1)) by (assumption || lia). cbn [bind].
    f_equal. rewrite S by lia. rewrite S2, S1 by lia. rewrite !rec_a_R, rec_b_R. replace (Datatypes.S (i - 1)) with i by lia. cbn [nmul fdiv fn fnum_R num_R].
    destruct i as [|i]; [lia|]. rewrite sqrt_ratio. f_equal. assert (H1 := sqrt_INR_pos (Datatypes.S i) ltac:(lia)). assert (H2 := sqrt_INR_pos (Datatypes.S k) ltac:(lia)). field. lra. }
  exists c3. split; [exact E3|]. split; [assumption|]. split.
  - intros k i' j' Hne. rewrite S3, S2, S1 by assumption. reflexivity.
  - destruct L1 as [L1a L1b].
    apply (lin_step D i j (fun k => cn c k (i - 1) j) (fun k => cn c k (i - 2) j)); auto.
    + intros H2 k Hk. apply (L2 H2). assumption.
    + intros H2 x. apply (L2 H2).
    + intros k. cbn [nadd fn fnum_R num_R] in V1, V2, V3. rewrite V3, V2, V1, Hz.
      repeat match goal with |- context [if ?b then _ else _] => destruct b end; lra.
Qed.

Lemma same_off_lin : forall D i j (c c' : list (list (list R))) i' j', same_off (F:=fnum_R) i j c' c -> ~ (i' = i /\ j' = j) -> lin D c i' j' -> lin D c' i' j'.
Proof.
  intros D i j c c' i' j' S Hne [H1 H2]. split.
  - intros k Hk. rewrite S by assumption. apply H1. assumption.
  - intros x. rewrite H2. apply sumn_ext. intros k _. rewrite S by assumption. reflexivity.
Qed.

(** columns before (i, j) in the order of the loops *)
Definition before (i j i' j' : nat) : Prop := i' < i \/ (i' = i /\ j' < j).

Definition main_inv (D i j : nat) (c : list (list (list R))) : Prop :=
  cwf (F:=fnum_R) (2 * D + 1) (D + 1) c /\
  (forall i' j', before i j i' j' -> i' <= j' -> j' <= D -> lin D c i' j') /\
  (forall k i' j', (~ before i j i' j' \/ j' < i') -> cn c k i' j' = 0%R).

Lemma triple_main : forall D (c : list (list (list R))), main_inv D 1 1 c -> exists c',
  for_range (fun i c =>
      ai <- vget (map (rec_a fnum_R) (seq 0 (2 * D + 1))) (i - 1) ;;
      bi <- vget (map (rec_b fnum_R) (seq 0 (2 * D + 1))) (i - 1) ;;
      for_range (fun j c =>
          c <- for_range (fun k c =>
              ak <- vget (map (rec_a fnum_R) (seq 0 (2 * D + 1))) k ;;
              x <- cget fnum_R c (k + 1) (i - 1) j ;;
              cadd fnum_R c k i j (nmul (fdiv ai ak) x)) (MAX (j - i) 0) (j + i - 2) c ;;
          c <- for_range (fun k c =>
              x <- cget fnum_R c k (i - 2) j ;;
              cadd fnum_R c k i j (nmul (nopp bi) x)) (MAX (j - i + 2) 0) (j + i - 2) c ;;
          for_range (fun k c =>
              ak <- vget (map (rec_a fnum_R) (seq 0 (2 * D + 1))) k ;;
              bk <- vget (map (rec_b fnum_R) (seq 0 (2 * D + 1))) k ;;
              x <- cget fnum_R c (k - 1) (i - 1) j ;;
              cadd fnum_R c k i j (nmul (nmul (fdiv ai ak) bk) x)) (MAX (j - i + 2) 1) (i + j) c)
        i D c) 1 D c = Ok c' /\ main_inv D (D + 1) (D + 1) c'.
Proof.
  intros D c Hc. destruct (for_range_state _ (fun i c => main_inv D i i c)
    (fun i c =>
      ai <- vget (map (rec_a fnum_R) (seq 0 (2 * D + 1))) (i - 1) ;;
      bi <- vget (map (rec_b fnum_R) (seq 0 (2 * D + 1))) (i - 1) ;;
      for_range (fun j c =>
          c <- for_range (fun k c =>
              ak <- vget (map (rec_a fnum_R) (seq 0 (2 * D + 1))) k ;;
              x <- cget fnum_R c (k + 1) (i - 1) j ;;
              cadd fnum_R c k i j (nmul (fdiv ai ak) x)) (MAX (j - i) 0) (j + i - 2) c ;;
          c <- for_range (fun k c =>
              x <- cget fnum_R c k (i - 2) j ;;
              cadd fnum_R c k i j (nmul (nopp bi) x)) (MAX (j - i + 2) 0) (j + i - 2) c ;;
          for_range (fun k c =>
              ak <- vget (map (rec_a fnum_R) (seq 0 (2 * D + 1))) k ;;
              bk <- vget (map (rec_b fnum_R) (seq 0 (2 * D + 1))) k ;;
              x <- cget fnum_R c (k - 1) (i - 1) j ;;
              cadd fnum_R c k i j (nmul (nmul (fdiv ai ak) bk) x)) (MAX (j - i + 2) 1) (i + j) c)
        i D c) 1 D c) as [c' [E H]].
  - intros i c1 Hi H1. rewrite !vget_map_seq by lia. cbn [bind].
    destruct (for_range_state _ (fun j c => main_inv D i j c)
      (fun j c =>
          c <- for_range (fun k c =>
              ak <- vget (map (rec_a fnum_R) (seq 0 (2 * D + 1))) k ;;
              x <- cget fnum_R c (k + 1) (i - 1) j ;;
              cadd fnum_R c k i j (nmul (fdiv (rec_a fnum_R (i - 1)) ak) x)) (MAX (j - i) 0) (j + i - 2) c ;;
          c <- for_range (fun k c =>
              x <- cget fnum_R c k (i - 2) j ;;
              cadd fnum_R c k i j (nmul (nopp (rec_b fnum_R (i - 1))) x)) (MAX (j - i + 2) 0) (j + i - 2) c ;;
          for_range (fun k c =>
              ak <- vget (map (rec_a fnum_R) (seq 0 (2 * D + 1))) k ;;
              bk <- vget (map (rec_b fnum_R) (seq 0 (2 * D + 1))) k ;;
              x <- cget fnum_R c (k - 1) (i - 1) j ;;
              cadd fnum_R c k i j (nmul (nmul (fdiv (rec_a fnum_R (i - 1)) ak) bk) x)) (MAX (j - i + 2) 1) (i + j) c) i D c1) as [c2 [E2 H2]].
    + intros j c2 Hj [W [P1 P2]].
      destruct (triple_column D i j c2) as [c3 [E3 [W3 [S3 L3]]]]; try assumption; try lia.
      * apply P1; unfold before; lia.
      * intros; apply P1; unfold before; lia.
      * intros k. apply P2. unfold before. lia.
      * exists c3. split; [exact E3|]. split; [assumption|]. split.
        -- intros i' j' Hb H3 H4. destruct (Nat.eq_dec i' i) as [->|Hne]; [destruct (Nat.eq_dec j' j) as [->|Hne]; [assumption|]|].
           ++ eapply same_off_lin; [exact S3|lia|]. apply P1; unfold before in *; lia.
           ++ eapply same_off_lin; [exact S3|lia|]. apply P1; unfold before in *; lia.
        -- intros k i' j' Hb. rewrite S3 by (unfold before in *; lia). apply P2. unfold before in *. lia.
    + assumption.
    + lia.
    + exists c2. split; [exact E2|]. destruct H2 as [W [P1 P2]]. split; [assumption|]. split.
      * intros i' j' Hb H3 H4. apply P1; unfold before in *; lia.
      * intros k i' j' Hb. destruct (le_lt_dec (2 * D + 1) k) as [Hk|Hk]; [apply (cnth_out fnum_R _ _ _ _ _ _ W Hk)|].
        destruct (le_lt_dec j' D) as [Hj'|Hj']; [apply P2; unfold before in *; lia|].
        unfold cnth. destruct W as [Wl Wm]. specialize (Wm k Hk). cbn [fn fnum_R num_R carrier] in *. destruct (le_lt_dec (D + 1) i') as [Hi'|Hi'].
        -- rewrite (nth_overflow (nth k c2 [])) by (destruct Wm; lia). destruct j'; reflexivity.
        -- apply nth_overflow. erewrite (mat_wf_nth fnum_R); [|exact Wm|lia]. lia.
  - assumption.
  - lia.
  - exists c'. split; [exact E|]. rewrite Nat.add_1_r. exact H.
Qed.

Lemma triple_mirror : forall D (c0 : list (list (list R))), main_inv D (D + 1) (D + 1) c0 -> exists c',
  for_range (fun i c =>
      for_range (fun j c =>
          for_range (fun k c =>
              x <- cget fnum_R c k i j ;;
              cset fnum_R c k j i x) (j - i) (j + i) c)
        i D c) 0 D c0 = Ok c' /\ cwf (F:=fnum_R) (2 * D + 1) (D + 1) c' /\
  (forall k i j, i <= D -> j <= D -> cn c' k i j = if i <=? j then cn c0 k i j else cn c0 k j i).
Proof.
  intros D c0 [W0 [P01 P02]].
  assert (Z : forall k i j, j < i -> cn c0 k i j = 0%R) by (intros; apply P02; right; assumption).
  assert (Z2 : forall k i j, i <= j -> j <= D -> k < j - i \/ i + j < k -> cn c0 k i j = 0%R).
  { intros k i j H1 H2 H3. apply (P01 i j); unfold before; lia. }
  set (Q := fun (done : nat -> nat -> nat -> Prop) (c : list (list (list R))) => cwf (F:=fnum_R) (2 * D + 1) (D + 1) c /\
     (forall k i j, i <= j -> cn c k i j = cn c0 k i j) /\
     (forall k i j, j < i -> done k i j -> cn c k i j = cn c0 k j i) /\
     (forall k i j, j < i -> ~ done k i j -> cn c k i j = 0%R)).
  destruct (for_range_state _ (fun t c => Q (fun k i j => j < t /\ i <= D) c)
   (fun i c =>
      for_range (fun j c =>
          for_range (fun k c =>
              x <- cget fnum_R c k i j ;;
              cset fnum_R c k j i x) (j - i) (j + i) c)
        i D c) 0 D c0) as [c' [E [W [H1 [H2 H3]]]]].
  - intros i c Hi Hc.
    destruct (for_range_state _ (fun t c => Q (fun k i' j' => (j' < i /\ i' <= D) \/ (j' = i /\ i' < t)) c)
      (fun j c =>
          for_range (fun k c =>
              x <- cget fnum_R c k i j ;;
              cset fnum_R c k j i x) (j - i) (j + i) c) i D c) as [c2 [E2 Hc2]].
    + intros j c1 Hj Hc1.
      destruct (for_range_state _ (fun t c => Q (fun k i' j' => (j' < i /\ i' <= D) \/ (j' = i /\ i' < j) \/ (j' = i /\ i' = j /\ (k < t))) c)
        (fun k c => x <- cget fnum_R c k i j ;; cset fnum_R c k j i x) (j - i) (j + i) c1) as [c3 [E3 Hc3]].
      * intros k c2 Hk [W [H1 [H2 H3]]]. rewrite (cget_ok fnum_R (2 * D + 1) (D + 1)) by (assumption || lia). cbn [bind].
        destruct (cset_ok fnum_R (2 * D + 1) (D + 1) c2 k j i (cn c2 k i j) W) as [c3 [E3 [W3 V3]]]; try lia.
        exists c3. split; [exact E3|]. split; [assumption|]. split; [|split].
        -- intros k' i' j' H. rewrite V3. destruct (Nat.eqb_spec k' k), (Nat.eqb_spec i' j), (Nat.eqb_spec j' i); cbn [andb]; try (apply H1; assumption).
           subst. assert (i = j) by lia. subst. apply H1. lia.
        -- intros k' i' j' H Hd. rewrite V3. destruct (Nat.eqb_spec k' k), (Nat.eqb_spec i' j), (Nat.eqb_spec j' i); cbn [andb]; try (apply H2; [assumption|lia]).
           subst. apply H1. lia.
        -- intros k' i' j' H Hd. rewrite V3. destruct (Nat.eqb_spec k' k), (Nat.eqb_spec i' j), (Nat.eqb_spec j' i); cbn [andb]; try (apply H3; [assumption|lia]).
           exfalso. apply Hd. lia.
      * destruct Hc1 as [W [H1 [H2 H3]]]. split; [assumption|]. split; [assumption|]. split.
        -- intros k i' j' H Hd. destruct (Nat.eq_dec i' j) as [Ei|Ei]; [destruct (Nat.eq_dec j' i) as [Ej|Ej]|].
           ++ rewrite H3 by lia. symmetry. apply Z2; lia.
           ++ apply H2; lia.
           ++ apply H2; lia.
        -- intros k i' j' H Hd. apply H3; lia.
      * lia.
      * exists c3. split; [exact E3|]. destruct Hc3 as [W [H1 [H2 H3]]]. split; [assumption|]. split; [assumption|]. split.
        -- intros k i' j' H Hd. destruct (le_lt_dec k (j + i)) as [Hk|Hk]; [apply H2; lia|].
           destruct (Nat.eq_dec i' j) as [Ei|Ei]; [destruct (Nat.eq_dec j' i) as [Ej|Ej]|]; [|apply H2; lia|apply H2; lia].
           rewrite H3 by lia. symmetry. apply Z2; lia.
        -- intros k i' j' H Hd. apply H3; lia.
    + destruct Hc as [W [H1 [H2 H3]]]. split; [assumption|]. split; [assumption|]. split.
      * intros k i' j' H Hd. apply H2; lia.
      * intros k i' j' H Hd. apply H3; lia.
    + lia.
    + exists c2. split; [exact E2|]. destruct Hc2 as [W [H1 [H2 H3]]]. split; [assumption|]. split; [assumption|]. split.
      * intros k i' j' H Hd. apply H2; lia.
      * intros k i' j' H Hd. apply H3; lia.
  - split; [assumption|]. split; [reflexivity|]. split; [intros; lia|]. intros. apply Z. assumption.
  - lia.
  - exists c'. split; [exact E|]. split; [assumption|]. intros k i j Hi Hj. destruct (Nat.leb_spec i j).
    + apply H1. assumption.
    + apply H2; lia.
Qed.

Lemma triple_products_1d_ok : forall D, exists c, triple_products_1d fnum_R D = Ok c /\ cwf (F:=fnum_R) (2 * D + 1) (D + 1) c /\
  (forall k i j, i <= D -> j <= D -> cn c k i j = cn c k j i) /\
  (forall k i j, i <= D -> j <= D -> i + j < k \/ k + i < j \/ k + j < i -> cn c k i j = 0%R) /\
  (forall i j x, i <= D -> j <= D -> (hermite i x * hermite j x = sumn (2 * D + 1) (fun k => cn c k i j * hermite k x))%R).
Proof.
  intros D. unfold triple_products_1d. destruct (triple_row0 D) as [c1 [E1 [W1 V1]]]. rewrite E1. cbn [bind].
  destruct (triple_main D c1) as [c2 [E2 M2]].
  { split; [assumption|]. split.
    - intros i j Hb Hij Hj. assert (i = 0) by (unfold before in Hb; lia). subst i. split.
      + intros k Hk. rewrite V1. destruct (Nat.eqb_spec k j); cbn [andb]; [lia|reflexivity].
      + intros x. rewrite hermite_0, Rmult_1_l. rewrite (sumn_single _ _ j); [|lia|].
        * rewrite V1, !Nat.eqb_refl. destruct (Nat.leb_spec j D); [|lia]. cbn [andb]. lra.
        * intros k _ Hk. rewrite V1. destruct (Nat.eqb_spec k j); [contradiction|]. rewrite Nat.eqb_refl; cbn [andb]. lra.
    - intros k i j H. rewrite V1. destruct (Nat.eqb_spec i 0); [|reflexivity]. subst i. unfold before in H. lia. }
  rewrite E2. cbn [bind]. destruct (triple_mirror D c2 M2) as [c3 [E3 [W3 V3]]]. exists c3. split; [exact E3|]. split; [assumption|].
  assert (Hsym : forall k i j, i <= D -> j <= D -> cn c3 k i j = cn c3 k j i).
  { intros k i j Hi Hj. rewrite !V3 by assumption. destruct (Nat.leb_spec i j), (Nat.leb_spec j i); try reflexivity; try lia. assert (i = j) by lia. subst. reflexivity. }
  split; [assumption|]. destruct M2 as [_ [M2 _]]. split.
  - intros k i j Hi Hj H. rewrite V3 by assumption. destruct (Nat.leb_spec i j); [apply (M2 i j)|apply (M2 j i)]; unfold before; lia.
  - assert (G : forall i j x, i <= j -> j <= D -> (hermite i x * hermite j x = sumn (2 * D + 1) (fun k => cn c3 k i j * hermite k x))%R).
    { intros i j x Hij Hj. destruct (M2 i j) as [_ HL]; try (unfold before; lia). rewrite HL. apply sumn_ext. intros k _. rewrite V3 by lia.
      destruct (Nat.leb_spec i j); [reflexivity|lia]. }
    intros i j x Hi Hj. destruct (le_lt_dec i j) as [H|H]; [apply G; assumption|]. rewrite Rmult_comm, G by lia.
    apply sumn_ext. intros k _. rewrite (Hsym k i j) by assumption. reflexivity.
Qed.
