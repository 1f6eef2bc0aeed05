(** Lemmas for C109: the table of triple products, for any number type, as a recurrence. *)
From Coq Require Import String List Bool Arith ZArith Lia Reals Lra.
From Verif Require Import Base Lists IndexModel Spec Num Fnum LinModel LinSpec LinBase MatBase Tensorize CalcModel CalcSpec CalcBase CalcHermite CalcReal CalcTriple.
Import ListNotations.
Local Open Scope nat_scope.

Section Table.
Variable F : fnum.
Notation cube := (list (list (list F))) (only parsing).
Notation cn := (cnth (F := F)) (only parsing).
Notation ra := (rec_a F) (only parsing).
Notation rb := (rec_b F) (only parsing).

(** one column from the two columns before it *)
Definition tri_step (i j : nat) (T U : nat -> F) (k : nat) : F :=
  let x1 := if (j - i <=? k) && (k <=? j + i - 2) then nadd n0 (nmul (fdiv (ra (i - 1)) (ra k)) (T (k + 1))) else n0 in
  let x2 := if (j - i + 2 <=? k) && (k <=? j + i - 2) then nadd x1 (nmul (nopp (rb (i - 1))) (U k)) else x1 in
  if (Nat.max (j - i + 2) 1 <=? k) && (k <=? i + j) then nadd x2 (nmul (nmul (fdiv (ra (i - 1)) (ra k)) (rb k)) (T (k - 1))) else x2.

Fixpoint tri (i j : nat) : nat -> F :=
  match i with
  | O => fun k => if k =? j then n1 else n0
  | S i1 => tri_step i j (tri i1 j) (match i1 with O => fun _ => n0 | S i2 => tri i2 j end)
  end.

Lemma tri_S : forall i j k, 1 <= i -> tri i j k = tri_step i j (tri (i - 1) j) (if i =? 1 then fun _ => n0 else tri (i - 2) j) k.
Proof. intros [|[|i]] j k H; [lia|reflexivity|]. cbn [tri Nat.eqb]. replace (S (S i) - 1) with (S i) by lia. replace (S (S i) - 2) with i by lia. reflexivity. Qed.

Lemma tri_out : forall i j k, i <= j -> k < j - i \/ i + j < k -> tri i j k = n0.
Proof.
  intros [|i] j k Hij H.
  - cbn. destruct (Nat.eqb_spec k j); [lia|reflexivity].
  - rewrite tri_S by lia. unfold tri_step.
    destruct (Nat.leb_spec (j - S i) k), (Nat.leb_spec k (j + S i - 2)), (Nat.leb_spec (j - S i + 2) k), (Nat.leb_spec (Nat.max (j - S i + 2) 1) k), (Nat.leb_spec k (S i + j)); cbn [andb]; try lia; reflexivity.
Qed.

Lemma g_row0 : forall D, exists c,
  for_range (fun i c => cset F c i 0 i n1) 0 D (repeat (repeat (repeat (n0 : F) (D + 1)) (D + 1)) (2 * D + 1)) = Ok c /\
  cwf (2 * D + 1) (D + 1) c /\ (forall k i j, cn c k i j = if (i =? 0) && (k =? j) && (j <=? D) then n1 else n0).
Proof.
  intros D. destruct (for_range_state _ (fun t c => cwf (F:=F) (2 * D + 1) (D + 1) c /\ (forall k i j, cn c k i j = if (i =? 0) && (k =? j) && (j <? t) then n1 else n0))
    (fun i c => cset F c i 0 i n1) 0 D (repeat (repeat (repeat (n0 : F) (D + 1)) (D + 1)) (2 * D + 1))) as [c [E [P1 P2]]].
  - intros t c Ht [P1 P2]. destruct (cset_ok F (2 * D + 1) (D + 1) c t 0 t n1 P1) as [c' [E [W Hc]]]; try lia.
    exists c'. split; [exact E|]. split; [assumption|]. intros k i j. rewrite Hc, P2.
    destruct (Nat.eqb_spec k t), (Nat.eqb_spec i 0), (Nat.eqb_spec j t), (Nat.eqb_spec k j), (Nat.ltb_spec j t), (Nat.ltb_spec j (S t)); cbn [andb]; try lia; reflexivity.
  - split; [apply cube0_wf|]. intros k i j. rewrite cube0_nth. rewrite andb_false_r. reflexivity.
  - lia.
  - exists c. split; [exact E|]. split; [assumption|]. intros. rewrite P2. reflexivity.
Qed.

Definition has_col (c : cube) (i j : nat) : Prop := forall k, cn c k i j = tri i j k.

Lemma g_column : forall D i j (c : cube), 1 <= i -> i <= j -> j <= D ->
  cwf (F:=F) (2 * D + 1) (D + 1) c -> has_col c (i - 1) j -> (2 <= i -> has_col c (i - 2) j) -> (forall k, cn c k i j = n0) ->
  exists c',
   (c <- for_range (fun k c =>
              ak <- vget (map ra (seq 0 (2 * D + 1))) k ;;
              x <- cget F c (k + 1) (i - 1) j ;;
              cadd F c k i j (nmul (fdiv (ra (i - 1)) ak) x)) (MAX (j - i) 0) (j + i - 2) c ;;
    c <- for_range (fun k c =>
              x <- cget F c k (i - 2) j ;;
              cadd F c k i j (nmul (nopp (rb (i - 1))) x)) (MAX (j - i + 2) 0) (j + i - 2) c ;;
    for_range (fun k c =>
              ak <- vget (map ra (seq 0 (2 * D + 1))) k ;;
              bk <- vget (map rb (seq 0 (2 * D + 1))) k ;;
              x <- cget F c (k - 1) (i - 1) j ;;
              cadd F c k i j (nmul (nmul (fdiv (ra (i - 1)) ak) bk) x)) (MAX (j - i + 2) 1) (i + j) c) = Ok c' /\
   cwf (F:=F) (2 * D + 1) (D + 1) c' /\ same_off (F:=F) i j c' c /\ has_col c' i j.
Proof.
  intros D i j c Hi Hij Hj W0 L1 L2 Hz. rewrite !MAX_max, !Nat.max_0_r.
  destruct (for_cadd F (2 * D + 1) (D + 1) i j (j - i) (j + i - 2)
    (fun k => nmul (fdiv (ra (i - 1)) (ra k)) (cn c (k + 1) (i - 1) j))
    (fun k c => ak <- vget (map ra (seq 0 (2 * D + 1))) k ;;
              x <- cget F c (k + 1) (i - 1) j ;;
              cadd F c k i j (nmul (fdiv (ra (i - 1)) ak) x)) c W0) as [c1 [E1 [W1 [S1 V1]]]]; try lia.
  { intros k c1 Hk W S. rewrite vget_map_seq by lia. cbn [bind]. rewrite (cget_ok F (2 * D + 1) (D + 1)) by (assumption || lia). cbn [bind].
    f_equal. rewrite S by lia. reflexivity. }
  rewrite E1. cbn [bind].
  destruct (for_cadd F (2 * D + 1) (D + 1) i j (j - i + 2) (j + i - 2)
    (fun k => nmul (nopp (rb (i - 1))) (cn c k (i - 2) j))
    (fun k c => x <- cget F c k (i - 2) j ;;
              cadd F c k i j (nmul (nopp (rb (i - 1))) x)) c1 W1) as [c2 [E2 [W2 [S2 V2]]]]; try lia.
  { intros k c2 Hk W S. rewrite (cget_ok F (2 * D + 1) (D + 1)) by (assumption || lia). cbn [bind].
    f_equal. rewrite S by lia. rewrite S1 by lia. reflexivity. }
  rewrite E2. cbn [bind].
  destruct (for_cadd F (2 * D + 1) (D + 1) i j (Nat.max (j - i + 2) 1) (i + j)
    (fun k => nmul (nmul (fdiv (ra (i - 1)) (ra k)) (rb k)) (cn c (k - 1) (i - 1) j))
    (fun k c => ak <- vget (map ra (seq 0 (2 * D + 1))) k ;;
              bk <- vget (map rb (seq 0 (2 * D + 1))) k ;;
              x <- cget F c (k - 1) (i - 1) j ;;
              cadd F c k i j (nmul (nmul (fdiv (ra (i - 1)) ak) bk) x)) c2 W2) as [c3 [E3 [W3 [S3 V3]]]]; try lia.
  { intros k c3 Hk W S. rewrite !vget_map_seq by lia. cbn [bind]. rewrite (cget_ok F (2 * D + 1) (D + 1)) by (assumption || lia). cbn [bind].
    f_equal. rewrite S by lia. rewrite S2, S1 by lia. reflexivity. }
  exists c3. split; [exact E3|]. split; [assumption|]. split.
  - intros k i' j' Hne. rewrite S3, S2, S1 by assumption. reflexivity.
  - intros k. rewrite tri_S by assumption. unfold tri_step. rewrite V3, V2, V1, Hz, !L1.
    destruct (Nat.eqb_spec i 1) as [->|Hi1].
    + assert (((j - 1 + 2 <=? k) && (k <=? j + 1 - 2)) = false) as ->; [|reflexivity].
      destruct (Nat.leb_spec (j - 1 + 2) k), (Nat.leb_spec k (j + 1 - 2)); cbn [andb]; try reflexivity. lia.
    + rewrite (L2 ltac:(lia)). reflexivity.
Qed.

Lemma same_off_col : forall i j (c c' : cube) i' j', same_off (F:=F) i j c' c -> ~ (i' = i /\ j' = j) -> has_col c i' j' -> has_col c' i' j'.
Proof. intros i j c c' i' j' S Hne H k. rewrite S by assumption. apply H. Qed.

Definition g_inv (D i j : nat) (c : cube) : Prop :=
  cwf (F:=F) (2 * D + 1) (D + 1) c /\
  (forall i' j', before i j i' j' -> i' <= j' -> j' <= D -> has_col c i' j') /\
  (forall k i' j', (~ before i j i' j' \/ j' < i') -> cn c k i' j' = n0).

Lemma g_main : forall D (c : cube), g_inv D 1 1 c -> exists c',
  for_range (fun i c =>
      ai <- vget (map ra (seq 0 (2 * D + 1))) (i - 1) ;;
      bi <- vget (map rb (seq 0 (2 * D + 1))) (i - 1) ;;
      for_range (fun j c =>
          c <- for_range (fun k c =>
              ak <- vget (map ra (seq 0 (2 * D + 1))) k ;;
              x <- cget F c (k + 1) (i - 1) j ;;
              cadd F c k i j (nmul (fdiv ai ak) x)) (MAX (j - i) 0) (j + i - 2) c ;;
          c <- for_range (fun k c =>
              x <- cget F c k (i - 2) j ;;
              cadd F c k i j (nmul (nopp bi) x)) (MAX (j - i + 2) 0) (j + i - 2) c ;;
          for_range (fun k c =>
              ak <- vget (map ra (seq 0 (2 * D + 1))) k ;;
              bk <- vget (map rb (seq 0 (2 * D + 1))) k ;;
              x <- cget F c (k - 1) (i - 1) j ;;
              cadd F c k i j (nmul (nmul (fdiv ai ak) bk) x)) (MAX (j - i + 2) 1) (i + j) c)
        i D c) 1 D c = Ok c' /\ g_inv D (D + 1) (D + 1) c'.
Proof.
  intros D c Hc. destruct (for_range_state _ (fun i c => g_inv D i i c)
    (fun i c =>
      ai <- vget (map ra (seq 0 (2 * D + 1))) (i - 1) ;;
      bi <- vget (map rb (seq 0 (2 * D + 1))) (i - 1) ;;
      for_range (fun j c =>
          c <- for_range (fun k c =>
              ak <- vget (map ra (seq 0 (2 * D + 1))) k ;;
              x <- cget F c (k + 1) (i - 1) j ;;
              cadd F c k i j (nmul (fdiv ai ak) x)) (MAX (j - i) 0) (j + i - 2) c ;;
          c <- for_range (fun k c =>
              x <- cget F c k (i - 2) j ;;
              cadd F c k i j (nmul (nopp bi) x)) (MAX (j - i + 2) 0) (j + i - 2) c ;;
          for_range (fun k c =>
              ak <- vget (map ra (seq 0 (2 * D + 1))) k ;;
              bk <- vget (map rb (seq 0 (2 * D + 1))) k ;;
              x <- cget F c (k - 1) (i - 1) j ;;
              cadd F c k i j (nmul (nmul (fdiv ai ak) bk) x)) (MAX (j - i + 2) 1) (i + j) c)
        i D c) 1 D c) as [c' [E H]].
  - intros i c1 Hi H1. rewrite !vget_map_seq by lia. cbn [bind].
    destruct (for_range_state _ (fun j c => g_inv D i j c)
      (fun j c =>
          c <- for_range (fun k c =>
              ak <- vget (map ra (seq 0 (2 * D + 1))) k ;;
              x <- cget F c (k + 1) (i - 1) j ;;
              cadd F c k i j (nmul (fdiv (ra (i - 1)) ak) x)) (MAX (j - i) 0) (j + i - 2) c ;;
          c <- for_range (fun k c =>
              x <- cget F c k (i - 2) j ;;
              cadd F c k i j (nmul (nopp (rb (i - 1))) x)) (MAX (j - i + 2) 0) (j + i - 2) c ;;
          for_range (fun k c =>
              ak <- vget (map ra (seq 0 (2 * D + 1))) k ;;
              bk <- vget (map rb (seq 0 (2 * D + 1))) k ;;
              x <- cget F c (k - 1) (i - 1) j ;;
              cadd F c k i j (nmul (nmul (fdiv (ra (i - 1)) ak) bk) x)) (MAX (j - i + 2) 1) (i + j) c) i D c1) as [c2 [E2 H2]].
    + intros j c2 Hj [W [P1 P2]].
      destruct (g_column D i j c2) as [c3 [E3 [W3 [S3 L3]]]]; try assumption; try lia.
      * apply P1; unfold before; lia.
      * intros; apply P1; unfold before; lia.
      * intros k. apply P2. unfold before. lia.
      * exists c3. split; [exact E3|]. split; [assumption|]. split.
        -- intros i' j' Hb H3 H4. destruct (Nat.eq_dec i' i) as [->|Hne]; [destruct (Nat.eq_dec j' j) as [->|Hne]; [assumption|]|].
           ++ eapply same_off_col; [exact S3|lia|]. apply P1; unfold before in *; lia.
           ++ eapply same_off_col; [exact S3|lia|]. apply P1; unfold before in *; lia.
        -- intros k i' j' Hb. rewrite S3 by (unfold before in *; lia). apply P2. unfold before in *. lia.
    + assumption.
    + lia.
    + exists c2. split; [exact E2|]. destruct H2 as [W [P1 P2]]. split; [assumption|]. split.
      * intros i' j' Hb H3 H4. apply P1; unfold before in *; lia.
      * intros k i' j' Hb. destruct (le_lt_dec (2 * D + 1) k) as [Hk|Hk]; [apply (cnth_out F _ _ _ _ _ _ W Hk)|].
        destruct (le_lt_dec j' D) as [Hj'|Hj']; [apply P2; unfold before in *; lia|].
        unfold cnth. destruct W as [Wl Wm]. specialize (Wm k Hk). destruct (le_lt_dec (D + 1) i') as [Hi'|Hi'].
        -- rewrite (nth_overflow (nth k c2 [])) by (destruct Wm; lia). destruct j'; reflexivity.
        -- apply nth_overflow. erewrite (mat_wf_nth F); [|exact Wm|lia]. lia.
  - assumption.
  - lia.
  - exists c'. split; [exact E|]. rewrite Nat.add_1_r. exact H.
Qed.

Lemma g_mirror : forall D (c0 : cube), g_inv D (D + 1) (D + 1) c0 -> exists c',
  for_range (fun i c =>
      for_range (fun j c =>
          for_range (fun k c =>
              x <- cget F c k i j ;;
              cset F c k j i x) (j - i) (j + i) c)
        i D c) 0 D c0 = Ok c' /\ cwf (F:=F) (2 * D + 1) (D + 1) c' /\
  (forall k i j, i <= D -> j <= D -> cn c' k i j = if i <=? j then cn c0 k i j else cn c0 k j i).
Proof.
  intros D c0 [W0 [P01 P02]].
  assert (Z : forall k i j, j < i -> cn c0 k i j = n0) by (intros; apply P02; right; assumption).
  assert (Z2 : forall k i j, i <= j -> j <= D -> k < j - i \/ i + j < k -> cn c0 k i j = n0).
  { intros k i j H1 H2 H3. rewrite (P01 i j) by (unfold before; lia). apply tri_out; lia. }
  set (Q := fun (done : nat -> nat -> nat -> Prop) (c : cube) => cwf (F:=F) (2 * D + 1) (D + 1) c /\
     (forall k i j, i <= j -> cn c k i j = cn c0 k i j) /\
     (forall k i j, j < i -> done k i j -> cn c k i j = cn c0 k j i) /\
     (forall k i j, j < i -> ~ done k i j -> cn c k i j = n0)).
  destruct (for_range_state _ (fun t c => Q (fun k i j => j < t /\ i <= D) c)
   (fun i c =>
      for_range (fun j c =>
          for_range (fun k c =>
              x <- cget F c k i j ;;
              cset F c k j i x) (j - i) (j + i) c)
        i D c) 0 D c0) as [c' [E [W [H1 [H2 H3]]]]].
  - intros i c Hi Hc.
    destruct (for_range_state _ (fun t c => Q (fun k i' j' => (j' < i /\ i' <= D) \/ (j' = i /\ i' < t)) c)
      (fun j c =>
          for_range (fun k c =>
              x <- cget F c k i j ;;
              cset F c k j i x) (j - i) (j + i) c) i D c) as [c2 [E2 Hc2]].
    + intros j c1 Hj Hc1.
      destruct (for_range_state _ (fun t c => Q (fun k i' j' => (j' < i /\ i' <= D) \/ (j' = i /\ i' < j) \/ (j' = i /\ i' = j /\ (k < t))) c)
        (fun k c => x <- cget F c k i j ;; cset F c k j i x) (j - i) (j + i) c1) as [c3 [E3 Hc3]].
      * intros k c2 Hk [W [H1 [H2 H3]]]. rewrite (cget_ok F (2 * D + 1) (D + 1)) by (assumption || lia). cbn [bind].
        destruct (cset_ok F (2 * D + 1) (D + 1) c2 k j i (cn c2 k i j) W) as [c3 [E3 [W3 V3]]]; try lia.
        exists c3. split; [exact E3|]. split; [assumption|]. split; [|split].
        -- intros k' i' j' H. rewrite V3. destruct (Nat.eqb_spec k' k), (Nat.eqb_spec i' j), (Nat.eqb_spec j' i); cbn [andb]; try (apply H1; assumption).
           subst. assert (i = j) by lia. subst. apply H1. lia.
        -- intros k' i' j' H Hd. rewrite V3. destruct (Nat.eqb_spec k' k), (Nat.eqb_spec i' j), (Nat.eqb_spec j' i); cbn [andb]; try (apply H2; [assumption|lia]).
           subst. apply H1. lia.
        -- intros k' i' j' H Hd. rewrite V3. destruct (Nat.eqb_spec k' k), (Nat.eqb_spec i' j), (Nat.eqb_spec j' i); cbn [andb]; try (apply H3; [assumption|lia]).
           exfalso. apply Hd. lia.
      * destruct Hc1 as [W [H1 [H2 H3]]]. split; [assumption|]. split; [assumption|]. split.
        -- intros k i' j' H Hd. destruct (Nat.eq_dec i' j) as [Ei|Ei]; [destruct (Nat.eq_dec j' i) as [Ej|Ej]|].
           ++ rewrite H3 by lia. symmetry. apply Z2; lia.
           ++ apply H2; lia.
           ++ apply H2; lia.
        -- intros k i' j' H Hd. apply H3; lia.
      * lia.
      * exists c3. split; [exact E3|]. destruct Hc3 as [W [H1 [H2 H3]]]. split; [assumption|]. split; [assumption|]. split.
        -- intros k i' j' H Hd. destruct (le_lt_dec k (j + i)) as [Hk|Hk]; [apply H2; lia|].
           destruct (Nat.eq_dec i' j) as [Ei|Ei]; [destruct (Nat.eq_dec j' i) as [Ej|Ej]|]; [|apply H2; lia|apply H2; lia].
           rewrite H3 by lia. symmetry. apply Z2; lia.
        -- intros k i' j' H Hd. apply H3; lia.
    + destruct Hc as [W [H1 [H2 H3]]]. split; [assumption|]. split; [assumption|]. split.
      * intros k i' j' H Hd. apply H2; lia.
      * intros k i' j' H Hd. apply H3; lia.
    + lia.
    + exists c2. split; [exact E2|]. destruct Hc2 as [W [H1 [H2 H3]]]. split; [assumption|]. split; [assumption|]. split.
      * intros k i' j' H Hd. apply H2; lia.
      * intros k i' j' H Hd. apply H3; lia.
  - split; [assumption|]. split; [reflexivity|]. split; [intros; lia|]. intros. apply Z. assumption.
  - lia.
  - exists c'. split; [exact E|]. split; [assumption|]. intros k i j Hi Hj. destruct (Nat.leb_spec i j).
    + apply H1. assumption.
    + apply H2; lia.
Qed.

Lemma triple_table : forall D, exists c, triple_products_1d F D = Ok c /\ cwf (F:=F) (2 * D + 1) (D + 1) c /\
  forall k i j, i <= D -> j <= D -> cn c k i j = tri (Nat.min i j) (Nat.max i j) k.
Proof.
  intros D. unfold triple_products_1d. destruct (g_row0 D) as [c1 [E1 [W1 V1]]]. rewrite E1. cbn [bind].
  destruct (g_main D c1) as [c2 [E2 M2]].
  { split; [assumption|]. split.
    - intros i j Hb Hij Hj. assert (i = 0) by (unfold before in Hb; lia). subst i.
      intros k. rewrite V1. cbn [tri Nat.eqb andb]. destruct (Nat.eqb_spec k j), (Nat.leb_spec j D); cbn [andb]; try lia; reflexivity.
    - intros k i j H. rewrite V1. destruct (Nat.eqb_spec i 0); [|reflexivity]. subst i. unfold before in H. lia. }
  rewrite E2. cbn [bind]. destruct (g_mirror D c2 M2) as [c3 [E3 [W3 V3]]]. exists c3. split; [exact E3|]. split; [assumption|].
  destruct M2 as [_ [M2 _]]. intros k i j Hi Hj. rewrite V3 by assumption. destruct (Nat.leb_spec i j).
  - rewrite (M2 i j) by (unfold before; lia). rewrite Nat.min_l, Nat.max_r by lia. reflexivity.
  - rewrite (M2 j i) by (unfold before; lia). rewrite Nat.min_r, Nat.max_l by lia. reflexivity.
Qed.
End Table.
