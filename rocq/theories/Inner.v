(** inner.cpp: contraction of two series. *)
From Coq Require Import String List Bool Arith ZArith Lia Sorted Permutation.
From Verif Require Import Base Lists IndexModel Spec Machine IndexSet Degree Num LinModel LinSpec LinBase MatBase Project Tensorize Dirs.
Import ListNotations.

Lemma increasing_snoc : forall a x, increasing a -> (forall y, In y a -> y < x) -> increasing (a ++ [x]).
Proof.
  intros a x H. induction H as [|y a Hs IH Hf]; intros Hx; cbn [app]; [constructor; constructor|]. constructor.
  - apply IH. intros z Hz. apply Hx. right. assumption.
  - apply Forall_app. split; [assumption|]. constructor; [apply Hx; left; reflexivity|constructor].
Qed.

Lemma positions_snoc : forall a d ind p, positions a d ind -> p < length d -> positions (a ++ [nth p d 0]) d (ind ++ [p]).
Proof.
  intros a d ind p [H1 H2] Hp. split; [rewrite !app_length; cbn [length]; lia|]. intros k Hk. rewrite app_length in Hk. cbn [length] in Hk.
  destruct (Nat.eq_dec k (length a)) as [->|].
  - rewrite (app_nth2 a) by lia. rewrite (app_nth2 ind) by lia. rewrite H1, Nat.sub_diag. cbn [nth]. split; [assumption|reflexivity].
  - rewrite (app_nth1 a), (app_nth1 ind) by lia. apply H2. lia.
Qed.

Lemma in_nth_ex : forall (d : list nat) x, In x d <-> exists p, p < length d /\ nth p d 0 = x.
Proof. intros. split; [apply In_nth|]. intros [p [H <-]]. apply nth_In. assumption. Qed.

Section Merge.
Variable d1 d2 : list nat.
Hypothesis H1 : increasing d1.
Hypothesis H2 : increasing d2.

Record merged (i j : nat) (st : merge_state) : Prop := {
  mg_i : i <= length d1;
  mg_j : j <= length d2;
  mg_res_in : forall x, In x (ms_result st) <-> (exists p, p < i /\ nth p d1 0 = x /\ ~ In x d2) \/ (exists q, q < j /\ nth q d2 0 = x /\ ~ In x d1);
  mg_inn_in : forall x, In x (ms_inner st) <-> exists p q, p < i /\ q < j /\ nth p d1 0 = x /\ nth q d2 0 = x;
  mg_res_inc : increasing (ms_result st);
  mg_inn_inc : increasing (ms_inner st);
  mg_lt12 : forall p q, p < i -> j <= q < length d2 -> nth p d1 0 < nth q d2 0;
  mg_lt21 : forall p q, i <= p < length d1 -> q < j -> nth q d2 0 < nth p d1 0;
  mg_len_in1 : length (ms_in1 st) = length (ms_result st);
  mg_len_free : length (ms_free st) = length (ms_result st);
  mg_free : forall k, k < length (ms_result st) ->
    if nth k (ms_in1 st) false then nth k (ms_free st) 0 < length d1 /\ nth (nth k (ms_free st) 0) d1 0 = nth k (ms_result st) 0
    else nth k (ms_free st) 0 < length d2 /\ nth (nth k (ms_free st) 0) d2 0 = nth k (ms_result st) 0;
  mg_pos1 : positions (ms_inner st) d1 (ms_ind1 st);
  mg_pos2 : positions (ms_inner st) d2 (ms_ind2 st) }.

Lemma inner_merge_ok : forall fuel i j st, merged i j st -> length d1 + length d2 <= fuel + i + j ->
  exists st', inner_merge d1 d2 fuel i j st = Ok st' /\ merged (length d1) (length d2) st'.
Proof.
  pose proof (proj1 (increasing_nth d1) H1) as N1. pose proof (proj1 (increasing_nth d2) H2) as N2.
  induction fuel as [|fuel IH]; intros i j st M Hf; pose proof (mg_i _ _ _ M) as Mi; pose proof (mg_j _ _ _ M) as Mj; cbn [inner_merge].
  - replace (i <? length d1) with false by (symmetry; apply Nat.ltb_ge; lia). replace (j <? length d2) with false by (symmetry; apply Nat.ltb_ge; lia).
    cbn [orb]. exists st. split; [reflexivity|]. assert (i = length d1) by lia. assert (j = length d2) by lia. subst. assumption.
  - destruct ((i <? length d1) || (j <? length d2)) eqn:Eij.
    2: { apply orb_false_iff in Eij as [E1 E2]. apply Nat.ltb_ge in E1, E2. exists st. split; [reflexivity|].
      assert (i = length d1) by lia. assert (j = length d2) by lia. subst. assumption. }
    assert (Hor : i < length d1 \/ j < length d2) by (apply orb_true_iff in Eij as [E|E]; apply Nat.ltb_lt in E; [left|right]; assumption). clear Eij.
    assert (E2 : exists t, (if i =? length d1 then Ok true else if j <? length d2 then a <- vget d1 i;; b <- vget d2 j;; Ok (b <? a) else Ok false) = Ok t /\
      (t = true -> j < length d2 /\ (i < length d1 -> nth j d2 0 < nth i d1 0)) /\
      (t = false -> i < length d1 /\ (j < length d2 -> nth i d1 0 <= nth j d2 0))).
    { destruct (Nat.eqb_spec i (length d1)).
      - exists true. split; [reflexivity|]. split; [intros _; split; lia|discriminate].
      - destruct (Nat.ltb_spec j (length d2)).
        + rewrite (vget_nth_ok _ d1 i 0), (vget_nth_ok _ d2 j 0) by lia. cbn [bind]. eexists. split; [reflexivity|].
          destruct (Nat.ltb_spec (nth j d2 0) (nth i d1 0)); split; try discriminate; intros _; split; try lia.
        + exists false. split; [reflexivity|]. split; [discriminate|]. intros _. split; lia. }
    destruct E2 as [t [-> [Ht Hf']]]. cbn [bind]. destruct t.
    + destruct (Ht eq_refl) as [T1 T2]. rewrite (vget_nth_ok _ d2 j 0) by lia. cbn [bind]. apply IH; [|lia].
      assert (Hnin : ~ In (nth j d2 0) d1).
      { intros G. apply in_nth_ex in G as [p [Hp G]]. destruct (Nat.lt_ge_cases p i) as [Hpi|Hpi].
        - pose proof (mg_lt12 _ _ _ M p j Hpi ltac:(lia)). lia.
        - specialize (T2 ltac:(lia)). destruct (Nat.eq_dec p i) as [->|]; [lia|]. specialize (N1 i p ltac:(lia) Hp). lia. }
      assert (Hlt : forall y, In y (ms_result st) -> y < nth j d2 0).
      { intros y Hy. apply (mg_res_in _ _ _ M) in Hy as [[p [Hp [<- _]]]|[q [Hq [<- _]]]]; [apply (mg_lt12 _ _ _ M); lia|apply N2; lia]. }
      constructor; cbn [ms_result ms_inner ms_in1 ms_free ms_ind1 ms_ind2].
      * lia.
      * lia.
      * intros x. rewrite in_app_iff, (mg_res_in _ _ _ M). cbn [In]. split.
        -- intros [[G|[q [Hq G]]]|[<-|[]]]; [left; assumption|right; exists q; split; [lia|assumption]|right; exists j; split; [lia|]; split; [reflexivity|assumption]].
        -- intros [G|[q [Hq [G1 G2]]]]; [left; left; assumption|]. destruct (Nat.eq_dec q j) as [->|]; [right; left; assumption|].
           left. right. exists q. split; [lia|]. split; assumption.
      * intros x. rewrite (mg_inn_in _ _ _ M). split; intros (p & q & Hp & Hq & G1 & G2); exists p, q; repeat split; try assumption; try lia.
        destruct (Nat.eq_dec q j) as [->|]; [|lia]. exfalso. apply Hnin. rewrite G2, <- G1. apply nth_In. lia.
      * apply increasing_snoc; [apply (mg_res_inc _ _ _ M)|assumption].
      * apply (mg_inn_inc _ _ _ M).
      * intros p q Hp Hq. apply (mg_lt12 _ _ _ M); lia.
      * intros p q Hp Hq. destruct (Nat.eq_dec q j) as [->|]; [|apply (mg_lt21 _ _ _ M); lia].
        specialize (T2 ltac:(lia)). destruct (Nat.eq_dec p i) as [->|]; [assumption|]. specialize (N1 i p ltac:(lia) ltac:(lia)). lia.
      * rewrite !app_length, (mg_len_in1 _ _ _ M). reflexivity.
      * rewrite !app_length, (mg_len_free _ _ _ M). reflexivity.
      * intros k Hk. rewrite app_length in Hk. cbn [length] in Hk. destruct (Nat.eq_dec k (length (ms_result st))) as [->|].
        -- rewrite !app_nth2 by (rewrite ?(mg_len_in1 _ _ _ M), ?(mg_len_free _ _ _ M); lia).
           rewrite (mg_len_in1 _ _ _ M), (mg_len_free _ _ _ M), Nat.sub_diag. cbn [nth]. split; [lia|reflexivity].
        -- rewrite !app_nth1 by (rewrite ?(mg_len_in1 _ _ _ M), ?(mg_len_free _ _ _ M); lia). apply (mg_free _ _ _ M). lia.
      * apply (mg_pos1 _ _ _ M).
      * apply (mg_pos2 _ _ _ M).
    + destruct (Hf' eq_refl) as [T1 T2].
      assert (E1 : exists t, (if j =? length d2 then Ok true else if i <? length d1 then a <- vget d1 i;; b <- vget d2 j;; Ok (a <? b) else Ok false) = Ok t /\
        (t = true -> (j < length d2 -> nth i d1 0 < nth j d2 0)) /\ (t = false -> j < length d2 /\ nth i d1 0 = nth j d2 0)).
      { destruct (Nat.eqb_spec j (length d2)).
        - exists true. split; [reflexivity|]. split; [intros _; lia|discriminate].
        - replace (i <? length d1) with true by (symmetry; apply Nat.ltb_lt; lia).
          rewrite (vget_nth_ok _ d1 i 0), (vget_nth_ok _ d2 j 0) by lia. cbn [bind]. eexists. split; [reflexivity|]. specialize (T2 ltac:(lia)).
          destruct (Nat.ltb_spec (nth i d1 0) (nth j d2 0)); split; try discriminate; intros _; [intros; assumption|split; lia]. }
      destruct E1 as [t [-> [Ht1 Hf1]]]. cbn [bind]. destruct t.
      * specialize (Ht1 eq_refl). rewrite (vget_nth_ok _ d1 i 0) by lia. cbn [bind]. apply IH; [|lia].
        assert (Hnin : ~ In (nth i d1 0) d2).
        { intros G. apply in_nth_ex in G as [q [Hq G]]. destruct (Nat.lt_ge_cases q j) as [Hqj|Hqj].
          - pose proof (mg_lt21 _ _ _ M i q ltac:(lia) Hqj). lia.
          - specialize (Ht1 ltac:(lia)). destruct (Nat.eq_dec q j) as [->|]; [lia|]. specialize (N2 j q ltac:(lia) Hq). lia. }
        assert (Hlt : forall y, In y (ms_result st) -> y < nth i d1 0).
        { intros y Hy. apply (mg_res_in _ _ _ M) in Hy as [[p [Hp [<- _]]]|[q [Hq [<- _]]]]; [apply N1; lia|apply (mg_lt21 _ _ _ M); lia]. }
        constructor; cbn [ms_result ms_inner ms_in1 ms_free ms_ind1 ms_ind2].
        -- lia.
        -- lia.
        -- intros x. rewrite in_app_iff, (mg_res_in _ _ _ M). cbn [In]. split.
           ++ intros [[[q [Hq G]]|G]|[<-|[]]]; [left; exists q; split; [lia|assumption]|right; assumption|left; exists i; split; [lia|]; split; [reflexivity|assumption]].
           ++ intros [[q [Hq [G1 G2]]]|G]; [|left; right; assumption]. destruct (Nat.eq_dec q i) as [->|]; [right; left; assumption|].
              left. left. exists q. split; [lia|]. split; assumption.
        -- intros x. rewrite (mg_inn_in _ _ _ M). split; intros (p & q & Hp & Hq & G1 & G2); exists p, q; repeat split; try assumption; try lia.
           destruct (Nat.eq_dec p i) as [->|]; [|lia]. exfalso. apply Hnin. rewrite G1, <- G2. apply nth_In. lia.
        -- apply increasing_snoc; [apply (mg_res_inc _ _ _ M)|assumption].
        -- apply (mg_inn_inc _ _ _ M).
        -- intros p q Hp Hq. destruct (Nat.eq_dec p i) as [->|]; [|apply (mg_lt12 _ _ _ M); lia].
           specialize (Ht1 ltac:(lia)). destruct (Nat.eq_dec q j) as [->|]; [assumption|]. specialize (N2 j q ltac:(lia) ltac:(lia)). lia.
        -- intros p q Hp Hq. apply (mg_lt21 _ _ _ M); lia.
        -- rewrite !app_length, (mg_len_in1 _ _ _ M). reflexivity.
        -- rewrite !app_length, (mg_len_free _ _ _ M). reflexivity.
        -- intros k Hk. rewrite app_length in Hk. cbn [length] in Hk. destruct (Nat.eq_dec k (length (ms_result st))) as [->|].
           ++ rewrite !app_nth2 by (rewrite ?(mg_len_in1 _ _ _ M), ?(mg_len_free _ _ _ M); lia).
              rewrite (mg_len_in1 _ _ _ M), (mg_len_free _ _ _ M), Nat.sub_diag. cbn [nth]. split; [lia|reflexivity].
           ++ rewrite !app_nth1 by (rewrite ?(mg_len_in1 _ _ _ M), ?(mg_len_free _ _ _ M); lia). apply (mg_free _ _ _ M). lia.
        -- apply (mg_pos1 _ _ _ M).
        -- apply (mg_pos2 _ _ _ M).
      * destruct (Hf1 eq_refl) as [T3 T4]. rewrite (vget_nth_ok _ d1 i 0) by lia. cbn [bind]. apply IH; [|lia].
        assert (Hlt : forall y, In y (ms_inner st) -> y < nth i d1 0).
        { intros y Hy. apply (mg_inn_in _ _ _ M) in Hy as (p & q & Hp & Hq & <- & _). apply N1; lia. }
        assert (In1 : In (nth i d1 0) d1) by (apply nth_In; lia). assert (In2 : In (nth i d1 0) d2) by (rewrite T4; apply nth_In; lia).
        constructor; cbn [ms_result ms_inner ms_in1 ms_free ms_ind1 ms_ind2].
        -- lia.
        -- lia.
        -- intros x. rewrite (mg_res_in _ _ _ M). split; (intros [[q [Hq [G1 G2]]]|[q [Hq [G1 G2]]]]; [left|right]; exists q; repeat split; try assumption; try lia).
           ++ destruct (Nat.eq_dec q i) as [->|]; [|lia]. exfalso. subst x. contradiction.
           ++ destruct (Nat.eq_dec q j) as [->|]; [|lia]. exfalso. subst x. rewrite <- T4 in G2. contradiction.
        -- intros x. rewrite in_app_iff, (mg_inn_in _ _ _ M). cbn [In]. split.
           ++ intros [(p & q & Hp & Hq & G1 & G2)|[<-|[]]]; [exists p, q; repeat split; try assumption; lia|].
              exists i, j. repeat split; try lia.
           ++ intros (p & q & Hp & Hq & G1 & G2). destruct (Nat.eq_dec p i) as [->|]; [right; left; assumption|]. left. exists p, q. repeat split; try assumption; try lia.
              destruct (Nat.eq_dec q j) as [->|]; [|lia]. exfalso. specialize (N1 p i ltac:(lia) ltac:(lia)). lia.
        -- apply (mg_res_inc _ _ _ M).
        -- apply increasing_snoc; [apply (mg_inn_inc _ _ _ M)|assumption].
        -- intros p q Hp Hq. specialize (N2 j q ltac:(lia) ltac:(lia)). destruct (Nat.eq_dec p i) as [->|]; [lia|]. specialize (N1 p i ltac:(lia) ltac:(lia)). lia.
        -- intros p q Hp Hq. specialize (N1 i p ltac:(lia) ltac:(lia)). destruct (Nat.eq_dec q j) as [->|]; [lia|]. specialize (N2 q j ltac:(lia) ltac:(lia)). lia.
        -- apply (mg_len_in1 _ _ _ M).
        -- apply (mg_len_free _ _ _ M).
        -- apply (mg_free _ _ _ M).
        -- apply positions_snoc; [apply (mg_pos1 _ _ _ M)|lia].
        -- rewrite T4. apply positions_snoc; [apply (mg_pos2 _ _ _ M)|lia].
Qed.
End Merge.
