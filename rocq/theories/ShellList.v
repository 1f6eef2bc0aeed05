(** The complete lists of the cube and the rectangle. *)
From Coq Require Import List Arith ZArith Lia Bool Permutation.
From Verif Require Import Base Lists IndexModel Spec Traverse Triangle Shell.
Import ListNotations.

Lemma filter_seq_linked : forall (P : nat -> bool) n s,
  linked (fun a b => a < b /\ P a = true /\ P b = true /\ forall c, a < c < b -> P c = false) (filter P (seq s n)).
Proof.
  intros P. induction n as [|n IH]; intros s; simpl; [exact I|].
  destruct (P s) eqn:E; [|apply IH].
  simpl. split; [|apply IH].
  destruct (filter P (seq (S s) n)) as [|b l] eqn:F; [exact I|].
  assert (G : forall n t, hd_error (filter P (seq t n)) = Some b -> t <= b /\ P b = true /\ forall c, t <= c < b -> P c = false).
  { clear. induction n as [|n IH]; intros t H; [discriminate|]. simpl in H.
    destruct (P t) eqn:E.
    - injection H as ->. repeat split; [lia|assumption|]. intros; lia.
    - apply IH in H as [H1 [H2 H3]]. repeat split; [lia|assumption|]. intros c Hc.
      destruct (Nat.eq_dec c t); [subst; assumption|apply H3; lia]. }
  destruct (G n (S s)) as [H1 [H2 H3]]; [rewrite F; reflexivity|].
  repeat split; [lia|assumption|assumption|]. intros; apply H3; lia.
Qed.

Lemma filter_seq_last : forall (P : nat -> bool) n s k,
  last_opt (filter P (seq s n)) = Some k -> s <= k < s + n /\ P k = true /\ forall c, k < c < s + n -> P c = false.
Proof.
  intros P. induction n as [|n IH]; intros s k H; [discriminate|].
  rewrite seq_S, filter_app in H. simpl filter in H. destruct (P (s + n)) eqn:E.
  - rewrite last_opt_snoc in H. injection H as <-. repeat split; [lia|lia|assumption|]. intros; lia.
  - rewrite app_nil_r in H. apply IH in H as [H1 [H2 H3]]. repeat split; [lia|lia|assumption|].
    intros c Hc. destruct (Nat.eq_dec c (s + n)); [subst; assumption|apply H3; lia].
Qed.

Lemma next_search : forall ws M n s j,
  (forall c, s <= c < s + n -> exists f, nth_error ws c = Some f) ->
  s <= j <= s + n ->
  (forall c f, s <= c < j -> nth_error ws c = Some f -> M mod f <> 0) ->
  (j < s + n -> exists f, nth_error ws j = Some f /\ M mod f = 0) ->
  for_loop (next_body ws M) n s tt = Ok (inr (j, tt)).
Proof.
  intros ws M. induction n as [|n IH]; intros s j Hw Hj Hb Hd.
  - simpl. do 3 f_equal. lia.
  - rewrite for_loop_S. unfold next_body at 1. destruct (Hw s ltac:(lia)) as [f Hf].
    unfold vget. rewrite Hf. cbn [bind].
    destruct (Nat.eq_dec s j) as [->|Hne].
    + destruct (Hd ltac:(lia)) as [f' [Hf' Hm]]. rewrite Hf in Hf'. injection Hf' as <-.
      rewrite Hm. reflexivity.
    + specialize (Hb s f ltac:(lia) Hf) as Hnm. apply Nat.eqb_neq in Hnm. rewrite Hnm.
      apply IH.
      * intros; apply Hw; lia.
      * lia.
      * intros c f' Hc. apply Hb. lia.
      * intros; apply Hd; lia.
Qed.

Section Shells.
  Variable ws : mi.
  Hypothesis Hpos : Forall (fun w => 1 <= w) ws.
  Hypothesis Hne : hd_error ws = Some 1.

  Definition wk (ws : mi) (k : nat) := nth k ws 1.
  Definition blk (ws : mi) (M k : nat) : list mi :=
    map (fun v => firstn k v ++ (M / wk ws k) :: skipn k v)
        (box (cap_a (firstn k ws) M ++ cap_b (skipn (S k) ws) M)).
  Definition valid (ws : mi) (M k : nat) : bool :=
    (M mod wk ws k =? 0) && (negb (M =? 0) || (S k =? length ws)).
  Definition lvl (ws : mi) (M : nat) : list mi := flat_map (blk ws M) (filter (valid ws M) (seq 0 (length ws))).
  Definition shell_spec (ws : mi) (degree : nat) : list mi := flat_map (lvl ws) (seq 0 (S degree)).

  Lemma ws_split : forall k, k < length ws -> ws = firstn k ws ++ wk ws k :: skipn (S k) ws.
  Proof.
    intros k. unfold wk. revert k. generalize ws. intros l. induction l as [|x l IH]; intros k Hk; simpl in *; [lia|].
    destruct k as [|k]; simpl; [reflexivity|]. f_equal. apply IH. lia.
  Qed.

  Lemma dim_pos : 0 < length ws.
  Proof. destruct ws; [discriminate|simpl; lia]. Qed.

  Lemma wk_pos : forall k, 1 <= wk ws k.
  Proof.
    intros k. unfold wk. destruct (Nat.lt_ge_cases k (length ws)) as [H|H].
    - rewrite Forall_forall in Hpos. apply Hpos. apply nth_In. assumption.
    - rewrite nth_overflow by assumption. lia.
  Qed.

  Lemma valid_div : forall M k, valid ws M k = true -> (M / wk ws k) * wk ws k = M.
  Proof.
    intros M k H. apply andb_true_iff in H as [H _]. apply Nat.eqb_eq in H.
    pose proof (wk_pos k). rewrite Nat.mul_comm. symmetry. apply Nat.div_exact; lia.
  Qed.

  Lemma valid_M : forall M k, valid ws M k = true -> k < length ws -> M <> 0 \/ skipn (S k) ws = [].
  Proof.
    intros M k H Hk. apply andb_true_iff in H as [_ H]. apply orb_true_iff in H as [H|H].
    - left. apply negb_true_iff, Nat.eqb_neq in H. assumption.
    - right. apply Nat.eqb_eq in H. rewrite H. apply skipn_all.
  Qed.

  Lemma Hpos_k : forall k, k < length ws -> Forall (fun w => 1 <= w) (firstn k ws ++ wk ws k :: skipn (S k) ws).
  Proof. intros. rewrite <- ws_split; assumption. Qed.

  Lemma blk_ne : forall M k, blk ws M k <> [].
  Proof. intros M k H. unfold blk in H. apply map_eq_nil in H. apply box_ne in H. exact H. Qed.

  Lemma box_split : forall M k v, k < length ws ->
    In v (box (cap_a (firstn k ws) M ++ cap_b (skipn (S k) ws) M)) ->
    length (firstn k v) = k /\ length (skipn k v) = length ws - S k /\
    In (firstn k v) (box (cap_a (firstn k ws) M)) /\ In (skipn k v) (box (cap_b (skipn (S k) ws) M)).
  Proof.
    intros M k v Hk H. apply in_box in H. apply Forall2_app_inv_r in H as [va [vb [Ha [Hb ->]]]].
    assert (length va = k).
    { apply Forall2_length in Ha. rewrite Ha. unfold cap_a. rewrite map_length, firstn_length. lia. }
    rewrite firstn_app_exact, skipn_app_exact by assumption. split; [assumption|]. split.
    - apply Forall2_length in Hb. rewrite Hb. unfold cap_b. rewrite map_length, skipn_length. reflexivity.
    - split; apply in_box; assumption.
  Qed.

  (** increment on an element of a block *)
  Lemma inc_blk : forall degree M k v, k < length ws -> valid ws M k = true ->
    In v (box (cap_a (firstn k ws) M ++ cap_b (skipn (S k) ws) M)) ->
    gen_increment ws degree (firstn k v ++ (M / wk ws k) :: skipn k v) =
    match odo (cap_a (firstn k ws) M ++ cap_b (skipn (S k) ws) M) v with
    | Some v' => Ok (false, firstn k v' ++ (M / wk ws k) :: skipn k v')
    | None =>
      if k + 1 =? length ws then
        if degree <=? M then Ok (true, zeros k ++ (M / wk ws k) :: zeros (length ws - S k))
        else Ok (false, upd (zeros (length ws)) 0 (M + 1))
      else
        r <- for_loop (next_body ws M) (length ws - S k) (k + 1) tt ;;
        match r with
        | inl _ => Ub
        | inr (next, _) =>
            if next <? length ws then
              f <- vget ws next ;;
              Ok (false, upd (zeros (length ws)) next (M / f))
            else if M =? degree then Ok (true, zeros (length ws))
            else Ok (false, upd (zeros (length ws)) 0 (M + 1))
        end
    end.
  Proof.
    intros degree M k v Hk Hv Hin.
    destruct (box_split M k v Hk Hin) as [La [Lb [Ha Hb]]].
    pose proof (gen_increment_block (firstn k ws) (skipn (S k) ws) (wk ws k) M (M / wk ws k)
      (Hpos_k k Hk) (valid_div M k Hv) (valid_M M k Hv Hk) degree (firstn k v) (skipn k v) Ha Hb) as G.
    rewrite <- (ws_split k Hk) in G. rewrite G. clear G.
    rewrite firstn_skipn. rewrite firstn_length, Nat.min_l by lia.
    destruct (odo _ v); [reflexivity|]. cbv zeta.
    assert (L : length (firstn k v ++ M / wk ws k :: skipn k v) = length ws).
    { rewrite app_length. cbn [length]. lia. }
    rewrite L, La, Lb. destruct (k + 1 =? length ws) eqn:E.
    - destruct (degree <=? M); [reflexivity|]. rewrite vset_Ok by (rewrite zeros_length; lia). reflexivity.
    - apply bind_ext. intros [u|[next u]] _; [reflexivity|].
      destruct (next <? length ws) eqn:En.
      + apply bind_ext. intros f _. apply Nat.ltb_lt in En. rewrite vset_Ok by (rewrite zeros_length; lia). reflexivity.
      + destruct (M =? degree); [reflexivity|]. rewrite vset_Ok by (rewrite zeros_length; lia). reflexivity.
  Qed.

  Lemma linked_blk : forall degree M k, k < length ws -> valid ws M k = true ->
    linked (stepf (gen_increment ws degree)) (blk ws M k).
  Proof.
    intros degree M k Hk Hv. unfold blk.
    set (cs := cap_a (firstn k ws) M ++ cap_b (skipn (S k) ws) M).
    assert (G : linked (fun v w => In v (box cs) /\ odo cs v = Some w) (box cs)).
    { eapply linked_impl; [|apply linked_box]. intros; split; assumption. }
    eapply linked_map; [|exact G]. intros v w [Hin Ho]. unfold stepf.
    rewrite inc_blk by assumption. fold cs. rewrite Ho. reflexivity.
  Qed.

  Lemma zeros_app : forall a b, zeros a ++ zeros b = zeros (a + b).
  Proof. induction a as [|a IH]; intros b; [reflexivity|]. rewrite zeros_S. simpl. rewrite IH. rewrite zeros_S. reflexivity. Qed.

  Lemma firstn_zeros : forall a b, a <= b -> firstn a (zeros b) = zeros a.
  Proof. intros. replace b with (a + (b - a)) by lia. rewrite <- zeros_app. apply firstn_app_exact, zeros_length. Qed.
  Lemma skipn_zeros : forall a b, a <= b -> skipn a (zeros b) = zeros (b - a).
  Proof. intros. replace b with (a + (b - a)) at 1 by lia. rewrite <- zeros_app. apply skipn_app_exact, zeros_length. Qed.

  Lemma blk_hd : forall M k, k < length ws -> hd_error (blk ws M k) = Some (upd (zeros (length ws)) k (M / wk ws k)).
  Proof.
    intros M k Hk. unfold blk. rewrite hd_error_map, box_hd. cbn [option_map].
    rewrite app_length. unfold cap_a, cap_b. rewrite !map_length, firstn_length, skipn_length, Nat.min_l by lia.
    rewrite firstn_zeros, skipn_zeros by lia. f_equal.
    replace (k + (length ws - S k) - k) with (length ws - S k) by lia.
    replace (length ws) with (k + S (length ws - S k)) at 2 by lia. rewrite <- zeros_app, zeros_S.
    rewrite upd_app_hd by (rewrite zeros_length; reflexivity). reflexivity.
  Qed.

  Lemma blk_last : forall M k, 
    last_opt (blk ws M k) = Some (let v := cap_a (firstn k ws) M ++ cap_b (skipn (S k) ws) M in
                                  firstn k v ++ (M / wk ws k) :: skipn k v).
  Proof. intros. unfold blk. rewrite last_opt_map, box_last. reflexivity. Qed.

  Lemma box_self : forall cs, In cs (box cs).
  Proof. intros. apply in_box. induction cs; constructor; auto. Qed.

  (** leaving block k *)
  Lemma inc_blk_last : forall degree M k x, k < length ws -> valid ws M k = true ->
    last_opt (blk ws M k) = Some x ->
    gen_increment ws degree x =
      if k + 1 =? length ws then
        if degree <=? M then Ok (true, zeros k ++ (M / wk ws k) :: zeros (length ws - S k))
        else Ok (false, upd (zeros (length ws)) 0 (M + 1))
      else
        r <- for_loop (next_body ws M) (length ws - S k) (k + 1) tt ;;
        match r with
        | inl _ => Ub
        | inr (next, _) =>
            if next <? length ws then
              f <- vget ws next ;;
              Ok (false, upd (zeros (length ws)) next (M / f))
            else if M =? degree then Ok (true, zeros (length ws))
            else Ok (false, upd (zeros (length ws)) 0 (M + 1))
        end.
  Proof.
    intros degree M k x Hk Hv Hx. rewrite blk_last in Hx. injection Hx as <-.
    rewrite inc_blk by (try assumption; apply box_self). rewrite odo_last. reflexivity.
  Qed.

  Lemma nth_ws : forall c, c < length ws -> nth_error ws c = Some (wk ws c).
  Proof. intros. unfold wk. apply nth_error_nth'. assumption. Qed.

  Lemma blk_next : forall degree M k j x y, k < j -> j < length ws ->
    valid ws M k = true -> valid ws M j = true -> (forall c, k < c < j -> valid ws M c = false) ->
    last_opt (blk ws M k) = Some x -> hd_error (blk ws M j) = Some y ->
    gen_increment ws degree x = Ok (false, y).
  Proof.
    intros degree M k j x y Hkj Hj Hvk Hvj Hb Hx Hy.
    rewrite (inc_blk_last degree M k x ltac:(lia) Hvk Hx).
    rewrite blk_hd in Hy by assumption. injection Hy as <-.
    replace (k + 1 =? length ws) with false by (symmetry; apply Nat.eqb_neq; lia).
    assert (HM : M <> 0).
    { destruct (valid_M M k Hvk ltac:(lia)) as [H|H]; [assumption|].
      exfalso. apply (f_equal (@length nat)) in H. rewrite skipn_length in H. simpl in H. lia. }
    rewrite (next_search ws M _ _ j).
    - cbn [bind]. replace (j <? length ws) with true by (symmetry; apply Nat.ltb_lt; assumption).
      unfold vget. rewrite nth_ws by assumption. reflexivity.
    - intros c Hc. exists (wk ws c). apply nth_ws. lia.
    - lia.
    - intros c f Hc Hf Hm. specialize (Hb c ltac:(lia)). rewrite nth_ws in Hf by lia. injection Hf as <-.
      unfold valid in Hb. rewrite Hm in Hb. apply Nat.eqb_neq in HM. rewrite HM in Hb. discriminate.
    - intros _. exists (wk ws j). split; [apply nth_ws; assumption|].
      apply andb_true_iff in Hvj as [H _]. apply Nat.eqb_eq in H. exact H.
  Qed.

  Lemma blk_level_end : forall degree M k x, k < length ws -> M <= degree ->
    valid ws M k = true -> (forall c, k < c < length ws -> valid ws M c = false) ->
    last_opt (blk ws M k) = Some x ->
    if M =? degree then exists x', gen_increment ws degree x = Ok (true, x')
    else gen_increment ws degree x = Ok (false, upd (zeros (length ws)) 0 (M + 1)).
  Proof.
    intros degree M k x Hk HMd Hvk Hb Hx.
    rewrite (inc_blk_last degree M k x Hk Hvk Hx).
    destruct (k + 1 =? length ws) eqn:Ek.
    - destruct (M =? degree) eqn:E.
      + apply Nat.eqb_eq in E. replace (degree <=? M) with true by (symmetry; apply Nat.leb_le; lia).
        eexists; reflexivity.
      + apply Nat.eqb_neq in E. replace (degree <=? M) with false by (symmetry; apply Nat.leb_gt; lia). reflexivity.
    - apply Nat.eqb_neq in Ek.
      assert (HM : M <> 0).
      { destruct (valid_M M k Hvk Hk) as [H|H]; [assumption|].
        exfalso. apply (f_equal (@length nat)) in H. rewrite skipn_length in H. simpl in H. lia. }
      rewrite (next_search ws M _ _ (length ws)).
      + cbn [bind]. rewrite Nat.ltb_irrefl. destruct (M =? degree); [eexists; reflexivity|reflexivity].
      + intros c Hc. exists (wk ws c). apply nth_ws. lia.
      + lia.
      + intros c f Hc Hf Hm. specialize (Hb c ltac:(lia)). rewrite nth_ws in Hf by lia. injection Hf as <-.
        unfold valid in Hb. rewrite Hm in Hb. apply Nat.eqb_neq in HM. rewrite HM in Hb. discriminate.
      + lia.
  Qed.

  Lemma valid_exists : forall M, exists k, k < length ws /\ valid ws M k = true.
  Proof.
    intros M. pose proof dim_pos. destruct (Nat.eq_dec M 0) as [->|HM].
    - exists (length ws - 1). split; [lia|]. unfold valid. pose proof (wk_pos (length ws - 1)).
      rewrite Nat.mod_0_l by lia. rewrite !Nat.eqb_refl. cbn [negb orb andb]. apply Nat.eqb_eq. lia.
    - exists 0. split; [assumption|]. unfold valid, wk. destruct ws as [|w l]; [discriminate|].
      injection Hne as ->. simpl nth. rewrite Nat.mod_1_r. apply Nat.eqb_neq in HM. rewrite HM. reflexivity.
  Qed.

  Lemma lvl_ne : forall M, lvl ws M <> [].
  Proof.
    intros M. destruct (valid_exists M) as [k [Hk Hv]]. unfold lvl. apply flat_map_ne.
    - intro H. assert (In k (filter (valid ws M) (seq 0 (length ws)))) by (apply filter_In; rewrite in_seq; split; [lia|assumption]).
      rewrite H in H0. exact H0.
    - intros; apply blk_ne.
  Qed.

  Lemma valid_0 : forall M, M <> 0 -> valid ws M 0 = true.
  Proof.
    intros M HM. unfold valid, wk. destruct ws as [|w l]; [discriminate|]. injection Hne as ->. simpl nth.
    rewrite Nat.mod_1_r. apply Nat.eqb_neq in HM. rewrite HM. reflexivity.
  Qed.

  Lemma lvl_hd : forall M, M <> 0 -> hd_error (lvl ws M) = Some (upd (zeros (length ws)) 0 M).
  Proof.
    intros M HM. unfold lvl. pose proof dim_pos as Hd.
    assert (exists n, length ws = S n) as [n Hn] by (exists (length ws - 1); lia).
    rewrite Hn at 1. simpl seq. simpl filter. rewrite valid_0 by assumption.
    rewrite hd_error_flat_map by apply blk_ne. rewrite blk_hd by lia.
    unfold wk. destruct ws as [|w l]; [discriminate|]. injection Hne as ->. simpl nth. rewrite Nat.div_1_r. reflexivity.
  Qed.

  Lemma lvl_0 : lvl ws 0 = [zeros (length ws)].
  Proof.
    unfold lvl. pose proof dim_pos as Hd.
    assert (exists n, length ws = S n) as [n Hn] by (exists (length ws - 1); lia).
    rewrite Hn at 1. rewrite seq_S, filter_app. simpl plus.
    assert (filter (valid ws 0) (seq 0 n) = []) as ->.
    { assert (G : forall l, (forall x, In x l -> x < n) -> filter (valid ws 0) l = []).
      { induction l as [|a l IH]; intros H; [reflexivity|]. simpl.
        assert (valid ws 0 a = false) as ->.
        { unfold valid. rewrite Hn. simpl. assert (a < n) by (apply H; left; reflexivity).
          replace (a =? n) with false by (symmetry; apply Nat.eqb_neq; lia). apply andb_false_r. }
        apply IH. intros; apply H; right; assumption. }
      apply G. intros x Hx. apply in_seq in Hx. lia. }
    assert (Hv : valid ws 0 n = true).
    { unfold valid. pose proof (wk_pos n). rewrite Nat.mod_0_l by lia. rewrite Hn. simpl. apply Nat.eqb_refl. }
    simpl filter. rewrite Hv. simpl app. cbn [flat_map]. rewrite app_nil_r.
    unfold blk. replace (skipn (S n) ws) with (@nil nat) by (rewrite <- Hn, skipn_all; reflexivity).
    assert (E : cap_a (firstn n ws) 0 = zeros n).
    { unfold cap_a. assert (G : forall l, Forall (fun w => 1 <= w) l -> map (fun f => 0 / f) l = zeros (length l)).
      { induction l as [|a l IH]; intros H; [reflexivity|]. inversion H; subst. simpl. rewrite zeros_S.
        rewrite IH by assumption. f_equal. destruct a; [lia|]. apply Nat.div_0_l. lia. }
      rewrite G.
      - rewrite firstn_length. f_equal. lia.
      - rewrite <- (firstn_skipn n ws) in Hpos. apply Forall_app in Hpos. tauto. }
    rewrite E. unfold cap_b. simpl map. rewrite app_nil_r.
    assert (B : forall n, box (zeros n) = [zeros n]).
    { clear. induction n as [|n IH]; [reflexivity|]. rewrite zeros_S, box_cons, IH. reflexivity. }
    rewrite B. cbn [map]. f_equal. rewrite firstn_zeros, skipn_zeros by lia. rewrite Nat.sub_diag.
    pose proof (wk_pos n). rewrite Nat.div_0_l by lia. rewrite Hn, <- zeros_snoc. reflexivity.
  Qed.

  Lemma linked_lvl : forall degree M, linked (stepf (gen_increment ws degree)) (lvl ws M).
  Proof.
    intros degree M. unfold lvl. eapply linked_flat_map.
    - intros; apply blk_ne.
    - intros k Hk. apply filter_In in Hk as [Hk Hv]. apply in_seq in Hk. apply linked_blk; [lia|assumption].
    - apply filter_seq_linked.
    - intros k j x y Hk Hj [H1 [H2 [H3 H4]]] Hx Hy. apply filter_In in Hk as [Hk _]. apply filter_In in Hj as [Hj _].
      apply in_seq in Hk. apply in_seq in Hj. unfold stepf. eapply blk_next; try eassumption. lia.
  Qed.

  Lemma lvl_end : forall degree M x, M <= degree -> last_opt (lvl ws M) = Some x ->
    if M =? degree then exists x', gen_increment ws degree x = Ok (true, x')
    else gen_increment ws degree x = Ok (false, upd (zeros (length ws)) 0 (M + 1)).
  Proof.
    intros degree M x HM Hx. unfold lvl in Hx.
    destruct (last_opt (filter (valid ws M) (seq 0 (length ws)))) as [k|] eqn:E.
    - pose proof E as E'. apply filter_seq_last in E' as [H1 [H2 H3]].
      apply last_opt_Some_app in E as [l E]. rewrite E in Hx.
      rewrite last_opt_flat_map_snoc in Hx by apply blk_ne.
      eapply blk_level_end; try eassumption. lia.
    - apply last_opt_None in E. destruct (valid_exists M) as [k [Hk Hv]].
      assert (In k []); [|contradiction]. rewrite <- E. apply filter_In. rewrite in_seq. split; [lia|assumption].
  Qed.

  Lemma shell_linked : forall degree, linked (stepf (gen_increment ws degree)) (shell_spec ws degree).
  Proof.
    intros degree. unfold shell_spec. eapply linked_flat_map with (Q := fun x y => y = S x).
    - intros; apply lvl_ne.
    - intros; apply linked_lvl.
    - apply linked_seq.
    - intros a b x y Ha Hb -> Hx Hy. apply in_seq in Ha, Hb. unfold stepf.
      pose proof (lvl_end degree a x ltac:(lia) Hx) as G.
      replace (a =? degree) with false in G by (symmetry; apply Nat.eqb_neq; lia).
      rewrite lvl_hd in Hy by lia. injection Hy as <-. rewrite G, Nat.add_1_r. reflexivity.
  Qed.

  Lemma shell_hd : forall degree, hd_error (shell_spec ws degree) = Some (zeros (length ws)).
  Proof.
    intros. unfold shell_spec. simpl seq. rewrite hd_error_flat_map by apply lvl_ne. rewrite lvl_0. reflexivity.
  Qed.

  Lemma shell_last : forall degree, exists x x', last_opt (shell_spec ws degree) = Some x /\
    gen_increment ws degree x = Ok (true, x').
  Proof.
    intros. unfold shell_spec. rewrite seq_S, last_opt_flat_map_snoc by apply lvl_ne. simpl plus.
    destruct (last_opt (lvl ws degree)) as [x|] eqn:E.
    - pose proof (lvl_end degree degree x (le_n _) E) as G. rewrite Nat.eqb_refl in G. destruct G as [x' G].
      exists x, x'. split; [reflexivity|assumption].
    - apply last_opt_None, lvl_ne in E. contradiction.
  Qed.

  Lemma shell_prefix : forall degree degree', degree <= degree' ->
    prefix (shell_spec ws degree) (shell_spec ws degree').
  Proof.
    intros. unfold shell_spec. exists (flat_map (lvl ws) (seq (S degree) (degree' - degree))).
    rewrite <- flat_map_app. f_equal. replace (S degree') with (S degree + (degree' - degree)) by lia.
    rewrite seq_app. reflexivity.
  Qed.

  (** Membership *)
  Lemma in_blk : forall M k m, k < length ws -> valid ws M k = true ->
    (In m (blk ws M k) <-> exists va vb, m = va ++ (M / wk ws k) :: vb /\
       Forall2 (fun x f => x * f <= M) va (firstn k ws) /\ Forall2 (fun x f => x * f < M) vb (skipn (S k) ws)).
  Proof.
    intros M k m Hk Hv. unfold blk. rewrite in_map_iff. split.
    - intros [v [<- Hin]]. destruct (box_split M k v Hk Hin) as [La [Lb [Ha Hb]]].
      exists (firstn k v), (skipn k v). split; [reflexivity|]. apply in_box in Ha, Hb. split.
      + exact (caps_a _ _ _ _ _ (Hpos_k k Hk) (valid_div M k Hv) (valid_M M k Hv Hk) _ Ha).
      + exact (caps_b _ _ _ _ (Hpos_k k Hk) (valid_M M k Hv Hk) _ Hb).
    - intros [va [vb [-> [Ha Hb]]]]. exists (va ++ vb).
      assert (La : length va = k). { apply Forall2_length in Ha. rewrite Ha, firstn_length. lia. }
      rewrite firstn_app_exact, skipn_app_exact by assumption. split; [reflexivity|].
      apply in_box, Forall2_app.
      + exact (caps_a_inv _ _ _ _ _ (Hpos_k k Hk) (valid_div M k Hv) (valid_M M k Hv Hk) _ Ha).
      + exact (caps_b_inv _ _ _ _ _ (Hpos_k k Hk) (valid_div M k Hv) _ Hb).
  Qed.

  (** the last position of the maximum *)
  Lemma last_argmax : forall M m l, Forall2 (fun x f => x * f <= M) m l ->
    (exists x f, In (x, f) (combine m l) /\ x * f = M) ->
    exists va x vb wa f wb, m = va ++ x :: vb /\ l = wa ++ f :: wb /\ x * f = M /\
      Forall2 (fun x f => x * f <= M) va wa /\ Forall2 (fun x f => x * f < M) vb wb.
  Proof.
    induction 1 as [|x f m l Hxf HF IH]; intros [x0 [f0 [Hin E]]]; [contradiction|].
    destruct (Exists_dec (fun p => fst p * snd p = M) (combine m l)) as [HE|HN].
    { intros p. apply Nat.eq_dec. }
    - apply Exists_exists in HE as [[x1 f1] [Hin1 E1]].
      destruct IH as [va [y [vb [wa [g [wb [-> [-> [H1 [H2 H3]]]]]]]]]]; [exists x1, f1; auto|].
      exists (x :: va), y, vb, (f :: wa), g, wb. repeat split; auto.
    - destruct Hin as [Hin|Hin].
      + injection Hin as <- <-. exists [], x, m, [], f, l. repeat split; auto.
        clear IH. induction HF as [|a b m' l' Hab HF' IH']; constructor.
        * assert (a * b <> M). { intro. apply HN. left. assumption. } lia.
        * apply IH'. intro; apply HN; right; assumption.
      + exfalso. apply HN. apply Exists_exists. exists (x0, f0). auto.
  Qed.

  Lemma in_lvl : forall M m, In m (lvl ws M) <->
    Forall2 (fun x f => x * f <= M) m ws /\ exists x f, In (x, f) (combine m ws) /\ x * f = M.
  Proof.
    intros M m. unfold lvl. rewrite in_flat_map. split.
    - intros [k [Hk Hm]]. apply filter_In in Hk as [Hk Hv]. apply in_seq in Hk.
      apply in_blk in Hm as [va [vb [-> [Ha Hb]]]]; [|lia|assumption].
      pose proof (valid_div M k Hv) as Hd.
      split.
      + assert (G : Forall2 (fun x f => x * f <= M) (va ++ M / wk ws k :: vb) (firstn k ws ++ wk ws k :: skipn (S k) ws)).
        { apply Forall2_app; [assumption|]. constructor; [lia|].
          clear - Hb. induction Hb; constructor; auto. lia. }
        rewrite <- ws_split in G by lia. exact G.
      + exists (M / wk ws k), (wk ws k). split; [|assumption].
        cut (In (M / wk ws k, wk ws k) (combine (va ++ M / wk ws k :: vb) (firstn k ws ++ wk ws k :: skipn (S k) ws))).
        { rewrite <- ws_split by lia. trivial. }
        assert (G : forall a wa b wb, length a = length wa -> In (M / wk ws k, wk ws k) (combine (a ++ M / wk ws k :: b) (wa ++ wk ws k :: wb))).
        { induction a as [|y a IH]; intros [|z wa] b wb Hl; try discriminate; simpl; auto. }
        apply G. apply Forall2_length in Ha. assumption.
    - intros [HF HE]. apply last_argmax in HE as [va [x [vb [wa [f [wb [-> [Ews [Exf [Ha Hb]]]]]]]]]]; [|assumption].
      exists (length wa). 
      assert (Hwk : wk ws (length wa) = f). { unfold wk. rewrite Ews, app_nth2, Nat.sub_diag by lia. reflexivity. }
      assert (Hf : 1 <= f) by (rewrite <- Hwk; apply wk_pos).
      assert (Hl : length wa < length ws) by (rewrite Ews, app_length; simpl; lia).
      assert (Hv : valid ws M (length wa) = true).
      { unfold valid. rewrite Hwk, <- Exf, Nat.mod_mul by lia. rewrite Nat.eqb_refl. cbn [andb]. rewrite Exf.
        destruct (M =? 0) eqn:E0; [|reflexivity]. simpl. apply Nat.eqb_eq in E0. rewrite E0 in Hb.
        assert (wb = []) as -> by (inversion Hb; [reflexivity|lia]). rewrite Ews, app_length. cbn [length]. rewrite Nat.add_1_r. apply Nat.eqb_refl. }
      split; [apply filter_In; rewrite in_seq; split; [lia|assumption]|].
      apply in_blk; [assumption|assumption|]. exists va, vb.
      rewrite Hwk. rewrite <- Exf at 1. rewrite Nat.div_mul by lia. split; [reflexivity|].
      rewrite Ews. rewrite firstn_app_exact by reflexivity.
      replace (wa ++ f :: wb) with ((wa ++ [f]) ++ wb) by (rewrite <- app_assoc; reflexivity).
      rewrite skipn_app_exact by (rewrite app_length; simpl; lia). split; assumption.
  Qed.

  Lemma in_shell : forall degree m,
    In m (shell_spec ws degree) <-> Forall2 (fun x f => x * f <= degree) m ws.
  Proof.
    intros degree m. unfold shell_spec. rewrite in_flat_map. split.
    - intros [M [HM Hm]]. apply in_seq in HM. apply in_lvl in Hm as [HF _].
      clear - HF HM. induction HF; constructor; auto. lia.
    - intros HF.
      assert (exists M, M <= degree /\ Forall2 (fun x f => x * f <= M) m ws /\ exists x f, In (x, f) (combine m ws) /\ x * f = M)
        as [M [HM HH]].
      { pose proof dim_pos as Hd. clear Hpos Hne. induction HF as [|x f m l Hxf HF IH]; [simpl in Hd; lia|].
        destruct l as [|f' l].
        - inversion HF; subst. exists (x * f). split; [assumption|]. split; [constructor; [lia|constructor]|].
          exists x, f. simpl. auto.
        - destruct IH as [M [HM [HF' [x1 [f1 [Hin E]]]]]]; [simpl; lia|].
          destruct (Nat.le_gt_cases (x * f) M).
          + exists M. split; [assumption|]. split; [constructor; assumption|]. exists x1, f1. split; [right; assumption|assumption].
          + exists (x * f). split; [assumption|]. split.
            * constructor; [lia|]. clear - HF' H. induction HF'; constructor; auto. lia.
            * exists x, f. split; [left; reflexivity|reflexivity]. }
      exists M. split; [apply in_seq; lia|]. apply in_lvl. exact HH.
  Qed.

  Lemma NoDup_shell : forall degree, NoDup (shell_spec ws degree).
  Proof.
    intros degree. apply NoDup_flat_map; [apply seq_NoDup| |].
    - intros M _. unfold lvl. apply NoDup_flat_map.
      + apply NoDup_filter, seq_NoDup.
      + intros k _. apply NoDup_map_inj; [|apply NoDup_box]. intros x y Hx Hy E.
        assert (G : forall (a b c d : list nat) z, length a = length c -> a ++ z :: b = c ++ z :: d -> a = c /\ b = d).
        { clear. induction a as [|x a IH]; intros b [|y c] d z Hl E; try discriminate.
          - injection E as ->. auto.
          - injection E as -> E. injection Hl as Hl. apply IH in E as [-> ->]; auto. }
        apply in_box, Forall2_length in Hx. apply in_box, Forall2_length in Hy.
        apply G in E as [E1 E2].
        * rewrite <- (firstn_skipn k x), <- (firstn_skipn k y), E1, E2. reflexivity.
        * rewrite !firstn_length. congruence.
      + intros k j x Hk Hj Hx1 Hx2. apply filter_In in Hk as [Hk Hvk]. apply filter_In in Hj as [Hj Hvj].
        apply in_seq in Hk, Hj.
        assert (G : forall a b, a < length ws -> b < length ws -> valid ws M a = true -> valid ws M b = true ->
                   In x (blk ws M a) -> In x (blk ws M b) -> a < b -> False).
        { clear - Hpos. intros a b Ha Hb Hva Hvb Hxa Hxb Hab.
          apply in_blk in Hxa as [va [vb [E1 [Ha1 Hb1]]]]; [|assumption|assumption].
          apply in_blk in Hxb as [va' [vb' [E2 [Ha2 Hb2]]]]; [|assumption|assumption].
          assert (La : length va = a) by (apply Forall2_length in Ha1; rewrite Ha1, firstn_length; lia).
          assert (La' : length va' = b) by (apply Forall2_length in Ha2; rewrite Ha2, firstn_length; lia).
          assert (N1 : nth_error x b = Some (M / wk ws b)).
          { rewrite E2, nth_error_app2, La', Nat.sub_diag by lia. reflexivity. }
          rewrite E1, nth_error_app2, La in N1 by lia.
          replace (b - a) with (S (b - S a)) in N1 by lia. simpl in N1.
          assert (N2 : nth_error (skipn (S a) ws) (b - S a) = Some (wk ws b)).
          { rewrite <- (nth_ws b) by assumption. rewrite <- (firstn_skipn (S a) ws) at 2.
            rewrite nth_error_app2 by (rewrite firstn_length; lia). rewrite firstn_length, Nat.min_l by lia. reflexivity. }
          assert (G : forall l1 l2 i u v, Forall2 (fun x f => x * f < M) l1 l2 -> nth_error l1 i = Some u -> nth_error l2 i = Some v -> u * v < M).
          { clear. intros l1 l2 i u v HF. revert i. induction HF; intros [|i] H1 H2; try discriminate.
            - injection H1 as <-. injection H2 as <-. assumption.
            - simpl in *. eapply IHHF; eassumption. }
          specialize (G _ _ _ _ _ Hb1 N1 N2). pose proof (valid_div M b Hvb). lia. }
        destruct (Nat.lt_trichotomy k j) as [H|[H|H]];
          [exfalso; apply (G k j); try assumption; lia|assumption|exfalso; apply (G j k); try assumption; lia].
    - intros a b x _ _ Ha Hb. apply in_lvl in Ha as [Ha1 [x1 [f1 [Hi1 E1]]]]. apply in_lvl in Hb as [Hb1 [x2 [f2 [Hi2 E2]]]].
      assert (G : forall M m l u v, Forall2 (fun x f => x * f <= M) m l -> In (u, v) (combine m l) -> u * v <= M).
      { clear. induction 1; intros H'; [contradiction|]. destruct H' as [H'|H']; [injection H' as <- <-; assumption|auto]. }
      pose proof (G _ _ _ _ _ Ha1 Hi2). pose proof (G _ _ _ _ _ Hb1 Hi1). lia.
  Qed.

  Lemma shell_length : forall degree,
    length (shell_spec ws degree) = fold_right Nat.mul 1 (map (fun f => S (degree / f)) ws).
  Proof.
    intros degree. rewrite <- (map_map (fun f => degree / f) S), <- box_length.
    apply Permutation_length. apply NoDup_Permutation; [apply NoDup_shell|apply NoDup_box|].
    intros x. rewrite in_shell, in_box. clear - Hpos. revert x. induction Hpos as [|f l Hf Hl IH]; intros x; simpl.
    - split; intros H; inversion H; constructor.
    - split; intros H; inversion H; subst; constructor; try (apply IH; assumption).
      + apply Nat.div_le_lower_bound; lia.
      + eapply Nat.le_trans; [apply Nat.mul_le_mono_r; eassumption|]. rewrite Nat.mul_comm. apply Nat.mul_div_le. lia.
  Qed.
End Shells.
