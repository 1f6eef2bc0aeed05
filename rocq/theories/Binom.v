(** The binomial of the model is Pascal's triangle. *)
From Coq Require Import List Arith ZArith Lia Bool Factorial.
From Verif Require Import Base Lists IndexModel Spec Traverse Triangle.
Import ListNotations.

Lemma binom_fact : forall n k, k <= n -> binom n k * (fact k * fact (n - k)) = fact n.
Proof.
  induction n as [|n IH]; intros k Hk.
  - assert (k = 0) by lia. subst. reflexivity.
  - destruct k as [|k].
    + rewrite binom_0_r, Nat.sub_0_r. simpl fact at 1. lia.
    + simpl binom. simpl (S n - S k).
      destruct (Nat.eq_dec k n) as [->|Hne].
      * rewrite binom_diag, (binom_gt n (S n)) by lia. rewrite Nat.sub_diag. simpl fact at 2. lia.
      * assert (H1 := IH k ltac:(lia)). assert (H2 := IH (S k) ltac:(lia)).
        assert (E : n - k = S (n - S k)) by lia.
        rewrite Nat.mul_add_distr_r.
        replace (binom n k * (fact (S k) * fact (n - k))) with (S k * fact n).
        2:{ rewrite <- H1. change (fact (S k)) with (S k * fact k). ring. }
        replace (binom n (S k) * (fact (S k) * fact (n - k))) with ((n - k) * fact n).
        2:{ rewrite <- H2. rewrite E at 2. change (fact (S (n - S k))) with (S (n - S k) * fact (n - S k)).
            rewrite <- E. ring. }
        rewrite <- Nat.mul_add_distr_r. replace (S k + (n - k)) with (S n) by lia. reflexivity.
Qed.

Lemma fold_mul_acc : forall l a, fold_right Z.mul a l = (fold_right Z.mul 1 l * a)%Z.
Proof. induction l as [|x l IH]; intros a; simpl; [destruct a; reflexivity|]. rewrite IH. ring. Qed.

Lemma zfact_fact : forall n, zfact n = Z.of_nat (fact n).
Proof.
  unfold zfact. induction n as [|n IH]; [reflexivity|].
  rewrite seq_S, map_app, fold_right_app, fold_mul_acc, IH.
  change (fact (S n)) with (S n * fact n). cbn [map fold_right]. rewrite Nat2Z.inj_mul. simpl plus. ring.
Qed.

Lemma zbinom_binom : forall n k, zbinom n k = Z.of_nat (binom n k).
Proof.
  intros. unfold zbinom. destruct (k <=? n) eqn:E.
  - apply Nat.leb_le in E. rewrite !zfact_fact. rewrite <- (binom_fact n k E).
    rewrite <- Nat2Z.inj_mul, Nat2Z.inj_mul. apply Z.div_mul.
    pose proof (fact_neq_0 k). pose proof (fact_neq_0 (n - k)).
    assert (fact k * fact (n - k) <> 0) by (apply Nat.neq_mul_0; auto). lia.
  - apply Nat.leb_gt in E. rewrite binom_gt by assumption. reflexivity.
Qed.

Lemma binom_S_S : forall n k, binom (S n) (S k) = binom n k + binom n (S k).
Proof. reflexivity. Qed.

(** Closed-form position *)
Fixpoint tidx (i s : nat) (m : mi) : nat :=
  match m with
  | [] => 0
  | x :: t => binom (i + (s + x)) (S i) + tidx (S i) (s + x) t
  end.

Lemma tidx_app : forall m1 m2 i s,
  tidx i s (m1 ++ m2) = tidx i s m1 + tidx (i + length m1) (s + list_sum m1) m2.
Proof.
  induction m1 as [|x m1 IH]; intros m2 i s.
  - simpl. rewrite !Nat.add_0_r. reflexivity.
  - simpl app. cbn [tidx]. rewrite IH. simpl length. rewrite list_sum_cons.
    replace (i + S (length m1)) with (S i + length m1) by lia.
    replace (s + x + list_sum m1) with (s + (x + list_sum m1)) by lia. lia.
Qed.

Lemma tidx_zeros0 : forall k i, tidx i 0 (zeros k) = 0.
Proof.
  induction k as [|k IH]; intros i; [reflexivity|]. rewrite zeros_S. cbn [tidx].
  change (0 + 0) with 0. rewrite IH, Nat.add_0_r, binom_gt by lia. reflexivity.
Qed.

(** hockey stick: sum_{j=0..k} C(j + a, j + 1) + 1 = C(k + 1 + a, k + 1) *)
Lemma tidx_const : forall k a, tidx 0 0 (a :: zeros k) + 1 = binom (S k + a) (S k).
Proof.
  induction k as [|k IH]; intros a.
  - rewrite zeros_0. cbn [tidx]. simpl plus. rewrite binom_S_S, !binom_0_r. lia.
  - rewrite <- zeros_snoc. change (a :: zeros k ++ [0]) with ((a :: zeros k) ++ [0]).
    rewrite tidx_app. specialize (IH a). rewrite <- Nat.add_assoc, (Nat.add_comm _ 1), Nat.add_assoc, IH.
    simpl length. rewrite zeros_length, list_sum_cons, list_sum_zeros. cbn [tidx].
    replace (0 + S k) with (S k) by lia. replace (0 + (a + 0) + 0) with a by lia.
    change (S (S k) + a) with (S (S k + a)). rewrite binom_S_S. lia.
Qed.

Lemma tidx_front : forall k a, tidx 0 0 (front k (S a)) = tidx 0 0 (a :: zeros k) + 1.
Proof.
  intros. rewrite tidx_const. unfold front. rewrite tidx_app, tidx_zeros0, zeros_length, list_sum_zeros.
  cbn [tidx]. replace (0 + k + (0 + 0 + S a)) with (S k + a) by lia.
  change (0 + k) with k. rewrite Nat.add_0_r. reflexivity.
Qed.

Lemma list_sum_front : forall k a, list_sum (front k a) = a.
Proof. intros. unfold front. rewrite list_sum_app, list_sum_zeros. simpl. lia. Qed.

Lemma front_length : forall k a, length (front k a) = S k.
Proof. intros. unfold front. rewrite app_length, zeros_length. simpl. lia. Qed.

Lemma tidx_tstep : forall v w, tstep v w -> tidx 0 0 w = tidx 0 0 v + 1.
Proof.
  intros v w [a [k [e [t [-> ->]]]]].
  change (a :: zeros k ++ S e :: t) with ((a :: zeros k) ++ S e :: t).
  rewrite !tidx_app, tidx_front, front_length, list_sum_front.
  rewrite list_sum_cons, list_sum_zeros. simpl length. rewrite zeros_length.
  cbn [tidx]. replace (0 + S a + e) with (0 + (a + 0) + S e) by lia. lia.
Qed.

Lemma linked_count : forall A (R : A -> A -> Prop) (g : A -> nat) l,
  (forall x y, R x y -> g y = g x + 1) -> linked R l ->
  forall i x h, hd_error l = Some h -> nth_error l i = Some x -> g x = g h + i.
Proof.
  induction l as [|a l IH]; intros HR HL i x h Hh Hx; [discriminate|].
  injection Hh as <-. destruct i as [|i].
  - injection Hx as <-. lia.
  - simpl in Hx. destruct HL as [Ha HL]. destruct l as [|b l]; [destruct i; discriminate|].
    rewrite (IH HR HL i x b eq_refl Hx). rewrite (HR _ _ Ha). lia.
Qed.

Lemma tri_spec_linked_strong : forall d degree,
  linked (fun v w => tidx 0 0 w = tidx 0 0 v + 1) (tri_spec d degree).
Proof.
  intros. unfold tri_spec. eapply linked_flat_map with (Q := fun x y => y = S x).
  - intros; apply lev_ne.
  - intros. eapply linked_impl; [|apply linked_lev]. intros. apply tidx_tstep. assumption.
  - apply linked_seq.
  - intros a b x y Ha Hb -> Hx Hy. rewrite lev_last in Hx. rewrite lev_hd in Hy.
    injection Hx as <-. injection Hy as <-. apply tidx_front.
Qed.

Lemma tidx_nth : forall d degree i m,
  nth_error (tri_spec d degree) i = Some m -> tidx 0 0 m = i.
Proof.
  intros d degree i m H.
  rewrite (linked_count _ _ (tidx 0 0) _ (fun x y h => h) (tri_spec_linked_strong d degree) i m _ (tri_spec_hd d degree) H).
  rewrite tidx_zeros0. reflexivity.
Qed.

Lemma u32_small : forall z, (0 <= z < 2 ^ 32)%Z -> u32 z = z.
Proof. intros. unfold u32. apply Z.mod_small. assumption. Qed.

Lemma d2u_small : forall z, (0 <= z < 2 ^ 32)%Z -> d2u z = Ok z.
Proof.
  intros. unfold d2u.
  assert (((0 <=? z) && (z <? 2 ^ 32))%Z = true) as ->; [|reflexivity].
  apply andb_true_intro. split; [apply Z.leb_le; lia|apply Z.ltb_lt; lia].
Qed.

Lemma d2u_big : forall z, (2 ^ 32 <= z)%Z -> d2u z = Ub.
Proof.
  intros. unfold d2u. replace (z <? 2 ^ 32)%Z with false by (symmetry; apply Z.ltb_ge; lia).
  rewrite andb_false_r. reflexivity.
Qed.

Definition tri_idx_body (m : mi) (i : nat) (st : nat * Z) : res (nat * Z) :=
  let '(sum, result) := st in
  x <- vget m i ;;
  let sum := sum + x in
  if 0 <? sum then
    b <- d2u (zbinom (i + sum) (i + 1)) ;;
    Ok (sum, u32 (result + b)%Z)
  else Ok (sum, result).

(** The model's loop computes tidx as long as it stays below 2^32 *)
Lemma tri_index_loop : forall m p sum result,
  (0 <= result)%Z ->
  (result + Z.of_nat (tidx (length p) sum m) < 2 ^ 32)%Z ->
  for_each (tri_idx_body (p ++ m)) (length m) (length p) (sum, result)
  = Ok (sum + list_sum m, (result + Z.of_nat (tidx (length p) sum m))%Z).
Proof.
  induction m as [|x m IH]; intros p sum result H0 H.
  - simpl. rewrite Nat.add_0_r, Z.add_0_r. reflexivity.
  - cbn [length]. rewrite for_each_S.
    cbn [tidx] in H |- *. rewrite Nat2Z.inj_add in H |- *.
    assert (Hb : tri_idx_body (p ++ x :: m) (length p) (sum, result)
      = Ok (sum + x, (result + Z.of_nat (binom (length p + (sum + x)) (S (length p))))%Z)).
    { unfold tri_idx_body. rewrite vget_app_hd by reflexivity. cbn [bind]. cbv zeta.
      destruct (0 <? sum + x) eqn:E.
      - rewrite zbinom_binom, Nat.add_1_r, d2u_small by lia. cbn [bind]. rewrite u32_small by lia. reflexivity.
      - apply Nat.ltb_ge in E. assert (sum + x = 0) as -> by lia.
        rewrite Nat.add_0_r, binom_gt by lia. rewrite Z.add_0_r. reflexivity. }
    rewrite Hb. cbn [bind].
    specialize (IH (p ++ [x]) (sum + x) (result + Z.of_nat (binom (length p + (sum + x)) (S (length p))))%Z).
    rewrite app_length in IH. simpl length in IH. rewrite Nat.add_1_r in IH.
    rewrite <- app_assoc in IH. simpl app in IH. rewrite IH by lia. rewrite list_sum_cons.
    do 2 f_equal; lia.
Qed.

Lemma tri_index_tidx : forall m,
  (Z.of_nat (tidx 0 0 m) < 2 ^ 32)%Z -> tri_index m = Ok (Z.of_nat (tidx 0 0 m)).
Proof.
  intros m H. change (tri_index m) with
    (bind (for_each (tri_idx_body m) (length m) 0 (0, 0%Z)) (fun x => let '(_, r) := x in Ok r)).
  pose proof (tri_index_loop m [] 0 0 ltac:(lia)) as G. simpl length in G. simpl app in G.
  rewrite G by (simpl length; lia). reflexivity.
Qed.

Lemma tri_index_nth : forall d degree i m,
  nth_error (tri_spec d degree) i = Some m -> (Z.of_nat i < 2 ^ 32)%Z ->
  tri_index m = Ok (Z.of_nat i).
Proof.
  intros d degree i m H Hi. apply tidx_nth in H. rewrite <- H. apply tri_index_tidx. lia.
Qed.

Lemma tri_size_spec : forall d degree,
  tri_size (S d) degree =
  if (Z.of_nat (length (tri_spec d degree)) <? 2 ^ 32)%Z
  then Ok (Z.of_nat (length (tri_spec d degree))) else Ub.
Proof.
  intros. unfold tri_size, d2u. rewrite zbinom_binom, tri_spec_length.
  replace (0 <=? _)%Z with true by (symmetry; apply Z.leb_le; lia). reflexivity.
Qed.
