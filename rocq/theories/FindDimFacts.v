(** The dimension of a triangle from the degree and the number of polynomials. *)
From Coq Require Import List Bool Arith ZArith Lia.
From Verif Require Import Base IndexModel Spec IndexSet Binom LinSpec Triangle Facts1.
Import ListNotations.
Local Open Scope nat_scope.

Lemma triangle_count : forall dim degree, length (points Triangle dim degree) = binom (degree + dim) dim.
Proof.
  intros [|d] degree; [cbn; destruct (degree + 0); reflexivity|]. unfold points. destruct (tri_complete (S d) degree ltac:(lia)) as (l & -> & _ & _ & L & _). exact L.
Qed.
Lemma tri_size_count : forall dim degree, let n := Z.of_nat (length (points Triangle dim degree)) in tri_size dim degree = if (n <? 2 ^ 32)%Z then Ok n else Ub.
Proof.
  intros dim degree n. unfold n. rewrite triangle_count. unfold tri_size, d2u. rewrite zbinom_binom. replace (0 <=? Z.of_nat (binom (degree + dim) dim))%Z with true by (symmetry; apply Z.leb_le; lia). reflexivity.
Qed.
Lemma binom_pos : forall n k, k <= n -> 0 < binom n k.
Proof. induction n as [|n IH]; intros [|k] H; cbn [binom]; try lia. specialize (IH k ltac:(lia)). lia. Qed.
Lemma count_S : forall dim degree, 1 <= degree -> length (points Triangle dim degree) < length (points Triangle (S dim) degree).
Proof.
  intros dim degree H. rewrite !triangle_count. rewrite Nat.add_succ_r. cbn [binom]. assert (0 < binom (degree + dim) (S dim)) by (apply binom_pos; lia). lia.
Qed.
Lemma count_lt : forall degree, 1 <= degree -> forall e d, d < e -> length (points Triangle d degree) < length (points Triangle e degree).
Proof. intros degree H. induction e as [|e IH]; intros d Hd; [lia|]. pose proof (count_S e degree H). destruct (Nat.eq_dec d e) as [->|]; [assumption|]. specialize (IH d ltac:(lia)). lia. Qed.

(** The loop reaches the first dimension with enough polynomials. *)
Lemma find_dim_reach : forall degree n k fuel dim, (forall d, dim <= d < dim + k -> (Z.of_nat (length (points Triangle d degree)) < n)%Z) -> (n <= 2 ^ 32)%Z ->
  find_dim_loop (k + fuel) dim degree n = find_dim_loop fuel (dim + k) degree n.
Proof.
  intros degree n. induction k as [|k IH]; intros fuel dim H Hn; [rewrite Nat.add_0_r; reflexivity|]. cbn [Nat.add find_dim_loop]. rewrite tri_size_count. pose proof (H dim ltac:(lia)) as H0.
  replace (Z.of_nat (length (points Triangle dim degree)) <? 2 ^ 32)%Z with true by (symmetry; apply Z.ltb_lt; lia). cbn [bind]. replace (Z.of_nat (length (points Triangle dim degree)) <? n)%Z with true by (symmetry; apply Z.ltb_lt; exact H0).
  rewrite IH; [|intros d Hd; apply H; lia|exact Hn]. f_equal. lia.
Qed.
Theorem find_dim_found : forall degree dim fuel, 1 <= degree -> dim < fuel -> let n := Z.of_nat (length (points Triangle dim degree)) in (n < 2 ^ 32)%Z -> s_find_dim fuel degree n = Ok dim.
Proof.
  intros degree dim fuel Hd Hf n Hn. unfold s_find_dim. replace fuel with (dim + S (fuel - S dim)) by lia. rewrite find_dim_reach; [|intros d H; pose proof (count_lt degree Hd dim d ltac:(lia)); unfold n; lia|lia].
  cbn [Nat.add find_dim_loop]. rewrite tri_size_count. fold n. replace (n <? 2 ^ 32)%Z with true by (symmetry; apply Z.ltb_lt; exact Hn). cbn [bind]. rewrite Z.ltb_irrefl, Z.eqb_refl. reflexivity.
Qed.
Theorem find_dim_not_found : forall degree n, 1 <= degree -> (0 <= n < 2 ^ 32)%Z -> (forall d, Z.of_nat (length (points Triangle d degree)) <> n) ->
  exists dim, let size := Z.of_nat (length (points Triangle dim degree)) in (n < size)%Z /\ (forall d, d < dim -> (Z.of_nat (length (points Triangle d degree)) < n)%Z) /\
    forall fuel, dim < fuel -> s_find_dim fuel degree n = if (size <? 2 ^ 32)%Z then Exit 1 else Ub.
Proof.
  intros degree n Hd Hn Hne.
  assert (G : exists dim, (n < Z.of_nat (length (points Triangle dim degree)))%Z /\ forall d, d < dim -> (Z.of_nat (length (points Triangle d degree)) < n)%Z).
  { assert (B : forall k, k <= length (points Triangle k degree)). { induction k as [|k IH]; [lia|]. pose proof (count_S k degree Hd). lia. }
    assert (K : forall k, (forall d, d < k -> (Z.of_nat (length (points Triangle d degree)) < n)%Z) \/ exists dim, (n < Z.of_nat (length (points Triangle dim degree)))%Z /\ forall d, d < dim -> (Z.of_nat (length (points Triangle d degree)) < n)%Z).
    { induction k as [|k [IH|IH]]; [left; intros d H; lia| |right; exact IH]. destruct (Z_lt_le_dec (Z.of_nat (length (points Triangle k degree))) n) as [L|L].
      - left. intros d H. destruct (Nat.eq_dec d k) as [->|]; [exact L|]. apply IH. lia.
      - right. exists k. split; [pose proof (Hne k); lia|exact IH]. }
    destruct (K (S (Z.to_nat n))) as [L|L]; [|exact L]. pose proof (L (Z.to_nat n) ltac:(lia)). pose proof (B (Z.to_nat n)). lia. }
  destruct G as (dim & G1 & G2). exists dim. intros size. split; [exact G1|]. split; [exact G2|]. intros fuel Hf. unfold s_find_dim. replace fuel with (dim + S (fuel - S dim)) by lia.
  rewrite find_dim_reach; [|intros d H; apply G2; lia|lia]. cbn [Nat.add find_dim_loop]. rewrite tri_size_count. fold size. destruct (size <? 2 ^ 32)%Z; [|reflexivity]. cbn [bind]. fold size in G1.
  replace (size <? n)%Z with false by (symmetry; apply Z.ltb_ge; lia). replace (size =? n)%Z with false by (symmetry; apply Z.eqb_neq; lia). reflexivity.
Qed.
Theorem find_dim_degree0 : forall n fuel, (1 < n < 2 ^ 32)%Z -> s_find_dim fuel 0 n = NoFuel.
Proof.
  intros n fuel Hn. unfold s_find_dim. replace fuel with (fuel + 0) by lia. rewrite find_dim_reach; [reflexivity| |lia]. intros d _. rewrite triangle_count. cbn [Nat.add].
  assert (G : forall d, binom d d = 1). { induction d0 as [|k IH]; [reflexivity|]. cbn [binom]. rewrite IH, binom_gt by lia. reflexivity. } rewrite G. lia.
Qed.
