(** Lemmas for C109: errors as numbers of roundings. *)
From Coq Require Import List Arith ZArith Reals Lia Lra.
From Verif Require Import Base Num Fnum CalcSpec RndModel RndSpec.
Import ListNotations.
Local Open Scope R_scope.

Section Near.
Variable u : R.
Hypothesis Hu : 0 <= u < 1.

(** 1 / (1 - u) *)
Definition th : R := / (1 - u).
Lemma th_pos : 1 <= th.
Proof using Hu. unfold th. rewrite <- Rinv_1. apply Rinv_le_contravar; lra. Qed.
Lemma th_u : 1 + u <= th.
Proof using Hu. unfold th. apply (Rmult_le_reg_r (1 - u)); [lra|]. rewrite Rinv_l by lra. nra. Qed.
Lemma th_pow : forall n, 1 <= th ^ n.
Proof using Hu. intros n. apply pow_R1_Rle, th_pos. Qed.
Lemma th_le : forall n m, (n <= m)%nat -> th ^ n <= th ^ m.
Proof using Hu. intros n m H. apply Rle_pow; [apply th_pos|exact H]. Qed.

(** [a] differs from [b] by at most what [n] roundings do to a number of size [X]. *)
Definition near (n : nat) (a b X : R) : Prop := Rabs (a - b) <= (th ^ n - 1) * X /\ Rabs b <= X.

Lemma near_exact : forall a, near 0 a a (Rabs a).
Proof using Type. intros a. split; [|lra]. replace (a - a) with 0 by ring. rewrite Rabs_R0. cbn [pow]. lra. Qed.
Lemma near_pos : forall n a b X, near n a b X -> 0 <= X.
Proof using Type. intros n a b X (_ & H). pose proof (Rabs_pos b). lra. Qed.
Lemma near_size : forall n a b X, near n a b X -> Rabs a <= th ^ n * X.
Proof using Type. intros n a b X (H1 & H2). replace a with ((a - b) + b) by ring. pose proof (Rabs_triang (a - b) b). nra. Qed.
Lemma near_le : forall n m a b X, (n <= m)%nat -> near n a b X -> near m a b X.
Proof using Hu. intros n m a b X H HN. pose proof (near_pos _ _ _ _ HN). destruct HN as (H1 & H2). split; [|exact H2]. pose proof (th_le n m H). nra. Qed.
Lemma near_X : forall n a b X Y, X <= Y -> near n a b X -> near n a b Y.
Proof using Hu. intros n a b X Y H (H1 & H2). pose proof (th_pow n). split; [nra|lra]. Qed.
Lemma near_opp : forall n a b X, near n a b X -> near n (- a) (- b) X.
Proof using Type. intros n a b X (H1 & H2). split; [|rewrite Rabs_Ropp; exact H2]. replace (- a - - b) with (- (a - b)) by ring. rewrite Rabs_Ropp. exact H1. Qed.
Lemma near_mul : forall n m a b X c d Y, near n a b X -> near m c d Y -> near (n + m) (a * c) (b * d) (X * Y).
Proof using Hu.
  intros n m a b X c d Y HA HB. pose proof (near_size _ _ _ _ HA) as SA. pose proof (near_pos _ _ _ _ HA). pose proof (near_pos _ _ _ _ HB). destruct HA as (A1 & A2), HB as (B1 & B2).
  pose proof (th_pow n). pose proof (th_pow m). split.
  - replace (a * c - b * d) with (a * (c - d) + d * (a - b)) by ring. eapply Rle_trans; [apply Rabs_triang|]. rewrite !Rabs_mult, pow_add.
    pose proof (Rabs_pos a). pose proof (Rabs_pos (c - d)). pose proof (Rabs_pos d). pose proof (Rabs_pos (a - b)).
    assert (Rabs a * Rabs (c - d) <= th ^ n * X * ((th ^ m - 1) * Y)) by (apply Rmult_le_compat; assumption). assert (Rabs d * Rabs (a - b) <= Y * ((th ^ n - 1) * X)) by (apply Rmult_le_compat; assumption).
    replace ((th ^ n * th ^ m - 1) * (X * Y)) with (th ^ n * X * ((th ^ m - 1) * Y) + Y * ((th ^ n - 1) * X)) by ring. lra.
  - rewrite Rabs_mult. apply Rmult_le_compat; auto using Rabs_pos.
Qed.
Lemma near_add : forall n a b X c d Y, near n a b X -> near n c d Y -> near n (a + c) (b + d) (X + Y).
Proof using Type.
  intros n a b X c d Y (A1 & A2) (B1 & B2). split; [|eapply Rle_trans; [apply Rabs_triang|lra]]. replace (a + c - (b + d)) with ((a - b) + (c - d)) by ring. eapply Rle_trans; [apply Rabs_triang|]. lra.
Qed.
(** One more rounding. *)
Lemma near_rnd : forall n a a' b X, near n a b X -> Rabs (a' - a) <= u * Rabs a -> near (S n) a' b X.
Proof using Hu.
  intros n a a' b X H Hr. pose proof (near_size _ _ _ _ H) as S. pose proof (near_pos _ _ _ _ H). destruct H as (A1 & A2). split; [|exact A2]. replace (a' - b) with ((a' - a) + (a - b)) by ring. eapply Rle_trans; [apply Rabs_triang|].
  pose proof (th_pow n). pose proof th_u. cbn [pow]. assert (u * Rabs a <= u * (th ^ n * X)) by (apply Rmult_le_compat_l; lra). assert ((1 + u) * (th ^ n * X) <= th * (th ^ n * X)) by (apply Rmult_le_compat_r; [nra|lra]). nra.
Qed.

(** A positive number as a positive multiple of the exact one; this survives quotients and square roots. *)
Definition rel (n : nat) (a b : R) : Prop := 0 < b /\ exists t, a = b * t /\ (1 - u) ^ n <= t <= th ^ n.
Lemma low_pos : forall n, 0 < (1 - u) ^ n.
Proof using Hu. intros n. apply pow_lt. lra. Qed.
Lemma low_th : forall n, / (1 - u) ^ n = th ^ n.
Proof using Hu. intros n. unfold th. symmetry. apply pow_inv. Qed.
Lemma low_1 : forall n, (1 - u) ^ n <= 1.
Proof using Hu. intros n. induction n as [|n IH]; cbn [pow]; [lra|]. pose proof (low_pos n). nra. Qed.
Lemma rel_pos : forall n a b, rel n a b -> 0 < a.
Proof using Hu. intros n a b (H & t & -> & H1 & H2). pose proof (low_pos n). nra. Qed.
Lemma rel_exact : forall a, 0 < a -> rel 0 a a.
Proof using Type. intros a H. split; [exact H|]. exists 1. cbn [pow]. split; [ring|lra]. Qed.
Lemma rel_near : forall n a b, rel n a b -> near n a b b.
Proof using Hu.
  intros n a b (H & t & -> & H1 & H2). split; [|rewrite Rabs_pos_eq; lra]. replace (b * t - b) with (b * (t - 1)) by ring. rewrite Rabs_mult, (Rabs_pos_eq b) by lra. rewrite (Rmult_comm _ b). apply Rmult_le_compat_l; [lra|].
  apply Rabs_le. split; [|lra]. pose proof (low_pos n). pose proof (low_1 n). pose proof (low_th n) as E. assert ((1 - u) ^ n * th ^ n = 1) by (rewrite <- E; apply Rinv_r; lra). nra.
Qed.
Lemma rel_mul : forall n m a b c d, rel n a b -> rel m c d -> rel (n + m) (a * c) (b * d).
Proof using Hu.
  intros n m a b c d (H & t & -> & H1 & H2) (H' & t' & -> & H1' & H2'). split; [nra|]. exists (t * t'). split; [ring|]. rewrite !pow_add. pose proof (low_pos n). pose proof (low_pos m). split; apply Rmult_le_compat; lra.
Qed.
Lemma rel_inv : forall n a b, rel n a b -> rel n (/ a) (/ b).
Proof using Hu.
  intros n a b (H & t & -> & H1 & H2). split; [apply Rinv_0_lt_compat; exact H|]. pose proof (low_pos n) as Hl. exists (/ t). split; [apply Rinv_mult; lra|]. split.
  - rewrite <- (Rinv_inv ((1 - u) ^ n)). rewrite low_th. apply Rinv_le_contravar; lra.
  - rewrite <- low_th. apply Rinv_le_contravar; lra.
Qed.
Lemma rel_sqrt : forall n a b, rel n a b -> rel n (sqrt a) (sqrt b).
Proof using Hu.
  intros n a b (H & t & -> & H1 & H2). split; [apply sqrt_lt_R0; exact H|]. pose proof (low_pos n) as Hl. pose proof (low_1 n). pose proof (th_pow n). exists (sqrt t). split; [apply sqrt_mult; lra|]. split.
  - apply Rle_trans with (sqrt ((1 - u) ^ n)); [|apply sqrt_le_1_alt; exact H1]. rewrite <- (sqrt_square ((1 - u) ^ n)) at 1 by lra. apply sqrt_le_1_alt. nra.
  - apply Rle_trans with (sqrt (th ^ n)); [apply sqrt_le_1_alt; exact H2|]. rewrite <- (sqrt_square (th ^ n)) at 2 by lra. apply sqrt_le_1_alt. nra.
Qed.
Lemma rel_rnd : forall n a a' b, rel n a b -> Rabs (a' - a) <= u * Rabs a -> rel (S n) a' b.
Proof using Hu.
  intros n a a' b H Hr. pose proof (rel_pos _ _ _ H) as Ha. destruct H as (H & t & -> & H1 & H2). split; [exact H|]. rewrite (Rabs_pos_eq (b * t)) in Hr by lra. exists (a' / b). split; [field; lra|].
  assert (B : (1 - u) * t <= a' / b <= (1 + u) * t). { pose proof (Rle_abs (a' - b * t)). pose proof (Rle_abs (- (a' - b * t))) as Hn. rewrite Rabs_Ropp in Hn. split; apply (Rmult_le_reg_r b); try lra; replace (a' / b * b) with a' by (field; lra); nra. }
  pose proof (low_pos n). pose proof th_u. cbn [pow]. split; [apply Rle_trans with ((1 - u) * t); [apply Rmult_le_compat_l; lra|apply B]|apply Rle_trans with ((1 + u) * t); [apply B|apply Rmult_le_compat; lra]].
Qed.

(** The bound. *)
Lemma bernoulli_low : forall n, 1 - INR n * u <= (1 - u) ^ n.
Proof using Hu.
  induction n as [|n IH]; [cbn; lra|]. rewrite S_INR. cbn [pow]. pose proof (pos_INR n). pose proof (low_pos n). destruct (Rle_dec 0 (1 - INR n * u)); nra.
Qed.
Lemma th_gamma : forall n, INR n * u < 1 -> th ^ n - 1 <= gamma u n.
Proof using Hu.
  intros n H. unfold gamma. rewrite <- low_th. pose proof (bernoulli_low n). apply Rle_trans with (/ (1 - INR n * u) - 1); [apply Rplus_le_compat_r, Rinv_le_contravar; lra|]. right. field. lra.
Qed.
Lemma near_gamma : forall n a b X, INR n * u < 1 -> near n a b X -> Rabs (a - b) <= gamma u n * X.
Proof using Hu. intros n a b X H HN. pose proof (near_pos _ _ _ _ HN). destruct HN as (H1 & _). pose proof (th_gamma n H). nra. Qed.

(** Sums and products of lists, from left to right. *)
Variable r : R -> R.
Hypothesis Hr : forall x, Rabs (r x - x) <= u * Rabs x.
Lemma near_sum : forall A (f g G : A -> R) n l k a b X, (forall x, In x l -> near n (f x) (g x) (G x)) -> (n <= k)%nat -> near k a b X ->
  near (k + length l) (fold_left (fun o x => r (o + f x)) l a) (b + rsum (map g l)) (X + rsum (map G l)).
Proof using Hu Hr.
  intros A f g G n. induction l as [|x l IH]; intros k a b X H Hk Ha.
  - cbn [fold_left map rsum fold_right length]. rewrite Nat.add_0_r, !Rplus_0_r. exact Ha.
  - cbn [fold_left map length]. replace (k + S (length l))%nat with (S k + length l)%nat by lia. change (rsum (g x :: map g l)) with (g x + rsum (map g l)). change (rsum (G x :: map G l)) with (G x + rsum (map G l)). rewrite <- !Rplus_assoc.
    apply IH; [intros y Hy; apply H; right; exact Hy|lia|]. eapply near_rnd; [|apply Hr]. apply near_add; [exact Ha|]. apply near_le with n; [exact Hk|apply H; left; reflexivity].
Qed.
Lemma near_prod : forall A (f g G : A -> R) (c : A -> nat) l k a b X, (forall x, In x l -> near (c x) (f x) (g x) (G x)) -> near k a b X ->
  near (k + list_sum (map (fun x => S (c x)) l)) (fold_left (fun o x => r (o * f x)) l a) (b * rprod (map g l)) (X * rprod (map G l)).
Proof using Hu Hr.
  intros A f g G c. induction l as [|x l IH]; intros k a b X H Ha.
  - cbn [fold_left map rprod fold_right list_sum]. rewrite Nat.add_0_r, !Rmult_1_r. exact Ha.
  - cbn [fold_left map]. change (list_sum (S (c x) :: map (fun x => S (c x)) l)) with (S (c x) + list_sum (map (fun x => S (c x)) l))%nat. replace (k + (S (c x) + list_sum (map (fun x0 => S (c x0)) l)))%nat with (S (k + c x) + list_sum (map (fun x => S (c x)) l))%nat by lia.
    change (rprod (g x :: map g l)) with (g x * rprod (map g l)). change (rprod (G x :: map G l)) with (G x * rprod (map G l)). rewrite <- !Rmult_assoc.
    apply IH; [intros y Hy; apply H; right; exact Hy|]. eapply near_rnd; [|apply Hr]. apply near_mul; [exact Ha|apply H; left; reflexivity].
Qed.
End Near.
