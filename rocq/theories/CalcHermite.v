(** hermite.cpp and the tables of basis functions. *)
From Coq Require Import String List Bool Arith ZArith Lia Reals Lra.
From Verif Require Import Base Lists IndexModel Spec Num Fnum LinModel LinSpec LinBase MatBase Tensorize CalcModel CalcSpec CalcBase.
Import ListNotations.
Local Open Scope R_scope.

Lemma ofnat_R : forall n, ofnat fnum_R n = INR n.
Proof. intros. unfold ofnat. cbn [fofZ fnum_R]. symmetry. apply INR_IZR_INZ. Qed.

Lemma sqrt_INR_pos : forall n, (0 < n)%nat -> 0 < sqrt (INR n).
Proof. intros. apply sqrt_lt_R0. apply lt_0_INR. assumption. Qed.

Lemma sqrt_INR_sq : forall n, sqrt (INR n) * sqrt (INR n) = INR n.
Proof. intros. apply sqrt_sqrt. apply pos_INR. Qed.

Lemma sqrt_fact_S : forall n, sqrt (INR (fact (S n))) = sqrt (INR (S n)) * sqrt (INR (fact n)).
Proof.
  intros. rewrite <- sqrt_mult by apply pos_INR. rewrite <- mult_INR. f_equal. 
Qed.

Lemma sqrt_fact_pos : forall n, 0 < sqrt (INR (fact n)).
Proof. intros. apply sqrt_INR_pos. apply lt_O_fact. Qed.

Lemma rec_a_R : forall i, rec_a fnum_R i = 1 / sqrt (INR (S i)).
Proof. intros. unfold rec_a. cbn [fdiv fsqrt fnum_R]. rewrite ofnat_R, Nat.add_1_r. reflexivity. Qed.
Lemma rec_b_R : forall i, rec_b fnum_R i = sqrt (INR i) / sqrt (INR (S i)).
Proof. intros. unfold rec_b. cbn [fdiv fsqrt fnum_R]. rewrite !ofnat_R, Nat.add_1_r. reflexivity. Qed.

Lemma He_SS : forall n x, He (S (S n)) x = x * He (S n) x - INR (S n) * He n x.
Proof. reflexivity. Qed.

Lemma hermite_0 : forall x, hermite 0 x = 1.
Proof. intros. unfold hermite. cbn [He fact INR]. rewrite sqrt_1. field. Qed.
Lemma hermite_1 : forall x, hermite 1 x = x.
Proof. intros. unfold hermite. cbn [He]. change (fact 1) with 1%nat. cbn [INR]. rewrite sqrt_1. field. Qed.

(** sqrt(n+2) h_(n+2) = x h_(n+1) - sqrt(n+1) h_n *)
Lemma hermite_SS : forall n x, hermite (S (S n)) x = (x * hermite (S n) x - sqrt (INR (S n)) * hermite n x) / sqrt (INR (S (S n))).
Proof.
  intros. unfold hermite. rewrite He_SS. rewrite (sqrt_fact_S (S n)), (sqrt_fact_S n).
  assert (H1 := sqrt_fact_pos n). assert (H2 := sqrt_INR_pos (S n) ltac:(lia)). assert (H3 := sqrt_INR_pos (S (S n)) ltac:(lia)).
  rewrite <- (sqrt_INR_sq (S n)) at 1. field. lra.
Qed.

(** x h_n = sqrt(n+1) h_(n+1) + sqrt(n) h_(n-1) *)
Lemma hermite_x : forall n x, x * hermite n x = sqrt (INR (S n)) * hermite (S n) x + sqrt (INR n) * hermite (n - 1) x.
Proof.
  intros [|n] x.
  - rewrite hermite_0, hermite_1. cbn [INR]. rewrite sqrt_1, sqrt_0. change (0-1)%nat with 0%nat. rewrite hermite_0. ring.
  - rewrite hermite_SS. replace (S n - 1)%nat with n by lia. assert (H3 := sqrt_INR_pos (S (S n)) ltac:(lia)). field. lra.
Qed.

Lemma hermite_eval_R : forall x degree (values : list R), (1 <= degree)%nat -> (degree < length values)%nat ->
  exists out, hermite_eval fnum_R x degree values = Ok out /\ length out = length values /\
    (forall n, (n <= degree)%nat -> nth n out 0 = hermite n x) /\
    (forall n, (degree < n)%nat -> nth n out 0 = nth n values 0).
Proof.
  intros x degree values Hd Hl. unfold hermite_eval. cbn [n1 fn fnum_R num_R carrier].
  rewrite vset_Ok by lia. cbn [bind]. rewrite vset_Ok by (rewrite upd_length; lia). cbn [bind].
  destruct (for_each_state (list R) (fun t s => length s = length values /\ (forall n, (n <= t)%nat -> nth n s 0 = hermite n x) /\ (forall n, (t < n)%nat -> nth n s 0 = nth n values 0))
    (fun i values => vi <- vget values i;; vp <- vget values (i - 1);;
       vset values (i + 1) (nsub (nmul (nmul (rec_a fnum_R i) x) vi) (nmul (rec_b fnum_R i) vp))) (degree - 1) 1 (upd (upd values 0 1) 1 x)) as [s [E H]].
  - intros j s Hj [H1 [H2 H3]]. rewrite (vget_nth _ s j 0) by lia. rewrite (vget_nth _ s (j - 1) 0) by lia. cbn [bind].
    rewrite vset_Ok by lia. eexists. split; [reflexivity|]. rewrite upd_length. split; [assumption|]. split.
    + intros n Hn. rewrite nth_upd. destruct (Nat.eq_dec n (j + 1)) as [->|Hne].
      * rewrite (proj2 (Nat.eqb_eq _ _) eq_refl). cbn [andb]. rewrite (proj2 (Nat.ltb_lt _ _)) by lia.
        rewrite H2, H2 by lia. rewrite rec_a_R, rec_b_R. unfold nsub. cbn [nadd nmul nopp fn fnum_R num_R].
        destruct j as [|j]; [lia|]. replace (S j + 1)%nat with (S (S j)) by lia. replace (S j - 1)%nat with j by lia.
        rewrite hermite_SS. assert (K := sqrt_INR_pos (S (S j)) ltac:(lia)). field. lra.
      * rewrite (proj2 (Nat.eqb_neq _ _)) by congruence. cbn [andb]. apply H2. lia.
    + intros n Hn. rewrite nth_upd. rewrite (proj2 (Nat.eqb_neq _ _)) by lia. cbn [andb]. apply H3. lia.
  - rewrite !upd_length. split; [reflexivity|]. split.
    + intros n Hn. rewrite !nth_upd. rewrite upd_length. destruct n as [|[|n]]; [| |lia].
      * cbn [Nat.eqb andb]. rewrite (proj2 (Nat.ltb_lt _ _)) by lia. symmetry. apply hermite_0.
      * cbn [Nat.eqb andb]. rewrite (proj2 (Nat.ltb_lt _ _)) by lia. symmetry. apply hermite_1.
    + intros n Hn. rewrite !nth_upd. destruct n as [|[|n]]; [lia|lia|]. reflexivity.
  - exists s. split; [exact E|]. replace (1 + (degree - 1))%nat with degree in H by lia. exact H.
Qed.

(** degree 0: the write of element 1 is out of bounds *)
Lemma hermite_eval_0_ub : forall (F : fnum) x (values : list F), length values = 1%nat -> hermite_eval F x 0 values = Ub.
Proof.
  intros F x values H. unfold hermite_eval. destruct values as [|v [|w l]]; try discriminate. reflexivity.
Qed.
