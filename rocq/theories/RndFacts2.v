(** Lemmas for C109: the basis functions. *)
From Coq Require Import String List Bool Arith ZArith Lia Reals Lra.
From Verif Require Import Base Lists IndexModel Spec Machine IndexSet Grid Cross Degree Num Fnum LinModel LinSpec LinBase MatBase Tensorize Facts1 Facts2 CalcModel CalcSpec CalcBase CalcHermite CalcTransform CalcReal RndModel RndSpec RndFacts.
Import ListNotations.
Local Open Scope R_scope.

Section Basis.
Variables (u : R) (r : rounding).
Hypothesis A : accurate u r.
Let Hu : 0 <= u < 1 := acc_u u r A.
Let F := fnum_rnd r.
Notation near := (near u).
Notation rel := (rel u).

Lemma rnd_near : forall n a b X, near n a b X -> near (S n) (rnd r a) b X.
Proof using A. intros n a b X H. eapply near_rnd; [exact Hu|exact H|apply (acc_rnd u r A)]. Qed.
Lemma rnd_rel : forall n a b, rel n a b -> rel (S n) (rnd r a) b.
Proof using A. intros n a b H. eapply rel_rnd; [exact Hu|exact H|apply (acc_rnd u r A)]. Qed.
Lemma sqrt_rel : forall n a b, rel n a b -> rel (S n) (r_sqrt r a) (sqrt b).
Proof using A.
  intros n a b H. pose proof (rel_pos u Hu _ _ _ H). apply rel_rnd with (a := sqrt a); [exact Hu|apply rel_sqrt; assumption|]. rewrite (Rabs_pos_eq (sqrt a)) by apply sqrt_pos. apply (acc_sqrt u r A). lra.
Qed.
Lemma ofnat_rel : forall n, (1 <= n)%nat -> rel 1 (ofnat F n) (INR n).
Proof using A. intros n H. unfold ofnat. cbn [fofZ F fnum_rnd]. rewrite <- INR_IZR_INZ. apply rnd_rel, rel_exact. apply lt_0_INR. lia. Qed.
Lemma rec_a_rel : forall i, rel 3 (rec_a F i) (1 / sqrt (INR (S i))).
Proof using A.
  intros i. unfold rec_a. cbn [fdiv fsqrt n1 fn F fnum_rnd]. apply rnd_rel. apply (rel_mul u Hu 0 2); [apply rel_exact; lra|]. apply rel_inv; [exact Hu|]. apply sqrt_rel. rewrite Nat.add_1_r. apply ofnat_rel. lia.
Qed.
Lemma rec_b_rel : forall i, (1 <= i)%nat -> rel 5 (rec_b F i) (sqrt (INR i) / sqrt (INR (S i))).
Proof using A.
  intros i Hi. unfold rec_b. cbn [fdiv fsqrt fn F fnum_rnd]. apply rnd_rel. apply (rel_mul u Hu 2 2); [apply sqrt_rel, ofnat_rel; exact Hi|]. apply rel_inv; [exact Hu|]. apply sqrt_rel. rewrite Nat.add_1_r. apply ofnat_rel. lia.
Qed.

Lemma hermite_abs_0 : forall x, hermite_abs 0 x = 1.
Proof using Type. intros. unfold hermite_abs. cbn [He_abs fact INR]. rewrite sqrt_1. field. Qed.
Lemma hermite_abs_1 : forall x, hermite_abs 1 x = Rabs x.
Proof using Type. intros. unfold hermite_abs. cbn [He_abs]. change (fact 1) with 1%nat. cbn [INR]. rewrite sqrt_1. field. Qed.
Lemma hermite_abs_SS : forall n x, hermite_abs (S (S n)) x = 1 / sqrt (INR (S (S n))) * Rabs x * hermite_abs (S n) x + sqrt (INR (S n)) / sqrt (INR (S (S n))) * hermite_abs n x.
Proof using Type.
  intros n x. unfold hermite_abs. change (He_abs (S (S n)) x) with (Rabs x * He_abs (S n) x + INR (S n) * He_abs n x). rewrite (sqrt_fact_S (S n)), (sqrt_fact_S n).
  assert (H1 := sqrt_fact_pos n). assert (H2 := sqrt_INR_pos (S n) ltac:(lia)). assert (H3 := sqrt_INR_pos (S (S n)) ltac:(lia)). rewrite <- (sqrt_INR_sq (S n)) at 1. field. lra.
Qed.

Lemma hermite_step : forall j x vi vp, (1 <= j)%nat -> near (6 * j) vi (hermite j x) (hermite_abs j x) -> near (6 * (j - 1)) vp (hermite (j - 1) x) (hermite_abs (j - 1) x) ->
  near (6 * (j + 1)) (nsub (N := F) (nmul (nmul (rec_a F j) x) vi) (nmul (rec_b F j) vp)) (hermite (j + 1) x) (hermite_abs (j + 1) x).
Proof using A.
  intros j x vi vp Hj Hi Hp. destruct j as [|j]; [lia|]. replace (S j + 1)%nat with (S (S j)) by lia. replace (S j - 1)%nat with j in * by lia.
  replace (hermite (S (S j)) x) with (1 / sqrt (INR (S (S j))) * x * hermite (S j) x + - (sqrt (INR (S j)) / sqrt (INR (S (S j))) * hermite j x)) by (rewrite hermite_SS; assert (K := sqrt_INR_pos (S (S j)) ltac:(lia)); field; lra).
  rewrite hermite_abs_SS. unfold nsub. cbn [nadd nmul nopp fn F fnum_rnd]. replace (6 * S (S j))%nat with (S (6 * S j + 5)) by lia. apply rnd_near. apply near_add.
  - replace (6 * S j + 5)%nat with (S (4 + 6 * S j)) by lia. apply rnd_near. apply near_mul; [exact Hu| |exact Hi]. apply rnd_near. apply (near_mul u Hu 3 0); [|apply near_exact]. apply rel_near; [exact Hu|apply rec_a_rel].
  - apply near_opp. apply near_le with (S (5 + 6 * j)); [exact Hu|lia|]. apply rnd_near. apply near_mul; [exact Hu| |exact Hp]. apply rel_near; [exact Hu|]. apply rec_b_rel. lia.
Qed.

Lemma hermite_eval_near : forall x degree (values : list R), (1 <= degree)%nat -> (degree < length values)%nat ->
  exists out, hermite_eval F x degree values = Ok out /\ length out = length values /\ forall n, (n <= degree)%nat -> near (6 * n) (nth n out 0) (hermite n x) (hermite_abs n x).
Proof using A.
  intros x degree values Hd Hl. unfold hermite_eval. cbn [n1 fn F fnum_rnd carrier].
  rewrite vset_Ok by lia. cbn [bind]. rewrite vset_Ok by (rewrite upd_length; lia). cbn [bind].
  destruct (for_each_state (list R) (fun t s => length s = length values /\ (forall n, (n <= t)%nat -> near (6 * n) (nth n s 0) (hermite n x) (hermite_abs n x)))
    (fun i values => vi <- vget values i;; vp <- vget values (i - 1);;
       vset values (i + 1) (nsub (N := F) (nmul (nmul (rec_a F i) x) vi) (nmul (rec_b F i) vp))) (degree - 1) 1 (upd (upd values 0 1) 1 x)) as [s [E H]].
  - intros j s Hj [H1 H2]. rewrite (vget_nth_ok _ s j 0) by lia. rewrite (vget_nth_ok _ s (j - 1) 0) by lia. cbn [bind].
    rewrite vset_Ok by lia. eexists. split; [reflexivity|]. rewrite upd_length. split; [assumption|].
    intros n Hn. rewrite nth_upd. destruct (Nat.eq_dec n (j + 1)) as [->|Hne].
    + rewrite (proj2 (Nat.eqb_eq _ _) eq_refl). cbn [andb]. rewrite (proj2 (Nat.ltb_lt _ _)) by lia. apply hermite_step; [lia|apply H2; lia|apply H2; lia].
    + rewrite (proj2 (Nat.eqb_neq _ _)) by congruence. cbn [andb]. apply H2. lia.
  - rewrite !upd_length. split; [reflexivity|]. intros n Hn. rewrite !nth_upd. rewrite upd_length. destruct n as [|[|n]]; [| |lia].
    + cbn [Nat.eqb andb]. rewrite (proj2 (Nat.ltb_lt _ _)) by lia. rewrite hermite_0, hermite_abs_0. replace 1 with (Rabs 1) at 3 by (rewrite Rabs_pos_eq; lra). apply near_exact.
    + cbn [Nat.eqb andb]. rewrite (proj2 (Nat.ltb_lt _ _)) by lia. rewrite hermite_1, hermite_abs_1. apply near_le with 0%nat; [exact Hu|lia|apply near_exact].
  - exists s. split; [exact E|]. replace (1 + (degree - 1))%nat with degree in H by lia. exact H.
Qed.

(** cos and sin of k x. *)
Lemma cos_lip : forall a b, Rabs (cos a - cos b) <= Rabs (a - b).
Proof using Type.
  intros a b. destruct (Rtotal_order a b) as [H|[->|H]]; [| |].
  - destruct (MVT_cor2 cos (fun x => - sin x) a b H) as (c & E & _); [intros c _; apply derivable_pt_lim_cos|]. rewrite <- Rabs_Ropp, Ropp_minus_distr, E, Rabs_mult, Rabs_Ropp, (Rabs_minus_sym a b). pose proof (SIN_bound c). assert (Rabs (sin c) <= 1) by (apply Rabs_le; lra). pose proof (Rabs_pos (b - a)). nra.
  - replace (cos b - cos b) with 0 by ring. rewrite Rabs_R0. apply Rabs_pos.
  - destruct (MVT_cor2 cos (fun x => - sin x) b a H) as (c & E & _); [intros c _; apply derivable_pt_lim_cos|]. rewrite E, Rabs_mult, Rabs_Ropp. pose proof (SIN_bound c). assert (Rabs (sin c) <= 1) by (apply Rabs_le; lra). pose proof (Rabs_pos (a - b)). nra.
Qed.
Lemma sin_lip : forall a b, Rabs (sin a - sin b) <= Rabs (a - b).
Proof using Type.
  intros a b. rewrite !sin_cos. replace (- cos (PI / 2 + a) - - cos (PI / 2 + b)) with (- (cos (PI / 2 + a) - cos (PI / 2 + b))) by ring. rewrite Rabs_Ropp. eapply Rle_trans; [apply cos_lip|]. right. f_equal. ring.
Qed.
Lemma trig_near : forall (f g : R -> R) k x, (forall a b, Rabs (g a - g b) <= Rabs (a - b)) -> (forall x, Rabs (g x) <= 1) -> (forall x, Rabs (f x - g x) <= u * Rabs (g x)) -> (1 <= k)%nat ->
  near 2 (f (nmul (ofnat F k) x)) (g (INR k * x)) (1 + INR k * Rabs x).
Proof using A.
  intros f g k x Hl H1 Ha Hk. assert (T : near 2 (nmul (ofnat F k) x) (INR k * x) (INR k * Rabs x)) by (apply rnd_near; apply (near_mul u Hu 1 0); [apply rel_near; [exact Hu|apply ofnat_rel; exact Hk]|apply near_exact]).
  pose proof (near_pos u _ _ _ _ T). destruct T as (T1 & T2). set (t := nmul (ofnat F k) x) in *. split; [|specialize (H1 (INR k * x)); lra].
  replace (f t - g (INR k * x)) with ((f t - g t) + (g t - g (INR k * x))) by ring. eapply Rle_trans; [apply Rabs_triang|]. specialize (Hl t (INR k * x)). specialize (Ha t). specialize (H1 t).
  pose proof (th_u u Hu). pose proof (th_pow u Hu 1). assert (u <= RndFacts.th u ^ 2 - 1) by (cbn [pow] in *; nra). assert (u * Rabs (g t) <= u) by (pose proof (Rabs_pos (g t)); nra). nra.
Qed.
Lemma pi_rel : rel 1 (r_pi r) PI.
Proof using A. apply rel_rnd with (a := PI); [exact Hu|apply rel_exact, PI_RGT_0|]. rewrite (Rabs_pos_eq PI) by (pose proof PI_RGT_0; lra). apply (acc_pi u r A). Qed.
Lemma sqrt_2pi_rel : rel 4 (r_sqrt r (rnd r (rnd r (IZR 2) * r_pi r))) (sqrt (2 * PI)).
Proof using A. apply sqrt_rel, rnd_rel. apply (rel_mul u Hu 1 1); [apply rnd_rel, rel_exact; lra|apply pi_rel]. Qed.
Lemma fourier_const_near : near 5 (rnd r (1 / r_sqrt r (rnd r (rnd r (IZR 2) * r_pi r)))) (fourier 0 0) (fourier_abs 0 0).
Proof using A. apply rel_near; [exact Hu|]. apply rnd_rel. apply (rel_mul u Hu 0 4); [apply rel_exact; lra|]. apply rel_inv; [exact Hu|apply sqrt_2pi_rel]. Qed.
Lemma trig_row_near : forall (f g : R -> R) k x, (forall a b, Rabs (g a - g b) <= Rabs (a - b)) -> (forall x, Rabs (g x) <= 1) -> (forall x, Rabs (f x - g x) <= u * Rabs (g x)) -> (1 <= k)%nat ->
  near 5 (rnd r (f (nmul (ofnat F k) x) / r_sqrt r (r_pi r))) (g (INR k * x) / sqrt PI) ((1 + INR k * Rabs x) / sqrt PI).
Proof using A. intros f g k x Hl H1 Ha Hk. apply rnd_near. apply (near_mul u Hu 2 2); [apply trig_near; assumption|]. apply rel_near; [exact Hu|]. apply rel_inv; [exact Hu|]. apply sqrt_rel, pi_rel. Qed.

Lemma fourier_abs_cos : forall k x, (1 <= k)%nat -> fourier_abs (COS k) x = (1 + INR k * Rabs x) / sqrt PI.
Proof using Type. intros k x Hk. unfold fourier_abs, COS. rewrite (proj2 (Nat.eqb_neq _ _)) by lia. replace ((2 * k + 1) / 2)%nat with k; [reflexivity|]. apply (Nat.div_unique _ 2 k 1); lia. Qed.
Lemma fourier_abs_sin : forall k x, (1 <= k)%nat -> fourier_abs (SIN k) x = (1 + INR k * Rabs x) / sqrt PI.
Proof using Type. intros k x Hk. unfold fourier_abs, SIN. rewrite (proj2 (Nat.eqb_neq _ _)) by lia. replace ((2 * k - 1 + 1) / 2)%nat with k; [reflexivity|]. apply (Nat.div_unique _ 2 k 0); lia. Qed.

Lemma basis_row_near : forall f degree x, flag_ok degree f -> exists row, basis_row F f degree x = Ok row /\ length row = (degree + 1)%nat /\
  forall n, (n <= degree)%nat -> near (6 * n + 5) (nth n row 0) (basis f n x) (basis_abs f n x).
Proof using A.
  intros f degree x [[-> Hd]|[-> He]]; unfold basis_row.
  - cbn [Nat.eqb]. destruct (hermite_eval_near x degree (repeat 0 (degree + 1)) Hd) as [out [E [Hl H1]]]; [rewrite repeat_length; lia|].
    exists out. split; [exact E|]. rewrite repeat_length in Hl. split; [exact Hl|]. intros n Hn. unfold basis, basis_abs. cbn [Nat.eqb]. apply near_le with (6 * n)%nat; [exact Hu|lia|apply H1; exact Hn].
  - cbn [Nat.eqb]. apply Nat.even_spec in He as [mf ->].
    rewrite (Nat.mul_comm 2 mf), Nat.mod_mul by lia. cbn [Nat.eqb]. rewrite Nat.div_mul by lia. rewrite Nat.mul_comm.
    cbn [fn F fnum_rnd n0 n1 carrier fdiv fsqrt fpi fcos fsin fofZ].
    rewrite vset_Ok by (rewrite repeat_length; lia). cbn [bind].
    edestruct (for_each_state (list R) (fun t row => length row = (2 * mf + 1)%nat /\ forall n, (n <= 2 * (t - 1))%nat -> near 5 (nth n row 0) (fourier n x) (fourier_abs n x))) as [row [E [H1 H2]]].
    3:{ exists row. split; [exact E|]. split; [exact H1|]. intros n Hn. unfold basis, basis_abs. cbn [Nat.eqb]. apply near_le with 5%nat; [exact Hu|lia|apply H2; lia]. }
    + intros j row Hj [H1 H2]. assert (HC : (COS j < length row)%nat) by (unfold COS; lia). assert (HS : (SIN j < length row)%nat) by (unfold SIN; lia).
      rewrite vset_Ok by assumption. cbn [bind]. rewrite vset_Ok by (rewrite upd_length; assumption). eexists. split; [reflexivity|]. rewrite !upd_length. split; [assumption|].
      intros n Hn. rewrite !nth_upd, !upd_length. rewrite !(proj2 (Nat.ltb_lt _ _)) by assumption. rewrite !andb_true_r.
      destruct (Nat.eqb_spec n (SIN j)) as [->|H3]; [rewrite fourier_sin, fourier_abs_sin by lia; apply (trig_row_near (r_sin r) sin); [apply sin_lip|intros y; apply Rabs_le, SIN_bound|apply (acc_sin u r A)|lia]|].
      destruct (Nat.eqb_spec n (COS j)) as [->|H4]; [rewrite fourier_cos, fourier_abs_cos by lia; apply (trig_row_near (r_cos r) cos); [apply cos_lip|intros y; apply Rabs_le, COS_bound|apply (acc_cos u r A)|lia]|]. apply H2. unfold COS, SIN in *. lia.
    + rewrite upd_length, repeat_length. split; [reflexivity|]. intros n Hn. replace n with 0%nat by lia. rewrite nth_upd, repeat_length, (proj2 (Nat.ltb_lt _ _)) by lia. apply fourier_const_near.
Qed.
End Basis.
