(** Exactness of the equispaced quadrature for trigonometric polynomials. *)
From Coq Require Import List Bool Arith ZArith Reals Lra Lia.
From Verif Require Import Base Lists IndexModel Spec Num Fnum LinModel LinSpec LinBase MatBase CalcModel QuadModel CalcSpec CalcBase CalcHermite CalcTransform CalcReal CalcTriple CalcFourier CalcQuad.
Import ListNotations.
Local Open Scope R_scope.

Definition fnode (n j : nat) : R := - PI + 2 * PI * INR j / INR n.

Lemma fourier_nodes_R : forall n, fourier_nodes fnum_R n = map (fnode n) (seq 0 n).
Proof. intros. unfold fourier_nodes. apply map_ext. intros j. rewrite !ofnat_R. reflexivity. Qed.
Lemma fourier_weights_R : forall n, fourier_weights fnum_R n = map (fun _ => 2 * PI / INR n) (seq 0 n).
Proof. intros. unfold fourier_weights. apply map_ext. intros j. rewrite !ofnat_R. apply Rmult_1_r. Qed.

(** telescoping *)
Lemma sumn_tele : forall n (g : nat -> R), sumn n (fun j => g (S j) - g j) = g n - g 0%nat.
Proof. induction n as [|n IH]; intros g; [unfold sumn; cbn; lra|]. rewrite sumn_S, IH. lra. Qed.

Section Sums.
Variables (n k : nat).
Hypothesis Hk : (1 <= k)%nat.
Hypothesis Hkn : (k < n)%nat.
Let h := INR k * PI / INR n.

Lemma INR_n_pos : 0 < INR n.
Proof using Hk Hkn. apply lt_0_INR. lia. Qed.

Lemma h_range : 0 < h < PI.
Proof using Hk Hkn.
  pose proof INR_n_pos as Hn. pose proof PI_RGT_0. assert (0 < INR k) by (apply lt_0_INR; lia). assert (INR k < INR n) by (apply lt_INR; lia). unfold h. split.
  - apply Rmult_lt_0_compat; [apply Rmult_lt_0_compat; assumption|apply Rinv_0_lt_compat; assumption].
  - apply (Rmult_lt_reg_r (INR n)); [assumption|]. replace (INR k * PI / INR n * INR n) with (INR k * PI) by (field; lra). nra.
Qed.

Lemma sin_h : sin h <> 0.
Proof using Hk Hkn. pose proof h_range. pose proof (sin_gt_0 h). lra. Qed.

Definition gpt (j : nat) : R := - (INR k * PI) + (2 * INR j - 1) * h.
Lemma gpt_lo : forall j, gpt j = INR k * fnode n j - h.
Proof using Hk Hkn. intros j. unfold gpt, fnode, h. pose proof INR_n_pos. field. lra. Qed.
Lemma gpt_hi : forall j, gpt (S j) = INR k * fnode n j + h.
Proof using Hk Hkn. intros j. unfold gpt, fnode, h. rewrite S_INR. pose proof INR_n_pos. field. lra. Qed.
Lemma gpt_end : gpt n = gpt 0 + 2 * INR k * PI.
Proof using Hk Hkn. unfold gpt, h. change (INR 0) with 0. pose proof INR_n_pos. field. lra. Qed.

Lemma sum_cos : sumn n (fun j => cos (INR k * fnode n j)) = 0.
Proof using Hk Hkn.
  pose proof sin_h as Hs. apply (Rmult_eq_reg_l (2 * sin h)); [|lra]. rewrite Rmult_0_r, <- sumn_mult.
  rewrite (sumn_ext _ _ (fun j => sin (gpt (S j)) - sin (gpt j))).
  - rewrite (sumn_tele n (fun j => sin (gpt j))), gpt_end, sin_period. lra.
  - intros j _. rewrite gpt_hi, gpt_lo, sin_plus, sin_minus. lra.
Qed.
Lemma sum_sin : sumn n (fun j => sin (INR k * fnode n j)) = 0.
Proof using Hk Hkn.
  pose proof sin_h as Hs. apply (Rmult_eq_reg_l (- (2 * sin h))); [|lra]. rewrite Rmult_0_r, <- sumn_mult.
  rewrite (sumn_ext _ _ (fun j => cos (gpt (S j)) - cos (gpt j))).
  - rewrite (sumn_tele n (fun j => cos (gpt j))), gpt_end, cos_period. lra.
  - intros j _. rewrite gpt_hi, gpt_lo, cos_plus, cos_minus. lra.
Qed.
End Sums.

Lemma sum_fourier : forall n q, (1 <= n)%nat -> ((q + 1) / 2 < n)%nat ->
  sumn n (fun j => 2 * PI / INR n * fourier q (fnode n j)) = if (q =? 0)%nat then sqrt (2 * PI) else 0.
Proof.
  intros n q Hn Hq. assert (0 < INR n) by (apply lt_0_INR; lia). pose proof PI_RGT_0. rewrite sumn_mult. destruct (index_cases q q) as [->|[a [Ha Hqa]]]; [lia| |].
  - cbn [Nat.eqb]. rewrite (sumn_ext _ _ (fun _ => w1)) by (intros; reflexivity). assert (E : sumn n (fun _ => w1) = INR n * w1).
    { clear. induction n as [|n IH]; [unfold sumn; cbn; lra|]. rewrite sumn_S, IH, S_INR. lra. }
    rewrite E. unfold w1. pose proof sqrt_2PI_pos as Hs. pose proof sq_sqrt2PI as Hq2. transitivity (2 * PI / sqrt (2 * PI)); [field; lra|]. apply (Rmult_eq_reg_r (sqrt (2 * PI))); [|lra]. rewrite Hq2. field. lra.
  - destruct Hqa as [-> | ->].
    + rewrite freq_COS in Hq. rewrite COS_neq0 by lia. rewrite (sumn_ext _ _ (fun j => / sqrt PI * cos (INR a * fnode n j))).
      * rewrite sumn_mult, sum_cos by lia. ring.
      * intros j _. rewrite fourier_cos by lia. unfold Rdiv. ring.
    + rewrite freq_SIN in Hq by lia. rewrite SIN_neq0 by lia. rewrite (sumn_ext _ _ (fun j => / sqrt PI * sin (INR a * fnode n j))).
      * rewrite sumn_mult, sum_sin by lia. ring.
      * intros j _. rewrite fourier_sin by lia. unfold Rdiv. ring.
Qed.

Lemma tf_0 : forall mf i j, (i <= 2 * mf)%nat -> (j <= 2 * mf)%nat -> tf 0 i j = if (i =? j)%nat then w1 else 0.
Proof.
  intros mf i j Hi Hj. unfold tf. destruct (index_cases mf i Hi) as [->|[a [Ha Hia]]].
  - rewrite col_0l. cbn [assoc]. reflexivity.
  - destruct (index_cases mf j Hj) as [->|[b [Hb Hjb]]].
    + rewrite col_0r. cbn [assoc]. rewrite Nat.eqb_sym. reflexivity.
    + destruct Hia as [-> | ->]; destruct Hjb as [-> | ->]; rewrite ?col_CC, ?col_SS, ?col_CS, ?col_SC by lia; destruct (Nat.eqb_spec a b); cbn [assoc];
      repeat match goal with |- context [(?x =? ?y)%nat] => destruct (Nat.eqb_spec x y) end; unfold COS, SIN in *; try lia; try reflexivity.
Qed.

Lemma fourier_orth : forall n mf i j, (2 * mf < n)%nat -> (i <= 2 * mf)%nat -> (j <= 2 * mf)%nat ->
  sumn n (fun q => 2 * PI / INR n * (fourier i (fnode n q) * fourier j (fnode n q))) = if (i =? j)%nat then 1 else 0.
Proof.
  intros n mf i j Hn Hi Hj. destruct (col_distinct mf i j Hi Hj) as [H1 [H2 _]].
  rewrite (sumn_ext _ _ (fun q => sumn (4 * mf + 1) (fun k => tf k i j * (2 * PI / INR n * fourier k (fnode n q))))).
  - unfold sumn at 1 2. rewrite (rsum_swap _ _ (fun q k => tf k i j * (2 * PI / INR n * fourier k (fnode n q))) (seq 0 n) (seq 0 (4 * mf + 1))).
    rewrite (rsum_map_ext _ _ (fun k => tf k i j * (if (k =? 0)%nat then sqrt (2 * PI) else 0))).
    + change (rsum (map _ (seq 0 (4 * mf + 1)))) with (sumn (4 * mf + 1) (fun k => tf k i j * (if (k =? 0)%nat then sqrt (2 * PI) else 0))).
      rewrite (sumn_single _ _ 0%nat); [|lia|].
      * cbn [Nat.eqb]. rewrite (tf_0 mf) by assumption. unfold w1. pose proof sqrt_2PI_pos. destruct (i =? j)%nat; field; lra.
      * intros k _ Hk. destruct (Nat.eqb_spec k 0); [contradiction|]. ring.
    + intros k Hk. apply in_seq in Hk. rewrite rsum_map_mult. f_equal.
      assert (((k + 1) / 2 < n)%nat) by (apply Nat.div_lt_upper_bound; lia).
      apply sum_fourier; [lia|assumption].
  - intros q _. rewrite <- (col_linear mf i j) by assumption. rewrite <- (sumn_assoc (4 * mf + 1)) by assumption. rewrite <- sumn_mult. apply sumn_ext. intros k _. unfold tf. ring.
Qed.

Lemma fourier_exact : forall degree n, Nat.even degree = true -> (degree < n)%nat ->
  exact_rule degree 1 (fourier_nodes fnum_R n) (fourier_weights fnum_R n).
Proof.
  intros degree n He Hn. apply Nat.even_spec in He as [mf ->]. rewrite fourier_nodes_R, fourier_weights_R. split; [rewrite !map_length; reflexivity|].
  intros i j Hi Hj. rewrite <- (fourier_orth n mf i j Hn Hi Hj). unfold sumn. f_equal.
  induction (seq 0 n) as [|q l IH]; [reflexivity|]. cbn [map combine]. rewrite IH. reflexivity.
Qed.
