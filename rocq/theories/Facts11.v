(** Facts for properties C39-C43. *)
From Coq Require Import String List Bool Arith ZArith Reals Lra Lia.
From Verif Require Import Base Lists IndexModel Spec Grid Num Fnum LinModel LinSpec LinBase MatBase Tensorize Sparse CalcModel CalcSpec CalcBase CalcTransform CalcReal Facts2 CalcOps Facts7 CalcVarfd Facts10 CalcDiscretize.
Import ListNotations.
Local Open Scope R_scope.

Lemma varfd_hermite : forall s dim degree k, usable s dim degree -> (k < dim)%nat ->
  (forall A, @mat_for num_R s dim degree A -> exists B, varfd fnum_R (calc_mat fnum_R) s dim degree k A 0 = Ok B /\ @mat_for num_R s dim degree B /\
    forall r c, index_of s dim degree r -> index_of s dim degree c ->
      @entry num_R s dim degree B r c = sqrt (INR (nth k c 0%nat)) * @entry num_R s dim degree A r (with_entry c k (nth k c 0 - 1)%nat)) /\
  (forall A, @sp_for num_R s dim degree A -> exists B, varfd fnum_R (calc_spmat fnum_R) s dim degree k A 0 = Ok B /\ @sp_for num_R s dim degree B /\
    forall r c, index_of s dim degree r -> index_of s dim degree c ->
      @entry num_R s dim degree (dense B) r c = sqrt (INR (nth k c 0%nat)) * @entry num_R s dim degree (dense A) r (with_entry c k (nth k c 0 - 1)%nat)).
Proof.
  intros s dim degree k Hu Hk. assert (N : 0%nat = 1%nat -> paired s dim degree k) by discriminate. split; intros A HA.
  - destruct (varfd_boost s dim degree k 0 Hu Hk (or_introl eq_refl) N A HA) as [B [E1 [E2 E3]]]. exists B. split; [exact E1|]. split; [exact E2|]. exact E3.
  - destruct (varfd_sparse s dim degree k 0 Hu Hk (or_introl eq_refl) N A HA) as [B [E1 [E2 E3]]]. exists B. split; [exact E1|]. split; [exact E2|]. exact E3.
Qed.

Lemma varfd_fourier : forall s dim degree k, usable s dim degree -> (k < dim)%nat -> paired s dim degree k ->
  forall A, @sp_for num_R s dim degree A -> exists B, varfd fnum_R (calc_spmat fnum_R) s dim degree k A 1 = Ok B /\ @sp_for num_R s dim degree B /\
    forall r c, index_of s dim degree r -> index_of s dim degree c ->
      (nth k c 0%nat = 0%nat -> @entry num_R s dim degree (dense B) r c = 0) /\
      (forall j, nth k c 0%nat = (2 * j + 1)%nat -> @entry num_R s dim degree (dense B) r c = INR (j + 1) * @entry num_R s dim degree (dense A) r (with_entry c k (2 * (j + 1))%nat)) /\
      (forall j, nth k c 0%nat = (2 * (j + 1))%nat -> @entry num_R s dim degree (dense B) r c = - INR (j + 1) * @entry num_R s dim degree (dense A) r (with_entry c k (2 * j + 1)%nat)).
Proof.
  intros s dim degree k Hu Hk Hp A HA. destruct (varfd_sparse s dim degree k 1 Hu Hk (or_intror eq_refl) (fun _ => Hp) A HA) as [B [E1 [E2 E3]]].
  exists B. split; [exact E1|]. split; [exact E2|]. intros r c Hr Hc. rewrite (E3 r c Hr Hc). unfold dterm. change (1 =? 1)%nat with true. cbv iota. repeat split.
  - intros ->. cbn [Nat.eqb fst]. apply Rmult_0_l.
  - intros j ->. replace (2 * j + 1 =? 0)%nat with false by (symmetry; apply Nat.eqb_neq; lia). replace (Nat.even (2 * j + 1)) with false by (rewrite Nat.add_1_r, Nat.even_succ, Nat.odd_mul; reflexivity). cbn [fst snd].
    replace (2 * j + 1 + 1)%nat with (2 * (j + 1))%nat by lia. replace ((2 * (j + 1)) / 2)%nat with (j + 1)%nat by (rewrite Nat.mul_comm, Nat.div_mul by lia; reflexivity). reflexivity.
  - intros j ->. replace (2 * (j + 1) =? 0)%nat with false by (symmetry; apply Nat.eqb_neq; lia). replace (Nat.even (2 * (j + 1))) with true by (rewrite Nat.even_mul; reflexivity). cbn [fst snd].
    replace ((2 * (j + 1)) / 2)%nat with (j + 1)%nat by (rewrite Nat.mul_comm, Nat.div_mul by lia; reflexivity). replace (2 * (j + 1) - 1)%nat with (2 * j + 1)%nat by lia. reflexivity.
Qed.

Lemma varfd_cube : forall dim degree k A, usable Cube dim degree -> Nat.even degree = true -> (k < dim)%nat -> @sp_for num_R Cube dim degree A ->
  exists B, varfd fnum_R (calc_spmat fnum_R) Cube dim degree k A 1 = Ok B.
Proof.
  intros dim degree k A Hu He Hk HA. destruct (varfd_fourier Cube dim degree k Hu Hk (paired_cube dim degree k He Hk) A HA) as [B [E _]]. exists B. exact E.
Qed.

Lemma varfd_throws : forall s dim degree k row col m x (A : spmat num_R), usable s dim degree -> (k < dim)%nat -> @sp_for num_R s dim degree A ->
  In (row, col, x) (sp_entries num_R A) -> nth_error (points s dim degree) col = Some m ->
  Nat.odd (nth k m 0%nat) = true -> ~ index_of s dim degree (with_entry m k (nth k m 0 + 1)%nat) ->
  varfd fnum_R (calc_spmat fnum_R) s dim degree k A 1 = Throw "out_of_range".
Proof.
  intros s dim degree k row col m x A Hu Hk HA Hi Hm Ho Hn.
  eapply (varfd_throw _ _ _ (calc_spmat_ok fnum_R num_R_laws) s dim degree k Hu Hk A row col); [exact HA|exact Hi|exact Hm|exact Ho|exact Hn].
Qed.

Lemma glist_row_major : forall l, glist l = row_major l.
Proof. induction l as [|n l IH]; [reflexivity|]. cbn [row_major glist]. rewrite IH. reflexivity. Qed.

Lemma discretize_spec : forall (F : fnum) (junk : F) (func : list F -> F) (nodes : list (list F)) (t : list F) (D : list (list F)),
  nodes <> [] -> (Z.of_nat (length (row_major (map (@length F) nodes))) < 2 ^ 32)%Z -> length t = length nodes -> mat_wf (length nodes) (length nodes) D ->
  discretize F junk func nodes t D = Ok (map (fun p => func (affine t D (point_at n0 nodes p))) (row_major (map (@length F) nodes))).
Proof. intros F junk func nodes t D H1 H2 H3 H4. rewrite <- glist_row_major in *. apply discretize_ok; assumption. Qed.

Lemma discretize_R : forall junk (func : list R -> R) nodes t D, nodes <> [] -> grid_fits nodes -> length t = length nodes -> mat_wf (length nodes) (length nodes) D ->
  discretize fnum_R junk func nodes t D =
    Ok (map (fun p => func (map (fun '(ti, row) => ti + rsum (map (fun '(a, x) => a * x) (combine row (at_pos nodes p)))) (combine t D))) (grid nodes)).
Proof.
  intros junk func nodes t D H1 H2 H3 H4. refine (eq_trans (discretize_spec fnum_R junk func nodes t D H1 H2 H3 H4) _).
  apply (f_equal (@Ok (list R))). unfold grid. apply map_ext. intros p. apply (f_equal func). exact (affine_R t D (at_pos nodes p)).
Qed.
