(** Gauss-Hermite rules are exact for the Hermite basis. *)
From Coq Require Import String List Arith Reals Lia Lra.
From Verif Require Import Base Num Fnum CalcSpec CalcReal CalcHermite PosModel PyQuadModel PyQuadSpec QuadMakeSpec.
Import ListNotations.
Local Open Scope R_scope.

(** The mean of the i-th derivative of x^k. *)
Fixpoint mean_d (k i : nat) {struct i} : R :=
  match i with
  | O => moment k
  | S i => match k with O => 0 | S k' => INR k * mean_d k' i end
  end.
Lemma moment_S : forall k, moment (S k) = match k with O => 0 | S j => INR k * moment j end.
Proof. intros [|k]; reflexivity. Qed.
Lemma mean_d_step : forall i k, mean_d k (S i) = mean_d (S k) i - INR i * match i with O => 0 | S j => mean_d k j end.
Proof.
  induction i as [|i IH]; intros k.
  - cbn [mean_d]. rewrite moment_S. change (INR 0) with 0. rewrite Rmult_0_l, Rminus_0_r. destruct k; reflexivity.
  - change (mean_d k (S (S i))) with (match k with O => 0 | S k' => INR k * mean_d k' (S i) end). change (mean_d (S k) (S i)) with (INR (S k) * mean_d k i).
    assert (E : match k with O => 0 | S k' => INR k * mean_d k' (S i) end = INR k * mean_d k i - INR i * mean_d k i).
    { destruct k as [|k]; [destruct i; cbn [mean_d INR]; ring|]. rewrite IH. destruct i as [|i]; [cbn [INR]; ring|]. change (mean_d (S k) (S i)) with (INR (S k) * mean_d k i). ring. }
    rewrite E, !S_INR. ring.
Qed.
Lemma mean_d_lt : forall i k, (k < i)%nat -> mean_d k i = 0.
Proof. induction i as [|i IH]; intros [|k] H; try lia; cbn [mean_d]; [reflexivity|]. rewrite IH by lia. ring. Qed.
Lemma mean_d_eq : forall i, mean_d i i = INR (fact i).
Proof. induction i as [|i IH]; [reflexivity|]. change (mean_d (S i) (S i)) with (INR (S i) * mean_d i i). rewrite IH. change (fact (S i)) with (S i * fact i)%nat. rewrite mult_INR. reflexivity. Qed.

Section Rule.
Variable n : nat.
Variable rule : list R * list R.
Hypothesis G : gauss_rule n rule.
Definition rsumw (g : R -> R) : R := rsum (map (fun '(x, w) => w * g x) (combine (fst rule) (snd rule))).
Lemma rsumw_ext : forall g h, (forall x, g x = h x) -> rsumw g = rsumw h.
Proof. intros g h H. unfold rsumw. apply rsum_map_ext. intros (x, w) _. rewrite H. reflexivity. Qed.
Lemma rsumw_lin : forall a g h, rsumw (fun x => g x - a * h x) = rsumw g - a * rsumw h.
Proof. intros a g h. unfold rsumw. induction (combine (fst rule) (snd rule)) as [|(x, w) l IH]; cbn [map]; [unfold rsum; cbn; ring|]. rewrite !rsum_cons, IH. ring. Qed.

Lemma He_rec : forall i x, He (S i) x = x * He i x - INR i * match i with O => 0 | S j => He j x end.
Proof. intros [|i] x; [cbn [He INR]; ring|]. apply He_SS. Qed.

Lemma powers : forall i k, (k + i < 2 * n)%nat -> rsumw (fun x => x ^ k * He i x) = sqrt (2 * PI) * mean_d k i.
Proof using G.
  intros i. induction i as [i IH] using lt_wf_ind. intros k H. destruct i as [|i].
  - rewrite (rsumw_ext _ (fun x => x ^ k)) by (intros x; cbn [He]; ring). apply G. lia.
  - rewrite (rsumw_ext _ (fun x => x ^ S k * He i x - INR i * (x ^ k * match i with O => 0 | S j => He j x end))) by (intros x; rewrite He_rec; cbn [pow]; ring).
    rewrite rsumw_lin, IH by lia. rewrite mean_d_step. destruct i as [|i]; [cbn [INR]; ring|]. rewrite IH by lia. ring.
Qed.

Lemma products : forall j k i, (j + k + i < 2 * n)%nat -> ((j + k < i)%nat -> rsumw (fun x => x ^ k * He j x * He i x) = 0) /\ ((j + k = i)%nat -> rsumw (fun x => x ^ k * He j x * He i x) = sqrt (2 * PI) * INR (fact i)).
Proof using G.
  intros j. induction j as [j IH] using lt_wf_ind. intros k i H. destruct j as [|j].
  - rewrite (rsumw_ext _ (fun x => x ^ k * He i x)) by (intros x; cbn [He]; ring). rewrite powers by lia. split; intros C; [rewrite mean_d_lt by lia; ring|]. cbn in C. subst k. rewrite mean_d_eq. reflexivity.
  - rewrite (rsumw_ext _ (fun x => x ^ S k * He j x * He i x - INR j * (x ^ k * match j with O => 0 | S l => He l x end * He i x))) by (intros x; rewrite (He_rec j); cbn [pow]; ring).
    rewrite rsumw_lin. destruct (IH j ltac:(lia) (S k) i ltac:(lia)) as [A B].
    assert (C : (S j + k <= i)%nat -> INR j * rsumw (fun x => x ^ k * match j with O => 0 | S l => He l x end * He i x) = 0).
    { intros C. destruct j as [|j]; [cbn [INR]; ring|]. destruct (IH j ltac:(lia) k i ltac:(lia)) as [A' _]. rewrite A' by lia. ring. }
    split; intros D; rewrite C by lia; [rewrite A by lia|rewrite B by lia]; ring.
Qed.

Theorem gauss_exact : forall degree, (degree < n)%nat -> exact_rule degree 0 (fst rule) (map (fun w => w / sqrt (2 * PI)) (snd rule)).
Proof using G.
  intros degree Hd. assert (P : 0 < sqrt (2 * PI)) by (apply sqrt_lt_R0; pose proof PI_RGT_0; lra). pose proof G as (G1 & G2 & _). split; [rewrite map_length; congruence|].
  assert (S : forall g : R -> R, rsum (map (fun '(x, w) => w * g x) (combine (fst rule) (map (fun w => w / sqrt (2 * PI)) (snd rule)))) = rsumw g / sqrt (2 * PI)).
  { intros g. unfold rsumw. clear. destruct rule as (xs, ws). cbn [fst snd]. revert ws. induction xs as [|x xs IH]; intros [|w ws]; cbn [map combine]; try (unfold rsum; cbn; unfold Rdiv; ring). rewrite !rsum_cons, IH. unfold Rdiv. ring. }
  assert (Hm : forall i j, (i <= j)%nat -> (j <= degree)%nat -> rsum (map (fun '(x, w) => w * (hermite i x * hermite j x)) (combine (fst rule) (map (fun w => w / sqrt (2 * PI)) (snd rule)))) = if (i =? j)%nat then 1 else 0).
  { intros i j Hij Hj. rewrite (S (fun x => hermite i x * hermite j x)). rewrite (rsumw_ext _ (fun x => 0 - (- (/ sqrt (INR (fact i)) * / sqrt (INR (fact j)))) * (x ^ 0 * He i x * He j x))) by (intros x; unfold hermite, Rdiv; ring).
    rewrite (rsumw_lin _ (fun _ => 0)). destruct (products i 0 j ltac:(lia)) as [A B]. assert (Z : rsumw (fun _ => 0) = 0). { unfold rsumw. clear. induction (combine (fst rule) (snd rule)) as [|(x, w) l IH]; [reflexivity|]. cbn [map]. rewrite rsum_cons, IH. ring. }
    rewrite Z. pose proof (sqrt_fact_pos i) as Pi. pose proof (sqrt_fact_pos j) as Pj. destruct (Nat.eqb_spec i j) as [->|Hne].
    - rewrite B by lia. pose proof (sqrt_sqrt (INR (fact j)) (pos_INR _)) as Q. set (s := sqrt (INR (fact j))) in *. clearbody s. rewrite <- Q. field. lra.
    - rewrite A by lia. field. lra. }
  intros i j Hi Hj. unfold basis. cbn [Nat.eqb]. destruct (Nat.le_gt_cases i j) as [C|C]; [apply Hm; assumption|].
  etransitivity; [|rewrite Nat.eqb_sym; exact (Hm j i ltac:(lia) Hi)]. apply rsum_map_ext. intros (x, w) _. ring.
Qed.
End Rule.
