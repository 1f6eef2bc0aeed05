(** Proofs about Function.sanitize. *)
From Coq Require Import String List Bool Arith ZArith Lia Reals Lra.
From Verif Require Import Base Num PyBase SeriesModel FnModel FnSpec.
Import ListNotations.
Local Open Scope list_scope. Local Open Scope R_scope.

Lemma frac_bound : forall D p q, (1 <= q <= D)%Z -> IZR p / IZR q <> 0 -> / IZR D <= Rabs (IZR p / IZR q).
Proof.
  intros D p q Hq Hp. assert (P : (p <> 0)%Z) by (intros ->; apply Hp; unfold Rdiv; ring).
  assert (Q : 0 < IZR q) by (apply IZR_lt; lia). assert (DD : 0 < IZR D) by (apply IZR_lt; lia). unfold Rdiv. rewrite Rabs_mult, (Rabs_pos_eq (/ IZR q)) by (left; apply Rinv_0_lt_compat; exact Q).
  apply Rle_trans with (/ IZR q); [apply Rinv_le_contravar; [exact Q|apply IZR_le; lia]|]. rewrite <- (Rmult_1_l (/ IZR q)) at 1. apply Rmult_le_compat_r; [left; apply Rinv_0_lt_compat; exact Q|].
  rewrite <- abs_IZR. apply IZR_le. lia.
Qed.
Lemma closest_exact : forall D x r p q, closest D x r -> (1 <= q <= D)%Z -> x = IZR p / IZR q -> r = x.
Proof.
  intros D x r p q [_ H] Hq ->. specialize (H p q Hq). replace (IZR p / IZR q - IZR p / IZR q) with 0 in H by ring. rewrite Rabs_R0 in H. pose proof (Rabs_pos (IZR p / IZR q - r)) as P. assert (G : Rabs (IZR p / IZR q - r) = 0) by lra. destruct (Req_dec (IZR p / IZR q - r) 0) as [E|E]; [lra|]. apply Rabs_no_R0 in E. contradiction.
Qed.
Lemma closest_half : forall D x r, (1 <= D)%Z -> closest D x r -> Rabs (x - r) <= / (2 * IZR D).
Proof.
  intros D x r HD [_ H]. assert (DD : 0 < IZR D) by (apply IZR_lt; lia).
  set (p := (up (x * IZR D - / 2))%Z). specialize (H p D). eapply Rle_trans; [apply H; lia|]. destruct (archimed (x * IZR D - / 2)) as [A1 A2]. fold p in A1, A2.
  replace (x - IZR p / IZR D) with ((x * IZR D - IZR p) * / IZR D) by (field; lra). rewrite Rabs_mult, (Rabs_pos_eq (/ IZR D)) by (left; apply Rinv_0_lt_compat; exact DD). rewrite Rinv_mult. apply Rmult_le_compat_r; [left; apply Rinv_0_lt_compat; exact DD|]. apply Rabs_le. lra.
Qed.
Lemma closest_small : forall D x r, (1 <= D)%Z -> Rabs x < / (2 * IZR D) -> closest D x r -> r = 0.
Proof.
  intros D x r HD Hx [(p & q & Hq & ->) H]. assert (DD : 0 < IZR D) by (apply IZR_lt; lia). destruct (Req_dec (IZR p / IZR q) 0) as [E|E]; [exact E|]. exfalso. apply (frac_bound D) in E; [|exact Hq]. specialize (H 0%Z 1%Z ltac:(lia)). replace (x - 0 / 1) with x in H by field.
  assert (T : Rabs (IZR p / IZR q) <= Rabs (x - IZR p / IZR q) + Rabs x).
  { replace (IZR p / IZR q) with (- (x - IZR p / IZR q) + x) at 1 by ring. eapply Rle_trans; [apply Rabs_triang|]. rewrite Rabs_Ropp. apply Rle_refl. }
  rewrite Rinv_mult in Hx. lra.
Qed.

Section Parts.
Variable E : Type.
Variable tiny : R -> bool.
Variable limit : R -> R.
Variable float_value : E -> option R.
Variable e_num : R -> E.
Variable e_add e_mul : E -> E -> E.
Variable expand : E -> E.
Variable add_args mul_args : E -> list E.
Variable value : E -> R.
Hypothesis L : parts_laws E float_value e_num e_add e_mul expand add_args mul_args value.
Variable D : Z.
Hypothesis HD : (1 <= D)%Z.
Hypothesis Htiny : forall x, tiny x = true <-> Rabs x < threshold.
Hypothesis Hlimit : forall x, closest D x (limit x).

Let clean := clean num_R E tiny limit float_value e_num.
Let sanitize := sanitize num_R E tiny limit float_value e_num e_add e_mul expand add_args mul_args.

Definition rounded (x : R) : R := limit (if tiny x then 0 else x).

Lemma clean_value : forall m, value (clean m) = match float_value m with Some x => rounded x | None => value m end.
Proof using L. intros m. unfold clean, FnModel.clean. destruct (float_value m) as [x|]; [|reflexivity]. apply (part_num _ _ _ _ _ _ _ _ _ L). Qed.
Lemma mul_fold : forall l a, value (fold_left (fun r m => e_mul r (clean m)) l a) = value a * product_of (map (fun m => value (clean m)) l).
Proof using L.
  induction l as [|m l IH]; intros a; cbn [fold_left map product_of fold_right]; [ring|]. rewrite IH, (part_mul _ _ _ _ _ _ _ _ _ L). unfold product_of. ring.
Qed.
Lemma add_fold : forall (g : E -> E) l a, value (fold_left (fun r t => e_add r (g t)) l a) = value a + sum_of (map (fun t => value (g t)) l).
Proof using L.
  intros g. induction l as [|m l IH]; intros a; cbn [fold_left map sum_of fold_right]; [ring|]. rewrite IH, (part_add _ _ _ _ _ _ _ _ _ L). unfold sum_of. ring.
Qed.
Definition new_term (t : E) : R := product_of (map (fun m => value (clean m)) (mul_args t)).
Lemma sanitize_value : forall e, value (sanitize e) = sum_of (map new_term (add_args (expand e))).
Proof using L.
  intros e. unfold sanitize, FnModel.sanitize. change (@n0 num_R) with 0. change (@n1 num_R) with 1.
  rewrite (add_fold (fun t => fold_left (fun r m => e_mul r (clean m)) (mul_args t) (e_num 1))). rewrite (part_num _ _ _ _ _ _ _ _ _ L), Rplus_0_l. f_equal. apply map_ext. intros t. rewrite mul_fold, (part_num _ _ _ _ _ _ _ _ _ L). unfold new_term. ring.
Qed.
Lemma old_value : forall e, value e = sum_of (map (fun t => product_of (map value (mul_args t))) (add_args (expand e))).
Proof using L.
  intros e. rewrite <- (part_expand _ _ _ _ _ _ _ _ _ L e), (part_terms _ _ _ _ _ _ _ _ _ L). f_equal. apply map_ext. intros t. apply (part_factors _ _ _ _ _ _ _ _ _ L).
Qed.

Lemma rounded_exact : forall x p q, (IZR D * threshold < 1) -> (1 <= q <= D)%Z -> x = IZR p / IZR q -> rounded x = x.
Proof using Htiny Hlimit HD.
  intros x p q HT Hq Hx. unfold rounded. assert (DD : 0 < IZR D) by (apply IZR_lt; lia). destruct (tiny x) eqn:Et; [|exact (closest_exact D x _ p q (Hlimit x) Hq Hx)].
  apply Htiny in Et. assert (X0 : x = 0).
  { destruct (Req_dec x 0) as [X|X]; [exact X|]. exfalso. rewrite Hx in X, Et. apply (frac_bound D) in X; [|exact Hq]. assert (/ IZR D < threshold) by lra. apply (Rmult_lt_compat_l (IZR D)) in H; [|exact DD]. rewrite Rinv_r in H by lra. lra. }
  rewrite X0. apply (closest_exact D 0 _ 0 1 (Hlimit 0)); [lia|]. field.
Qed.
Lemma rounded_near : forall x, (2 * IZR D * threshold <= 1) -> Rabs (rounded x - x) <= / (2 * IZR D).
Proof using Htiny Hlimit HD.
  intros x HT. unfold rounded. assert (DD : 0 < IZR D) by (apply IZR_lt; lia). destruct (tiny x) eqn:Et.
  - apply Htiny in Et. replace (limit 0) with 0 by (symmetry; apply (closest_exact D 0 _ 0 1 (Hlimit 0)); [lia|field]). rewrite Rminus_0_l, Rabs_Ropp. apply Rle_trans with threshold; [lra|].
    apply (Rmult_le_reg_l (2 * IZR D)); [lra|]. rewrite Rinv_r by lra. exact HT.
  - rewrite Rabs_minus_sym. apply closest_half; [exact HD|apply Hlimit].
Qed.
Lemma rounded_small : forall x, Rabs x < / (2 * IZR D) -> rounded x = 0.
Proof using Htiny Hlimit HD.
  intros x Hx. unfold rounded. destruct (tiny x); [apply (closest_exact D 0 _ 0 1 (Hlimit 0)); [lia|field]|]. exact (closest_small D x _ HD Hx (Hlimit x)).
Qed.

Lemma sum_eq : forall (A : Type) (f g : A -> R) l, (forall t, In t l -> f t = g t) -> sum_of (map f l) = sum_of (map g l).
Proof using. intros A f g l H. f_equal. apply map_ext_in. exact H. Qed.
Lemma decimals_in : forall l m x, In m l -> float_value m = Some x -> In x (decimals float_value l).
Proof using. intros l m x Hm Hx. apply in_flat_map. exists m. split; [exact Hm|]. rewrite Hx. left. reflexivity. Qed.

Lemma sanitize_exact : forall e, IZR D * threshold < 1 -> (forall t x, In t (add_args (expand e)) -> In x (decimals float_value (mul_args t)) -> exists p q, (1 <= q <= D)%Z /\ x = IZR p / IZR q) -> value (sanitize e) = value e.
Proof using All.
  intros e HT H. rewrite sanitize_value, (old_value e). apply sum_eq. intros t Ht. unfold new_term. f_equal. apply map_ext_in. intros m Hm. rewrite clean_value. destruct (float_value m) as [x|] eqn:Ex; [|reflexivity]. rewrite (part_float _ _ _ _ _ _ _ _ _ L m x Ex).
  destruct (H t x Ht (decimals_in _ _ _ Hm Ex)) as (p & q & Hq & Hx). exact (rounded_exact x p q HT Hq Hx).
Qed.

Lemma product_plain : forall l, decimals float_value l = [] -> product_of (map (fun m => value (clean m)) l) = product_of (map value l) /\ product_of (map (fun m => match float_value m with Some _ => 1 | None => value m end) l) = product_of (map value l) /\ existsb (fun m => match float_value m with Some _ => true | None => false end) l = false.
Proof using L.
  induction l as [|m l IH]; intros H; [repeat split; reflexivity|]. cbn [decimals flat_map] in H. unfold decimals in *. cbn [map existsb product_of fold_right]. rewrite clean_value. destruct (float_value m) as [x|]; [discriminate H|]. destruct (IH H) as (I1 & I2 & I3). unfold product_of in *. rewrite I1, I2, I3. repeat split; reflexivity.
Qed.
Lemma term_near : forall l, 2 * IZR D * threshold <= 1 -> (length (decimals float_value l) <= 1)%nat -> Rabs (product_of (map (fun m => value (clean m)) l) - product_of (map value l)) <= / (2 * IZR D) * beside float_value value l.
Proof using All.
  intros l HT. unfold beside. induction l as [|m l IH]; intros H; [cbn; rewrite Rminus_diag_eq by reflexivity; rewrite Rabs_R0; lra|]. cbn [decimals flat_map] in H. cbn [map existsb product_of fold_right]. rewrite clean_value. destruct (float_value m) as [x|] eqn:Ex.
  - cbn [length app] in H. assert (Hl : decimals float_value l = []) by (unfold decimals; destruct (flat_map _ l) as [|y k]; [reflexivity|cbn [length] in H; lia]). destruct (product_plain l Hl) as (P1 & P2 & _). unfold product_of in *. cbn [orb]. rewrite P1, P2, (part_float _ _ _ _ _ _ _ _ _ L m x Ex), Rmult_1_l. rewrite <- Rmult_minus_distr_r, Rabs_mult. apply Rmult_le_compat_r; [apply Rabs_pos|]. apply rounded_near, HT.
  - cbn [orb app] in *. specialize (IH H). unfold product_of in *. rewrite <- Rmult_minus_distr_l, Rabs_mult. destruct (existsb _ l) eqn:Eb.
    + rewrite Rabs_mult. apply Rle_trans with (Rabs (value m) * (/ (2 * IZR D) * Rabs (fold_right Rmult 1 (map (fun m => match float_value m with Some _ => 1 | None => value m end) l)))); [apply Rmult_le_compat_l; [apply Rabs_pos|exact IH]|]. apply Req_le. ring.
    + rewrite Rmult_0_r in IH |- *. apply Rle_trans with (Rabs (value m) * 0); [apply Rmult_le_compat_l; [apply Rabs_pos|exact IH]|lra].
Qed.
Lemma sum_near : forall (A : Type) (f g h : A -> R) l, (forall t, In t l -> Rabs (f t - g t) <= h t) -> Rabs (sum_of (map f l) - sum_of (map g l)) <= sum_of (map h l).
Proof using.
  intros A f g h. induction l as [|t l IH]; intros H; cbn [map sum_of fold_right]; [rewrite Rminus_diag_eq by reflexivity; rewrite Rabs_R0; lra|]. fold (sum_of (map f l)) (sum_of (map g l)) (sum_of (map h l)). replace (f t + sum_of (map f l) - (g t + sum_of (map g l))) with ((f t - g t) + (sum_of (map f l) - sum_of (map g l))) by ring. eapply Rle_trans; [apply Rabs_triang|]. apply Rplus_le_compat; [apply H; left; reflexivity|apply IH; intros u Hu; apply H; right; exact Hu].
Qed.
Lemma sum_scale : forall (A : Type) c (f : A -> R) l, sum_of (map (fun t => c * f t) l) = c * sum_of (map f l).
Proof using. intros A c f. induction l as [|t l IH]; cbn [map sum_of fold_right]; [ring|]. fold (sum_of (map (fun t => c * f t) l)). rewrite IH. unfold sum_of. ring. Qed.

Lemma sanitize_near : forall e, 2 * IZR D * threshold <= 1 -> (forall t, In t (add_args (expand e)) -> (length (decimals float_value (mul_args t)) <= 1)%nat) ->
  Rabs (value (sanitize e) - value e) <= / (2 * IZR D) * sum_of (map (fun t => beside float_value value (mul_args t)) (add_args (expand e))).
Proof using All.
  intros e HT H. rewrite sanitize_value, (old_value e), <- sum_scale. apply sum_near. intros t Ht. apply term_near; [exact HT|exact (H t Ht)].
Qed.

Lemma product_zero : forall l m, In m l -> value (clean m) = 0 -> product_of (map (fun m => value (clean m)) l) = 0.
Proof using. induction l as [|a l IH]; intros m [] H0; cbn [map product_of fold_right]; [subst a; rewrite H0; ring|]. fold (product_of (map (fun m => value (clean m)) l)). rewrite (IH m) by assumption. ring. Qed.
Lemma sanitize_drops : forall e, (forall t, In t (add_args (expand e)) -> exists x, In x (decimals float_value (mul_args t)) /\ Rabs x < / (2 * IZR D)) -> value (sanitize e) = 0.
Proof using All.
  intros e H. rewrite sanitize_value. assert (G : forall l, (forall t, In t l -> new_term t = 0) -> sum_of (map new_term l) = 0).
  { induction l as [|t l IH]; intros Hl; cbn [map sum_of fold_right]; [reflexivity|]. fold (sum_of (map new_term l)). rewrite (Hl t (or_introl eq_refl)), IH by (intros u Hu; apply Hl; right; exact Hu). ring. }
  apply G. intros t Ht. destruct (H t Ht) as (x & Hx & Hs). apply in_flat_map in Hx as (m & Hm & Hmx). destruct (float_value m) as [y|] eqn:Ey; [|destruct Hmx]. destruct Hmx as [->|[]]. apply (product_zero _ m Hm). rewrite clean_value, Ey. apply rounded_small, Hs.
Qed.
End Parts.
