(** Proofs of C100. *)
From Coq Require Import List Bool Arith ZArith Reals Lra Lia.
From Verif Require Import Base IndexModel Spec Num Fnum LinModel LinSpec LinBase CalcModel CalcSpec CalcReal CalcQuad CalcVarf2 Facts2 Facts6 Facts7 Facts8 Facts9 Facts10 FormSpec.
Import ListNotations.
Local Open Scope R_scope.

Section Form.
Variables (s : iset) (degree : nat) (nodes weights : list (list R)) (flags : list nat) (input : list R).
Hypothesis Hu : usable s (length nodes) degree.
Hypothesis Hf : fits s (length nodes) (2 * degree).
Hypothesis Hg : grid_fits nodes.
Hypothesis Hflags : flags_ok s degree flags.
Hypothesis Hlen : length flags = length nodes.
Hypothesis Hmatch : rules_match nodes weights.
Hypothesis Hin : length input = length (grid nodes).

Lemma table_product_sym : forall TH TF m r c, triple_products_1d fnum_R degree = Ok TH -> (In 1%nat flags -> triple_products_fourier fnum_R degree = Ok TF) ->
  (forall k, (nth k r 0 <= degree)%nat) -> (forall k, (nth k c 0 <= degree)%nat) -> table_product TH TF flags m r c = table_product TH TF flags m c r.
Proof using Hflags.
  intros TH TF m r c E1 E2 Hr Hc. unfold table_product. f_equal. apply map_ext_in. intros k Hk. apply in_seq in Hk. destruct (Nat.eqb_spec (nth k flags 0%nat) 1) as [H|H].
  - assert (I : In 1%nat flags) by (rewrite <- H; apply nth_In; clear - Hk; lia). specialize (E2 I). destruct Hflags as [HF _]. rewrite Forall_forall in HF. destruct (HF 1%nat I) as [[X _]|[_ Ev]]; [discriminate X|].
    destruct (triple_fourier degree Ev) as (T & T1 & _ & T3 & _). assert (T = TF) by congruence. subst T. apply T3; [apply Hr|apply Hc].
  - destruct (triple_hermite degree) as (T & T1 & _ & T3 & _). assert (T = TH) by congruence. subst T. apply T3; [apply Hr|apply Hc].
Qed.

Lemma index_bound : forall r, index_of s (length nodes) degree r -> forall k, (nth k r 0 <= degree)%nat.
Proof using Hflags. intros r [_ H] k. eapply in_set_bound; [apply Hflags|exact H]. Qed.

(** Both matrices exist and have the same entries. *)
Lemma symmetric_form : forall A, varf_gives s degree nodes weights flags input A -> forall r c, index_of s (length nodes) degree r -> index_of s (length nodes) degree c ->
  @entry num_R s (length nodes) degree A r c = @entry num_R s (length nodes) degree A c r.
Proof using Hu Hf Hg Hflags Hlen Hmatch Hin.
  intros A HA r c Hr Hc. destruct (tables_exist s degree flags Hflags) as (TH & TF & T1 & T2).
  destruct (varf_formula s degree nodes weights flags input Hu Hf Hg Hflags Hlen Hmatch Hin TH TF T1 T2) as (A' & B & V1 & _ & V2 & _ & V). cbv zeta in V.
  assert (S : @entry num_R s (length nodes) degree A' r c = @entry num_R s (length nodes) degree A' c r).
  { rewrite (proj1 (V r c Hr Hc)), (proj1 (V c r Hc Hr)). apply rsum_map_ext. intros m _. rewrite (table_product_sym TH TF m r c T1 T2 (index_bound r Hr) (index_bound c Hc)). reflexivity. }
  destruct HA as [HA|(B' & HB & ->)].
  - assert (A = A') by congruence. subst A. exact S.
  - assert (B' = B) by congruence. subst B'. exact (eq_trans (proj2 (V r c Hr Hc)) (eq_trans S (eq_sym (proj2 (V c r Hc Hr))))).
Qed.

Section Closed.
Hypothesis Hcl : closed_products s degree flags.
Hypothesis Hkept : nothing_dropped s degree nodes weights flags input.

Lemma gives_galerkin : forall A, varf_gives s degree nodes weights flags input A -> forall r c, index_of s (length nodes) degree r -> index_of s (length nodes) degree c ->
  @entry num_R s (length nodes) degree A r c = galerkin nodes weights flags input r c.
Proof using Hu Hf Hg Hflags Hlen Hmatch Hin Hcl Hkept.
  intros A HA r c Hr Hc. destruct (varf_galerkin s degree nodes weights flags input Hu Hf Hg Hflags Hlen Hmatch Hin Hcl Hkept) as (A' & B & V1 & _ & V2 & _ & V). destruct (V r c Hr Hc) as [Va Vb].
  destruct HA as [HA|(B' & HB & ->)]; [assert (A = A') by congruence; subst A; exact Va|assert (B' = B) by congruence; subst B'; exact Vb].
Qed.

Lemma quadrature_lin : forall (w : list nat -> R) (g : list nat -> list R -> R) l, quadrature nodes weights input (fun x => rsum (map (fun m => w m * g m x) l)) = rsum (map (fun m => w m * quadrature nodes weights input (g m)) l).
Proof using.
  intros w g l. unfold quadrature. transitivity (rsum (map (fun z : R * list nat => rsum (map (fun m => let '(y, p) := z in w m * (y * rprod (at_pos weights p) * g m (at_pos nodes p))) l)) (combine input (grid nodes)))).
  - apply rsum_map_ext. intros [y p] _. rewrite <- rsum_map_mult. apply rsum_map_ext. intros m _. ring.
  - rewrite rsum_swap. apply rsum_map_ext. intros m _. rewrite <- rsum_map_mult. apply rsum_map_ext. intros [y p] _. reflexivity.
Qed.

Lemma form_is_integral : forall A u v, varf_gives s degree nodes weights flags input A ->
  form_value s (length nodes) degree A u v = quadrature nodes weights input (fun x => CalcSpec.series s degree flags u x * CalcSpec.series s degree flags v x).
Proof using Hu Hf Hg Hflags Hlen Hmatch Hin Hcl Hkept.
  intros A u v HA. unfold form_value, apply_at, CalcSpec.series. rewrite Hlen.
  transitivity (quadrature nodes weights input (fun x => rsum (map (fun r => @coef num_R s (length nodes) degree u r * (phi flags r x * rsum (map (fun c => @coef num_R s (length nodes) degree v c * phi flags c x) (points s (length nodes) degree)))) (points s (length nodes) degree)))).
  - rewrite quadrature_lin. apply rsum_map_ext. intros r Hr. f_equal.
    transitivity (quadrature nodes weights input (fun x => rsum (map (fun c => @coef num_R s (length nodes) degree v c * (phi flags r x * phi flags c x)) (points s (length nodes) degree)))).
    + rewrite quadrature_lin. apply rsum_map_ext. intros c Hc. apply (points_In s (length nodes) degree r Hu) in Hr. apply (points_In s (length nodes) degree c Hu) in Hc. rewrite (gives_galerkin A HA r c Hr Hc). unfold galerkin. apply Rmult_comm.
    + apply quadrature_ext. intros p _. rewrite <- rsum_map_mult. apply rsum_map_ext. intros c _. ring.
  - apply quadrature_ext. intros p _. rewrite <- rsum_map_mult_r. apply rsum_map_ext. intros r _. ring.
Qed.

Lemma rprod_at_nonneg : forall p, Forall (Forall (fun w => 0 <= w)) weights -> 0 <= rprod (at_pos weights p).
Proof using.
  intros p H. assert (G : Forall (fun w => 0 <= w) (at_pos weights p)).
  { unfold at_pos. apply Forall_forall. intros x Hx. apply in_map_iff in Hx as ([ws i] & <- & Hc). apply in_combine_l in Hc. rewrite Forall_forall in H. specialize (H ws Hc). rewrite Forall_forall in H. destruct (Nat.lt_ge_cases i (length ws)) as [L|L]; [apply H, nth_In, L|rewrite nth_overflow by exact L; lra]. }
  induction G as [|x l Hx _ IH]; [cbn; lra|rewrite rprod_cons; apply Rmult_le_pos; assumption].
Qed.
Lemma rsum_nonneg : forall A (f : A -> R) l, (forall a, In a l -> 0 <= f a) -> 0 <= rsum (map f l).
Proof using. intros A f l H. induction l as [|a l IH]; [cbn; lra|]. cbn [map]. rewrite rsum_cons. pose proof (H a (or_introl eq_refl)). specialize (IH (fun b Hb => H b (or_intror Hb))). lra. Qed.

Lemma form_positive : forall A u, varf_gives s degree nodes weights flags input A -> Forall (Forall (fun w => 0 <= w)) weights -> Forall (fun y => 0 <= y) input -> 0 <= form_value s (length nodes) degree A u u.
Proof using Hu Hf Hg Hflags Hlen Hmatch Hin Hcl Hkept.
  intros A u HA Hw Hy. rewrite (form_is_integral A u u HA). unfold quadrature. apply rsum_nonneg. intros [y p] H. apply in_combine_l in H. rewrite Forall_forall in Hy. specialize (Hy y H).
  pose proof (rprod_at_nonneg p Hw). apply Rmult_le_pos; [apply Rmult_le_pos; assumption|]. apply Rle_0_sqr.
Qed.

Hypothesis Hexact : exact_rules degree flags nodes weights.

Lemma ones_quadrature : forall g, quadrature nodes weights (map (fun _ => 1) (grid nodes)) g = rsum (map (fun p => rprod (at_pos weights p) * g (at_pos nodes p)) (grid nodes)).
Proof using. intros g. rewrite quadrature_map. apply rsum_map_ext. intros p _. ring. Qed.

Lemma orth : forall r c, index_of s (length nodes) degree r -> index_of s (length nodes) degree c ->
  rsum (map (fun p => rprod (at_pos weights p) * (phi flags r (at_pos nodes p) * phi flags c (at_pos nodes p))) (grid nodes)) = if mi_eqb r c then 1 else 0.
Proof using Hflags Hexact.
  intros r c Hr Hc. apply (grid_orth degree); [exact Hexact|apply Hr|apply Hc|apply index_bound; exact Hr|apply index_bound; exact Hc].
Qed.

Lemma parseval : forall u, rsum (map (fun p => rprod (at_pos weights p) * (CalcSpec.series s degree flags u (at_pos nodes p) * CalcSpec.series s degree flags u (at_pos nodes p))) (grid nodes)) = square_length s (length nodes) degree u.
Proof using Hu Hflags Hlen Hexact.
  intros u. unfold CalcSpec.series, square_length. rewrite Hlen. set (P := points s (length nodes) degree). set (k := fun m => @coef num_R s (length nodes) degree u m).
  transitivity (rsum (map (fun p => rsum (map (fun r => k r * (rprod (at_pos weights p) * phi flags r (at_pos nodes p) * rsum (map (fun c => k c * phi flags c (at_pos nodes p)) P))) P)) (grid nodes))).
  { apply rsum_map_ext. intros p _. fold k. set (S := rsum (map (fun c => k c * phi flags c (at_pos nodes p)) P)) at 2 3. transitivity ((rprod (at_pos weights p) * S) * rsum (map (fun m => k m * phi flags m (at_pos nodes p)) P)); [unfold S; ring|].
    rewrite <- rsum_map_mult. apply rsum_map_ext. intros r _. ring. }
  rewrite rsum_swap. apply rsum_map_ext. intros r Hr. fold (k r). rewrite rsum_map_mult. f_equal.
  transitivity (rsum (map (fun p => rsum (map (fun c => k c * (rprod (at_pos weights p) * (phi flags r (at_pos nodes p) * phi flags c (at_pos nodes p)))) P)) (grid nodes))).
  { apply rsum_map_ext. intros p _. rewrite <- rsum_map_mult. apply rsum_map_ext. intros c _. ring. }
  rewrite rsum_swap. rewrite (rsum_single _ _ _ r).
  - rewrite rsum_map_mult. rewrite orth by (apply points_In; [exact Hu|exact Hr]). rewrite (proj2 (mi_eqb_spec r r) eq_refl). ring.
  - apply points_NoDup. exact Hu.
  - exact Hr.
  - intros c Hc Hne. rewrite rsum_map_mult. rewrite orth by (apply points_In; [exact Hu|assumption]). destruct (mi_eqb r c) eqn:E; [|ring]. apply mi_eqb_spec in E. congruence.
Qed.

Lemma sum_combine_le : forall (f g : R -> list nat -> R) (l : list (list nat)) (ys : list R), length ys = length l -> (forall y p, In y ys -> In p l -> f y p <= g y p) ->
  rsum (map (fun '(y, p) => f y p) (combine ys l)) <= rsum (map (fun '(y, p) => g y p) (combine ys l)).
Proof using.
  intros f g l. induction l as [|p l IH]; intros [|y ys] Hl H; try discriminate Hl; [cbn; lra|]. cbn [combine map]. rewrite !rsum_cons. injection Hl as Hl. pose proof (H y p (or_introl eq_refl) (or_introl eq_refl)).
  specialize (IH ys Hl (fun y' p' Hy Hp => H y' p' (or_intror Hy) (or_intror Hp))). lra.
Qed.
Lemma sum_combine_r : forall (g : list nat -> R) (l : list (list nat)) (ys : list R), length ys = length l -> rsum (map (fun '(y, p) => g p) (combine ys l)) = rsum (map g l).
Proof using. intros g l. induction l as [|p l IH]; intros [|y ys] Hl; try discriminate Hl; [reflexivity|]. cbn [combine map]. rewrite !rsum_cons. injection Hl as Hl. rewrite (IH ys Hl). reflexivity. Qed.

Lemma form_range : forall A u lo hi, varf_gives s degree nodes weights flags input A -> Forall (Forall (fun w => 0 <= w)) weights -> Forall (fun y => lo <= y <= hi) input ->
  lo * square_length s (length nodes) degree u <= form_value s (length nodes) degree A u u <= hi * square_length s (length nodes) degree u.
Proof using Hu Hf Hg Hflags Hlen Hmatch Hin Hcl Hkept Hexact.
  intros A u lo hi HA Hw Hy. rewrite (form_is_integral A u u HA), <- (parseval u). rewrite Forall_forall in Hy.
  set (g := fun p => rprod (at_pos weights p) * (CalcSpec.series s degree flags u (at_pos nodes p) * CalcSpec.series s degree flags u (at_pos nodes p))).
  assert (G : forall p, 0 <= g p) by (intros p; apply Rmult_le_pos; [apply rprod_at_nonneg; exact Hw|apply Rle_0_sqr]). change (lo * rsum (map g (grid nodes)) <= quadrature nodes weights input (fun x => CalcSpec.series s degree flags u x * CalcSpec.series s degree flags u x) <= hi * rsum (map g (grid nodes))). rewrite <- !rsum_map_mult. unfold quadrature.
  split.
  - rewrite <- (sum_combine_r (fun p => lo * g p) (grid nodes) input Hin). apply (sum_combine_le (fun y p => lo * g p) (fun y p => y * rprod (at_pos weights p) * (CalcSpec.series s degree flags u (at_pos nodes p) * CalcSpec.series s degree flags u (at_pos nodes p)))); [exact Hin|].
    intros y p HY _. rewrite Rmult_assoc. fold (g p). apply Rmult_le_compat_r; [apply G|apply Hy, HY].
  - rewrite <- (sum_combine_r (fun p => hi * g p) (grid nodes) input Hin). apply (sum_combine_le (fun y p => y * rprod (at_pos weights p) * (CalcSpec.series s degree flags u (at_pos nodes p) * CalcSpec.series s degree flags u (at_pos nodes p))) (fun y p => hi * g p)); [exact Hin|].
    intros y p HY _. rewrite Rmult_assoc. fold (g p). apply Rmult_le_compat_r; [apply G|apply Hy, HY].
Qed.

Lemma form_eigenvalue : forall A u lambda lo hi, varf_gives s degree nodes weights flags input A -> Forall (Forall (fun w => 0 <= w)) weights -> Forall (fun y => lo <= y <= hi) input ->
  (forall r, index_of s (length nodes) degree r -> apply_at s (length nodes) degree A u r = lambda * @coef num_R s (length nodes) degree u r) ->
  (exists r, index_of s (length nodes) degree r /\ @coef num_R s (length nodes) degree u r <> 0) -> lo <= lambda <= hi.
Proof using Hu Hf Hg Hflags Hlen Hmatch Hin Hcl Hkept Hexact.
  intros A u lambda lo hi HA Hw Hy He (r & Hr & Hne). pose proof (form_range A u lo hi HA Hw Hy) as [H1 H2].
  assert (E : form_value s (length nodes) degree A u u = lambda * square_length s (length nodes) degree u).
  { unfold form_value, square_length. rewrite <- rsum_map_mult. apply rsum_map_ext. intros m Hm. apply (points_In s (length nodes) degree m Hu) in Hm. rewrite (He m Hm). ring. }
  assert (P : 0 < square_length s (length nodes) degree u).
  { unfold square_length. apply (points_In s (length nodes) degree r Hu) in Hr. apply in_split in Hr as (l1 & l2 & ->). rewrite map_app, rsum_app. cbn [map]. rewrite rsum_cons.
    pose proof (rsum_nonneg _ (fun m => @coef num_R s (length nodes) degree u m * @coef num_R s (length nodes) degree u m) l1 (fun a _ => Rle_0_sqr _)) as P1. pose proof (rsum_nonneg _ (fun m => @coef num_R s (length nodes) degree u m * @coef num_R s (length nodes) degree u m) l2 (fun a _ => Rle_0_sqr _)) as P2.
    pose proof (Rsqr_pos_lt _ Hne) as P3. unfold Rsqr in P3. lra. }
  rewrite E in *. split; eapply Rmult_le_reg_r; try exact P; assumption.
Qed.
End Closed.
End Form.

(** The function 1: with exact rules the matrix is the identity. *)
Lemma form_identity : forall s degree nodes weights flags, usable s (length nodes) degree -> fits s (length nodes) (2 * degree) -> grid_fits nodes -> flags_ok s degree flags -> exact_rules degree flags nodes weights ->
  closed_products s degree flags -> forall input, input = map (fun _ => 1) (grid nodes) -> nothing_dropped s degree nodes weights flags input -> forall A, varf_gives s degree nodes weights flags input A ->
  forall r c, index_of s (length nodes) degree r -> index_of s (length nodes) degree c -> @entry num_R s (length nodes) degree A r c = if mi_eqb r c then 1 else 0.
Proof.
  intros s degree nodes weights flags Hu Hf Hg Hflags He Hcl input -> Hk A HA r c Hr Hc. pose proof He as (Hlen & _).
  rewrite (gives_galerkin s degree nodes weights flags _ Hu Hf Hg Hflags Hlen (exact_match degree flags nodes weights He) (map_length _ _) Hcl Hk A HA r c Hr Hc). unfold galerkin.
  rewrite ones_quadrature. apply (orth s degree nodes weights flags Hflags He r c Hr Hc).
Qed.

(** Sums and multiples of functions. *)
Lemma form_sum : forall s degree nodes weights flags f g a b, usable s (length nodes) degree -> fits s (length nodes) (2 * degree) -> grid_fits nodes -> flags_ok s degree flags -> length flags = length nodes -> rules_match nodes weights ->
  closed_products s degree flags -> length f = length (grid nodes) -> length g = length (grid nodes) ->
  let h := map (fun '(x, y) => a * x + b * y) (combine f g) in
  nothing_dropped s degree nodes weights flags f -> nothing_dropped s degree nodes weights flags g -> nothing_dropped s degree nodes weights flags h ->
  forall A B C, varf_gives s degree nodes weights flags f A -> varf_gives s degree nodes weights flags g B -> varf_gives s degree nodes weights flags h C ->
  forall r c, index_of s (length nodes) degree r -> index_of s (length nodes) degree c ->
  @entry num_R s (length nodes) degree C r c = a * @entry num_R s (length nodes) degree A r c + b * @entry num_R s (length nodes) degree B r c.
Proof.
  intros s degree nodes weights flags f g a b Hu Hf Hg Hflags Hlen Hm Hcl Lf Lg h Kf Kg Kh A B C HA HB HC r c Hr Hc. assert (Lh : length h = length (grid nodes)) by (unfold h; rewrite map_length, combine_length, Lf, Lg; apply Nat.min_id).
  rewrite (gives_galerkin s degree nodes weights flags f Hu Hf Hg Hflags Hlen Hm Lf Hcl Kf A HA r c Hr Hc), (gives_galerkin s degree nodes weights flags g Hu Hf Hg Hflags Hlen Hm Lg Hcl Kg B HB r c Hr Hc), (gives_galerkin s degree nodes weights flags h Hu Hf Hg Hflags Hlen Hm Lh Hcl Kh C HC r c Hr Hc).
  unfold galerkin, quadrature, h. match goal with |- ?a = ?b => change (@eq R a b) end. clear - Lf Lg. revert f g Lf Lg. induction (grid nodes) as [|p l IH]; intros [|x f] [|y g] Lf Lg; try discriminate; [cbn; lra|]. cbn [combine map]. rewrite !rsum_cons. injection Lf as Lf. injection Lg as Lg. rewrite (IH f g Lf Lg). ring.
Qed.

(** On the hyperbolic cross the form of the function 1 takes negative values. *)
Lemma cross_negative : ~ forall degree nodes weights flags input, usable Cross (length nodes) degree -> fits Cross (length nodes) (2 * degree) -> grid_fits nodes -> flags_ok Cross degree flags -> length flags = length nodes -> rules_match nodes weights ->
  length input = length (grid nodes) -> nothing_dropped Cross degree nodes weights flags input -> Forall (Forall (fun w => 0 <= w)) weights -> Forall (fun y => 0 <= y) input ->
  forall A u, varf_gives Cross degree nodes weights flags input A -> 0 <= form_value Cross (length nodes) degree A u u.
Proof.
  intros H. destruct varf_cross as (A & HA & HE & _). specialize (H 1%nat [[0]; [0]] [[1]; [1]] [0; 0]%nat [1]).
  assert (K : 0 <= form_value Cross 2 1 A [0; 0; 0; 1] [0; 0; 0; 1]).
  { apply H.
    - apply usable_dim4; cbn [length]; lia.
    - apply usable_fits. apply usable_dim4; cbn [length]; lia.
    - unfold grid_fits; cbn; lia.
    - split; [repeat constructor; left; lia|lia].
    - reflexivity.
    - repeat constructor.
    - reflexivity.
    - exact dropped_cross.
    - repeat constructor; lra.
    - repeat constructor; lra.
    - left. exact HA. }
  assert (P : points Cross 2 1 = [[0; 0]; [1; 0]; [0; 1]; [1; 1]]%nat) by (vm_compute; reflexivity).
  assert (F : form_value Cross 2 1 A [0; 0; 0; 1] [0; 0; 0; 1] = -1); [|rewrite F in K; lra].
  refine (eq_trans _ HE). unfold form_value, apply_at, coef. rewrite P. unfold rsum. cbn [map fold_right value mi_eqb Nat.eqb andb].
  match goal with |- ?a = ?b => change (@eq R a b) end. change (@n0 num_R) with 0. ring.
Qed.
