(** Sums over tensor grids; exact quadratures; integration. *)
From Coq Require Import List Bool Arith ZArith Reals Lra Lia.
From Verif Require Import Base Lists IndexModel Spec Triangle Binom IndexSet Degree Num Fnum LinModel LinSpec LinBase MatBase Facts1 CalcModel QuadModel CalcSpec CalcBase CalcHermite CalcTransform CalcReal CalcTriple CalcFourier.
Import ListNotations.
Local Open Scope R_scope.

Lemma rsum_flat_map : forall A B (f : B -> R) (g : A -> list B) l, rsum (map f (flat_map g l)) = rsum (map (fun x => rsum (map f (g x))) l).
Proof. intros A B f g l. induction l as [|x l IH]; [reflexivity|]. cbn [flat_map map]. rewrite map_app, rsum_app, rsum_cons, IH. reflexivity. Qed.

Lemma rsum_row_major_cons : forall (h : list nat -> R) n sizes,
  rsum (map h (row_major (n :: sizes))) = sumn n (fun i => rsum (map (fun p => h (i :: p)) (row_major sizes))).
Proof. intros h n sizes. cbn [row_major]. rewrite rsum_flat_map. unfold sumn. f_equal. apply map_ext. intros i. rewrite map_map. reflexivity. Qed.

Lemma phi_cons : forall f flags n m x xs, phi (f :: flags) (n :: m) (x :: xs) = basis f n x * phi flags m xs.
Proof. reflexivity. Qed.

Lemma sumn_combine : forall (f : R -> R -> R) xs ws, length xs = length ws ->
  sumn (length xs) (fun i => f (nth i xs 0) (nth i ws 0)) = rsum (map (fun '(x, w) => f x w) (combine xs ws)).
Proof.
  intros f xs ws H. unfold sumn. f_equal. apply (list_ext_nth _ _ _ 0).
  - rewrite !map_length, seq_length, combine_length. lia.
  - intros i Hi. rewrite map_length, seq_length in Hi. rewrite (nth_map_lt _ _ _ _ _ _ 0%nat) by (rewrite seq_length; lia).
    rewrite seq_nth by lia. cbn [plus]. rewrite (nth_map_lt _ _ _ _ _ _ (0, 0)) by (rewrite combine_length; lia). rewrite combine_nth by assumption. reflexivity.
Qed.

(** Orthonormality on the grid. *)
Lemma grid_orth : forall degree nodes weights flags m m', exact_rules degree flags nodes weights ->
  length m = length nodes -> length m' = length nodes -> (forall k, nth k m 0 <= degree)%nat -> (forall k, nth k m' 0 <= degree)%nat ->
  rsum (map (fun p => rprod (at_pos weights p) * (phi flags m (at_pos nodes p) * phi flags m' (at_pos nodes p))) (grid nodes))
  = if mi_eqb m m' then 1 else 0.
Proof.
  intros degree. induction nodes as [|xs nodes IH]; intros weights flags m m' [Hf [Hw Hx]] Hm Hm' Hb Hb'.
  - destruct m; [|discriminate]. destruct m'; [|discriminate]. destruct weights; [|discriminate]. destruct flags; [|discriminate].
    cbn. lra.
  - destruct m as [|a m]; [discriminate|]. destruct m' as [|b m']; [discriminate|]. destruct weights as [|ws weights]; [discriminate|]. destruct flags as [|f flags]; [discriminate|].
    cbn [length] in *. unfold grid. cbn [map]. rewrite rsum_row_major_cons. fold (grid nodes).
    rewrite (sumn_ext _ _ (fun i => nth i ws 0 * (basis f a (nth i xs 0) * basis f b (nth i xs 0)) * (if mi_eqb m m' then 1 else 0))).
    + destruct (Hx 0%nat ltac:(lia)) as [Hl H0]. cbn [nth] in Hl, H0.
      rewrite (sumn_combine (fun x w => w * (basis f a x * basis f b x) * (if mi_eqb m m' then 1 else 0)) xs ws Hl).
      etransitivity; [|specialize (H0 a b (Hb 0%nat) (Hb' 0%nat)); cbn [mi_eqb]; transitivity ((if (a =? b)%nat then 1 else 0) * (if mi_eqb m m' then 1 else 0)); [rewrite <- H0; apply rsum_map_mult_r|]].
      * apply rsum_map_ext. intros [x w] _. reflexivity.
      * destruct (a =? b)%nat, (mi_eqb m m'); cbn [andb]; lra.
    + intros i Hi. assert (Hxs : exact_rules degree flags nodes weights).
      { split; [lia|]. split; [lia|]. intros k Hk. apply (Hx (S k)). lia. }
      specialize (IH weights flags m m' Hxs ltac:(lia) ltac:(lia) (fun k => Hb (S k)) (fun k => Hb' (S k))). rewrite <- IH.
      rewrite <- rsum_map_mult. apply rsum_map_ext. intros p _. unfold at_pos. cbn [combine map]. rewrite !phi_cons, rprod_cons. ring.
Qed.

(** C33 *)
Lemma quadrature_map : forall nodes weights (f : list nat -> R) g,
  quadrature nodes weights (map f (grid nodes)) g = rsum (map (fun p => f p * rprod (at_pos weights p) * g (at_pos nodes p)) (grid nodes)).
Proof.
  intros nodes weights f g. unfold quadrature. induction (grid nodes) as [|p l IH]; [reflexivity|]. cbn [map combine]. rewrite !rsum_cons, IH. reflexivity.
Qed.

Lemma exact_match : forall degree flags nodes weights, exact_rules degree flags nodes weights -> rules_match nodes weights.
Proof.
  intros degree flags nodes weights [_ [Hl H]]. unfold rules_match. assert (G : forall k, (k < length nodes)%nat -> length (nth k nodes []) = length (nth k weights [])) by (intros k Hk; apply H; assumption). clear H.
  revert weights Hl G. induction nodes as [|xs nodes IH]; intros [|ws weights] Hl G; try discriminate; constructor.
  - apply (G 0%nat). cbn; lia.
  - apply IH; [cbn in Hl; lia|]. intros k Hk. apply (G (S k)). cbn; lia.
Qed.

Lemma mi_eqb_spec : forall m m', mi_eqb m m' = true <-> m = m'.
Proof.
  induction m as [|a m IH]; intros [|b m']; cbn [mi_eqb]; split; intros H; try discriminate; auto.
  - apply andb_true_iff in H as [H1 H2]. apply Nat.eqb_eq in H1. apply IH in H2. congruence.
  - inversion H; subst. apply andb_true_iff. split; [apply Nat.eqb_refl|apply IH; reflexivity].
Qed.

Section Exact.
Variables (s : iset) (degree : nat) (nodes weights : list (list R)) (flags : list nat).
Hypothesis Hfit : fits s (length nodes) degree.
Hypothesis Hgrid : grid_fits nodes.
Hypothesis Hflags : flags_ok s degree flags.
Hypothesis Hex : exact_rules degree flags nodes weights.

Lemma points_bound : forall m, In m (points s (length nodes) degree) -> length m = length nodes /\ forall k, (nth k m 0 <= degree)%nat.
Proof using Hfit Hflags.
  intros m Hm. destruct Hfit as [H1 [H2 _]]. apply (points_In_ok s (length nodes) degree m H1 H2) in Hm as [Hl Hm]. split; [assumption|].
  intros k. apply (in_set_bound s); [apply Hflags|assumption].
Qed.

Lemma transform_eval : forall c, @vec_for num_R s (length nodes) degree c ->
  exists values, transform fnum_R s degree c nodes weights flags false = Ok values /\ transform fnum_R s degree values nodes weights flags true = Ok c.
Proof using Hfit Hgrid Hflags Hex.
  intros c Hc. assert (Hlf : length flags = length nodes) by apply Hex.
  eexists. split; [apply transform_backward_R; assumption|].
  rewrite transform_forward_R; [|assumption|assumption|assumption|assumption|eapply exact_match; eassumption|apply map_length].
  apply (f_equal (@Ok (list R))). destruct Hfit as [H1 [H2 H3]]. pose proof (points_NoDup_ok s (length nodes) degree H1 H2) as Hnd.
  assert (G : forall m, In m (points s (length nodes) degree) -> quadrature nodes weights (map (fun p => series s degree flags c (at_pos nodes p)) (grid nodes)) (phi flags m) = @coef num_R s (length nodes) degree c m).
  { intros m Hm. rewrite quadrature_map. unfold series. rewrite Hlf.
    transitivity (rsum (map (fun m' => @coef num_R s (length nodes) degree c m' * (if mi_eqb m' m then 1 else 0)) (points s (length nodes) degree))).
    - etransitivity; [|etransitivity; [apply (rsum_swap _ _ (fun p m' => @coef num_R s (length nodes) degree c m' * (rprod (at_pos weights p) * (phi flags m' (at_pos nodes p) * phi flags m (at_pos nodes p)))) (grid nodes) (points s (length nodes) degree))|]].
      + apply rsum_map_ext. intros p _. rewrite Rmult_assoc, <- rsum_map_mult_r. apply rsum_map_ext. intros m' _. cbn [carrier num_R]. ring.
      + apply rsum_map_ext. intros m' Hm'. pose proof (points_bound m Hm) as [B1 B2]. pose proof (points_bound m' Hm') as [B3 B4].
        rewrite <- (grid_orth degree nodes weights flags m' m Hex B3 B1 B4 B2). rewrite <- rsum_map_mult. reflexivity.
    - rewrite (rsum_single _ _ _ m); [|assumption|assumption|].
      + rewrite (proj2 (mi_eqb_spec m m) eq_refl). apply Rmult_1_r.
      + intros x _ Hx. destruct (mi_eqb x m) eqn:E; [apply mi_eqb_spec in E; contradiction|]. apply Rmult_0_r. }
  rewrite (map_ext_in _ (@coef num_R s (length nodes) degree c)) by exact G. unfold coef, vec_for in *.
  apply (list_ext_nth _ _ _ 0); [rewrite map_length; symmetry; assumption|]. intros i Hi. rewrite map_length in Hi.
  rewrite (nth_map_lt _ _ _ _ _ _ []) by assumption. apply value_nth; [assumption|apply nth_error_nth'; assumption|assumption].
Qed.
End Exact.
