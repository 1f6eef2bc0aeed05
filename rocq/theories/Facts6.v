(** Statements about the numerical layer in the vocabulary of CalcSpec. *)
From Coq Require Import List Bool Arith ZArith Reals Lra Lia.
From Verif Require Import Base Lists IndexModel Spec IndexSet Num Fnum LinModel LinSpec LinBase MatBase CalcModel QuadModel CalcSpec CalcBase CalcHermite CalcTransform CalcReal CalcTriple CalcFourier CalcQuad CalcFourierQuad.
Import ListNotations.
Local Open Scope R_scope.

Lemma cwf_cube : forall K n c, cwf (F:=fnum_R) K n c -> cube_for K n c.
Proof.
  intros K n c [H1 H2]. split; [assumption|]. apply Forall_forall. intros A HA. apply (In_nth _ _ []) in HA as [k [Hk <-]]. apply H2. cbn [fn fnum_R num_R carrier] in *. lia.
Qed.

Lemma triple_hermite : forall degree, exists T, triple_products_1d fnum_R degree = Ok T /\ cube_for (2 * degree + 1) (degree + 1) T /\
  (forall k i j, (i <= degree)%nat -> (j <= degree)%nat -> cell T k i j = cell T k j i) /\
  (forall k i j, (i <= degree)%nat -> (j <= degree)%nat -> (i + j < k \/ k + i < j \/ k + j < i)%nat -> cell T k i j = 0) /\
  (forall i j x, (i <= degree)%nat -> (j <= degree)%nat ->
     hermite i x * hermite j x = rsum (map (fun k => cell T k i j * hermite k x) (seq 0 (2 * degree + 1)))).
Proof.
  intros degree. destruct (triple_products_1d_ok degree) as [c [E [W [H1 [H2 H3]]]]]. exists c. split; [exact E|]. split; [apply cwf_cube; assumption|].
  split; [exact H1|]. split; [exact H2|exact H3].
Qed.

Lemma triple_fourier : forall degree, Nat.even degree = true -> exists T, triple_products_fourier fnum_R degree = Ok T /\ cube_for (2 * degree + 1) (degree + 1) T /\
  (forall k i j, (i <= degree)%nat -> (j <= degree)%nat -> cell T k i j = cell T k j i) /\
  (forall i j x, (i <= degree)%nat -> (j <= degree)%nat ->
     fourier i x * fourier j x = rsum (map (fun k => cell T k i j * fourier k x) (seq 0 (2 * degree + 1)))).
Proof.
  intros degree He. destruct (triple_products_fourier_ok degree He) as [c [E [W [H1 [H2 _]]]]]. exists c. split; [exact E|]. split; [apply cwf_cube; assumption|].
  split; [exact H1|exact H2].
Qed.

Lemma triple_fourier_odd : forall (F : fnum) degree, Nat.even degree = false -> triple_products_fourier F degree = Exit 1.
Proof.
  intros F degree H. unfold triple_products_fourier. assert (E : degree mod 2 = 1%nat).
  { rewrite <- Nat.negb_odd in H. apply negb_false_iff, Nat.odd_spec in H as [k ->]. rewrite Nat.add_comm, Nat.mul_comm, Nat.mod_add by lia. reflexivity. }
  rewrite E. reflexivity.
Qed.

Lemma value_map_in : forall A (d : A) (f : list nat -> A) l m, In m l -> value d l (map f l) m = f m.
Proof.
  intros A d f l m. induction l as [|x l IH]; intros H; [destruct H|]. cbn [map value]. destruct (mi_eqb x m) eqn:E; [apply mi_eqb_spec in E; congruence|].
  apply IH. destruct H as [->|H]; [|assumption]. rewrite (proj2 (mi_eqb_spec m m) eq_refl) in E. discriminate.
Qed.

Lemma forward_coef : forall s degree nodes weights flags input, fits s (length nodes) degree -> grid_fits nodes -> flags_ok s degree flags ->
  length flags = length nodes -> rules_match nodes weights -> length input = length (grid nodes) ->
  exists out, transform fnum_R s degree input nodes weights flags true = Ok out /\ @vec_for num_R s (length nodes) degree out /\
    forall m, index_of s (length nodes) degree m -> @coef num_R s (length nodes) degree out m = quadrature nodes weights input (phi flags m).
Proof.
  intros s degree nodes weights flags input Hf Hg Hfl Hl Hw Hin. eexists. split; [apply transform_forward_R; assumption|]. split; [apply map_length|].
  intros m Hm. apply (value_map_in _ _ (fun m => quadrature nodes weights input (phi flags m))). apply points_In_ok; [apply Hf|apply Hf|assumption].
Qed.

Lemma backward_values : forall s degree nodes weights flags c, fits s (length nodes) degree -> grid_fits nodes -> flags_ok s degree flags ->
  length flags = length nodes -> @vec_for num_R s (length nodes) degree c ->
  transform fnum_R s degree c nodes weights flags false = Ok (map (fun p => series s degree flags c (at_pos nodes p)) (grid nodes)).
Proof. intros. apply transform_backward_R; assumption. Qed.

Lemma fourier_transform_eval : forall s degree dim ns c, fits s dim degree -> (s = Cross \/ s = CrossNc -> (1 <= degree)%nat) ->
  Nat.even degree = true -> length ns = dim -> Forall (fun n => degree < n)%nat ns -> grid_fits (map (fourier_nodes fnum_R) ns) ->
  @vec_for num_R s dim degree c ->
  exists values, transform fnum_R s degree c (map (fourier_nodes fnum_R) ns) (map (fourier_weights fnum_R) ns) (repeat 1%nat dim) false = Ok values /\
    transform fnum_R s degree values (map (fourier_nodes fnum_R) ns) (map (fourier_weights fnum_R) ns) (repeat 1%nat dim) true = Ok c.
Proof.
  intros s degree dim ns c Hf Hs He Hl Hn Hg Hc. subst dim.
  assert (El : length (map (fourier_nodes fnum_R) ns) = length ns) by apply map_length.
  assert (Hex : exact_rules degree (repeat 1%nat (length ns)) (map (fourier_nodes fnum_R) ns) (map (fourier_weights fnum_R) ns)).
  { split; [rewrite repeat_length, map_length; reflexivity|]. split; [rewrite !map_length; reflexivity|]. intros k Hk. rewrite map_length in Hk.
    change (carrier fnum_R) with R in *.
    rewrite nth_repeat_any, (proj2 (Nat.ltb_lt _ _) Hk). rewrite !(nth_map_lt _ _ _ _ _ _ 0%nat) by assumption. apply fourier_exact; [assumption|].
    rewrite Forall_forall in Hn. apply Hn, nth_In. assumption. }
  apply transform_eval; try assumption.
  - cbn [fn fnum_R num_R carrier] in *. rewrite El. assumption.
  - split; [|assumption]. apply Forall_forall. intros f H. apply repeat_spec in H. right. auto.
  - cbn [fn fnum_R num_R carrier] in *. rewrite El. assumption.
Qed.

(** A computable check that two-point Gauss-Hermite is exact for degree 1. *)
Lemma gauss2 : exact_rule 1 0 [-1; 1] [1/2; 1/2].
Proof.
  split; [reflexivity|]. intros i j Hi Hj. destruct i as [|[|i]]; [| |lia]; destruct j as [|[|j]]; try lia; cbn [combine map Nat.eqb]; unfold rsum, basis, hermite; cbn [fold_right Nat.eqb He fact]; cbn [Nat.mul Nat.add]; change (INR 1) with 1; rewrite sqrt_1; lra.
Qed.
