(** Lemmas for C109: evaluating a series and transforming the values back. *)
From Coq Require Import List Bool Arith ZArith Lia Reals Lra.
From Verif Require Import Base Lists IndexModel Spec Machine IndexSet Grid Cross Degree Num Fnum LinModel LinSpec LinBase Facts6 CalcModel CalcSpec CalcBase CalcHermite CalcTransform CalcReal CalcInt CalcQuad RndModel RndSpec RndFacts RndFacts2 RndFacts3.
Import ListNotations.
Local Open Scope R_scope.

Section Trip.
Variables (u : R) (r : rounding).
Hypothesis A : accurate u r.
Let Hu : 0 <= u < 1 := acc_u u r A.

Lemma near_rsum : forall T (f g G : T -> R) n l, (forall x, In x l -> near u n (f x) (g x) (G x)) -> near u n (rsum (map f l)) (rsum (map g l)) (rsum (map G l)).
Proof using A.
  intros T f g G n l. induction l as [|x l IH]; intros H; cbn [map].
  - change (near u n 0 0 0). split; [rewrite Rminus_0_r, Rabs_R0|rewrite Rabs_R0]; lra.
  - rewrite !rsum_cons. apply near_add; [apply H; left; reflexivity|]. apply IH. intros y Hy. apply H. right. exact Hy.
Qed.
Lemma quad_map : forall nodes w (f : list nat -> R) g, quadrature nodes w (map f (grid nodes)) g = rsum (map (fun p => f p * rprod (at_pos w p) * g (at_pos nodes p)) (grid nodes)).
Proof using Type. intros nodes w f g. unfold quadrature. f_equal. generalize (grid nodes). induction l as [|p l IH]; [reflexivity|]. cbn [map combine]. f_equal. exact IH. Qed.
Lemma rsum_le : forall T (f g : T -> R) l, (forall x, In x l -> f x <= g x) -> rsum (map f l) <= rsum (map g l).
Proof using Type. intros T f g l. induction l as [|x l IH]; intros H; [right; reflexivity|]. cbn [map]. rewrite !rsum_cons. apply Rplus_le_compat; [apply H; left; reflexivity|]. apply IH. intros y Hy. apply H. right. exact Hy. Qed.
Lemma exact_near : forall n a X, Rabs a <= X -> near u n a a X.
Proof using A. intros n a X H. split; [|exact H]. rewrite Rminus_eq_0, Rabs_R0. pose proof (th_pow u Hu n). pose proof (Rabs_pos a). nra. Qed.

Lemma trip_bound : forall s degree nodes weights flags c, fits s (length nodes) degree -> grid_fits nodes -> flags_ok s degree flags -> exact_rules degree flags nodes weights -> @vec_for num_R s (length nodes) degree c ->
  exists values out, transform (fnum_rnd r) s degree c nodes weights flags false = Ok values /\ transform (fnum_rnd r) s degree values nodes weights flags true = Ok out /\ @vec_for num_R s (length nodes) degree out /\
    forall m, index_of s (length nodes) degree m -> let n := (length (grid nodes) + length (points s (length nodes) degree) + 6 * (length nodes * degree + list_sum m) + 13 * length nodes + 4)%nat in INR n * u < 1 ->
      Rabs (@coef num_R s (length nodes) degree out m - @coef num_R s (length nodes) degree c m)
      <= gamma u n * quadrature nodes (map (map Rabs) weights) (map (fun p => series_abs s degree flags c (at_pos nodes p)) (grid nodes)) (phi_abs flags m).
Proof using A.
  intros s degree nodes weights flags c Hf Hg Hfl Hex Hc. assert (Hl : length flags = length nodes) by apply Hex. assert (Hw : rules_match nodes weights) by (eapply exact_match; eassumption).
  destruct (backward_near u r A s degree nodes weights flags Hf Hg Hfl Hl c Hc) as (v & Ev & Nv).
  destruct (forward_near u r A s degree nodes weights flags Hf Hg Hfl Hl (map v (grid nodes)) Hw (map_length _ _)) as (out & Eo & No).
  exists (map v (grid nodes)), (map out (points s (length nodes) degree)). split; [exact Ev|]. split; [exact Eo|]. split; [apply map_length|].
  intros m Hm n Hn. replace (@coef num_R s (length nodes) degree (map out (points s (length nodes) degree)) m) with (out m). 2: { symmetry. apply (value_map_in _ _ out). apply points_In_ok; [apply Hf|apply Hf|assumption]. }
  specialize (No m Hm). set (S := fun p => series_abs s degree flags c (at_pos nodes p)) in *. set (T := quadrature nodes (map (map Rabs) weights) (map S (grid nodes)) (phi_abs flags m)).
  set (n1 := (length (grid nodes) + 6 * list_sum m + 7 * length nodes + 2)%nat) in *. set (n2 := (length (points s (length nodes) degree) + 6 * (length nodes * degree) + 6 * length nodes + 2)%nat) in *.
  assert (Ex : @coef num_R s (length nodes) degree c m = quadrature nodes weights (map (fun p => series s degree flags c (at_pos nodes p)) (grid nodes)) (phi flags m)).
  { destruct (transform_eval s degree nodes weights flags Hf Hg Hfl Hex c Hc) as (values & E1 & E2). rewrite transform_backward_R in E1 by assumption. injection E1 as <-.
    rewrite transform_forward_R in E2; [|assumption|assumption|assumption|assumption|assumption|apply map_length]. injection E2 as E2. rewrite <- E2 at 1. exact (value_map_in _ 0 (fun m => quadrature nodes weights (map (fun p => series s degree flags c (at_pos nodes p)) (grid nodes)) (phi flags m)) _ m ltac:(apply points_In_ok; [apply Hf|apply Hf|assumption])). }
  assert (NQ : near u n2 (quadrature nodes weights (map v (grid nodes)) (phi flags m)) (@coef num_R s (length nodes) degree c m) T).
  { rewrite Ex. unfold T. rewrite !quad_map. apply near_rsum. intros p Hp. replace n2 with (n2 + 0 + 0)%nat by lia. apply near_mul; [exact Hu|apply near_mul; [exact Hu|apply Nv; exact Hp|]|].
    - apply exact_near. destruct (cweight_near u r A nodes weights flags Hl p Hw Hp) as (_ & K). exact K.
    - apply exact_near. destruct (cval_near u r A s degree nodes flags Hfl Hl p m Hp Hm) as (_ & K). exact K. }
  assert (NS : quadrature_abs nodes weights (map v (grid nodes)) (phi_abs flags m) <= th u ^ n2 * T).
  { unfold quadrature_abs, T. rewrite map_map, !quad_map, <- rsum_map_mult. apply rsum_le. intros p Hp. pose proof (near_size u _ _ _ _ (Nv p Hp)) as K. cbv beta.
    destruct (cweight_near u r A nodes weights flags Hl p Hw Hp) as (_ & K1). destruct (cval_near u r A s degree nodes flags Hfl Hl p m Hp Hm) as (_ & K2).
    pose proof (Rabs_pos (rprod (at_pos weights p))). pose proof (Rabs_pos (phi flags m (at_pos nodes p))). rewrite <- !Rmult_assoc. apply Rmult_le_compat_r; [lra|]. apply Rmult_le_compat_r; [lra|]. exact K. }
  replace n with (n1 + n2)%nat in * by (unfold n, n1, n2; lia). apply near_gamma; [exact Hu|exact Hn|]. destruct No as (N1 & _), NQ as (Q1 & Q2). split; [|exact Q2].
  replace (out m - @coef num_R s (length nodes) degree c m) with ((out m - quadrature nodes weights (map v (grid nodes)) (phi flags m)) + (quadrature nodes weights (map v (grid nodes)) (phi flags m) - @coef num_R s (length nodes) degree c m)) by ring.
  eapply Rle_trans; [apply Rabs_triang|]. rewrite pow_add. pose proof (th_pow u Hu n1). pose proof (th_pow u Hu n2).
  assert ((th u ^ n1 - 1) * quadrature_abs nodes weights (map v (grid nodes)) (phi_abs flags m) <= (th u ^ n1 - 1) * (th u ^ n2 * T)) by (apply Rmult_le_compat_l; lra). nra.
Qed.
End Trip.
