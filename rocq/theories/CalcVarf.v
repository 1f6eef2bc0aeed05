(** varf: the tensor products of the tables, summed over the transform of the function. *)
From Coq Require Import List Bool Arith ZArith Reals Lra Lia Sorted Permutation.
From Verif Require Import Base Lists IndexModel Spec IndexSet Degree Num Fnum LinModel LinSpec LinBase MatBase Tensorize Sparse Facts1 Facts2 Facts3 Facts4 CalcModel CalcSpec CalcBase CalcHermite CalcTransform CalcReal CalcTriple CalcFourier CalcQuad CalcOps.
Import ListNotations.

Section Factors.
Variable F : fnum.
Hypothesis L : num_laws F.

Definition axes_product (factors : list (list (list F))) (r c : list nat) : F :=
  nprod (map (fun k => mnth F (nth k factors []) (nth k r 0) (nth k c 0)) (seq 0 (length factors))).

Lemma tensorize_factors_ok : forall C rep wf, calc_ok F C rep wf -> forall s dim degree factors, usable s dim degree -> (1 <= degree \/ s <> Cross /\ s <> CrossNc) ->
  length factors = dim -> Forall (mat_wf (degree + 1) (degree + 1)) factors ->
  exists B, tensorize_factors F C s factors = Ok B /\ wf B (length (points s dim degree)) (length (points s dim degree)) /\
    forall r c, index_of s dim degree r -> index_of s dim degree c -> entry s dim degree (rep B) r c = axes_product factors r c.
Proof using L.
  intros C rep wf HC s dim degree factors Hu Hs Hl Hf. assert (U1 : usable s 1 degree) by (eapply usable_sub; [exact Hu|]; split; [lia|apply Hu]).
  assert (P1 : points s 1 degree = map (fun i => [i]) (seq 0 (degree + 1))) by (apply points_1; [apply (usable_set_ok _ _ _ U1)|assumption]).
  assert (Pl : length (points s 1 degree) = degree + 1) by (rewrite P1, map_length, seq_length; reflexivity).
  assert (Hconv : exists Bs, mapM (to_spmat F) factors = Ok Bs /\ map (@dense F) Bs = factors /\ Forall (sp_for s 1 degree) Bs).
  { clear Hl. induction Hf as [|A factors HA Hf IH]; [exists []; repeat split; constructor|].
    destruct (to_spmat_ok F (law_eqb _ L) _ _ A HA) as (B & E1 & E2 & E3); [lia|]. destruct IH as (Bs & F1 & F2 & F3).
    exists (B :: Bs). cbn [mapM map]. rewrite E1, F1. split; [reflexivity|]. split; [congruence|]. constructor; [|assumption]. unfold sp_for. rewrite Pl. exact E2. }
  destruct Hconv as (Bs & F1 & F2 & F3). assert (HlB : @length (spmat F) Bs = dim) by (rewrite <- Hl, <- F2, map_length; reflexivity).
  destruct (tensorize_sp_entry F L s degree (map (fun i => [i]) (seq 0 dim)) Bs (seq 0 dim)) as (out & E & W & G).
  - apply seq_increasing.
  - rewrite concat_axes. reflexivity.
  - rewrite seq_length. assumption.
  - apply axes_inc.
  - pose proof (Forall2_axes _ (fun k M => sp_for s k degree M) Bs 0) as H2. rewrite HlB in H2. apply H2. rewrite Forall_forall in F3. exact F3.
  - rewrite seq_length in W, G. destruct W as [W0 [W1 W2]].
    destruct (cok_convert _ _ _ _ HC out (length (points s dim degree)) (length (points s dim degree))) as (B & EB & WB & RB); [split; auto|].
    exists B. split.
    + unfold tensorize_factors. rewrite F1. cbn [bind]. unfold tensorize_sps_axes. rewrite HlB, E. cbn [bind]. exact EB.
    + split; [exact WB|]. intros r c Hr Hc. rewrite RB, G by assumption. unfold mproduct, axes_product. f_equal. rewrite F2. rewrite <- Hl.
      rewrite (combine_axes _ factors []), map_map. apply map_ext_in. intros i Hi. apply in_seq in Hi. cbn [length]. pose proof (proj1 Hr) as Hrl. pose proof (proj1 Hc) as Hcl.
      unfold reindex. cbn [map]. replace (length factors) with (length r) at 1 by congruence. rewrite lookup_seq by lia. replace (length factors) with (length c) by congruence. rewrite lookup_seq by lia.
      assert (Hr1 : index_of s 1 degree [nth i r 0]) by (eapply axis_in; [exact Hr|lia]). assert (Hc1 : index_of s 1 degree [nth i c 0]) by (eapply axis_in; [exact Hc|lia]).
      assert (B1 : forall x, index_of s 1 degree [x] -> x < degree + 1).
      { intros x Hx. apply (points_In s 1 degree _ U1) in Hx. rewrite P1 in Hx. apply in_map_iff in Hx as [y [Ey Hy]]. apply in_seq in Hy. inversion Ey. lia. }
      unfold entry, mvalue, mnth. rewrite P1. assert (HA : mat_wf (degree + 1) (degree + 1) (nth i factors [])) by (rewrite Forall_forall in Hf; apply Hf, nth_In; lia).
      rewrite (value_1 _ [] (degree + 1) (nth i factors []) (nth i r 0)); [|apply B1; assumption|apply HA]. apply value_1; [apply B1; assumption|]. apply (mat_wf_row F _ _ _ _ HA). apply B1. assumption.
Qed.

End Factors.
