(** C107: the build with DEBUG. *)
From Coq Require Import List Bool Arith ZArith Lia Permutation.
From Verif Require Import Base IndexModel Num LinModel LinSpec LinBase Sparse InnerSum Facts2 Facts3 CoreFacts2 DebugModel DebugFacts.
Import ListNotations.
Local Open Scope list_scope. Local Open Scope nat_scope.

(** C107: for directions below the dimension, the check passes if they are 0 .. dim - 1, each once, in any order, and ends the process otherwise. *)
Theorem C107_check_dims : forall dirs dim, Forall (fun x => x < dim) (concat dirs) ->
  (Permutation (concat dirs) (seq 0 dim) -> check_dims dirs dim = Ok tt) /\ (~ Permutation (concat dirs) (seq 0 dim) -> check_dims dirs dim = Exit 1).
Proof. exact check_dims_ok. Qed.
Print Assumptions C107_check_dims.
Example C107_check_dims_example : check_dims [[2]; [0; 1]] 3 = Ok tt /\ check_dims [[2]; [0; 2]] 3 = Exit 1 /\ check_dims [[2]; [0]] 3 = Exit 1.
Proof. repeat split. Qed.

(** The check itself reads out of bounds as soon as it meets a direction that is not below the dimension. *)
Theorem C107_check_dims_undefined : forall dirs dim l1 x l2, concat dirs = l1 ++ x :: l2 -> NoDup l1 -> Forall (fun y => y < dim) l1 -> dim <= x -> check_dims dirs dim = Ub.
Proof. exact check_dims_ub. Qed.
Print Assumptions C107_check_dims_undefined.
Example C107_check_dims_undefined_example : concat [[0]; [5; 0]] = [0] ++ 5 :: [0] /\ check_dims [[0]; [5; 0]] 3 = Ub.
Proof. repeat split. Qed.

(** Vectors, the first of which has the right length, with directions below the dimension: the debug build returns the tensor product that the release build
    returns if the directions are a partition and every length is right, and ends the process otherwise; it is never undefined. *)
Theorem C107_vectors : forall (N : num) s degree dirs (inputs : list (list N)) dim, dim = length (concat dirs) -> usable s dim degree -> dirs_ok dim dirs -> length inputs = length dirs ->
  Forall (fun v => (Z.of_nat (length v) < 2 ^ 32)%Z) inputs -> (forall d v, nth_error dirs 0 = Some d -> nth_error inputs 0 = Some v -> vec_for s (length d) degree v) ->
  let good := Permutation (concat dirs) (seq 0 dim) /\ Forall2 (fun d v => vec_for s (length d) degree v) dirs inputs in
  (good -> exists out, tensorize_vec_debug N s inputs dirs = Ok out /\ tensorize_vec N s inputs dirs = Ok out /\ vec_for s dim degree out /\ forall m, index_of s dim degree m -> coef s dim degree out m = vproduct s dim degree dirs inputs m) /\
  (~ good -> tensorize_vec_debug N s inputs dirs = Exit 1).
Proof.
  intros N s degree dirs inputs dim E U D L F H0 good. destruct (vec_checks N s degree dirs inputs dim E U D L F H0) as (A & B). split; [|exact B]. intros G. destruct (tensorize_vec_coef N s degree dirs inputs dim E U D (proj2 G)) as (out & O1 & O2 & O3).
  exists out. rewrite (A G), O1. repeat split; assumption.
Qed.
Print Assumptions C107_vectors.
Example C107_vectors_example : usable Triangle 3 1 /\ dirs_ok 3 [[1]; [0; 2]] /\ vec_for (N := num_Z) Triangle 1 1 [2; 3]%Z /\
  tensorize_vec_debug num_Z Triangle [[2; 3]; [5; 7; 11]]%Z [[1]; [0; 2]] = Ok [10; 14; 15; 22]%Z /\ tensorize_vec_debug num_Z Triangle [[2; 3]; [5; 7; 11; 13; 17; 19]]%Z [[1]; [0; 2]] = Exit 1.
Proof. split; [apply usable_dim4; lia|]. split; [repeat constructor; try discriminate; lia|]. repeat split; vm_compute; reflexivity. Qed.

(** Square matrices, the first of which has the right size: likewise. *)
Theorem C107_matrices : forall (N : num), num_laws N -> forall s degree dirs (inputs : list (list (list N))) dim, dim = length (concat dirs) -> usable s dim degree -> dirs_ok dim dirs -> length inputs = length dirs ->
  Forall (fun A => mat_wf (length A) (length A) A /\ A <> [] /\ (Z.of_nat (length A) < 2 ^ 32)%Z) inputs -> (forall d A, nth_error dirs 0 = Some d -> nth_error inputs 0 = Some A -> mat_for s (length d) degree A) ->
  let good := Permutation (concat dirs) (seq 0 dim) /\ Forall2 (fun d A => mat_for s (length d) degree A) dirs inputs in
  (good -> tensorize_mats_debug N s inputs dirs = tensorize_mats N s inputs dirs) /\ (~ good -> tensorize_mats_debug N s inputs dirs = Exit 1).
Proof.
  intros N LN s degree dirs inputs dim E U D L F H0 good.
  assert (M : exists Bs, mapM (to_spmat N) inputs = Ok Bs).
  { clear -F LN. induction F as [|A l (F1 & F2 & _) F IH]; [exists []; reflexivity|]. destruct (to_spmat_ok N (law_eqb _ LN) _ _ A F1) as (B & EB & _); [destruct A; [contradiction|cbn; lia]|]. destruct IH as (Bs & IH). exists (B :: Bs). cbn [mapM]. rewrite EB. cbn [bind]. rewrite IH. reflexivity. }
  destruct M as (Bs & M). unfold tensorize_mats_debug, tensorize_mats. rewrite M. cbn [bind].
  destruct (mat_checks s degree dirs (map (mat_size1 N) inputs) dim E U D) as (A & B).
  { rewrite map_length. exact L. }
  { rewrite Forall_map. eapply Forall_impl; [|exact F]. intros A (_ & _ & H). exact H. }
  { intros d n Hd Hn. rewrite nth_error_map in Hn. destruct (nth_error inputs 0) as [A|]; [|discriminate Hn]. injection Hn as <-. apply (proj1 (H0 d A Hd eq_refl)). }
  assert (G : Forall2 (fun d A => mat_for s (length d) degree A) dirs inputs <-> Forall2 (fun d n => n = length (points s (length d) degree)) dirs (map (mat_size1 N) inputs)).
  { clear -F. split; [intros H; induction H as [|d A ds As HA H IH]; constructor; [apply HA|apply IH; inversion F; assumption]|]. revert dirs. induction F as [|A As (F1 & _) F IH]; intros [|d ds] H; inversion H; subst; constructor; [|apply IH; assumption]. unfold mat_for. match goal with HH : mat_size1 N A = _ |- _ => unfold mat_size1 in HH; rewrite <- HH end. exact F1. }
  split; [intros (G1 & G2); rewrite A by (split; [exact G1|apply G; exact G2]); reflexivity|]. intros H. rewrite B; [reflexivity|]. intros (G1 & G2). apply H. split; [exact G1|apply G; exact G2].
Qed.
Print Assumptions C107_matrices.
Example C107_matrices_example : mat_for (N := num_Z) Triangle 1 1 [[2; 0]; [3; 4]]%Z /\
  tensorize_mats_debug num_Z Triangle [[[2; 0]; [3; 4]]; [[0; 5]; [7; 0]]]%Z [[1]; [0]] = Ok [[0; 0; 10]; [0; 0; 15]; [14; 0; 0]]%Z /\ tensorize_mats_debug num_Z Triangle [[[2; 0]; [3; 4]]; [[5]]]%Z [[1]; [0]] = Exit 1.
Proof. split; [split; [vm_compute; reflexivity|repeat constructor]|]. split; vm_compute; reflexivity. Qed.

(** One matrix per axis, as varf and varfd need them: the two builds agree. *)
Theorem C107_axes : forall (N : num), num_laws N -> forall s degree (inputs : list (list (list N))), usable s (length inputs) degree -> Forall (fun A => mat_for s 1 degree A) inputs ->
  tensorize_mats_debug N s inputs (map (fun i => [i]) (seq 0 (length inputs))) = tensorize_mats N s inputs (map (fun i => [i]) (seq 0 (length inputs))).
Proof.
  intros N LN s degree inputs U F. assert (U1 : usable s 1 degree) by (apply (usable_sub s (length inputs)); [exact U|destruct U as [U _]; lia]).
  assert (EC : forall n k, concat (map (fun i => [i]) (seq k n)) = seq k n) by (clear; induction n as [|n IH]; intros k; [reflexivity|]; cbn; rewrite IH; reflexivity).
  apply (C107_matrices N LN s degree _ inputs (length inputs)).
  - rewrite EC, seq_length. reflexivity.
  - exact U.
  - apply Forall_map, Forall_forall. intros i Hi. apply in_seq in Hi. split; [repeat constructor|]. split; [discriminate|]. constructor; [lia|constructor].
  - rewrite map_length, seq_length. reflexivity.
  - eapply Forall_impl; [|exact F]. intros A (HA & HB). rewrite HA. split; [split; assumption|]. pose proof (points_pos _ _ _ U1) as P. split; [destruct A; [rewrite <- HA in P; cbn in P; lia|discriminate]|]. rewrite InnerSum.points_spec by exact U1. apply (usable_length s 0 degree U1).
  - intros d A Hd HA. apply nth_error_In in HA. rewrite Forall_forall in F. rewrite nth_error_map in Hd. destruct (nth_error (seq 0 (length inputs)) 0); [|discriminate Hd]. injection Hd as <-. apply F. exact HA.
  - split; [rewrite EC; reflexivity|]. clear -F. generalize 0. induction F as [|A l HA F IH]; intros k; [constructor|]. cbn [length seq map]. constructor; [exact HA|apply IH].
Qed.
Print Assumptions C107_axes.
Example C107_axes_example : usable Cross 2 1 /\ mat_for (N := num_Z) Cross 1 1 [[2; 0]; [3; 4]]%Z /\ exists C, tensorize_mats num_Z Cross [[[2; 0]; [3; 4]]; [[0; 5]; [7; 0]]]%Z [[0]; [1]] = Ok C.
Proof. split; [apply usable_dim4; lia|]. split; [split; [vm_compute; reflexivity|repeat constructor]|]. eexists. vm_compute. reflexivity. Qed.

(** The checks do not see everything: a matrix with too many columns passes them and is read out of bounds, ... *)
Theorem C107_columns_refuted : ~ (forall (N : num), num_laws N -> forall s dirs (inputs : list (list (list N))), length inputs = length dirs -> Permutation (concat dirs) (seq 0 (length (concat dirs))) -> Forall (fun A => exists n, mat_wf (length A) n A) inputs -> tensorize_mats_debug N s inputs dirs <> Ub).
Proof.
  intros H. apply (H num_Z num_Z_laws Triangle [[0]; [1]] [[[1; 0; 5]; [0; 1; 0]]; [[1; 0]; [0; 1]]]%Z); [reflexivity|apply Permutation_refl| |vm_compute; reflexivity]. constructor; [exists 3; repeat constructor|]. constructor; [exists 2; repeat constructor|constructor].
Qed.
Print Assumptions C107_columns_refuted.

(** ... and they see too much: directions that are not 0 .. dim - 1, for which the release build computes the tensor product (C20), are undefined in the debug build. *)
Theorem C107_same_refuted : ~ (forall (N : num), num_laws N -> forall s degree dirs (inputs : list (list (list N))), usable s (length (concat dirs)) degree -> NoDup (concat dirs) -> Forall (fun d => increasing d /\ d <> []) dirs -> Forall2 (fun d A => mat_for s (length d) degree A) dirs inputs -> tensorize_mats_debug N s inputs dirs = tensorize_mats N s inputs dirs).
Proof.
  intros H. specialize (H num_Z num_Z_laws Triangle 1 [[3]; [1]] [[[2; 0]; [3; 4]]; [[0; 5]; [7; 0]]]%Z).
  assert (X : tensorize_mats_debug num_Z Triangle [[[2; 0]; [3; 4]]; [[0; 5]; [7; 0]]]%Z [[3]; [1]] = Ub /\ tensorize_mats num_Z Triangle [[[2; 0]; [3; 4]]; [[0; 5]; [7; 0]]]%Z [[3]; [1]] = Ok [[0; 0; 10]; [0; 0; 15]; [14; 0; 0]]%Z) by (split; vm_compute; reflexivity).
  destruct X as (X1 & X2). rewrite X1, X2 in H. discriminate H; [apply usable_dim4; cbn; lia|repeat constructor; cbn; intuition discriminate|repeat constructor; discriminate|repeat constructor].
Qed.
Print Assumptions C107_same_refuted.

(** The release build checks nothing: it answers for a direction that appears twice and for one that is missing. *)
Theorem C107_release_unchecked : exists dirs (inputs : list (list num_Z)) out, ~ NoDup (concat dirs) /\ tensorize_vec num_Z Triangle inputs dirs = Ok out /\ tensorize_vec_debug num_Z Triangle inputs dirs = Exit 1.
Proof.
  exists [[0]; [0]], [[2; 3]; [5; 7]]%Z. eexists. split; [|split; vm_compute; reflexivity]. intros H. inversion H as [|x l H1 H2]. apply H1. left. reflexivity.
Qed.
Print Assumptions C107_release_unchecked.
