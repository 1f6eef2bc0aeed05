(** Property C118: projections on one direction in C++, and keys of multi-indices. *)
From Coq Require Import String List Bool Arith ZArith Lia Sorted.
From Verif Require Import Base IndexModel Spec Num LinModel LinSpec LinBase MatBase Sparse Facts2 Facts3 CoreModel LibModel LibSpec LibFacts.
Import ListNotations.
Local Open Scope nat_scope.

(** C118: hermite_cpp.project of a vector with one direction and the name of an index set keeps the coefficients of the multi-indices that vanish in the other directions. *)
Theorem C118_project_vec : forall (N : num) name s dim degree dir (v : list N), named name = Some s -> usable s dim degree -> vec_for s dim degree v -> dir < dim ->
  exists out, project_vec_1d N v dim dir name = Ok out /\ vec_for s 1 degree out /\ forall k, index_of s 1 degree [k] -> coef s 1 degree out [k] = coef s dim degree v (single dim dir k).
Proof. exact project_one. Qed.
Print Assumptions C118_project_vec.
Example C118_project_vec_example : usable Triangle 2 2 /\ vec_for (N := num_Z) Triangle 2 2 [1; 2; 3; 4; 5; 6]%Z /\ project_vec_1d num_Z [1; 2; 3; 4; 5; 6]%Z 2 1 "triangle" = Ok [1; 2; 4]%Z /\ single 2 1 2 = [0; 2].
Proof. split; [apply usable_dim4; lia|]. split; [reflexivity|]. split; vm_compute; reflexivity. Qed.

(** C118: the same for dense and sparse matrices. *)
Theorem C118_project_mat : forall (N : num) name s dim degree dir (A : list (list N)), named name = Some s -> usable s dim degree -> mat_for s dim degree A -> dir < dim ->
  exists out, project_mat_1d N (mat_ops N) A dim dir name = Ok out /\ mat_for s 1 degree out /\
    forall r c, index_of s 1 degree [r] -> index_of s 1 degree [c] -> entry s 1 degree out [r] [c] = entry s dim degree A (single dim dir r) (single dim dir c).
Proof. exact project_one_mat. Qed.
Print Assumptions C118_project_mat.
Example C118_project_mat_example : mat_for (N := num_Z) Triangle 2 1 [[1;2;3];[4;5;6];[7;8;9]]%Z /\ project_mat_1d num_Z (mat_ops num_Z) [[1;2;3];[4;5;6];[7;8;9]]%Z 2 0 "triangle" = Ok [[1;3];[7;9]]%Z.
Proof. split; [split; [reflexivity|repeat constructor]|vm_compute; reflexivity]. Qed.
Theorem C118_project_spmat : forall (N : num) name s dim degree dir (A : spmat N), named name = Some s -> usable s dim degree -> sp_for s dim degree A -> dir < dim ->
  exists out, project_mat_1d N (spmat_ops N) A dim dir name = Ok out /\ sp_for s 1 degree out /\
    forall r c, index_of s 1 degree [r] -> index_of s 1 degree [c] -> entry s 1 degree (dense out) [r] [c] = entry s dim degree (dense A) (single dim dir r) (single dim dir c).
Proof. exact project_one_sp. Qed.
Print Assumptions C118_project_spmat.
Example C118_project_spmat_example : let A := (Build_spmat num_Z 3 3 [[(0, 1%Z); (2, 3%Z)]; []; [(0, 7%Z); (1, 8%Z)]]) in
  sp_for Triangle 2 1 A /\ exists out, project_mat_1d num_Z (spmat_ops num_Z) A 2 0 "triangle" = Ok out /\ dense out = [[1; 3]; [7; 0]]%Z.
Proof.
  cbv zeta. split.
  - split; [|split; vm_compute; reflexivity]. split; [reflexivity|]. repeat constructor.
  - eexists. split; vm_compute; reflexivity.
Qed.

(** C118: another name ends the process with the code 1, for all inputs. *)
Theorem C118_unknown : forall (N : num) name, ~ In name ["triangle"; "cross"; "cross_nc"; "cube"; "rectangle"]%string ->
  (forall v dim dir, project_vec_1d N v dim dir name = Exit 1) /\ forall O A dim dir, project_mat_1d N O A dim dir name = Exit 1.
Proof. exact project_unknown. Qed.
Print Assumptions C118_unknown.
Example C118_unknown_example : project_vec_1d num_Z [1; 2]%Z 1 0 "Triangle" = Exit 1.
Proof. apply (C118_unknown num_Z "Triangle"). cbn. intuition discriminate. Qed.

(** C118: isAligned with one direction never reads past the multi-index, holds exactly if all the other entries are 0, and is isAligned with the list of this direction. *)
Theorem C118_aligned : forall m dir, exists b, is_aligned_dir m dir = Ok b /\ (b = true <-> forall j, j <> dir -> nth j m 0 = 0) /\ is_aligned m [dir] = Ok b.
Proof. exact aligned_dir. Qed.
Print Assumptions C118_aligned.
Example C118_aligned_example : is_aligned_dir [0; 3; 0] 1 = Ok true /\ is_aligned_dir [0; 3; 1] 1 = Ok false.
Proof. split; reflexivity. Qed.

(** C118: hash_multi_ind is the number with the digits v in base degree + 1, modulo 2^32, so it separates the multi-indices with entries up to the degree if there are at most 2^32 of them, and not otherwise. *)
Theorem C118_hash : forall v degree, (- 2 ^ 31 <= degree < 2 ^ 31 - 1)%Z -> hash_multi_ind v degree = Ok (digits (degree + 1) v mod 2 ^ 32)%Z.
Proof. exact hash_value. Qed.
Print Assumptions C118_hash.
Theorem C118_hash_injective : forall v w degree, length v = length w -> Forall (fun x => x <= degree) v -> Forall (fun x => x <= degree) w -> ((Z.of_nat degree + 1) ^ Z.of_nat (length v) <= 2 ^ 32)%Z -> (Z.of_nat degree < 2 ^ 31 - 1)%Z ->
  hash_multi_ind v (Z.of_nat degree) = hash_multi_ind w (Z.of_nat degree) -> v = w.
Proof. exact hash_injective. Qed.
Print Assumptions C118_hash_injective.
Example C118_hash_example : hash_multi_ind [3; 0; 2] 9 = Ok 203%Z /\ ((9 + 1) ^ 3 <= 2 ^ 32)%Z.
Proof. split; [reflexivity|lia]. Qed.
(** In dimension 33, degree 1 is enough for two multi-indices with the same key. *)
Theorem C118_hash_refuted : ~ forall v w degree, length v = length w -> Forall (fun x => x <= degree) v -> Forall (fun x => x <= degree) w -> hash_multi_ind v (Z.of_nat degree) = hash_multi_ind w (Z.of_nat degree) -> v = w.
Proof.
  intros H. destruct hash_collision as (H1 & H2). apply H2. apply (H _ _ 1); [reflexivity|repeat constructor|repeat constructor|exact H1].
Qed.
Print Assumptions C118_hash_refuted.
