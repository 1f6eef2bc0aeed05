(** Properties C16-C26: projections, tensor products, inner products, sparse and dense matrices.
    Model: LinModel.  Specification vocabulary: LinSpec.  [num] is any structure with 0, 1, +, *, -, == ; theorems that need
    algebraic laws say so ([num_laws]; the integers and the reals satisfy them).  [usable s dim degree] holds for every
    set when dim <= 4 and degree <= 250 (see the example of C16). *)
From Coq Require Import List Bool Arith ZArith Lia Permutation Sorted.
From Verif Require Import Base IndexModel Spec Num LinModel LinSpec LinBase MatBase Sparse Facts2 Facts3 Facts4 Facts5.
Import ListNotations.

(** C16: the coefficient of the projection at m is the coefficient of v at the embedding of m (zero in the other
    directions), and 0 if that is not in the big set; no throw, whatever the arithmetic. *)
Theorem C16_project_vec : forall (N : num) s dim degree dirs (v : list N), usable s dim degree -> vec_for s dim degree v ->
  increasing dirs -> dirs <> [] -> Forall (fun x => x < dim) dirs ->
  exists out, project_vec N s v dim dirs = Ok out /\ vec_for s (length dirs) degree out /\
    forall m, index_of s (length dirs) degree m -> coef s (length dirs) degree out m = coef s dim degree v (reindex dirs (seq 0 dim) m).
Proof. exact project_vec_coef. Qed.
Print Assumptions C16_project_vec.
Example C16_project_vec_example : (forall s dim degree, 1 <= dim <= 4 -> degree <= 250 -> usable s dim degree) /\
  vec_for (N := num_Z) Triangle 3 1 [7; 8; 9; 10]%Z /\ project_vec num_Z Triangle [7; 8; 9; 10]%Z 3 [0; 2] = Ok [7; 8; 10]%Z /\
  s_list Triangle 3 1 = Ok [[0;0;0]; [0;0;1]; [0;1;0]; [1;0;0]] /\ reindex [0; 2] (seq 0 3) [4; 5] = [4; 0; 5].
Proof. split; [exact usable_dim4|]. repeat apply conj; vm_compute; reflexivity. Qed.

(** C16, directions in another order: on a rectangle the call throws. *)
Theorem C16_unordered_dirs_refuted : exists v : list num_Z, vec_for Rectangle 2 2 v /\ exists e, project_vec num_Z Rectangle v 2 [1; 0] = Throw e.
Proof. exact project_unordered. Qed.
Print Assumptions C16_unordered_dirs_refuted.

(** C17: the same for the entries of dense and sparse matrices. *)
Theorem C17_project_mat : forall (N : num) s dim degree dirs (A : list (list N)), usable s dim degree -> mat_for s dim degree A ->
  increasing dirs -> dirs <> [] -> Forall (fun x => x < dim) dirs ->
  exists out, project_mat N (mat_ops N) s A dim dirs = Ok out /\ mat_for s (length dirs) degree out /\
    forall r c, index_of s (length dirs) degree r -> index_of s (length dirs) degree c ->
      entry s (length dirs) degree out r c = entry s dim degree A (reindex dirs (seq 0 dim) r) (reindex dirs (seq 0 dim) c).
Proof. exact project_mat_entry. Qed.
Print Assumptions C17_project_mat.
Example C17_project_mat_example : mat_for (N := num_Z) Triangle 2 1 [[1;2;3];[4;5;6];[7;8;9]]%Z /\
  project_mat num_Z (mat_ops num_Z) Triangle [[1;2;3];[4;5;6];[7;8;9]]%Z 2 [0] = Ok [[1;3];[7;9]]%Z.
Proof. repeat apply conj; try (vm_compute; reflexivity). repeat constructor. Qed.

Theorem C17_project_spmat : forall (N : num) s dim degree dirs (A : spmat N), usable s dim degree -> sp_for s dim degree A ->
  increasing dirs -> dirs <> [] -> Forall (fun x => x < dim) dirs ->
  exists out, project_mat N (spmat_ops N) s A dim dirs = Ok out /\ sp_for s (length dirs) degree out /\
    forall r c, index_of s (length dirs) degree r -> index_of s (length dirs) degree c ->
      entry s (length dirs) degree (dense out) r c = entry s dim degree (dense A) (reindex dirs (seq 0 dim) r) (reindex dirs (seq 0 dim) c).
Proof. exact project_sp_entry. Qed.
Print Assumptions C17_project_spmat.
Example C17_project_spmat_example :
  let A := (Build_spmat num_Z 3 3 [[(0, 1%Z); (2, 3%Z)]; []; [(0, 7%Z); (1, 8%Z)]]) in
  sp_for Triangle 2 1 A /\ exists out, project_mat num_Z (spmat_ops num_Z) Triangle A 2 [0] = Ok out /\ dense out = [[1; 3]; [7; 0]]%Z.
Proof.
  cbv zeta. split.
  - split; [|split; vm_compute; reflexivity]. split; [reflexivity|]. repeat constructor.
  - eexists. split; vm_compute; reflexivity.
Qed.

(** C18: projecting on d1, then on the directions numbered d2 among those, is projecting on these directions at once
    (on every index set, whatever the arithmetic). *)
Theorem C18_project_compose : forall (N : num) s dim degree d1 d2 (v : list N), usable s dim degree -> vec_for s dim degree v ->
  increasing d1 -> d1 <> [] -> Forall (fun x => x < dim) d1 -> increasing d2 -> d2 <> [] -> Forall (fun x => x < length d1) d2 ->
  exists w out, project_vec N s v dim d1 = Ok w /\ project_vec N s w (length d1) d2 = Ok out /\
    project_vec N s v dim (map (fun k => nth k d1 0) d2) = Ok out.
Proof. exact project_compose. Qed.
Print Assumptions C18_project_compose.
Example C18_project_compose_example : vec_for (N := num_Z) Triangle 3 1 [7; 8; 9; 10]%Z /\ project_vec num_Z Triangle [7; 8; 9; 10]%Z 3 [0; 2] = Ok [7; 8; 10]%Z /\
  project_vec num_Z Triangle [7; 8; 10]%Z 2 [1] = Ok [7; 8]%Z /\ map (fun k => nth k [0; 2] 0) [1] = [2] /\ project_vec num_Z Triangle [7; 8; 9; 10]%Z 3 [2] = Ok [7; 8]%Z.
Proof. repeat apply conj; vm_compute; reflexivity. Qed.

(** C19: the coefficient of a tensor product at m is the product, in argument order, of the coefficients at the
    restrictions of m; the lists of directions may have any order (and any arithmetic). *)
Theorem C19_tensorize_vectors : forall (N : num) s degree dirs (inputs : list (list N)) dim, dim = length (concat dirs) -> usable s dim degree ->
  dirs_ok dim dirs -> Forall2 (fun dj v => vec_for s (length dj) degree v) dirs inputs ->
  exists out, tensorize_vec N s inputs dirs = Ok out /\ vec_for s dim degree out /\
    forall m, index_of s dim degree m -> coef s dim degree out m = vproduct s dim degree dirs inputs m.
Proof. exact tensorize_vec_coef. Qed.
Print Assumptions C19_tensorize_vectors.
Example C19_tensorize_vectors_example : dirs_ok 3 [[1]; [0; 2]] /\ Forall2 (fun dj v => vec_for (N := num_Z) Triangle (length dj) 1 v) [[1]; [0; 2]] [[2; 3]; [5; 7; 11]]%Z /\
  tensorize_vec num_Z Triangle [[2; 3]; [5; 7; 11]]%Z [[1]; [0; 2]] = Ok [10; 14; 15; 22]%Z.
Proof.
  split; [|split; [|vm_compute; reflexivity]].
  - repeat constructor; try discriminate; lia.
  - repeat constructor.
Qed.

(** C19, one vector per axis. *)
Theorem C19_tensorize_axes : forall (N : num) s degree (inputs : list (list N)), usable s (length inputs) degree ->
  Forall (fun v => vec_for s 1 degree v) inputs ->
  exists out, tensorize_vecs_axes N s inputs = Ok out /\ vec_for s (length inputs) degree out /\
    forall m, index_of s (length inputs) degree m ->
      coef s (length inputs) degree out m = nprod (map (fun '(k, v) => coef s 1 degree v [k]) (combine m inputs)).
Proof. exact tensorize_axes_coef. Qed.
Print Assumptions C19_tensorize_axes.
Example C19_tensorize_axes_example : Forall (fun v => vec_for (N := num_Z) Cube 1 1 v) [[2; 3]; [5; 7]]%Z /\
  tensorize_vecs_axes num_Z Cube [[2; 3]; [5; 7]]%Z = Ok [10; 15; 14; 21]%Z.
Proof. split; [repeat constructor|vm_compute; reflexivity]. Qed.

(** C20: the entries of a tensor product of matrices; the result is on the increasing rearrangement [d] of all the
    directions.  Sparse, then dense (which goes through sparse matrices and back). *)
Theorem C20_tensorize_spmats : forall (N : num), num_laws N -> forall s degree dirs (inputs : list (spmat N)) d, increasing d -> Permutation d (concat dirs) ->
  usable s (length d) degree -> Forall (fun dj => increasing dj /\ dj <> []) dirs ->
  Forall2 (fun dj A => sp_for s (length dj) degree A) dirs inputs ->
  exists C, tensorize_sps N s inputs dirs = Ok C /\ sp_for s (length d) degree C /\
    forall r c, index_of s (length d) degree r -> index_of s (length d) degree c ->
      entry s (length d) degree (dense C) r c = mproduct s degree d dirs (map (@dense N) inputs) r c.
Proof. exact tensorize_sp_entry. Qed.
Print Assumptions C20_tensorize_spmats.
Example C20_tensorize_spmats_example : num_laws num_Z /\ num_laws num_R /\
  let A := (Build_spmat num_Z 2 2 [[(0, 2%Z)]; [(0, 3%Z); (1, 4%Z)]]) in
  let B := (Build_spmat num_Z 2 2 [[(1, 5%Z)]; [(0, 7%Z)]]) in
  sp_for Triangle 1 1 A /\ sp_for Triangle 1 1 B /\
  exists C, tensorize_sps num_Z Triangle [A; B] [[3]; [1]] = Ok C /\ dense C = [[0; 0; 10]; [0; 0; 15]; [14; 0; 0]]%Z.
Proof.
  split; [exact num_Z_laws|]. split; [exact num_R_laws|]. cbv zeta. split; [|split].
  - split; [|split; vm_compute; reflexivity]. split; [reflexivity|]. repeat constructor.
  - split; [|split; vm_compute; reflexivity]. split; [reflexivity|]. repeat constructor.
  - eexists. split; vm_compute; reflexivity.
Qed.

Theorem C20_tensorize_mats : forall (N : num), num_laws N -> forall s degree dirs (inputs : list (list (list N))) d, increasing d -> Permutation d (concat dirs) ->
  usable s (length d) degree -> Forall (fun dj => increasing dj /\ dj <> []) dirs ->
  Forall2 (fun dj A => mat_for s (length dj) degree A) dirs inputs ->
  exists C, tensorize_mats N s inputs dirs = Ok C /\ mat_for s (length d) degree C /\
    forall r c, index_of s (length d) degree r -> index_of s (length d) degree c ->
      entry s (length d) degree C r c = mproduct s degree d dirs inputs r c.
Proof. exact tensorize_mat_entry. Qed.
Print Assumptions C20_tensorize_mats.
Example C20_tensorize_mats_example : Forall2 (fun dj A => mat_for (N := num_Z) Triangle (length dj) 1 A) [[3]; [1]] [[[2;0];[3;4]]; [[0;5];[7;0]]]%Z /\
  Permutation [1; 3] (concat [[3]; [1]]) /\
  tensorize_mats num_Z Triangle [[[2;0];[3;4]]; [[0;5];[7;0]]]%Z [[3]; [1]] = Ok [[0; 0; 10]; [0; 0; 15]; [14; 0; 0]]%Z.
Proof. split; [|split; [|vm_compute; reflexivity]]; [|apply perm_swap]. repeat constructor. Qed.

(** C21: permuting the (input, directions) pairs does not change the result. *)
Theorem C21_tensorize_vectors_any_order : forall (N : num), num_laws N -> forall s degree dirs dirs' (inputs inputs' : list (list N)), usable s (length (concat dirs)) degree ->
  dirs_ok (length (concat dirs)) dirs -> Forall2 (fun dj v => vec_for s (length dj) degree v) dirs inputs ->
  length inputs' = length dirs' -> Permutation (combine dirs inputs) (combine dirs' inputs') ->
  exists out, tensorize_vec N s inputs dirs = Ok out /\ tensorize_vec N s inputs' dirs' = Ok out.
Proof. exact tensorize_vec_perm. Qed.
Print Assumptions C21_tensorize_vectors_any_order.
Example C21_tensorize_vectors_any_order_example : Permutation (combine [[1]; [0; 2]] [[2; 3]; [5; 7; 11]]%Z) (combine [[0; 2]; [1]] [[5; 7; 11]; [2; 3]]%Z) /\
  tensorize_vec num_Z Triangle [[5; 7; 11]; [2; 3]]%Z [[0; 2]; [1]] = Ok [10; 14; 15; 22]%Z.
Proof. split; [apply perm_swap|vm_compute; reflexivity]. Qed.

Theorem C21_tensorize_matrices_any_order : forall (N : num), num_laws N -> forall s degree dirs dirs' (inputs inputs' : list (spmat N)) d, increasing d -> Permutation d (concat dirs) ->
  usable s (length d) degree -> Forall (fun dj => increasing dj /\ dj <> []) dirs ->
  Forall2 (fun dj A => sp_for s (length dj) degree A) dirs inputs ->
  length inputs' = length dirs' -> Permutation (combine dirs inputs) (combine dirs' inputs') ->
  exists C C', tensorize_sps N s inputs dirs = Ok C /\ tensorize_sps N s inputs' dirs' = Ok C' /\ dense C = dense C'.
Proof. exact tensorize_sp_perm. Qed.
Print Assumptions C21_tensorize_matrices_any_order.
Example C21_tensorize_matrices_any_order_example :
  tensorize_mats num_Z Triangle [[[0;5];[7;0]]; [[2;0];[3;4]]]%Z [[1]; [3]] = Ok [[0; 0; 10]; [0; 0; 15]; [14; 0; 0]]%Z.
Proof. vm_compute; reflexivity. Qed.

(** C22: projecting a tensor product on the directions of one argument gives that argument times the constant
    coefficients of the others.  On rectangles the first direction must be among them. *)
Theorem C22_project_tensorize : forall (N : num), num_laws N -> forall s degree dirs1 dk dirs2 (in1 : list (list N)) vk in2 dim,
  dim = length (concat (dirs1 ++ dk :: dirs2)) -> usable s dim degree -> dirs_ok dim (dirs1 ++ dk :: dirs2) -> NoDup (concat (dirs1 ++ dk :: dirs2)) ->
  Forall2 (fun dj v => vec_for s (length dj) degree v) dirs1 in1 -> vec_for s (length dk) degree vk ->
  Forall2 (fun dj v => vec_for s (length dj) degree v) dirs2 in2 ->
  (s = Rectangle -> In 0 dk) ->
  exists t out, tensorize_vec N s (in1 ++ vk :: in2) (dirs1 ++ dk :: dirs2) = Ok t /\ project_vec N s t dim dk = Ok out /\
    out = map (nmul (nprod (map (fun '(dj, v) => coef s (length dj) degree v (repeat 0 (length dj))) (combine (dirs1 ++ dirs2) (in1 ++ in2))))) vk.
Proof. exact project_tensorize. Qed.
Print Assumptions C22_project_tensorize.
Example C22_project_tensorize_example : project_vec num_Z Triangle [10; 14; 15; 22]%Z 3 [0; 2] = Ok [10; 14; 22]%Z /\ map (Z.mul 2) [5; 7; 11]%Z = [10; 14; 22]%Z /\
  coef (N := num_Z) Triangle 1 1 [2; 3]%Z (repeat 0 1) = 2%Z.
Proof. repeat apply conj; vm_compute; reflexivity. Qed.

(** C22 on a rectangle, without direction 0: the coefficients of degree above degree/2 are lost. *)
Theorem C22_rectangle_refuted : exists (v0 v1 t out : list num_Z), vec_for Rectangle 1 2 v0 /\ vec_for Rectangle 1 2 v1 /\ coef Rectangle 1 2 v0 [0] = 1%Z /\
  tensorize_vec num_Z Rectangle [v0; v1] [[0]; [1]] = Ok t /\ project_vec num_Z Rectangle t 2 [1] = Ok out /\ out <> v1.
Proof. exact project_tensorize_rectangle. Qed.
Print Assumptions C22_rectangle_refuted.

(** C23: tensorizing with constants and identities. *)
Theorem C23_vector_with_constants : forall (N : num), num_laws N -> forall s dim degree dir (v : list N), usable s dim degree -> dir < dim -> vec_for s 1 degree v ->
  exists out, tensorize_vec_id N s v dim dir = Ok out /\ vec_for s dim degree out /\
    forall m, index_of s dim degree m ->
      ((forall i, i < dim -> i <> dir -> nth i m 0 = 0) -> coef s dim degree out m = coef s 1 degree v [nth dir m 0]) /\
      (forall i, i < dim -> i <> dir -> nth i m 0 <> 0 -> coef s dim degree out m = n0).
Proof. exact tensorize_vec_id_coef. Qed.
Print Assumptions C23_vector_with_constants.
Example C23_vector_with_constants_example : vec_for (N := num_Z) Triangle 1 2 [5; 6; 7]%Z /\ tensorize_vec_id num_Z Triangle [5; 6; 7]%Z 2 1 = Ok [5; 6; 0; 7; 0; 0]%Z.
Proof. repeat apply conj; vm_compute; reflexivity. Qed.

Theorem C23_matrix_with_identity : forall (N : num), num_laws N -> forall s dim degree dir (A : spmat N), usable s dim degree -> dir < dim -> sp_for s 1 degree A ->
  exists out, tensorize_sp_id N s A dim dir = Ok out /\ sp_for s dim degree out /\
    forall r c, index_of s dim degree r -> index_of s dim degree c ->
      ((forall i, i < dim -> i <> dir -> nth i r 0 = nth i c 0) ->
        entry s dim degree (dense out) r c = entry s 1 degree (dense A) [nth dir r 0] [nth dir c 0]) /\
      (forall i, i < dim -> i <> dir -> nth i r 0 <> nth i c 0 -> entry s dim degree (dense out) r c = n0).
Proof. exact tensorize_sp_id_entry. Qed.
Print Assumptions C23_matrix_with_identity.
Example C23_matrix_with_identity_example :
  let A := (Build_spmat num_Z 2 2 [[(0, 2%Z); (1, 5%Z)]; [(0, 3%Z); (1, 4%Z)]]) in
  sp_for Triangle 1 1 A /\ exists C, tensorize_sp_id num_Z Triangle A 2 0 = Ok C /\ dense C = [[2; 0; 5]; [0; 2; 0]; [3; 0; 4]]%Z.
Proof.
  cbv zeta. split.
  - split; [|split; vm_compute; reflexivity]. split; [reflexivity|]. repeat constructor.
  - eexists. split; vm_compute; reflexivity.
Qed.

(** C24: the inner product contracts the shared directions; the result is on the symmetric difference. *)
Theorem C24_inner_contracts : forall (N : num), num_laws N -> forall s degree d1 d2 dres dinn (v1 v2 : list N), increasing d1 -> increasing d2 -> d1 <> [] -> d2 <> [] ->
  inner_dirs d1 d2 dres dinn -> usable s (length d1) degree -> usable s (length d2) degree -> (dres <> [] -> usable s (length dres) degree) ->
  vec_for s (length d1) degree v1 -> vec_for s (length d2) degree v2 ->
  exists out, inner N s v1 v2 d1 d2 = Ok out /\ vec_for s (length dres) degree out /\
    forall r, index_of s (length dres) degree r -> coef s (length dres) degree out r = contraction s degree d1 d2 dres dinn v1 v2 r.
Proof. exact inner_coef. Qed.
Print Assumptions C24_inner_contracts.
Example C24_inner_contracts_example : inner_dirs [0; 1] [1; 2] [0; 2] [1] /\ vec_for (N := num_Z) Triangle 2 1 [1; 2; 3]%Z /\
  inner num_Z Triangle [1; 2; 3]%Z [10; 20; 30]%Z [0; 1] [1; 2] = Ok [70; 20; 30]%Z.
Proof.
  split; [|repeat apply conj; vm_compute; reflexivity].
  split; [repeat constructor|]. split; [repeat constructor|]. split; intros x; cbn [In]; lia.
Qed.

(** C24: the sum over the shared multi-indices misses none: any multi-index of v1 has its shared part in the set. *)
Theorem C24_nothing_missed : forall s degree d1 d2 dres dinn q r, increasing d1 -> inner_dirs d1 d2 dres dinn -> d1 <> [] ->
  length r = length dres -> length q = length dinn -> in_set s degree (reindex (dres ++ dinn) d1 (r ++ q)) -> in_set s degree q.
Proof. exact contraction_complete. Qed.
Print Assumptions C24_nothing_missed.
Example C24_nothing_missed_example : reindex ([0; 2] ++ [1]) [0; 1] ([3; 5] ++ [4]) = [3; 4] /\ in_set Triangle 7 [3; 4] /\ in_set Triangle 7 [4].
Proof. repeat apply conj; vm_compute; first [reflexivity | lia]. Qed.

(** C25: symmetry, linearity, dot product on identical directions, tensor product on disjoint ones. *)
Theorem C25_inner_symmetric : forall (N : num), num_laws N -> forall s degree d1 d2 dres dinn (v1 v2 : list N), increasing d1 -> increasing d2 -> d1 <> [] -> d2 <> [] ->
  inner_dirs d1 d2 dres dinn -> usable s (length d1) degree -> usable s (length d2) degree -> (dres <> [] -> usable s (length dres) degree) ->
  vec_for s (length d1) degree v1 -> vec_for s (length d2) degree v2 ->
  inner N s v1 v2 d1 d2 = inner N s v2 v1 d2 d1.
Proof. exact inner_sym. Qed.
Print Assumptions C25_inner_symmetric.
Example C25_inner_symmetric_example : inner num_Z Triangle [10; 20; 30]%Z [1; 2; 3]%Z [1; 2] [0; 1] = Ok [70; 20; 30]%Z.
Proof. vm_compute; reflexivity. Qed.

Theorem C25_inner_linear : forall (N : num), num_laws N -> forall s degree d1 d2 dres dinn a b (v1 w1 v2 : list N), increasing d1 -> increasing d2 -> d1 <> [] -> d2 <> [] ->
  inner_dirs d1 d2 dres dinn -> usable s (length d1) degree -> usable s (length d2) degree -> (dres <> [] -> usable s (length dres) degree) ->
  vec_for s (length d1) degree v1 -> vec_for s (length d1) degree w1 -> vec_for s (length d2) degree v2 ->
  exists x y, inner N s v1 v2 d1 d2 = Ok x /\ inner N s w1 v2 d1 d2 = Ok y /\ inner N s (lincomb a b v1 w1) v2 d1 d2 = Ok (lincomb a b x y).
Proof. exact inner_linear. Qed.
Print Assumptions C25_inner_linear.
Example C25_inner_linear_example : lincomb (N := num_Z) 2%Z 3%Z [1; 2; 3]%Z [1; 0; 0]%Z = [5; 4; 6]%Z /\
  inner num_Z Triangle [1; 0; 0]%Z [10; 20; 30]%Z [0; 1] [1; 2] = Ok [10; 20; 0]%Z /\
  inner num_Z Triangle [5; 4; 6]%Z [10; 20; 30]%Z [0; 1] [1; 2] = Ok (lincomb (N := num_Z) 2%Z 3%Z [70; 20; 30]%Z [10; 20; 0]%Z).
Proof. repeat apply conj; vm_compute; reflexivity. Qed.

Theorem C25_inner_dot : forall (N : num), num_laws N -> forall s degree d (v w : list N), increasing d -> d <> [] -> usable s (length d) degree ->
  vec_for s (length d) degree v -> vec_for s (length d) degree w ->
  inner N s v w d d = Ok [nsum (map (fun '(x, y) => nmul x y) (combine v w))].
Proof. exact inner_dot. Qed.
Print Assumptions C25_inner_dot.
Example C25_inner_dot_example : inner num_Z Triangle [1; 2; 3]%Z [10; 20; 30]%Z [4; 9] [4; 9] = Ok [140]%Z.
Proof. vm_compute; reflexivity. Qed.

Theorem C25_inner_is_tensor_product : forall (N : num), num_laws N -> forall s degree d1 d2 dres (v1 v2 : list N), increasing d1 -> increasing d2 -> d1 <> [] -> d2 <> [] ->
  increasing dres -> Permutation dres (d1 ++ d2) -> usable s (length dres) degree ->
  vec_for s (length d1) degree v1 -> vec_for s (length d2) degree v2 ->
  exists out, inner N s v1 v2 d1 d2 = Ok out /\ vec_for s (length dres) degree out /\
    forall r, index_of s (length dres) degree r -> coef s (length dres) degree out r =
      nmul (coef s (length d1) degree v1 (reindex dres d1 r)) (coef s (length d2) degree v2 (reindex dres d2 r)).
Proof. exact inner_tensor. Qed.
Print Assumptions C25_inner_is_tensor_product.
Example C25_inner_is_tensor_product_example : Permutation [1; 3] ([3] ++ [1]) /\ inner num_Z Triangle [2; 3]%Z [5; 7]%Z [3] [1] = Ok [10; 15; 14]%Z.
Proof. split; [apply perm_swap|vm_compute; reflexivity]. Qed.

Theorem C25_inner_agrees_with_tensorize : forall (N : num), num_laws N -> forall s degree d1 d2 dim (v1 v2 : list N), increasing d1 -> increasing d2 -> d1 <> [] -> d2 <> [] ->
  Permutation (seq 0 dim) (d1 ++ d2) -> usable s dim degree ->
  vec_for s (length d1) degree v1 -> vec_for s (length d2) degree v2 ->
  exists out, inner N s v1 v2 d1 d2 = Ok out /\ tensorize_vec N s [v1; v2] [d1; d2] = Ok out.
Proof. exact inner_tensorize. Qed.
Print Assumptions C25_inner_agrees_with_tensorize.
Example C25_inner_agrees_with_tensorize_example : Permutation (seq 0 2) ([1] ++ [0]) /\
  inner num_Z Triangle [2; 3]%Z [5; 7]%Z [1] [0] = Ok [10; 15; 14]%Z /\ tensorize_vec num_Z Triangle [[2; 3]; [5; 7]]%Z [[1]; [0]] = Ok [10; 15; 14]%Z.
Proof. split; [apply perm_swap|]. repeat apply conj; vm_compute; reflexivity. Qed.

(** C26: conversions. *)
Theorem C26_dense_sparse_dense : forall (N : num), num_laws N -> forall n m (A : list (list N)), mat_wf n m A -> 0 < n ->
  exists B, to_spmat N A = Ok B /\ sp_wf B /\ sp_size1 N B = n /\ sp_size2 N B = m /\ full N B = Ok A.
Proof. exact dense_sparse_dense. Qed.
Print Assumptions C26_dense_sparse_dense.
Example C26_dense_sparse_dense_example : mat_wf 2 3 [[0; 5; 0]; [7; 0; 0]]%Z /\
  exists B, to_spmat num_Z [[0; 5; 0]; [7; 0; 0]]%Z = Ok B /\ sp_rows num_Z B = [[(1, 5%Z)]; [(0, 7%Z)]] /\ full num_Z B = Ok [[0; 5; 0]; [7; 0; 0]]%Z.
Proof. split; [split; [reflexivity|repeat constructor]|]. eexists. repeat apply conj; vm_compute; reflexivity. Qed.

Theorem C26_empty_matrix_undefined : forall N : num, to_spmat N [] = Ub.
Proof. exact to_spmat_empty. Qed.
Print Assumptions C26_empty_matrix_undefined.

Theorem C26_full : forall (N : num) (A : spmat N), sp_wf A -> full N A = Ok (dense A).
Proof. exact full_ok. Qed.
Print Assumptions C26_full.
Example C26_full_example :
  let A := (Build_spmat num_Z 2 3 [[(1, 5%Z)]; [(0, 7%Z)]]) in sp_wf A /\ full num_Z A = Ok [[0; 5; 0]; [7; 0; 0]]%Z.
Proof. cbv zeta. split; [split; [reflexivity|repeat constructor]|vm_compute; reflexivity]. Qed.

Theorem C26_row_col_val : forall (N : num), num_laws N -> forall A : spmat N, sp_wf A ->
  (forall i j x, In (i, j, x) (row_col_val N A) -> i < sp_size1 N A /\ j < sp_size2 N A) /\
  NoDup (map fst (row_col_val N A)) /\
  (forall i j, i < sp_size1 N A -> j < sp_size2 N A -> triples_entry (row_col_val N A) i j = nth j (nth i (dense A) []) n0).
Proof. exact triples_faithful. Qed.
Print Assumptions C26_row_col_val.
Example C26_row_col_val_example :
  row_col_val num_Z (Build_spmat num_Z 2 3 [[(1, 5%Z)]; [(0, 7%Z); (2, 8%Z)]]) = [(0, 1, 5%Z); (1, 0, 7%Z); (1, 2, 8%Z)].
Proof. vm_compute; reflexivity. Qed.

Theorem C26_from_csr : forall (N : num), num_laws N -> forall (data : list N) indices indptr n m,
  csr_wf data indices indptr n m -> csr_distinct indices indptr n ->
  exists B, csr_to_spmat N data indices indptr n m = Ok B /\ sp_wf B /\ sp_size1 N B = n /\ sp_size2 N B = m /\
    forall i c, i < n -> c < m -> nth c (nth i (dense B) []) n0 = csr_entry data indices indptr i c.
Proof. exact csr_faithful. Qed.
Print Assumptions C26_from_csr.
Example C26_from_csr_example : csr_wf (N := num_Z) [5; 7; 8]%Z [1; 2; 0] [0; 1; 3] 2 3 /\ csr_distinct [1; 2; 0] [0; 1; 3] 2 /\
  exists B, csr_to_spmat num_Z [5; 7; 8]%Z [1; 2; 0] [0; 1; 3] 2 3 = Ok B /\ dense B = [[0; 5; 0]; [8; 0; 7]]%Z.
Proof.
  split; [|split; [|eexists; split; vm_compute; reflexivity]].
  - split; [cbn; lia|]. split; [reflexivity|]. split; [intros [|[|i]] H; cbn; lia|repeat constructor].
  - intros [|[|i]] [|[|[|j]]] [|[|[|j']]] Hi Hj Hj' E; cbn in *; try lia.
Qed.

(** C26: with duplicate entries in a row the last one wins, although the triple denotes their sum. *)
Theorem C26_csr_duplicates_refuted : exists (data : list num_Z) indices indptr B, csr_wf data indices indptr 1 1 /\
  csr_to_spmat num_Z data indices indptr 1 1 = Ok B /\ nth 0 (nth 0 (dense B) []) 0%Z <> csr_entry data indices indptr 0 0.
Proof. exact csr_duplicates. Qed.
Print Assumptions C26_csr_duplicates_refuted.
