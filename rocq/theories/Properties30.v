(** Property C95: tensorize, project and inner of the Python interface on numbers, arrays and sparse matrices. *)
From Coq Require Import String List Bool Arith ZArith Lia Permutation.
From Verif Require Import Base PyBase IndexModel Spec Num LinModel LinSpec LinBase Facts2 CoreModel CoreSpec CoreFacts2.
Import ListNotations.
Local Open Scope string_scope. Local Open Scope list_scope. Local Open Scope nat_scope.

(** C95: a dict from directions to matrices, dense or sparse in any mixture: the entries multiply, and the result is sparse exactly if that is asked for. *)
Theorem C95_dict_matrices : forall (N : num), num_laws N -> forall s degree (l : list (list nat * parr N)) d dim direction sparse, increasing d -> Permutation d (concat (map fst l)) -> usable s (length d) degree ->
  Forall (fun z => increasing (fst z) /\ fst z <> [] /\ matrix_for s (length (fst z)) degree (snd z)) l ->
  exists out, tensorize N (IDict l) dim direction sparse (set_name s) = Ok out /\ is_csr out = sparse /\ matrix_for s (length d) degree out /\ no_duplicates out /\
    forall r c, index_of s (length d) degree r -> index_of s (length d) degree c ->
      entry s (length d) degree (contents out) r c = mproduct s degree d (map fst l) (map (fun z => contents (snd z)) l) r c.
Proof. exact dict_matrices. Qed.
Print Assumptions C95_dict_matrices.
Definition csr_sample : csr num_Z := Csr (N := num_Z) [2; 3; 1]%Z [0; 0; 1] [0; 1; 3] 2 2.
Example C95_dict_matrices_example :
  Forall (fun z => increasing (fst z) /\ fst z <> [] /\ matrix_for Triangle (length (fst z)) 1 (snd z)) [([3], PCsr csr_sample); ([1], PMat (N := num_Z) [[0; 5]; [7; 0]]%Z)] /\ Permutation [1; 3] (concat [[3]; [1]]) /\
  tensorize num_Z (IDict [([3], PCsr csr_sample); ([1], PMat (N := num_Z) [[0; 5]; [7; 0]]%Z)]) None None false "triangle" = Ok (PMat (N := num_Z) [[0; 0; 10]; [0; 0; 15]; [14; 0; 0]]%Z) /\
  tensorize num_Z (IDict [([3], PCsr csr_sample); ([1], PMat (N := num_Z) [[0; 5]; [7; 0]]%Z)]) None None true "triangle" = Ok (PCsr (Csr (N := num_Z) [10; 15; 14]%Z [2; 2; 0] [0; 1; 2; 3] 3 3)).
Proof.
  split; [|split; [cbn; apply perm_swap|split; vm_compute; reflexivity]]. apply Forall_cons; [|apply Forall_cons; [|apply Forall_nil]]; (split; [repeat constructor|split; [discriminate|]]).
  - split; [|split; reflexivity]. split; [cbn; lia|]. split; [reflexivity|]. split; [intros [|[|i]] Hi; cbn in *; lia|repeat constructor].
  - repeat constructor.
Qed.

(** A list of matrices, all dense or all sparse: one direction each. *)
Theorem C95_list_matrices : forall (N : num), num_laws N -> forall s degree (l : list (parr N)) sparse kind, usable s (length l) degree -> Forall (fun a => matrix_for s 1 degree a /\ is_csr a = kind) l ->
  exists out, tensorize N (IList l) None None sparse (set_name s) = Ok out /\ is_csr out = sparse /\ matrix_for s (length l) degree out /\ no_duplicates out /\
    forall r c, index_of s (length l) degree r -> index_of s (length l) degree c ->
      entry s (length l) degree (contents out) r c = nprod (map (fun i => entry s 1 degree (contents (nth i l (PNum n0))) [nth i r 0] [nth i c 0]) (seq 0 (length l))).
Proof. exact list_matrices. Qed.
Print Assumptions C95_list_matrices.
Example C95_list_matrices_example : usable Triangle 2 1 /\ Forall (fun a => matrix_for Triangle 1 1 a /\ is_csr a = false) [PMat (N := num_Z) [[0; 5]; [7; 0]]; PMat (N := num_Z) [[2; 0]; [3; 1]]]%Z /\
  tensorize num_Z (IList [PMat (N := num_Z) [[0; 5]; [7; 0]]; PMat (N := num_Z) [[2; 0]; [3; 1]]]%Z) None None false "triangle" = Ok (PMat (N := num_Z) [[0; 0; 10]; [0; 0; 15]; [14; 0; 0]]%Z).
Proof. split; [apply usable_dim4; lia|]. split; [repeat constructor|vm_compute; reflexivity]. Qed.

(** One matrix in one direction: the identity in the others. *)
Theorem C95_one_matrix : forall (N : num), num_laws N -> forall s dim degree dir (a : parr N) sparse, usable s dim degree -> dir < dim -> matrix_for s 1 degree a ->
  exists out, tensorize N (IOne a) (Some dim) (Some dir) sparse (set_name s) = Ok out /\ is_csr out = sparse /\ matrix_for s dim degree out /\ no_duplicates out /\
    forall r c, index_of s dim degree r -> index_of s dim degree c ->
      ((forall i, i < dim -> i <> dir -> nth i r 0 = nth i c 0) -> entry s dim degree (contents out) r c = entry s 1 degree (contents a) [nth dir r 0] [nth dir c 0]) /\
      (forall i, i < dim -> i <> dir -> nth i r 0 <> nth i c 0 -> entry s dim degree (contents out) r c = n0).
Proof. exact one_matrix. Qed.
Print Assumptions C95_one_matrix.
Example C95_one_matrix_example : usable Triangle 2 1 /\ matrix_for Triangle 1 1 (PMat (N := num_Z) [[2; 0]; [3; 1]]%Z) /\
  tensorize num_Z (IOne (PMat (N := num_Z) [[2; 0]; [3; 1]]%Z)) (Some 2) (Some 1) true "triangle" = Ok (PCsr (Csr (N := num_Z) [2; 3; 1; 2]%Z [0; 0; 1; 2] [0; 1; 3; 4] 3 3)).
Proof. split; [apply usable_dim4; lia|]. split; [repeat constructor|vm_compute; reflexivity]. Qed.

(** Vectors: a dict, a list, one vector with constants in the other directions. *)
Theorem C95_dict_vectors : forall (N : num) s degree (l : list (list nat * list N)) n dim direction, n = length (concat (map fst l)) -> usable s n degree -> dirs_ok n (map fst l) ->
  Forall (fun z => vec_for s (length (fst z)) degree (snd z)) l ->
  exists out, tensorize N (IDict (map (fun z => (fst z, PVec (snd z))) l)) dim direction false (set_name s) = Ok (PVec out) /\ vec_for s n degree out /\
    forall m, index_of s n degree m -> coef s n degree out m = vproduct s n degree (map fst l) (map snd l) m.
Proof. exact dict_vectors. Qed.
Print Assumptions C95_dict_vectors.
Example C95_dict_vectors_example : dirs_ok 3 [[1]; [0; 2]] /\ Forall (fun z => vec_for (N := num_Z) Triangle (length (fst z)) 1 (snd z)) [([1], [2; 3]%Z); ([0; 2], [5; 7; 11]%Z)] /\
  tensorize num_Z (IDict [([1], PVec (N := num_Z) [2; 3]%Z); ([0; 2], PVec (N := num_Z) [5; 7; 11]%Z)]) None None false "triangle" = Ok (PVec (N := num_Z) [10; 14; 15; 22]%Z).
Proof. split; [|split; [repeat constructor|vm_compute; reflexivity]]. repeat constructor; try discriminate; cbn; lia. Qed.

Theorem C95_list_vectors : forall (N : num) s degree (l : list (list N)), usable s (length l) degree -> Forall (fun v => vec_for s 1 degree v) l ->
  exists out, tensorize N (IList (map PVec l)) None None false (set_name s) = Ok (PVec out) /\ vec_for s (length l) degree out /\
    forall m, index_of s (length l) degree m -> coef s (length l) degree out m = nprod (map (fun '(k, v) => coef s 1 degree v [k]) (combine m l)).
Proof. exact list_vectors. Qed.
Print Assumptions C95_list_vectors.
Example C95_list_vectors_example : Forall (fun v => vec_for (N := num_Z) Cube 1 1 v) [[2; 3]; [5; 7]]%Z /\ tensorize num_Z (IList [PVec (N := num_Z) [2; 3]; PVec (N := num_Z) [5; 7]]%Z) None None false "cube" = Ok (PVec (N := num_Z) [10; 15; 14; 21]%Z).
Proof. split; [repeat constructor|vm_compute; reflexivity]. Qed.

Theorem C95_one_vector : forall (N : num), num_laws N -> forall s dim degree dir (v : list N), usable s dim degree -> dir < dim -> vec_for s 1 degree v ->
  exists out, tensorize N (IOne (PVec v)) (Some dim) (Some dir) false (set_name s) = Ok (PVec out) /\ vec_for s dim degree out /\
    forall m, index_of s dim degree m ->
      ((forall i, i < dim -> i <> dir -> nth i m 0 = 0) -> coef s dim degree out m = coef s 1 degree v [nth dir m 0]) /\
      (forall i, i < dim -> i <> dir -> nth i m 0 <> 0 -> coef s dim degree out m = n0).
Proof. exact one_vector. Qed.
Print Assumptions C95_one_vector.
Example C95_one_vector_example : vec_for (N := num_Z) Triangle 1 2 [5; 6; 7]%Z /\ tensorize num_Z (IOne (PVec (N := num_Z) [5; 6; 7]%Z)) (Some 2) (Some 1) false "triangle" = Ok (PVec (N := num_Z) [5; 6; 0; 7; 0; 0]%Z).
Proof. split; vm_compute; reflexivity. Qed.

(** Numbers: their product. *)
Theorem C95_numbers : forall (N : num) (l : list (list nat * N)) dim direction sparse name, l <> [] ->
  tensorize N (IDict (map (fun z => (fst z, PNum (snd z))) l)) dim direction sparse name = Ok (PNum (nprod (map snd l))) /\
  tensorize N (IList (map PNum (map snd l))) None None sparse name = Ok (PNum (nprod (map snd l))).
Proof.
  intros N l dim direction sparse name H. split; [exact (dict_numbers N l dim direction sparse name H)|]. apply list_numbers. destruct l; [contradiction|discriminate].
Qed.
Print Assumptions C95_numbers.
Example C95_numbers_example : tensorize num_Z (IList [PNum (N := num_Z) 2; PNum (N := num_Z) 3; PNum (N := num_Z) 7]%Z) None None false "triangle" = Ok (PNum (N := num_Z) 42%Z).
Proof. vm_compute; reflexivity. Qed.

(** project of a vector, and of a matrix: a dense matrix gives a dense one, a sparse matrix a sparse one. *)
Theorem C95_project_vector : forall (N : num) s dim degree dirs (v : list N), usable s dim degree -> vec_for s dim degree v -> increasing dirs -> dirs <> [] -> Forall (fun x => x < dim) dirs ->
  exists out, project N (PVec v) dim (inr dirs) (set_name s) = Ok (PVec out) /\ vec_for s (length dirs) degree out /\
    forall m, index_of s (length dirs) degree m -> coef s (length dirs) degree out m = coef s dim degree v (reindex dirs (seq 0 dim) m).
Proof. exact project_vector. Qed.
Print Assumptions C95_project_vector.
Example C95_project_vector_example : project num_Z (PVec (N := num_Z) [7; 8; 9; 10]%Z) 3 (inr [0; 2]) "triangle" = Ok (PVec (N := num_Z) [7; 8; 10]%Z) /\ project num_Z (PVec (N := num_Z) [7; 8; 9; 10]%Z) 3 (inl 1) "triangle" = Ok (PVec (N := num_Z) [7; 9]%Z).
Proof. split; vm_compute; reflexivity. Qed.

Theorem C95_project_matrix : forall (N : num), num_laws N -> forall s dim degree dirs (a : parr N), usable s dim degree -> matrix_for s dim degree a -> no_duplicates a ->
  increasing dirs -> dirs <> [] -> Forall (fun x => x < dim) dirs ->
  exists out, project N a dim (inr dirs) (set_name s) = Ok out /\ is_csr out = is_csr a /\ matrix_for s (length dirs) degree out /\ no_duplicates out /\
    forall r c, index_of s (length dirs) degree r -> index_of s (length dirs) degree c ->
      entry s (length dirs) degree (contents out) r c = entry s dim degree (contents a) (reindex dirs (seq 0 dim) r) (reindex dirs (seq 0 dim) c).
Proof. exact project_matrix. Qed.
Print Assumptions C95_project_matrix.
Example C95_project_matrix_example :
  let a := PCsr (Csr (N := num_Z) [3; 1; 7; 8]%Z [2; 0; 0; 1] [0; 2; 2; 4] 3 3) in
  matrix_for Triangle 2 1 a /\ no_duplicates a /\ contents a = [[1; 0; 3]; [0; 0; 0]; [7; 8; 0]]%Z /\ project num_Z a 2 (inr [0]) "triangle" = Ok (PCsr (Csr (N := num_Z) [1; 3; 7; 0]%Z [0; 1; 0; 1] [0; 2; 4] 2 2)).
Proof.
  cbv zeta. split; [|split; [|split; vm_compute; reflexivity]].
  - split; [|split; reflexivity]. split; [cbn; lia|]. split; [reflexivity|]. split; [intros [|[|[|i]]] Hi; cbn in *; lia|repeat constructor].
  - intros [|[|[|i]]] [|[|[|[|j]]]] [|[|[|[|j']]]] Hi Hj Hj' E; cbn in *; try lia.
Qed.

(** A sparse matrix with a value stored twice: project keeps the last one, tensorize adds them. *)
Theorem C95_duplicates_refuted : ~ forall s dim degree dirs (a : parr num_Z), usable s dim degree -> matrix_for s dim degree a -> increasing dirs -> dirs <> [] -> Forall (fun x => x < dim) dirs ->
  exists out, project num_Z a dim (inr dirs) (set_name s) = Ok out /\
    forall r c, index_of s (length dirs) degree r -> index_of s (length dirs) degree c ->
      entry s (length dirs) degree (contents out) r c = entry s dim degree (contents a) (reindex dirs (seq 0 dim) r) (reindex dirs (seq 0 dim) c).
Proof.
  intros H. destruct (H Triangle 1 0 [0] (PCsr (Csr (N := num_Z) [1; 2]%Z [0; 0] [0; 2] 1 1))) as (out & O1 & O2).
  - apply usable_dim4; lia.
  - split; [|split; reflexivity]. split; [cbn; lia|]. split; [reflexivity|]. split; [intros [|i] Hi; cbn in *; lia|repeat constructor].
  - repeat constructor.
  - discriminate.
  - repeat constructor.
  - vm_compute in O1. injection O1 as <-. assert (I0 : index_of Triangle 1 0 [0]) by (split; [reflexivity|cbn; lia]). specialize (O2 [0] [0] I0 I0). vm_compute in O2. discriminate O2.
Qed.
Print Assumptions C95_duplicates_refuted.

(** inner contracts the shared directions. *)
Theorem C95_inner : forall (N : num), num_laws N -> forall s degree d1 d2 dres dinn (v1 v2 : list N), increasing d1 -> increasing d2 -> d1 <> [] -> d2 <> [] ->
  inner_dirs d1 d2 dres dinn -> usable s (length d1) degree -> usable s (length d2) degree -> (dres <> [] -> usable s (length dres) degree) ->
  vec_for s (length d1) degree v1 -> vec_for s (length d2) degree v2 ->
  exists out, core_inner N (PVec v1) (PVec v2) d1 d2 (set_name s) = Ok (PVec out) /\ vec_for s (length dres) degree out /\
    forall r, index_of s (length dres) degree r -> coef s (length dres) degree out r = contraction s degree d1 d2 dres dinn v1 v2 r.
Proof. exact inner_vectors. Qed.
Print Assumptions C95_inner.
Example C95_inner_example : inner_dirs [0; 1] [1; 2] [0; 2] [1] /\ core_inner num_Z (PVec (N := num_Z) [1; 2; 3]%Z) (PVec (N := num_Z) [10; 20; 30]%Z) [0; 1] [1; 2] "triangle" = Ok (PVec (N := num_Z) [70; 20; 30]%Z).
Proof.
  split; [|vm_compute; reflexivity]. split; [repeat constructor|]. split; [repeat constructor|]. split; intros x; cbn; lia.
Qed.

(** A sparse result is never given for vectors: tensorize_sp is registered for matrices only. *)
Theorem C95_sparse_vectors_refuted : forall (N : num) (l : list (list nat * list N)) (v : list N) dim direction name, l <> [] -> Forall (fun z => snd z <> []) l -> v <> [] ->
  tensorize N (IDict (map (fun z => (fst z, PVec (snd z))) l)) dim direction true name = Throw "ArgumentError" /\
  tensorize N (IList (map (fun z => PVec (snd z)) l)) None None true name = Throw "ArgumentError" /\
  forall d i, tensorize N (IOne (PVec v)) (Some d) (Some i) true name = Throw "ArgumentError".
Proof. exact sparse_vectors. Qed.
Print Assumptions C95_sparse_vectors_refuted.
Example C95_sparse_vectors_refuted_example : let l := [([0], [1; 2]%Z)] in l <> [] /\ Forall (fun z => snd z <> []) l.
Proof. split; [discriminate|]. repeat constructor. discriminate. Qed.

(** An unknown index set: the enumeration raises ValueError, but tensorize and project end the process. *)
Theorem C95_unknown_set_refuted : forall (N : num) name, (forall s, name <> set_name s) -> forall (v : list N) dims dirs dim direction, v <> [] ->
  tensorize N (IOne (PVec v)) (Some dim) (Some direction) false name = Exit 1 /\ project N (PVec v) dims dirs name = Exit 1 /\
  forall degree, iterator_list_indices dims degree name = Throw "ValueError".
Proof. exact unknown_name. Qed.
Print Assumptions C95_unknown_set_refuted.
Example C95_unknown_set_refuted_example : forall s, "Triangle" <> set_name s.
Proof. intros []; discriminate. Qed.

(** The directions of a dict are frozensets.  CPython lists a frozenset of directions below 8 in increasing order. *)
Theorem C95_small_directions : forall l, increasing l -> Forall (fun x => x < 8) l -> frozenset_list l = l.
Proof. exact frozenset_small. Qed.
Print Assumptions C95_small_directions.
Example C95_small_directions_example : increasing [0; 3; 7] /\ Forall (fun x => x < 8) [0; 3; 7].
Proof. split; repeat constructor. Qed.

(** But not of larger ones: frozenset({1, 8}) is listed as 8, 1, and the tensor product is then wrong. *)
Theorem C95_large_directions_refuted : ~ forall s degree (l : list (list nat * parr num_Z)) d, increasing d -> Permutation d (concat (map fst l)) -> usable s (length d) degree ->
  Forall (fun z => increasing (fst z) /\ fst z <> [] /\ matrix_for s (length (fst z)) degree (snd z)) l ->
  exists out, tensorize num_Z (IDict (map (fun z => (frozenset_list (fst z), snd z)) l)) None None false (set_name s) = Ok out /\
    forall r c, index_of s (length d) degree r -> index_of s (length d) degree c ->
      entry s (length d) degree (contents out) r c = mproduct s degree d (map fst l) (map (fun z => contents (snd z)) l) r c.
Proof.
  intros H. destruct (H Triangle 1 [([1; 8], PMat (N := num_Z) [[1; 0; 0]; [0; 2; 0]; [0; 0; 3]]%Z); ([2], PMat (N := num_Z) [[1; 0]; [0; 1]]%Z)] [1; 2; 8]) as (out & O1 & O2).
  - repeat constructor.
  - cbn. apply perm_skip, perm_swap.
  - apply usable_dim4; cbn; lia.
  - apply Forall_cons; [|apply Forall_cons; [|apply Forall_nil]]; (split; [repeat constructor|split; [discriminate|]]); repeat constructor.
  - vm_compute in O1. injection O1 as <-. assert (I0 : index_of Triangle 3 1 [1; 0; 0]) by (split; [reflexivity|cbn; lia]). specialize (O2 [1; 0; 0] [1; 0; 0] I0 I0). vm_compute in O2. discriminate O2.
Qed.
Print Assumptions C95_large_directions_refuted.

(** C95: project with a single direction is project with the list of this direction, for every array and index set. *)
Theorem C95_project_one : forall (N : num) (a : parr N) dim i name, project N a dim (inl i) name = project N a dim (inr [i]) name.
Proof. reflexivity. Qed.
Print Assumptions C95_project_one.
Example C95_project_one_example : project num_Z (PVec (N := num_Z) [7; 8; 9; 10]%Z) 3 (inr [1]) "triangle" = Ok (PVec (N := num_Z) [7; 9]%Z).
Proof. vm_compute. reflexivity. Qed.

(** C95: arguments that make no sense raise: a dimension or a direction with a list, a single array without one of them, nothing to multiply. *)
Theorem C95_wrong_arguments : forall (N : num) (l : list (parr N)) (a : parr N) dim direction sparse name,
  (dim <> None \/ direction <> None -> tensorize N (IList l) dim direction sparse name = Throw "AssertionError") /\
  (dim = None \/ direction = None -> tensorize N (IOne a) dim direction sparse name = Throw "AssertionError") /\
  tensorize N (IList []) None None sparse name = Throw "IndexError" /\ tensorize N (IDict []) dim direction sparse name = Throw "IndexError".
Proof.
  intros N l a dim direction sparse name. split; [|split; [|split; reflexivity]].
  - intros [H|H]; destruct dim, direction; (reflexivity || congruence).
  - intros [H|H]; destruct dim, direction; (reflexivity || congruence).
Qed.
Print Assumptions C95_wrong_arguments.
Example C95_wrong_arguments_example : Some 2 <> None \/ @None nat <> None.
Proof. left. discriminate. Qed.
