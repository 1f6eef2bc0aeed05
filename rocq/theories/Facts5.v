(** Proofs behind Properties2: witnesses and conversions. *)
From Coq Require Import List Bool Arith ZArith Lia Sorted Permutation.
From Verif Require Import Base IndexModel Spec Num LinModel LinSpec LinBase MatBase Sparse Facts2 Facts3 Facts4.
Import ListNotations.

Lemma project_unordered : exists v : list num_Z, vec_for Rectangle 2 2 v /\ exists e, project_vec num_Z Rectangle v 2 [1; 0] = Throw e.
Proof. exists [1; 2; 3; 4; 5; 6]%Z. split; [|eexists]; vm_compute; reflexivity. Qed.

Lemma project_tensorize_rectangle : exists (v0 v1 t out : list num_Z), vec_for Rectangle 1 2 v0 /\ vec_for Rectangle 1 2 v1 /\ coef Rectangle 1 2 v0 [0] = 1%Z /\
  tensorize_vec num_Z Rectangle [v0; v1] [[0]; [1]] = Ok t /\ project_vec num_Z Rectangle t 2 [1] = Ok out /\ out <> v1.
Proof.
  exists [1; 0; 0]%Z, [2; 3; 4]%Z. do 2 eexists. repeat apply conj; try (vm_compute; reflexivity). vm_compute. discriminate.
Qed.

Lemma to_spmat_empty : forall N : num, to_spmat N [] = Ub.
Proof. reflexivity. Qed.

Lemma dense_sparse_dense : forall (N : num), num_laws N -> forall n m (A : list (list N)), mat_wf n m A -> 0 < n ->
  exists B, to_spmat N A = Ok B /\ sp_wf B /\ sp_size1 N B = n /\ sp_size2 N B = m /\ full N B = Ok A.
Proof.
  intros N L n m A HA Hn. destruct (to_spmat_ok N (law_eqb _ L) n m A HA Hn) as (B & E & (W & W1 & W2) & D).
  exists B. repeat (split; [assumption|]). rewrite full_ok by assumption. rewrite D. reflexivity.
Qed.

Lemma triples_faithful : forall (N : num), num_laws N -> forall A : spmat N, sp_wf A ->
  (forall i j x, In (i, j, x) (row_col_val N A) -> i < sp_size1 N A /\ j < sp_size2 N A) /\
  NoDup (map fst (row_col_val N A)) /\
  (forall i j, i < sp_size1 N A -> j < sp_size2 N A -> triples_entry (row_col_val N A) i j = nth j (nth i (dense A) []) n0).
Proof. intros N L. exact (row_col_val_ok N (law_add_0 _ L)). Qed.

Lemma csr_faithful : forall (N : num), num_laws N -> forall (data : list N) indices indptr n m,
  csr_wf data indices indptr n m -> csr_distinct indices indptr n ->
  exists B, csr_to_spmat N data indices indptr n m = Ok B /\ sp_wf B /\ sp_size1 N B = n /\ sp_size2 N B = m /\
    forall i c, i < n -> c < m -> nth c (nth i (dense B) []) n0 = csr_entry data indices indptr i c.
Proof.
  intros N L data indices indptr n m W D. destruct (csr_to_spmat_ok N (law_add_0 _ L) data indices indptr n m W D) as (B & E & (X & Y & Z) & G).
  exists B. repeat (split; [assumption|]). exact G.
Qed.

Lemma csr_duplicates : exists (data : list num_Z) indices indptr B, csr_wf data indices indptr 1 1 /\
  csr_to_spmat num_Z data indices indptr 1 1 = Ok B /\ nth 0 (nth 0 (dense B) []) 0%Z <> csr_entry data indices indptr 0 0.
Proof.
  exists [1; 2]%Z, [0; 0], [0; 2]. eexists. split; [|split; [vm_compute; reflexivity|vm_compute; discriminate]].
  split; [cbn; lia|]. split; [reflexivity|]. split; [intros [|i] H; cbn; lia|repeat constructor].
Qed.
