(** C98: comparing a result with the stored one. *)
From Coq Require Import String List Bool Arith Lia Reals Lra.
From Verif Require Import Base Num PyBase CoreModel LinSpec CacheModel CheckModel CheckSpec CheckFacts CheckFacts2.
Import ListNotations.
Local Open Scope string_scope. Local Open Scope list_scope. Local Open Scope nat_scope.

(** Numbers: accepted exactly when they differ by less than the tolerance. *)
Theorem C98_numbers : forall spectral x y,
  ((Rabs (x - y) < tolerance)%R -> checked spectral false false (VNum x) (VNum y) = Ok (VNum x)) /\
  ((tolerance <= Rabs (x - y))%R -> checked spectral false false (VNum x) (VNum y) = Throw "ValueError").
Proof. exact check_numbers. Qed.
Print Assumptions C98_numbers.
Example C98_numbers_example : (Rabs (1 - 1) < tolerance)%R /\ (tolerance <= Rabs (1 - 2))%R.
Proof. unfold tolerance. rewrite Rminus_eq_0, Rabs_R0. split; [lra|]. rewrite Rabs_minus_sym, Rabs_pos_eq; lra. Qed.

(** Arrays of the same shape: a difference of the tolerance or more in one entry is detected, and equal arrays are accepted. *)
Theorem C98_arrays_differ : forall spectral, spectral_laws spectral -> forall u v idx, a_shape u = a_shape v -> plain (a_shape u) -> index_in (a_shape u) idx ->
  (tolerance <= Rabs (a_at u idx - a_at v idx))%R -> checked spectral false false (VArr u) (VArr v) = Throw "ValueError".
Proof. exact check_differs. Qed.
Print Assumptions C98_arrays_differ.
(** A norm that meets the assumptions. *)
Definition frobenius (n m : nat) (A : nat -> nat -> R) : R := sqrt (fold_right Rplus 0%R (map (fun i => fold_right Rplus 0%R (map (fun j => (A i j * A i j)%R) (seq 0 m))) (seq 0 n))).
Lemma frobenius_laws : spectral_laws frobenius.
Proof.
  split; [|intros n m A; apply Rle_refl]. intros n m A i j Hi Hj. apply abs_sqrt.
  apply Rle_trans with (fold_right Rplus 0%R (map (fun j => (A i j * A i j)%R) (seq 0 m))).
  - apply (sum_entry nat (fun j => (A i j * A i j)%R)); [intros x; apply square_pos|apply in_seq; lia].
  - apply (sum_entry nat (fun i => fold_right Rplus 0%R (map (fun j => (A i j * A i j)%R) (seq 0 m)))); [intros x; apply sum_pos; intros y; apply square_pos|apply in_seq; lia].
Qed.
Example C98_arrays_differ_example : spectral_laws frobenius /\ let u := arr_mat [[1; 2]; [3; 4]]%R 2 2 in let v := arr_mat [[1; 2]; [5; 4]]%R 2 2 in
  a_shape u = a_shape v /\ plain (a_shape u) /\ index_in (a_shape u) [1; 0] /\ (tolerance <= Rabs (a_at u [1; 0]%nat - a_at v [1; 0]%nat))%R.
Proof.
  split; [exact frobenius_laws|]. split; [reflexivity|]. split; [right; exists 2, 2; repeat split; lia|]. split; [repeat constructor|]. cbn [arr_mat a_at nth]. unfold tolerance. rewrite Rabs_minus_sym, Rabs_pos_eq; lra.
Qed.

Theorem C98_arrays_same : forall spectral, spectral_laws spectral -> forall u v, a_shape u = a_shape v -> plain (a_shape u) ->
  (forall idx, index_in (a_shape u) idx -> a_at u idx = a_at v idx) -> checked spectral false false (VArr u) (VArr v) = Ok (VArr u).
Proof. exact check_same. Qed.
Print Assumptions C98_arrays_same.
Example C98_arrays_same_example : spectral_laws frobenius /\ plain (a_shape (arr_list [1; 2; 3]%R)) /\ plain (a_shape (arr_mat [[1; 2]]%R 1 2)).
Proof. split; [exact frobenius_laws|]. split; [left; exists 3; reflexivity|right; exists 1, 2; repeat split; lia]. Qed.

(** A dense result where a sparse one is stored, and the other way round, is always refused. *)
Theorem C98_formats : forall spectral u v sparse_cache, sparse_cache = is_sparse v -> is_sparse u <> is_sparse v -> (u = VOther -> False) -> (forall x, u <> VNum x) ->
  checked spectral false sparse_cache u v = Throw "ValueError".
Proof. exact check_formats. Qed.
Print Assumptions C98_formats.
Definition diagonal : csr num_R := Csr (N := num_R) [1; 1]%R [0; 1] [0; 1; 2] 2 2.
Definition antidiagonal : csr num_R := Csr (N := num_R) [1; 1]%R [1; 0] [0; 1; 2] 2 2.
Example C98_formats_example : let u := VArr (arr_mat [[1; 0]; [0; 1]]%R 2 2) in true = is_sparse (VCsr diagonal) /\ is_sparse u <> is_sparse (VCsr diagonal) /\ (u = VOther -> False) /\ forall x, u <> VNum x.
Proof. repeat split; discriminate. Qed.

(** Sparse matrices that store the same positions: a difference of the tolerance or more in one entry is detected ... *)
Theorem C98_sparse : forall spectral, spectral_laws spectral -> forall (c c' : csr num_R) i j, csr_ok c -> csr_ok c' -> c_indices c = c_indices c' -> c_indptr c = c_indptr c' -> c_rows c = c_rows c' ->
  i < c_rows c -> (tolerance <= Rabs (at_csr c i j - at_csr c' i j))%R -> checked spectral false true (VCsr c) (VCsr c') = Throw "ValueError".
Proof. exact check_csr. Qed.
Print Assumptions C98_sparse.
Lemma diagonal_ok : csr_ok diagonal /\ csr_ok antidiagonal.
Proof.
  assert (D : forall l : list nat, csr_distinct l [0; 1; 2] 2) by (intros l [|[|i]] j j' Hi H1 H2 _; cbn in *; lia).
  split; (split; [|apply D]); (split; [cbn; lia|]); (split; [reflexivity|]); (split; [intros [|[|i]] Hi; cbn in *; lia|repeat constructor]).
Qed.
Example C98_sparse_example : let c' := Csr (N := num_R) [1; 3]%R [0; 1] [0; 1; 2] 2 2 in csr_ok diagonal /\ csr_ok c' /\ (tolerance <= Rabs (at_csr diagonal 1 1 - at_csr c' 1 1))%R.
Proof.
  split; [apply diagonal_ok|]. split; [exact (proj1 diagonal_ok)|]. unfold at_csr, csr_entry, nsum. cbn [c_data c_indices c_indptr diagonal nth seq filter Nat.eqb Nat.sub map fold_left]. change (@nadd num_R) with Rplus. change (@n0 num_R) with 0%R. unfold tolerance. rewrite Rabs_minus_sym, Rabs_pos_eq; lra.
Qed.

(** ... but only the stored numbers are compared, not where they stand: a matrix with the same numbers in other places is accepted. *)
Theorem C98_sparse_refuted : ~ forall spectral, spectral_laws spectral -> forall (c c' : csr num_R) i j, csr_ok c -> csr_ok c' -> c_rows c = c_rows c' -> c_cols c = c_cols c' ->
  i < c_rows c -> j < c_cols c -> (tolerance <= Rabs (at_csr c i j - at_csr c' i j))%R -> checked spectral false true (VCsr c) (VCsr c') = Throw "ValueError".
Proof.
  intros H. specialize (H frobenius frobenius_laws diagonal antidiagonal 0 0 (proj1 diagonal_ok) (proj2 diagonal_ok) eq_refl eq_refl ltac:(cbn; lia) ltac:(cbn; lia)).
  assert (E : checked frobenius false true (VCsr diagonal) (VCsr antidiagonal) = Ok (VCsr diagonal)).
  { unfold checked. cbn [the_error diagonal antidiagonal c_data arr_list arr_sub a_shape a_at length rev app bshape Nat.eqb bind norm2 seq map clip combine hd nth fold_right truth is_sparse Bool.eqb].
    rewrite (proj2 (below_iff _)); [reflexivity|]. rewrite !Rminus_eq_0. replace (0 * 0 + (0 * 0 + 0))%R with 0%R by ring. rewrite sqrt_0. unfold tolerance. lra. }
  rewrite E in H. assert (T : (tolerance <= Rabs (at_csr diagonal 0 0 - at_csr antidiagonal 0 0))%R); [|discriminate (H T)].
  unfold at_csr, csr_entry, nsum. cbn [c_data c_indices c_indptr diagonal antidiagonal nth seq filter Nat.eqb Nat.sub map fold_left]. change (@nadd num_R) with Rplus. change (@n0 num_R) with 0%R. unfold tolerance. rewrite Rabs_pos_eq; lra.
Qed.
Print Assumptions C98_sparse_refuted.

(** Arrays of different shapes are broadcast by NumPy, so a change of shape is not always detected: three equal numbers pass for one. *)
Theorem C98_shapes_refuted : ~ forall spectral, spectral_laws spectral -> forall u v, plain (a_shape u) -> plain (a_shape v) -> a_shape u <> a_shape v -> checked spectral false false (VArr u) (VArr v) = Throw "ValueError".
Proof.
  intros H. specialize (H frobenius frobenius_laws (arr_list [2; 2; 2]%R) (arr_list [2]%R) ltac:(left; exists 3; reflexivity) ltac:(left; exists 1; reflexivity) ltac:(discriminate)).
  assert (E : checked frobenius false false (VArr (arr_list [2; 2; 2]%R)) (VArr (arr_list [2]%R)) = Ok (VArr (arr_list [2; 2; 2]%R))); [|congruence].
  unfold checked. cbn [the_error arr_list arr_sub a_shape a_at length rev app bshape Nat.eqb bind norm2 seq map clip combine hd nth fold_right truth is_sparse Bool.eqb].
  rewrite (proj2 (below_iff _)); [reflexivity|]. rewrite !Rminus_eq_0. replace (0 * 0 + (0 * 0 + (0 * 0 + 0)))%R with 0%R by ring. rewrite sqrt_0. unfold tolerance. lra.
Qed.
Print Assumptions C98_shapes_refuted.

(** Vectors of different lengths: refused, unless one of them has length 1 and all numbers are the same. *)
Theorem C98_lengths : forall spectral u v n m, a_shape u = [n] -> a_shape v = [m] -> n <> m ->
  (n <> 1 -> m <> 1 -> checked spectral false false (VArr u) (VArr v) = Throw "ValueError") /\
  (n = 1 \/ m = 1 -> (forall i j, i < n -> j < m -> a_at u [i] = a_at v [j]) -> checked spectral false false (VArr u) (VArr v) = Ok (VArr u)).
Proof. exact check_lengths. Qed.
Print Assumptions C98_lengths.
Example C98_lengths_example : a_shape (arr_list [2]%R) = [1] /\ a_shape (arr_list [2; 2; 2]%R) = [3] /\ forall i j, i < 1 -> j < 3 -> a_at (arr_list [2]%R) [i] = a_at (arr_list [2; 2; 2]%R) [j].
Proof. split; [reflexivity|]. split; [reflexivity|]. intros [|i] [|[|[|j]]] Hi Hj; try lia; reflexivity. Qed.

(** A quiet cache returns the new result, not the stored one, however different they are. *)
Theorem C98_quiet : forall spectral sparse_cache,
  (forall x y, checked spectral true sparse_cache (VNum x) (VNum y) = Ok (VNum x)) /\
  (forall u v, a_shape u = a_shape v -> plain (a_shape u) -> checked spectral true sparse_cache (VArr u) (VArr v) = Ok (VArr u)) /\
  (forall c c' : csr num_R, length (c_data c) = length (c_data c') -> checked spectral true sparse_cache (VCsr c) (VCsr c') = Ok (VCsr c)).
Proof. exact check_quiet. Qed.
Print Assumptions C98_quiet.
Example C98_quiet_example : a_shape (arr_list [1; 2]%R) = a_shape (arr_list [3; 4]%R) /\ plain (a_shape (arr_list [1; 2]%R)) /\ length (c_data diagonal) = length (c_data antidiagonal).
Proof. split; [reflexivity|]. split; [left; exists 2; reflexivity|reflexivity]. Qed.

(** This comparison is what a call with cache=False makes when a result is stored: the function is called, the files stay as they are. *)
Theorem C98_call : forall spectral (A : Type) (f : A -> res pval) savefile extended as_int settings a d kw result stored loaded sparse_cache,
  (match kw with Some b => b | None => settings end) = false -> f a = Ok result ->
  (d (savefile a ++ ".npy") = Some (Good stored) /\ loaded = extended stored /\ sparse_cache = false \/ d (savefile a ++ ".npy") = None /\ d (savefile a ++ ".npz") = Some (Good stored) /\ loaded = stored /\ sparse_cache = true)%string ->
  checked spectral false sparse_cache result loaded <> Throw "NotImplementedError" -> checked spectral false sparse_cache result loaded <> Throw "TypeError" ->
  wrapper A pval f savefile is_sparse extended as_int (close spectral) false settings a kw d = (checked spectral false sparse_cache result loaded, d, true).
Proof. exact check_wrapper. Qed.
Print Assumptions C98_call.
Example C98_call_example : let d : disk pval := fun n => if String.eqb n "f.npy" then Some (Good (VNum 1)) else None in
  (d ("f" ++ ".npy") = Some (Good (VNum 1)))%string /\ checked frobenius false false (VNum 2) (VNum 1) <> Throw "NotImplementedError" /\ checked frobenius false false (VNum 2) (VNum 1) <> Throw "TypeError".
Proof.
  split; [reflexivity|]. destruct (C98_numbers frobenius 2 1) as [_ H]. rewrite H by (unfold tolerance; rewrite Rabs_pos_eq; lra). split; discriminate.
Qed.
