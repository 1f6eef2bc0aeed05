(** Proofs about the conversions of hermipy/core.py. *)
From Coq Require Import String List Bool Arith ZArith Lia Sorted Permutation.
From Verif Require Import Base Lists IndexModel Spec Num LinModel LinSpec LinBase MatBase Project Tensorize Dirs Sparse TensorMat Facts2 Facts3 Facts4 Facts5 PyBase CoreModel CoreSpec.
Import ListNotations.
Local Open Scope string_scope. Local Open Scope list_scope. Local Open Scope nat_scope.

Section CoreFacts.
Variable N : num.
Hypothesis L : num_laws N.

Lemma named_name : forall s, cpp_set (set_name s) = Ok s.
Proof using. intros []; reflexivity. Qed.

(** * The rows of a compressed matrix *)
Lemma concat_nth : forall A (rows : list (list A)) (d : A) i k, i < length rows -> k < length (nth i rows []) ->
  nth (length (concat (firstn i rows)) + k) (concat rows) d = nth k (nth i rows []) d.
Proof using.
  intros A rows d. induction rows as [|r rows IH]; intros i k Hi Hk; [cbn in Hi; lia|]. destruct i as [|i].
  - cbn [firstn concat length nth] in *. cbn [Nat.add]. rewrite app_nth1 by exact Hk. reflexivity.
  - cbn [firstn concat nth length] in *. rewrite app_length, <- Nat.add_assoc, app_nth2 by lia. replace (length r + (length (concat (firstn i rows)) + k) - length r) with (length (concat (firstn i rows)) + k) by lia.
    apply IH; [lia|exact Hk].
Qed.
Lemma concat_firstn_S : forall A (rows : list (list A)) i, i < length rows -> length (concat (firstn (S i) rows)) = length (concat (firstn i rows)) + length (nth i rows []).
Proof using.
  intros A. induction rows as [|r rows IH]; intros i Hi; [cbn in Hi; lia|]. destruct i as [|i].
  - cbn [firstn concat nth length]. rewrite app_length. cbn [length]. lia.
  - change (firstn (S (S i)) (r :: rows)) with (r :: firstn (S i) rows). change (firstn (S i) (r :: rows)) with (r :: firstn i rows). cbn [concat nth]. rewrite !app_length, IH by (cbn [length] in Hi; lia). lia.
Qed.
Lemma concat_firstn_le : forall A (rows : list (list A)) i, length (concat (firstn i rows)) <= length (concat rows).
Proof using. intros A. induction rows as [|r rows IH]; intros [|i]; cbn [firstn concat]; try (cbn; lia). rewrite !app_length. specialize (IH i). lia. Qed.

(** Reading a row through the arrays of indices and data. *)
Lemma row_read : forall (row : list (nat * N)) data (indices : list nat) b c, (forall k, k < length row -> nth (b + k) data n0 = snd (nth k row (0, n0))) -> (forall k, k < length row -> nth (b + k) indices 0 = fst (nth k row (0, n0))) ->
  map (fun j => nth j data n0) (filter (fun j => nth j indices 0 =? c) (seq b (length row))) = map snd (filter (fun z => fst z =? c) row).
Proof using.
  induction row as [|z row IH]; intros data indices b c Hd Hi; [reflexivity|]. cbn [length seq filter]. assert (E0 : nth b indices 0 = fst z) by (rewrite <- (Nat.add_0_r b); apply (Hi 0); cbn; lia).
  assert (E1 : nth b data n0 = snd z) by (rewrite <- (Nat.add_0_r b); apply (Hd 0); cbn; lia). rewrite E0. assert (G : map (fun j => nth j data n0) (filter (fun j => nth j indices 0 =? c) (seq (S b) (length row))) = map snd (filter (fun z => fst z =? c) row)).
  { apply IH; intros k Hk; [specialize (Hd (S k))|specialize (Hi (S k))]; cbn [length nth] in *; rewrite Nat.add_succ_comm; [apply Hd|apply Hi]; lia. }
  destruct (fst z =? c); cbn [map]; rewrite G; [rewrite E1|]; reflexivity.
Qed.

Section Rows.
Variable rows : list (list (nat * N)).
Definition r_data := map snd (concat rows).
Definition r_indices := map fst (concat rows).
Definition r_indptr := map (fun i => length (concat (firstn i rows))) (seq 0 (S (length rows))).

Lemma indptr_nth : forall i, i <= length rows -> nth i r_indptr 0 = length (concat (firstn i rows)).
Proof using. intros i Hi. unfold r_indptr. rewrite (nth_map_lt _ _ _ _ _ _ 0) by (rewrite seq_length; lia). rewrite seq_nth by lia. reflexivity. Qed.
Lemma indptr_row : forall i, i < length rows -> nth (S i) r_indptr 0 - nth i r_indptr 0 = length (nth i rows []).
Proof using. intros i Hi. rewrite !indptr_nth, concat_firstn_S by lia. lia. Qed.
Lemma row_in : forall i k, i < length rows -> k < length (nth i rows []) -> length (concat (firstn i rows)) + k < length (concat rows).
Proof using. intros i k Hi Hk. pose proof (concat_firstn_le _ rows (S i)) as H. rewrite concat_firstn_S in H by exact Hi. lia. Qed.
Lemma data_nth : forall i k, i < length rows -> k < length (nth i rows []) -> nth (nth i r_indptr 0 + k) r_data n0 = snd (nth k (nth i rows []) (0, n0)).
Proof using. intros i k Hi Hk. rewrite indptr_nth by lia. unfold r_data. rewrite (nth_map_lt _ _ _ _ _ _ (0, n0)) by (apply row_in; assumption). rewrite concat_nth by assumption. reflexivity. Qed.
Lemma indices_nth : forall i k, i < length rows -> k < length (nth i rows []) -> nth (nth i r_indptr 0 + k) r_indices 0 = fst (nth k (nth i rows []) (0, n0)).
Proof using. intros i k Hi Hk. rewrite indptr_nth by lia. unfold r_indices. rewrite (nth_map_lt _ _ _ _ _ _ (0, n0)) by (apply row_in; assumption). rewrite concat_nth by assumption. reflexivity. Qed.

Lemma rows_entry : forall i c, i < length rows -> csr_entry r_data r_indices r_indptr i c = nsum (map snd (filter (fun z => fst z =? c) (nth i rows []))).
Proof using.
  intros i c Hi. unfold csr_entry. f_equal. rewrite indptr_row by exact Hi. apply row_read; intros k Hk; [apply data_nth|apply indices_nth]; assumption.
Qed.
Lemma rows_wf : forall m, Forall (fun row => Forall (fun j => j < m) (map fst row)) rows -> csr_wf r_data r_indices r_indptr (length rows) m.
Proof using.
  intros m H. split; [unfold r_indptr; rewrite map_length, seq_length; lia|]. split; [unfold r_data, r_indices; rewrite !map_length; reflexivity|]. split.
  - intros i Hi. rewrite indptr_nth by lia. unfold r_data. rewrite map_length. apply concat_firstn_le.
  - unfold r_indices. apply Forall_forall. intros x Hx. apply in_map_iff in Hx as (z & <- & Hz). apply in_concat in Hz as (row & Hr & Hz). rewrite Forall_forall in H. specialize (H row Hr). rewrite Forall_forall in H. apply H, in_map. exact Hz.
Qed.
Lemma rows_distinct : Forall (fun row => NoDup (map fst row)) rows -> csr_distinct r_indices r_indptr (length rows).
Proof using.
  intros H i j j' Hi Hj Hj' E. pose proof (indptr_row i Hi) as Hl. rewrite <- (Nat.sub_add _ _ (proj1 Hj)), Nat.add_comm in E. rewrite (indices_nth i (j - nth i r_indptr 0)) in E by lia.
  symmetry in E. rewrite <- (Nat.sub_add _ _ (proj1 Hj')), Nat.add_comm in E. rewrite (indices_nth i (j' - nth i r_indptr 0)) in E by lia.
  rewrite Forall_forall in H. assert (Hr : NoDup (map fst (nth i rows []))) by (apply H, nth_In; exact Hi). rewrite (NoDup_nth _ 0) in Hr. specialize (Hr (j - nth i r_indptr 0) (j' - nth i r_indptr 0)). rewrite map_length in Hr.
  rewrite !(nth_map_lt _ _ _ _ _ 0 (0, n0)) in Hr by lia. specialize (Hr ltac:(lia) ltac:(lia) (eq_sym E)). lia.
Qed.
End Rows.

(** row_col_val lists the rows one after the other. *)
Lemma coo_rows : forall rows k i, coo_row N (rows_entries N k rows) i = if i <? k then [] else nth (i - k) rows [].
Proof using.
  unfold coo_row. induction rows as [|row rows IH]; intros k i; cbn [rows_entries filter map].
  - destruct (i <? k); [reflexivity|]. destruct (i - k); reflexivity.
  - rewrite filter_app, map_app, IH. assert (G : map (fun z : nat * nat * N => (snd (fst z), snd z)) (filter (fun z => fst (fst z) =? i) (map (fun '(j, x) => (k, j, x)) row)) = if k =? i then row else []).
    { clear. induction row as [|[j x] row IH]; [destruct (k =? i); reflexivity|]. cbn [map filter fst snd]. destruct (k =? i); [cbn [map fst snd]; rewrite IH; reflexivity|exact IH]. }
    rewrite G. destruct (Nat.ltb_spec i k) as [H|H].
    + replace (k =? i) with false by (symmetry; apply Nat.eqb_neq; lia). replace (i <? S k) with true by (symmetry; apply Nat.ltb_lt; lia). reflexivity.
    + destruct (Nat.eqb_spec k i) as [->|Hn].
      * replace (i <? S i) with true by (symmetry; apply Nat.ltb_lt; lia). rewrite Nat.sub_diag, app_nil_r. reflexivity.
      * replace (i <? S k) with false by (symmetry; apply Nat.ltb_ge; lia). replace (i - k) with (S (i - S k)) by lia. reflexivity.
Qed.
Lemma coo_all : forall B : spmat N, sp_wf B -> map (coo_row N (row_col_val N B)) (seq 0 (sp_size1 N B)) = sp_rows N B.
Proof using.
  intros B [H _]. rewrite <- H. apply (list_ext_nth _ _ _ []); [rewrite map_length, seq_length; reflexivity|]. intros i Hi. rewrite map_length, seq_length in Hi.
  rewrite (nth_map_lt _ _ _ _ _ _ 0) by (rewrite seq_length; exact Hi). rewrite seq_nth by exact Hi. unfold row_col_val, sp_entries. rewrite coo_rows. cbn [Nat.ltb Nat.add]. rewrite Nat.sub_0_r. reflexivity.
Qed.

Lemma stored_sum : forall (row : list (nat * N)) c, NoDup (map fst row) -> nsum (map snd (filter (fun z => fst z =? c) row)) = stored row c.
Proof using L.
  induction row as [|[k x] row IH]; intros c H; [reflexivity|]. cbn [map fst] in H. inversion H as [|? ? H1 H2]; subst. cbn [filter fst stored]. destruct (Nat.eqb_spec k c) as [->|Hn]; [|apply IH; exact H2].
  replace (filter (fun z : nat * N => fst z =? c) row) with (@nil (nat * N)); [unfold nsum; cbn; apply (law_add_0 _ L)|]. symmetry. clear IH H H2. induction row as [|[j y] row IH]; [reflexivity|]. cbn [filter fst map] in *. destruct (Nat.eqb_spec j c) as [->|]; [exfalso; apply H1; left; reflexivity|]. apply IH. intros G. apply H1. right. exact G.
Qed.

Lemma to_csr_ok : forall B : spmat N, sp_wf B -> let c := to_csr N B in
  csr_wf (c_data c) (c_indices c) (c_indptr c) (c_rows c) (c_cols c) /\ csr_distinct (c_indices c) (c_indptr c) (c_rows c) /\ c_rows c = sp_size1 N B /\ c_cols c = sp_size2 N B /\ contents (PCsr c) = dense B.
Proof using L.
  intros B HB. cbv zeta. unfold to_csr. rewrite (coo_all B HB). pose proof HB as [H1 H2]. cbn [c_data c_indices c_indptr c_rows c_cols contents]. rewrite <- H1. fold (r_data (sp_rows N B)). fold (r_indices (sp_rows N B)). fold (r_indptr (sp_rows N B)).
  assert (Hn : Forall (fun row => NoDup (map fst row)) (sp_rows N B)) by (eapply Forall_impl; [|exact H2]; intros row [G _]; apply increasing_NoDup, G).
  split; [apply rows_wf; eapply Forall_impl; [|exact H2]; intros row [_ G]; exact G|]. split; [apply rows_distinct, Hn|]. split; [reflexivity|]. split; [reflexivity|].
  unfold dense. apply (list_ext_nth _ _ _ []); [rewrite !map_length, seq_length; reflexivity|]. intros i Hi. rewrite map_length, seq_length in Hi.
  rewrite (nth_map_lt _ _ _ (seq 0 _) i _ 0) by (rewrite seq_length; exact Hi). rewrite (nth_map_lt _ _ _ (sp_rows N B) i _ []) by exact Hi. rewrite seq_nth by exact Hi. apply map_ext. intros c. cbn [Nat.add]. rewrite rows_entry by exact Hi. apply stored_sum.
  rewrite Forall_forall in Hn. apply Hn, nth_In. exact Hi.
Qed.
End CoreFacts.
