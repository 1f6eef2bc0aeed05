(** Proofs about the converters. *)
From Coq Require Import String List Bool Arith ZArith Lia.
From Verif Require Import Base Lists IndexModel NdModel NdSpec.
Import ListNotations.
Local Open Scope string_scope.

Lemma u32_id : forall z, (0 <= z < 2 ^ 32)%Z -> u32 z = z.
Proof. intros z H. unfold u32. apply Z.mod_small. exact H. Qed.

Lemma mapM_ext_ok : forall A B (f : A -> res B) g l, (forall x, In x l -> f x = Ok (g x)) -> mapM f l = Ok (map g l).
Proof.
  intros A B f g l. induction l as [|x l IH]; intros H; [reflexivity|]. cbn [mapM map]. rewrite (H x (or_introl eq_refl)). cbn [bind]. rewrite IH by (intros; apply H; right; assumption). reflexivity.
Qed.

Lemma mapM_map : forall A B C (f : B -> res C) (g : A -> B) l, mapM f (map g l) = mapM (fun x => f (g x)) l.
Proof. intros A B C f g l. induction l as [|x l IH]; [reflexivity|]. cbn [map mapM]. destruct (f (g x)); cbn [bind]; try reflexivity. rewrite IH. reflexivity. Qed.

Lemma u_range_nat : forall n, u_range (Z.of_nat n) = map Z.of_nat (seq 0 n).
Proof. intros. unfold u_range. rewrite Nat2Z.id. reflexivity. Qed.

Section Facts.
Context {A : Type} (d : A).
Implicit Type a : ndarray A.

Lemma nd_load_ok : forall a k, (0 <= k)%Z -> (Z.of_nat (nd_start a) + k < Z.of_nat (length (nd_mem a)))%Z -> nd_load A a k = Ok (nth (Z.to_nat (Z.of_nat (nd_start a) + k)) (nd_mem a) d).
Proof.
  intros a k H0 H. unfold nd_load, vget. replace (Z.to_nat (Z.of_nat (nd_start a) + k)) with (nd_start a + Z.to_nat k) by lia.
  rewrite (nth_error_nth' _ d) by lia. reflexivity.
Qed.

Lemma nd_load_ub : forall a k, (0 <= k)%Z -> (Z.of_nat (length (nd_mem a)) <= Z.of_nat (nd_start a) + k)%Z -> nd_load A a k = Ub.
Proof. intros a k H0 H. unfold nd_load, vget. replace (nth_error (nd_mem a) (nd_start a + Z.to_nat k)) with (@None A); [reflexivity|]. symmetry. apply nth_error_None. lia. Qed.

Lemma nd_header_ok : forall a n m p, nd_array a n m p 1 -> (0 <= p)%Z -> nd_header A a = Ok (Z.of_nat n, Z.of_nat m, p).
Proof.
  intros a n m p (H1 & H2 & H3 & H4 & H5 & H6 & H7 & H8) Hp. unfold nd_header. rewrite H1, H2. change (u32 (8 * 1)%Z / 8 =? 1)%Z with true. cbv iota.
  rewrite !u32_id by lia. replace (8 * p / 8)%Z with p by (rewrite Z.mul_comm, Z.div_mul by lia; reflexivity). reflexivity.
Qed.

Lemma nd_header_throw : forall a n m p q, nd_array a n m p q -> q <> 1%Z -> nd_header A a = Throw "ROWS_NOT_CONTIGUOUS".
Proof.
  intros a n m p q (H1 & H2 & H3 & H4 & H5 & H6 & H7 & H8) Hq. unfold nd_header. rewrite H1, H2.
  replace (u32 (8 * q)%Z / 8 =? 1)%Z with false; [reflexivity|]. symmetry. apply Z.eqb_neq. unfold u32.
  destruct (Z.lt_ge_cases q 0) as [Hn|Hn].
  - rewrite <- (Z_mod_plus_full _ 1), Z.mod_small by lia. change (2 ^ 32)%Z with (536870912 * 8)%Z. rewrite Z.mul_1_l. replace (8 * q + 536870912 * 8)%Z with ((q + 536870912) * 8)%Z by ring. rewrite Z.div_mul by lia. lia.
  - rewrite Z.mod_small by lia. rewrite Z.mul_comm, Z.div_mul by lia. lia.
Qed.

(** the rows of the result of to_mat are [p] numbers long *)
Lemma to_mat_rows : forall a n m p, nd_array a n m p 1 -> (0 <= p)%Z -> (Z.of_nat n * p < 2 ^ 32)%Z -> (Z.of_nat (nd_start a) + Z.of_nat n * p <= Z.of_nat (length (nd_mem a)))%Z ->
  to_mat a = Ok (table n (Z.to_nat p) (nd_entry d a p 1)).
Proof.
  intros a n m p Ha Hp Hn Hm. unfold to_mat. rewrite (nd_header_ok a n m p Ha Hp). cbn [bind]. rewrite (u_range_nat n), mapM_map. unfold table.
  assert (Hn1 : (Z.of_nat n < 2 ^ 31)%Z) by (destruct Ha as (_ & _ & _ & H & _); exact H).
  apply mapM_ext_ok. intros i Hi. apply in_seq in Hi. cbv zeta.
  assert (B : (0 <= Z.of_nat i * p)%Z) by (apply Z.mul_nonneg_nonneg; lia).
  assert (E : ((Z.of_nat i + 1) * p <= Z.of_nat n * p)%Z) by (apply Z.mul_le_mono_nonneg_r; lia).
  assert (Hnn : (0 <= p)%Z) by assumption.
  rewrite (u32_id (Z.of_nat i + 1)) by lia. rewrite !u32_id by lia.
  replace ((Z.of_nat i + 1) * p <? Z.of_nat i * p)%Z with false by (symmetry; apply Z.ltb_ge; lia).
  replace ((Z.of_nat i + 1) * p - Z.of_nat i * p)%Z with (Z.of_nat (Z.to_nat p)) by lia.
  rewrite u_range_nat, mapM_map. apply mapM_ext_ok. intros j Hj. apply in_seq in Hj. rewrite nd_load_ok by lia. unfold nd_entry. do 3 f_equal. lia.
Qed.

(** ... and reading the last row runs over the end of the memory if the view stops before *)
Lemma mapM_ub : forall B C (f : B -> res C) l1 x l2, (forall y, In y l1 -> exists z, f y = Ok z) -> f x = Ub -> mapM f (l1 ++ x :: l2) = Ub.
Proof.
  intros B C f l1 x l2 H Hx. induction l1 as [|y l1 IH]; cbn [app mapM]; [rewrite Hx; reflexivity|].
  destruct (H y (or_introl eq_refl)) as [z ->]. cbn [bind]. rewrite IH by (intros; apply H; right; assumption). reflexivity.
Qed.

Lemma seq_split_at : forall n k, k < n -> seq 0 n = (seq 0 k ++ k :: seq (S k) (n - S k))%list.
Proof.
  intros n k H. replace n with (k + S (n - S k)) at 1 by lia. rewrite seq_app. f_equal.
Qed.

Lemma to_mat_overrun : forall a n m p, nd_array a n m p 1 -> (0 <= p)%Z -> 1 <= n -> 1 <= m -> (Z.of_nat n * p < 2 ^ 32)%Z -> (Z.of_nat (length (nd_mem a)) < Z.of_nat (nd_start a) + Z.of_nat n * p)%Z ->
  to_mat a = Ub.
Proof.
  intros a n m p Ha Hp Hn1 Hm1 Hn Hm. unfold to_mat. rewrite (nd_header_ok a n m p Ha Hp). cbn [bind]. rewrite (u_range_nat n), mapM_map.
  destruct Ha as (_ & _ & _ & Hn31 & _ & _ & _ & Ha).
  set (L := Z.of_nat (length (nd_mem a))) in *. set (s := Z.of_nat (nd_start a)) in *.
  rewrite (seq_split_at n (n - 1)) by lia.
  assert (Q : forall i, i < n -> (0 <= Z.of_nat i * p /\ (Z.of_nat i + 1) * p <= Z.of_nat n * p)%Z) by (intros i Hi; split; [apply Z.mul_nonneg_nonneg; lia|apply Z.mul_le_mono_nonneg_r; lia]).
  assert (Hst : (s + Z.of_nat (n - 1) * p < L)%Z) by (specialize (Ha (n - 1) 0 ltac:(lia) ltac:(lia)); lia).
  apply mapM_ub.
  - intros i Hi. apply in_seq in Hi. destruct (Q i) as [Q1 Q2]; [lia|]. rewrite (u32_id (Z.of_nat i + 1)) by lia. rewrite !u32_id by lia. cbv zeta.
    replace ((Z.of_nat i + 1) * p <? Z.of_nat i * p)%Z with false by (symmetry; apply Z.ltb_ge; lia).
    replace ((Z.of_nat i + 1) * p - Z.of_nat i * p)%Z with (Z.of_nat (Z.to_nat p)) by lia.
    rewrite u_range_nat, mapM_map. eexists. apply mapM_ext_ok. intros j Hj. apply in_seq in Hj. apply nd_load_ok; [lia|].
    assert ((Z.of_nat i + 1) * p <= Z.of_nat (n - 1) * p)%Z by (apply Z.mul_le_mono_nonneg_r; lia). fold s L. lia.
  - cbv zeta. destruct (Q (n - 1)) as [Q1 Q2]; [lia|]. rewrite (u32_id (Z.of_nat (n - 1) + 1)) by lia. rewrite !u32_id by lia.
    replace ((Z.of_nat (n - 1) + 1) * p <? Z.of_nat (n - 1) * p)%Z with false by (symmetry; apply Z.ltb_ge; lia).
    replace ((Z.of_nat (n - 1) + 1) * p - Z.of_nat (n - 1) * p)%Z with (Z.of_nat (Z.to_nat p)) by lia.
    assert (En : (Z.of_nat n * p = Z.of_nat (n - 1) * p + p)%Z) by (replace (Z.of_nat n) with (Z.of_nat (n - 1) + 1)%Z by lia; ring).
    rewrite u_range_nat, mapM_map. rewrite (seq_split_at (Z.to_nat p) (Z.to_nat (L - s - Z.of_nat (n - 1) * p))) by lia. apply mapM_ub.
    + intros j Hj. apply in_seq in Hj. eexists. apply nd_load_ok; [lia|]. fold s L. lia.
    + apply nd_load_ub; [lia|]. fold s L. lia.
Qed.

Lemma to_bmat_gen : forall a n m p, nd_array a n m p 1 -> (0 <= p)%Z -> (Z.of_nat (nd_start a) + Z.of_nat n * Z.of_nat m <= Z.of_nat (length (nd_mem a)))%Z ->
  to_bmat a = Ok (table n m (nd_entry d a (Z.of_nat m) 1)).
Proof.
  intros a n m p Ha Hp Hm. unfold to_bmat. rewrite (nd_header_ok a n m p Ha Hp). cbn [bind]. rewrite (u_range_nat n), mapM_map. unfold table.
  apply mapM_ext_ok. intros i Hi. apply in_seq in Hi. rewrite u_range_nat, mapM_map. apply mapM_ext_ok. intros j Hj. apply in_seq in Hj.
  assert ((Z.of_nat i + 1) * Z.of_nat m <= Z.of_nat n * Z.of_nat m)%Z by (apply Z.mul_le_mono_nonneg_r; lia).
  rewrite nd_load_ok by lia. unfold nd_entry. do 3 f_equal. lia.
Qed.

Lemma to_boost_mat_gen : forall a n m p, nd_array a n m p 1 -> (0 <= p)%Z ->
  (forall i j, i < n -> j < m -> (Z.of_nat (nd_start a) + Z.of_nat i * Z.of_nat n + Z.of_nat j < Z.of_nat (length (nd_mem a)))%Z) ->
  to_boost_mat a = Ok (table n m (nd_entry d a (Z.of_nat n) 1)).
Proof.
  intros a n m p Ha Hp Hm. unfold to_boost_mat. rewrite (nd_header_ok a n m p Ha Hp). cbn [bind]. rewrite (u_range_nat n), mapM_map. unfold table.
  assert (HL : (8 * Z.of_nat (length (nd_mem a)) < 2 ^ 31)%Z) by (destruct Ha as (_ & _ & H & _); exact H).
  apply mapM_ext_ok. intros i Hi. apply in_seq in Hi. rewrite u_range_nat, mapM_map. apply mapM_ext_ok. intros j Hj. apply in_seq in Hj.
  specialize (Hm i j ltac:(lia) ltac:(lia)). rewrite u32_id by lia.
  rewrite nd_load_ok by lia. unfold nd_entry. do 3 f_equal. lia.
Qed.

(** more rows than columns, in a block that holds exactly the array *)
Lemma to_boost_mat_overrun : forall a n m, nd_array a n m (Z.of_nat m) 1 -> nd_start a = 0 -> length (nd_mem a) = n * m -> 1 <= m -> m < n -> (Z.of_nat n * Z.of_nat n < 2 ^ 32)%Z ->
  to_boost_mat a = Ub.
Proof.
  intros a n m Ha Hs HL Hm Hn Hw. unfold to_boost_mat. rewrite (nd_header_ok a n m _ Ha) by lia. cbn [bind]. rewrite (u_range_nat n), mapM_map.
  assert (P : Z.of_nat (n * m) = (Z.of_nat n * Z.of_nat m)%Z) by lia.
  (* the first row that leaves the block *)
  assert (W : forall k i, i + k = n -> (forall y, In y (seq 0 i) -> exists z, mapM (fun j => nd_load A a (u32 (Z.of_nat y * Z.of_nat n + j))) (u_range (Z.of_nat m)) = Ok z) -> 1 <= k ->
    mapM (fun x => mapM (fun j => nd_load A a (u32 (Z.of_nat x * Z.of_nat n + j))) (u_range (Z.of_nat m))) (seq 0 n) = Ub).
  { induction k as [|k IH]; intros i Hi Hall Hk; [lia|].
    assert (B1 : (0 <= Z.of_nat i * Z.of_nat n)%Z) by lia. assert (B2 : ((Z.of_nat i + 1) * Z.of_nat n <= Z.of_nat n * Z.of_nat n)%Z) by (apply Z.mul_le_mono_nonneg_r; lia).
    destruct (Z.le_gt_cases (Z.of_nat n * Z.of_nat m) (Z.of_nat i * Z.of_nat n + Z.of_nat m - 1)) as [Hbad|Hgood].
    - rewrite (seq_split_at n i) by lia. apply mapM_ub; [exact Hall|].
      rewrite u_range_nat, mapM_map. set (j := Z.to_nat (Z.of_nat n * Z.of_nat m - Z.of_nat i * Z.of_nat n)).
      assert (Hj : j < m) by lia. rewrite (seq_split_at m j) by lia. apply mapM_ub.
      + intros y Hy. apply in_seq in Hy. eexists. rewrite u32_id by lia. apply nd_load_ok; rewrite ?Hs, ?HL; lia.
      + rewrite u32_id by lia. apply nd_load_ub; rewrite ?Hs, ?HL; lia.
    - apply (IH (S i)); [lia| |].
      + intros y Hy. apply in_seq in Hy. destruct (Nat.eq_dec y i) as [->|]; [|apply Hall, in_seq; lia]. eexists. rewrite u_range_nat, mapM_map. apply mapM_ext_ok. intros j Hj. apply in_seq in Hj.
        rewrite u32_id by lia. apply nd_load_ok; rewrite ?Hs, ?HL; lia.
      + destruct k; [|lia]. exfalso. assert (i = n - 1) by lia. subst i. replace (Z.of_nat (n - 1)) with (Z.of_nat n - 1)%Z in Hgood by lia.
        assert (Z.of_nat n * (Z.of_nat n - 1 - Z.of_nat m) >= 0)%Z by nia. lia. }
  apply (W n 0); [lia| |lia]. intros y [].
Qed.

(** to_numpy *)
Lemma concat_table : forall n m (f : nat -> nat -> A) i j, i < n -> j < m -> nth (i * m + j) (concat (table n m f)) d = f i j.
Proof.
  intros n m f. unfold table. assert (G : forall n s i j, i < n -> j < m -> nth (i * m + j) (concat (map (fun i => map (f i) (seq 0 m)) (seq s n))) d = f (s + i) j).
  { clear. induction n as [|n IH]; intros s i j Hi Hj; [lia|]. cbn [seq map concat]. destruct i as [|i].
    - rewrite app_nth1 by (rewrite map_length, seq_length; lia). rewrite Nat.mul_0_l, Nat.add_0_l, Nat.add_0_r.
      rewrite (nth_indep _ d (f s 0)) by (rewrite map_length, seq_length; lia). rewrite (map_nth (f s)), seq_nth by lia. reflexivity.
    - rewrite app_nth2 by (rewrite map_length, seq_length; lia). rewrite map_length, seq_length. replace (S i * m + j - m) with (i * m + j) by lia. rewrite IH by lia. f_equal. lia. }
  intros i j Hi Hj. rewrite (G n 0 i j Hi Hj). reflexivity.
Qed.

Lemma concat_length_rows : forall (rows : list (list A)) m, Forall (fun r => length r = m) rows -> length (concat rows) = length rows * m.
Proof. intros rows m H. induction H as [|r rows Hr H IH]; [reflexivity|]. cbn [concat length]. rewrite app_length, IH, Hr. lia. Qed.

Lemma nd_new_array : forall n m rows, length rows = n -> Forall (fun r : list A => length r = m) rows -> (8 * Z.of_nat (n * m) < 2 ^ 31)%Z -> (Z.of_nat n < 2 ^ 31)%Z -> (8 * Z.of_nat m < 2 ^ 31)%Z ->
  nd_array (nd_new A n m rows) n m (Z.of_nat m) 1.
Proof.
  intros n m rows Hn Hr H1 H2 H3. unfold nd_array, nd_new. cbn [nd_shape nd_strides nd_mem nd_start]. rewrite (concat_length_rows rows m Hr), Hn. repeat split; try lia.
  assert ((Z.of_nat i + 1) * Z.of_nat m <= Z.of_nat n * Z.of_nat m)%Z by (apply Z.mul_le_mono_nonneg_r; lia). lia.
Qed.

Lemma nd_new_entry : forall n m rows i j, length rows = n -> Forall (fun r : list A => length r = m) rows -> i < n -> j < m ->
  nd_entry d (nd_new A n m rows) (Z.of_nat m) 1 i j = nth j (nth i rows []) d.
Proof.
  intros n m rows i j Hn Hr Hi Hj. unfold nd_entry, nd_new. cbn [nd_mem nd_start]. replace (Z.to_nat (Z.of_nat 0 + Z.of_nat i * Z.of_nat m + Z.of_nat j * 1)) with (i * m + j) by lia.
  clear Hn n Hi. revert i. induction Hr as [|r rows Hr H IH]; intros i; [destruct i; cbn; destruct j; try reflexivity; destruct (_ + _); reflexivity|]. cbn [concat]. destruct i as [|i].
  - cbn [nth]. rewrite app_nth1 by lia. reflexivity.
  - rewrite app_nth2 by lia. rewrite Hr. replace (S i * m + j - m) with (i * m + j) by lia. cbn [nth]. apply IH.
Qed.

Lemma mapM_vget : forall (r : list A), mapM (fun j => vget r j) (seq 0 (length r)) = Ok r.
Proof.
  intros r. rewrite (mapM_ext_ok _ _ _ (fun j => nth j r d)).
  - f_equal. apply nth_ext with (d := d) (d' := d); [rewrite map_length, seq_length; reflexivity|]. intros k Hk. rewrite map_length, seq_length in Hk.
    rewrite (nth_indep _ d (nth 0 r d)) by (rewrite map_length, seq_length; assumption). rewrite (map_nth (fun j => nth j r d)), seq_nth by assumption. reflexivity.
  - intros j Hj. apply in_seq in Hj. unfold vget. rewrite (nth_error_nth' _ d) by lia. reflexivity.
Qed.

Lemma to_numpy_mat_ok : forall n m (M : list (list A)), length M = n -> 1 <= n -> Forall (fun r => length r = m) M -> to_numpy_mat M = Ok (nd_new A n m M).
Proof.
  intros n m M Hn Hn1 Hr. unfold to_numpy_mat. destruct M as [|r M]; [cbn in Hn; lia|]. change (vget (r :: M) 0) with (Ok r). cbn [bind].
  assert (Er : length r = m) by (inversion Hr; assumption). rewrite Er.
  rewrite (mapM_ext_ok _ _ _ (fun row => row)).
  - cbn [bind]. rewrite map_id, Hn. reflexivity.
  - intros row Hin. rewrite Forall_forall in Hr. rewrite <- (Hr row Hin). apply mapM_vget.
Qed.

Lemma to_numpy_mat_empty : to_numpy_mat (@nil (list A)) = Ub.
Proof. reflexivity. Qed.

Lemma table_wf : forall n m (f : nat -> nat -> A), length (table n m f) = n /\ Forall (fun r => length r = m) (table n m f).
Proof.
  intros n m f. unfold table. split; [rewrite map_length, seq_length; reflexivity|]. apply Forall_forall. intros r Hr. apply in_map_iff in Hr as [i [<- _]]. rewrite map_length, seq_length. reflexivity.
Qed.

Lemma nth_table : forall n m (f : nat -> nat -> A) i j, i < n -> j < m -> nth j (nth i (table n m f) []) d = f i j.
Proof.
  intros n m f i j Hi Hj. unfold table. rewrite (nth_indep _ [] (map (f 0) (seq 0 m))) by (rewrite map_length, seq_length; assumption). rewrite (map_nth (fun i => map (f i) (seq 0 m))), seq_nth by assumption.
  rewrite (nth_indep _ d (f (0 + i) 0)) by (rewrite map_length, seq_length; assumption). rewrite (map_nth (f (0 + i))), seq_nth by assumption. reflexivity.
Qed.
End Facts.

(** the statements of C27 *)
Lemma nd_contiguous_fits : forall A (a : ndarray A) n m, nd_array a n m (Z.of_nat m) 1 -> 1 <= n -> 1 <= m -> (Z.of_nat (nd_start a) + Z.of_nat n * Z.of_nat m <= Z.of_nat (length (nd_mem a)))%Z.
Proof. intros A a n m (_ & _ & _ & _ & _ & _ & _ & H) Hn Hm. specialize (H (n - 1) (m - 1) ltac:(lia) ltac:(lia)). replace (Z.of_nat (n - 1)) with (Z.of_nat n - 1)%Z in H by lia. lia. Qed.

Lemma converters_contiguous : forall A (d : A) a n m, nd_array a n m (Z.of_nat m) 1 -> 1 <= n -> 1 <= m ->
  to_mat a = Ok (table n m (nd_entry d a (Z.of_nat m) 1)) /\ to_bmat a = Ok (table n m (nd_entry d a (Z.of_nat m) 1)) /\ (n = m -> to_boost_mat a = Ok (table n m (nd_entry d a (Z.of_nat m) 1))).
Proof.
  intros A d a n m Ha Hn Hm. pose proof (nd_contiguous_fits A a n m Ha Hn Hm) as Hf. assert (HL : (8 * Z.of_nat (length (nd_mem a)) < 2 ^ 31)%Z) by (destruct Ha as (_ & _ & H & _); exact H).
  split; [|split].
  - rewrite (to_mat_rows d a n m (Z.of_nat m) Ha) by lia. rewrite Nat2Z.id. reflexivity.
  - apply (to_bmat_gen d a n m (Z.of_nat m) Ha); lia.
  - intros <-. apply (to_boost_mat_gen d a n n (Z.of_nat n) Ha); [lia|]. intros i j Hi Hj. assert ((Z.of_nat i + 1) * Z.of_nat n <= Z.of_nat n * Z.of_nat n)%Z by (apply Z.mul_le_mono_nonneg_r; lia). lia.
Qed.

Lemma converters_roundtrip : forall A (d : A) a n m, nd_array a n m (Z.of_nat m) 1 -> 1 <= n -> 1 <= m ->
  exists M b, to_mat a = Ok M /\ to_numpy_mat M = Ok b /\ nd_array b n m (Z.of_nat m) 1 /\ forall i j, i < n -> j < m -> nd_entry d b (Z.of_nat m) 1 i j = nd_entry d a (Z.of_nat m) 1 i j.
Proof.
  intros A d a n m Ha Hn Hm. destruct (converters_contiguous A d a n m Ha Hn Hm) as [E _]. pose proof (nd_contiguous_fits A a n m Ha Hn Hm) as Hf.
  destruct Ha as (_ & _ & HL & HN & HM & HP & _). destruct (table_wf n m (nd_entry d a (Z.of_nat m) 1)) as [T1 T2].
  exists (table n m (nd_entry d a (Z.of_nat m) 1)), (nd_new A n m (table n m (nd_entry d a (Z.of_nat m) 1))). split; [exact E|]. split; [apply to_numpy_mat_ok; assumption|].
  split; [apply nd_new_array; try assumption; lia|]. intros i j Hi Hj. rewrite (nd_new_entry d n m) by assumption. apply nth_table; assumption.
Qed.

Lemma converters_throw : forall A (a : ndarray A) n m p q, nd_array a n m p q -> q <> 1%Z ->
  to_mat a = Throw "ROWS_NOT_CONTIGUOUS" /\ to_bmat a = Throw "ROWS_NOT_CONTIGUOUS" /\ to_boost_mat a = Throw "ROWS_NOT_CONTIGUOUS".
Proof. intros A a n m p q Ha Hq. unfold to_mat, to_bmat, to_boost_mat. rewrite (nd_header_throw a n m p q Ha Hq). repeat split. Qed.

Lemma converters_dimension : forall A (a : ndarray A), length (nd_shape a) <> 2 -> to_mat a = Throw "WRONG_DIMENSION" /\ to_bmat a = Throw "WRONG_DIMENSION" /\ to_boost_mat a = Throw "WRONG_DIMENSION".
Proof.
  intros A a H. unfold to_mat, to_bmat, to_boost_mat, nd_header. destruct (nd_shape a) as [|s0 [|s1 [|s2 l]]]; cbn [length] in H; try lia; repeat split.
Qed.

(** a 2 x 3 array, and the view of its first two columns *)
Definition wide : ndarray nat := Nd [1; 2; 3; 4; 5; 6] 0 [2; 3] [24; 8]%Z.
Definition left_half : ndarray nat := Nd [1; 2; 3; 4; 5; 6] 0 [2; 2] [24; 8]%Z.
Lemma wide_array : nd_array wide 2 3 3 1.
Proof. unfold nd_array, wide. cbn [nd_shape nd_strides nd_mem nd_start length]. repeat split; try lia. Qed.
Lemma left_half_array : nd_array left_half 2 2 3 1.
Proof. unfold nd_array, left_half. cbn [nd_shape nd_strides nd_mem nd_start length]. repeat split; try lia. Qed.

Lemma boost_nonsquare_refuted : ~ forall A (d : A) a n m, nd_array a n m (Z.of_nat m) 1 -> 1 <= n -> 1 <= m -> to_boost_mat a = Ok (table n m (nd_entry d a (Z.of_nat m) 1)).
Proof. intros H. specialize (H nat 0 wide 2 3 wide_array ltac:(lia) ltac:(lia)). vm_compute in H. discriminate. Qed.

Lemma strided_refuted : ~ forall A (d : A) a n m p, nd_array a n m p 1 -> (Z.of_nat m <= p)%Z -> 1 <= n -> 1 <= m ->
  to_mat a = Ok (table n m (nd_entry d a p 1)) \/ to_bmat a = Ok (table n m (nd_entry d a p 1)) \/ to_boost_mat a = Ok (table n m (nd_entry d a p 1)).
Proof. intros H. destruct (H nat 0 left_half 2 2 3%Z left_half_array ltac:(lia) ltac:(lia) ltac:(lia)) as [E|[E|E]]; vm_compute in E; discriminate. Qed.
