(** Proofs about the comparison with stored results. *)
From Coq Require Import String List Bool Arith Lia Reals Lra.
From Verif Require Import Base Num PyBase CoreModel LinSpec Facts2 CacheModel CheckModel CheckSpec.
Import ListNotations.
Local Open Scope string_scope. Local Open Scope list_scope. Local Open Scope nat_scope.

Lemma bshape_same : forall s, bshape s s = Some s.
Proof. induction s as [|a s IH]; [reflexivity|]. cbn [bshape]. rewrite IH, Nat.eqb_refl. reflexivity. Qed.
Lemma clip_rev : forall s idx, Forall2 (fun i d => i < d) idx s -> map (fun '(d, i) => if d =? 1 then 0 else i) (combine s idx) = idx.
Proof.
  intros s idx H. induction H as [|i d idx s Hi _ IH]; [reflexivity|]. cbn [combine map]. rewrite IH. destruct (Nat.eqb_spec d 1); [f_equal; lia|reflexivity].
Qed.
Lemma Forall2_rev' : forall (A B : Type) (P : A -> B -> Prop) l k, Forall2 P l k -> Forall2 P (rev l) (rev k).
Proof. intros A B P l k H. induction H as [|a b l k Hab _ IH]; [constructor|]. cbn [rev]. apply Forall2_app; [exact IH|constructor; [exact Hab|constructor]]. Qed.
Lemma clip_inside : forall s idx, index_in s idx -> clip s idx = idx.
Proof. intros s idx H. unfold clip. rewrite clip_rev by (apply Forall2_rev'; exact H). apply rev_involutive. Qed.

Lemma sub_same : forall u v, a_shape u = a_shape v -> exists d, arr_sub u v = Ok d /\ a_shape d = a_shape u /\ forall idx, index_in (a_shape u) idx -> a_at d idx = (a_at u idx - a_at v idx)%R.
Proof.
  intros u v H. unfold arr_sub. rewrite <- H, bshape_same. eexists. split; [reflexivity|]. cbn [a_shape a_at]. split; [apply rev_involutive|]. intros idx Hi. rewrite clip_inside by exact Hi. reflexivity.
Qed.

Lemma sum_pos : forall (A : Type) (f : A -> R) l, (forall x, (0 <= f x)%R) -> (0 <= fold_right Rplus 0 (map f l))%R.
Proof. intros A f l H. induction l as [|x l IH]; cbn [map fold_right]; [lra|]. specialize (H x). lra. Qed.
Lemma sum_entry : forall (A : Type) (f : A -> R) l x, (forall x, (0 <= f x)%R) -> In x l -> (f x <= fold_right Rplus 0 (map f l))%R.
Proof.
  intros A f l x H. induction l as [|y l IH]; intros []; cbn [map fold_right]; [subst y; pose proof (sum_pos A f l H); lra|]. specialize (IH H0). specialize (H y). lra.
Qed.
Lemma sum_zero : forall (A : Type) (f : A -> R) l, (forall x, In x l -> f x = 0%R) -> fold_right Rplus 0%R (map f l) = 0%R.
Proof. intros A f l. induction l as [|x l IH]; intros H; cbn [map fold_right]; [reflexivity|]. rewrite (H x (or_introl eq_refl)), IH by (intros y Hy; apply H; right; exact Hy). ring. Qed.
Lemma square_pos : forall x, (0 <= x * x)%R.
Proof. intros x. pose proof (Rle_0_sqr x) as H. unfold Rsqr in H. exact H. Qed.
Lemma abs_sqrt : forall x s, (x * x <= s)%R -> (Rabs x <= sqrt s)%R.
Proof. intros x s H. rewrite <- (sqrt_Rsqr_abs x). apply sqrt_le_1_alt. exact H. Qed.
Lemma below_iff : forall x, below x = true <-> (x < tolerance)%R.
Proof. intros x. unfold below, tolerance. destruct (Rlt_dec _ _); split; intros; [assumption|reflexivity|discriminate|contradiction]. Qed.

Section Check.
Variable spectral : nat -> nat -> (nat -> nat -> R) -> R.
Hypothesis L : spectral_laws spectral.

Lemma norm_entry : forall a, plain (a_shape a) -> exists x, norm2 spectral a = Ok x /\ forall idx, index_in (a_shape a) idx -> (Rabs (a_at a idx) <= x)%R.
Proof using L.
  intros a [(n & E)|(n & m & Hn & Hm & E)]; unfold norm2; rewrite E.
  - eexists. split; [reflexivity|]. intros idx Hi. inversion Hi as [|i ? idx' ? Hlt H']; subst. inversion H'; subst. apply abs_sqrt. apply (sum_entry nat (fun i => (a_at a [i] * a_at a [i])%R)); [intros x; apply square_pos|]. apply in_seq. lia.
  - rewrite (proj2 (Nat.eqb_neq n 0)), (proj2 (Nat.eqb_neq m 0)) by lia. cbn [orb]. eexists. split; [reflexivity|]. intros idx Hi. inversion Hi as [|i ? idx' ? Hlt H']; subst. inversion H' as [|j ? idx'' ? Hlt2 H'']; subst. inversion H''; subst. apply (spectral_entry _ L n m (fun i j => a_at a [i; j])); assumption.
Qed.
Lemma norm_zero : forall a, plain (a_shape a) -> (forall idx, index_in (a_shape a) idx -> a_at a idx = 0%R) -> exists x, norm2 spectral a = Ok x /\ (x <= 0)%R.
Proof using L.
  intros a [(n & E)|(n & m & Hn & Hm & E)] H; unfold norm2; rewrite E in *.
  - eexists. split; [reflexivity|]. rewrite sum_zero, sqrt_0; [lra|]. intros i Hi. apply in_seq in Hi. rewrite H by (repeat constructor; lia). ring.
  - rewrite (proj2 (Nat.eqb_neq n 0)), (proj2 (Nat.eqb_neq m 0)) by lia. cbn [orb]. eexists. split; [reflexivity|]. eapply Rle_trans; [apply (spectral_frobenius _ L)|]. rewrite sum_zero, sqrt_0; [lra|]. intros i Hi. apply in_seq in Hi. apply sum_zero. intros j Hj. apply in_seq in Hj. rewrite H by (repeat constructor; lia). ring.
Qed.

Lemma check_numbers : forall x y, ((Rabs (x - y) < tolerance)%R -> checked spectral false false (VNum x) (VNum y) = Ok (VNum x)) /\ ((tolerance <= Rabs (x - y))%R -> checked spectral false false (VNum x) (VNum y) = Throw "ValueError").
Proof using.
  intros x y. unfold checked. cbn [the_error bind is_sparse Bool.eqb truth]. split; intros H.
  - rewrite (proj2 (below_iff _) H). reflexivity.
  - destruct (below (Rabs (x - y))) eqn:Eb; [apply below_iff in Eb; lra|reflexivity].
Qed.
Lemma check_norm : forall d x q, norm2 spectral d = Ok x ->
  bind (bind (norm2 spectral d) (fun n => Ok (ENum n))) (fun error => bind (truth error) (fun ok => if ok then Ok q else Throw "ValueError")) = if below x then Ok q else @Throw pval "ValueError".
Proof using. intros d x q H. rewrite H. reflexivity. Qed.
Lemma check_differs : forall u v idx, a_shape u = a_shape v -> plain (a_shape u) -> index_in (a_shape u) idx -> (tolerance <= Rabs (a_at u idx - a_at v idx))%R ->
  checked spectral false false (VArr u) (VArr v) = Throw "ValueError".
Proof using L.
  intros u v idx Hs Hp Hi Hd. destruct (sub_same u v Hs) as (d & D1 & D2 & D3). destruct (norm_entry d) as (x & X1 & X2); [rewrite D2; exact Hp|]. unfold checked. cbn [the_error is_sparse Bool.eqb]. rewrite D1. cbn [bind].
  rewrite (check_norm d x (VArr u) X1). destruct (below x) eqn:Eb; [|reflexivity]. apply below_iff in Eb. specialize (X2 idx). rewrite D2, D3 in X2 by exact Hi. specialize (X2 Hi). lra.
Qed.
Lemma check_same : forall u v, a_shape u = a_shape v -> plain (a_shape u) -> (forall idx, index_in (a_shape u) idx -> a_at u idx = a_at v idx) -> checked spectral false false (VArr u) (VArr v) = Ok (VArr u).
Proof using L.
  intros u v Hs Hp He. destruct (sub_same u v Hs) as (d & D1 & D2 & D3). destruct (norm_zero d) as (x & X1 & X2); [rewrite D2; exact Hp| |].
  { rewrite D2. intros idx Hi. rewrite D3, He by exact Hi. ring. }
  unfold checked. cbn [the_error is_sparse Bool.eqb]. rewrite D1. cbn [bind]. rewrite (check_norm d x (VArr u) X1). rewrite (proj2 (below_iff _)); [reflexivity|]. apply Rle_lt_trans with 0%R; [exact X2|]. unfold tolerance. lra.
Qed.

Lemma check_formats : forall u v sparse_cache, sparse_cache = is_sparse v -> is_sparse u <> is_sparse v -> (u = VOther -> False) -> (forall x, u <> VNum x) -> checked spectral false sparse_cache u v = Throw "ValueError".
Proof using.
  intros u v sc -> H Ho Hn. unfold checked. destruct u as [x|a|c|]; [destruct (Hn x eq_refl)| | |destruct (Ho eq_refl)].
  - destruct v as [y|b|c'|]; try (cbn in H; congruence). cbn [the_error]. unfold arr_sub. destruct (bshape _ _); [|reflexivity]. cbn [bind]. unfold norm2. match goal with |- context [match ?s with [] => _ | _ => _ end] => destruct s as [|n [|m [|k r]]] end; try reflexivity. destruct ((n =? 0) || (m =? 0)); reflexivity.
  - destruct v as [y|b|c'|]; try (cbn in H; congruence); reflexivity.
Qed.

Lemma check_csr_data : forall (c c' : csr num_R) k, length (c_data c) = length (c_data c') -> k < length (c_data c) -> (tolerance <= Rabs (nth k (c_data c) 0%R - nth k (c_data c') 0%R))%R -> checked spectral false true (VCsr c) (VCsr c') = Throw "ValueError".
Proof using L.
  intros c c' k Hl Hk Hd. destruct (sub_same (arr_list (c_data c)) (arr_list (c_data c'))) as (d & D1 & D2 & D3); [cbn; f_equal; exact Hl|]. destruct (norm_entry d) as (x & X1 & X2); [left; eexists; exact D2|]. unfold checked. cbn [the_error is_sparse Bool.eqb]. rewrite D1. cbn [bind].
  rewrite (check_norm d x (VCsr c) X1). destruct (below x) eqn:Eb; [|reflexivity]. apply below_iff in Eb. assert (Hi : index_in (a_shape (arr_list (c_data c))) [k]) by (repeat constructor; exact Hk). specialize (X2 [k]). rewrite D2, D3 in X2 by exact Hi. specialize (X2 Hi). cbn [arr_list a_at hd] in X2. exfalso. apply (Rlt_irrefl tolerance). eapply Rle_lt_trans; [exact Hd|]. eapply Rle_lt_trans; [exact X2|exact Eb].
Qed.
Lemma csr_entry_one : forall (c : csr num_R) i j, csr_ok c -> i < c_rows c ->
  (at_csr c i j = 0%R /\ forall k, nth i (c_indptr c) 0 <= k < nth (S i) (c_indptr c) 0 -> nth k (c_indices c) 0 <> j) \/
  exists k, nth i (c_indptr c) 0 <= k < nth (S i) (c_indptr c) 0 /\ nth k (c_indices c) 0 = j /\ at_csr c i j = nth k (c_data c) 0%R.
Proof using.
  intros c i j [_ Hd] Hi. unfold at_csr, csr_entry. set (a := nth i (c_indptr c) 0) in *. set (b := nth (S i) (c_indptr c) 0) in *.
  assert (G : forall n s, a <= s -> s + n <= b \/ n = 0 -> (forall k k', s <= k < s + n -> s <= k' < s + n -> nth k (c_indices c) 0 = nth k' (c_indices c) 0 -> k = k') ->
    (nsum (N := num_R) (map (fun k => nth k (c_data c) (@n0 num_R)) (filter (fun k => nth k (c_indices c) 0 =? j) (seq s n))) = 0%R /\ forall k, s <= k < s + n -> nth k (c_indices c) 0 <> j) \/
    exists k, s <= k < s + n /\ nth k (c_indices c) 0 = j /\ nsum (N := num_R) (map (fun k => nth k (c_data c) (@n0 num_R)) (filter (fun k => nth k (c_indices c) 0 =? j) (seq s n))) = nth k (c_data c) 0%R).
  { induction n as [|n IH]; intros s H1 H2 H3; [left; split; [reflexivity|intros k Hk; lia]|]. cbn [seq filter]. destruct (Nat.eqb_spec (nth s (c_indices c) 0) j) as [Hj|Hj].
    - right. exists s. split; [lia|]. split; [exact Hj|]. cbn [map]. destruct (IH (S s)) as [[I1 I2]|(k & K1 & K2 & _)]; [lia|lia|intros k k' Hk Hk' E; apply H3; [lia|lia|exact E]| |].
      + eapply eq_trans; [apply (Facts2.nsum_cons num_R num_R_laws)|]. eapply eq_trans; [apply (f_equal (fun z => Rplus _ z)); exact I1|]. apply Rplus_0_r.
      + exfalso. assert (s = k) by (apply H3; [lia|lia|congruence]). lia.
    - destruct (IH (S s)) as [[I1 I2]|(k & K1 & K2 & K3)]; [lia|lia|intros k k' Hk Hk' E; apply H3; [lia|lia|exact E]| |].
      + left. split; [exact I1|]. intros k Hk. destruct (Nat.eq_dec k s) as [->|Hne]; [exact Hj|apply I2; lia].
      + right. exists k. split; [lia|]. split; [exact K2|exact K3]. }
  destruct (G (b - a) a) as [[G1 G2]|(k & K1 & K2 & K3)]; [lia|lia|intros k k' Hk Hk' E; apply (Hd i); [exact Hi|fold a b; lia|fold a b; lia|exact E]| |].
  - left. split; [exact G1|]. intros k Hk. apply G2. lia.
  - right. exists k. split; [lia|]. split; [exact K2|exact K3].
Qed.
Lemma check_csr : forall (c c' : csr num_R) i j, csr_ok c -> csr_ok c' -> c_indices c = c_indices c' -> c_indptr c = c_indptr c' -> c_rows c = c_rows c' -> i < c_rows c -> (tolerance <= Rabs (at_csr c i j - at_csr c' i j))%R ->
  checked spectral false true (VCsr c) (VCsr c') = Throw "ValueError".
Proof using L.
  intros c c' i j H1 H2 E1 E2 E3 Hi Hd. pose proof H1 as [(W1 & W2 & W3 & _) D1]. pose proof H2 as [(W1' & W2' & W3' & _) D2].
  assert (T : (0 < tolerance)%R) by (unfold tolerance; lra).
  destruct (csr_entry_one c i j H1 Hi) as [[Z1 N1]|(k & K1 & K2 & K3)]; destruct (csr_entry_one c' i j H2 ltac:(lia)) as [[Z2 N2]|(k' & K1' & K2' & K3')].
  - rewrite Z1, Z2, Rminus_0_r, Rabs_R0 in Hd. lra.
  - exfalso. apply (N1 k'); [rewrite E2; exact K1'|rewrite E1; exact K2'].
  - exfalso. apply (N2 k); [rewrite <- E2; exact K1|rewrite <- E1; exact K2].
  - assert (k = k') by (apply (D1 i); [exact Hi|exact K1|rewrite E2; exact K1'|rewrite E1 in *; congruence]). subst k'. specialize (W3 i Hi). apply (check_csr_data c c' k); [rewrite <- W2, <- W2', E1; reflexivity|change (list (carrier num_R)) with (list R) in *; lia|rewrite <- K3, <- K3'; exact Hd].
Qed.

(** The wrapper of CacheModel.v with this comparison. *)
Lemma check_wrapper : forall (A : Type) (f : A -> res pval) savefile extended as_int settings a d kw result stored name sparse_cache,
  (match kw with Some b => b | None => settings end) = false -> f a = Ok result ->
  (d (savefile a ++ ".npy") = Some (Good stored) /\ name = extended stored /\ sparse_cache = false \/ d (savefile a ++ ".npy") = None /\ d (savefile a ++ ".npz") = Some (Good stored) /\ name = stored /\ sparse_cache = true)%string ->
  checked spectral false sparse_cache result name <> Throw "NotImplementedError" -> checked spectral false sparse_cache result name <> Throw "TypeError" ->
  wrapper A pval f savefile is_sparse extended as_int (close spectral) false settings a kw d = (checked spectral false sparse_cache result name, d, true).
Proof using.
  intros A f savefile extended as_int settings a d kw result stored name sc Hkw Hf Hd Hn Ht. unfold wrapper.
  assert (G : forall nm, compute A pval f is_sparse (close spectral) false settings a nm (Some (sc, name)) d = (checked spectral false sc result name, d, true)).
  { intros nm. unfold compute. rewrite Hf. cbn [negb andb]. unfold checked, close in *. destruct (the_error spectral result name) as [e| | |msg|] eqn:Ee; cbn [bind] in *.
    - destruct (Bool.eqb sc (is_sparse result)); cbn [andb negb]; [|reflexivity]. destruct e as [x|b]; cbn [truth] in *; [cbn [bind]; destruct (below x); reflexivity|].
      destruct (fold_right Nat.mul 1 (a_shape b)) as [|[|z]]; cbn [bind]; try reflexivity. destruct (below _); reflexivity.
    - exfalso. revert Ee. unfold the_error, arr_sub, norm2. repeat match goal with |- context [match ?x with _ => _ end] => destruct x; cbn [bind]; try discriminate end.
    - exfalso. revert Ee. unfold the_error, arr_sub, norm2. repeat match goal with |- context [match ?x with _ => _ end] => destruct x; cbn [bind]; try discriminate end.
    - rewrite andb_false_r. cbn [negb]. assert (msg = "ValueError"); [|subst msg; reflexivity]. revert Ee Hn Ht. unfold the_error, arr_sub, norm2. repeat match goal with |- context [match ?x with _ => _ end] => destruct x; cbn [bind]; try discriminate; try (intros H; injection H as <-; intros; reflexivity || congruence) end.
    - exfalso. revert Ee. unfold the_error, arr_sub, norm2. repeat match goal with |- context [match ?x with _ => _ end] => destruct x; cbn [bind]; try discriminate end. }
  destruct Hd as [(E1 & E2 & E3)|(E1 & E2 & E3 & E4)]; rewrite E1; [|rewrite E2]; cbn [load]; rewrite Hkw; subst name sc; apply G.
Qed.
End Check.
