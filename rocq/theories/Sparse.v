(** sparse.cpp: conversions between dense, sparse and CSR matrices. *)
From Coq Require Import String List Bool Arith ZArith Lia Sorted.
From Verif Require Import Base Lists IndexModel Spec Machine IndexSet Degree Num LinModel LinSpec LinBase MatBase Project Tensorize Dirs.
Import ListNotations.

Lemma for_each_for_in : forall St (body : nat -> St -> res St) n i s, for_each body n i s = for_in body (seq i n) s.
Proof.
  intros St body. induction n as [|n IH]; intros i s; [reflexivity|]. rewrite for_each_S. cbn [seq for_in].
  destruct (body i s); cbn [bind]; auto.
Qed.

Section Sparse.
Variable N : num.

Lemma full_ok : forall A : spmat N, sp_wf A -> full N A = Ok (dense A).
Proof.
  intros A HA. unfold full. pose proof (spmat_ops_ok N) as Hok.
  rewrite (mapM_Ok_map _ _ _ (fun i => nth i (dense A) [])).
  - f_equal. pose proof (dense_wf N A HA) as [Hl _]. rewrite <- Hl. clear. generalize (dense A) as M.
    intros M. apply list_ext_nth with (d := []); [rewrite map_length, seq_length; reflexivity|]. intros i Hi. rewrite map_length, seq_length in Hi.
    rewrite (nth_map_lt _ _ _ _ i [] 0) by (rewrite seq_length; assumption). rewrite seq_nth by assumption. reflexivity.
  - intros i Hi. apply in_seq in Hi. assert (Hi' : i < sp_size1 N A) by lia.
    pose proof (mat_wf_row N _ _ (dense A) i (dense_wf N A HA) Hi') as Hr.
    rewrite (mapM_Ok_map _ _ _ (fun j => mnth N (dense A) i j)).
    + f_equal. apply list_ext_nth with (d := n0); [rewrite map_length, seq_length; symmetry; assumption|]. intros j Hj.
      rewrite map_length, seq_length in Hj. rewrite (nth_map_lt _ _ _ _ j n0 0) by (rewrite seq_length; assumption). rewrite seq_nth by assumption. reflexivity.
    + intros j Hj. apply in_seq in Hj. apply (ok_get _ _ _ _ Hok A (sp_size1 N A) (sp_size2 N A)); [split; [assumption|split; reflexivity]|lia|lia].
Qed.

(** stored entries after a sequence of writes come from the writes *)
Lemma to_spmat_ok : (forall x y : N, neqb x y = true <-> x = y) -> forall n m (A : list (list N)), mat_wf n m A -> 0 < n ->
  exists B, to_spmat N A = Ok B /\ sp_wf2 N B n m /\ dense B = A.
Proof.
  intros Heq n m A HA Hn. unfold to_spmat. pose proof (mat_wf_row N n m A 0 HA Hn) as H0. destruct HA as [HA1 HA2].
  rewrite (vget_nth_ok _ A 0 []) by lia. cbn [bind]. rewrite H0, HA1.
  pose proof (spmat_ops_ok N) as Hok. destruct (ok_construct _ _ _ _ Hok n m) as [Wc Rc].
  pose (sel := fun '((i, j) : nat * nat) => negb (neqb (mnth N A i j) n0)).
  destruct (set_loop N (spmat_ops N) _ _ Hok _ sel fst snd (fun '((i, j) : nat * nat) => mnth N A i j) n m (list_prod (seq 0 n) (seq 0 m)) _ Wc)
    as [B [E [W [G1 G2]]]].
  { intros [i j] H _. apply in_prod_iff in H as [Hi Hj]. apply in_seq in Hi, Hj. cbn [fst snd]. lia. }
  { intros [i j] [i' j'] _ _ _ _ E1 E2. cbn [fst snd] in *. subst. reflexivity. }
  exists B. split; [|split; [assumption|]].
  - refine (eq_trans _ E). rewrite for_each_for_in.
    rewrite (for_in_ext _ _ _ (fun x => for_in (fun y r => if sel (x, y) then sp_set N r x y (mnth N A x y) else Ok r) (seq 0 m))).
    + rewrite (for_in_prod _ _ _ (fun x y r => if sel (x, y) then sp_set N r x y (mnth N A x y) else Ok r)).
      apply for_in_ext. intros [x y] r _. reflexivity.
    + intros i r Hi. apply in_seq in Hi. rewrite for_each_for_in. apply for_in_ext. intros j r' Hj. apply in_seq in Hj.
      pose proof (ok_get _ _ _ _ (mat_ops_ok N) A n m i j (conj HA1 HA2) ltac:(lia) ltac:(lia)) as G.
      cbn [mat_ops m_get] in G. rewrite G. cbn [bind]. reflexivity.
  - apply (mat_ext N n m); [apply (ok_mat _ _ _ _ Hok _ _ _ W)|split; assumption|]. intros i j Hi Hj.
    destruct (sel (i, j)) eqn:Es.
    + apply (G1 (i, j)); [|assumption]. apply in_prod_iff. split; apply in_seq; lia.
    + rewrite G2.
      * rewrite Rc, mnth_construct. unfold sel in Es. apply negb_false_iff, Heq in Es. symmetry. assumption.
      * intros [i' j'] _ Hs [E1 E2]. cbn [fst snd] in *. subst. congruence.
Qed.

(** * CSR triples: the entries the triple denotes (duplicates are summed, as SciPy does) *)
Lemma for_in_flat : forall A B S (g : A -> list B) (f : A -> B -> S -> res S) l s,
  for_in (fun x => for_in (f x) (g x)) l s = for_in (fun '(x, y) => f x y) (flat_map (fun x => map (pair x) (g x)) l) s.
Proof.
  intros A B S g f. induction l as [|x l IH]; intros s; [reflexivity|]. cbn [for_in flat_map]. rewrite for_in_app, for_in_map.
  destruct (for_in (f x) (g x) s); cbn [bind]; auto.
Qed.

Lemma filter_none : forall A (p : A -> bool) l, (forall x, In x l -> p x = false) -> filter p l = [].
Proof. intros A p l H. apply filter_all_false, Forall_forall. assumption. Qed.

Lemma filter_one : forall (l : list nat) x (p : nat -> bool), NoDup l -> In x l -> p x = true -> (forall y, In y l -> p y = true -> y = x) -> filter p l = [x].
Proof.
  induction l as [|y l IH]; intros x p Hn Hin Hp Hu; [contradiction|]. inversion Hn; subst. cbn [filter]. destruct Hin as [->|Hin].
  - rewrite Hp. f_equal. apply filter_none. intros z Hz. destruct (p z) eqn:E; [|reflexivity]. exfalso.
    apply Hu in E; [|right; assumption]. subst. contradiction.
  - destruct (p y) eqn:E.
    + exfalso. apply Hu in E; [|left; reflexivity]. subst. contradiction.
    + apply IH; auto. intros z Hz. apply Hu. right. assumption.
Qed.

Lemma csr_to_spmat_ok : (forall x : N, nadd n0 x = x) -> forall data indices indptr n m,
  csr_wf data indices indptr n m -> csr_distinct indices indptr n ->
  exists B, csr_to_spmat N data indices indptr n m = Ok B /\ sp_wf2 N B n m /\
    forall i c, i < n -> c < m -> mnth N (dense B) i c = csr_entry data indices indptr i c.
Proof.
  intros Hadd data indices indptr n m (W1 & W2 & W3 & W4) Hdist. unfold csr_to_spmat.
  pose proof (spmat_ops_ok N) as Hok. destruct (ok_construct _ _ _ _ Hok n m) as [Wc Rc].
  set (rng := fun i => seq (nth i indptr 0) (nth (S i) indptr 0 - nth i indptr 0)).
  set (zs := flat_map (fun x => map (pair x) (rng x)) (seq 0 n)).
  assert (Hzs : forall i j, In (i, j) zs <-> i < n /\ nth i indptr 0 <= j < nth (S i) indptr 0).
  { intros i j. unfold zs. rewrite in_flat_map. split.
    - intros [x [Hx H]]. apply in_map_iff in H as [y [E H]]. injection E as -> ->. apply in_seq in Hx, H. lia.
    - intros [Hi Hj]. exists i. split; [apply in_seq; lia|]. apply in_map. apply in_seq. lia. }
  assert (Hcol : forall j, j < length data -> nth j indices 0 < m) by (intros j Hj; rewrite Forall_forall in W4; apply W4, nth_In; lia).
  destruct (set_loop N (spmat_ops N) _ _ Hok _ (fun _ => true) fst (fun z : nat * nat => nth (snd z) indices 0) (fun z : nat * nat => nth (snd z) data n0) n m zs _ Wc)
    as [B [E [W [G1 G2]]]].
  { intros [i j] H _. apply Hzs in H. cbn [fst snd]. split; [lia|]. apply Hcol. specialize (W3 i ltac:(lia)). lia. }
  { intros [i j] [i' j'] H H' _ _ E1 E2. apply Hzs in H, H'. cbn [fst snd] in *. subst i'. f_equal. apply (Hdist i); tauto. }
  exists B. split; [|split; [assumption|]].
  - refine (eq_trans _ E). rewrite for_each_for_in. unfold zs.
    rewrite (for_in_ext _ _ _ (fun i => for_in (fun j r => sp_set N r i (nth j indices 0) (nth j data n0)) (rng i))).
    + rewrite (for_in_flat _ _ _ rng (fun i j r => sp_set N r i (nth j indices 0) (nth j data n0))). apply for_in_ext. intros [x y] r _. reflexivity.
    + intros i r Hi. apply in_seq in Hi. rewrite (vget_nth_ok _ indptr i 0) by lia. cbn [bind].
      rewrite (vget_nth_ok _ indptr (i + 1) 0) by lia. cbn [bind]. rewrite for_each_for_in. replace (i + 1) with (S i) by lia.
      apply for_in_ext. intros j r' Hj. apply in_seq in Hj. specialize (W3 i ltac:(lia)).
      rewrite (vget_nth_ok _ indices j 0) by lia. cbn [bind]. rewrite (vget_nth_ok _ data j n0) by lia. reflexivity.
  - intros i c Hi Hc. unfold csr_entry. fold (rng i).
    destruct (existsb (fun j => nth j indices 0 =? c) (rng i)) eqn:Ex.
    + apply existsb_exists in Ex as [j [Hj Ej]]. pose proof (proj1 (in_seq _ _ _) Hj) as Hj'. rewrite (filter_one _ j); auto.
      * cbn [map]. unfold nsum. cbn [fold_left]. rewrite Hadd. apply Nat.eqb_eq in Ej. subst c.
        apply (G1 (i, j)); [apply Hzs; lia|reflexivity].
      * apply seq_NoDup.
      * intros y Hy Ey. apply in_seq in Hy. apply Nat.eqb_eq in Ej, Ey. apply (Hdist i); try lia.
    + rewrite filter_none.
      * unfold nsum. cbn [map fold_left]. rewrite G2; [rewrite Rc; apply mnth_construct|]. intros [i' j] Hz _ [E1 E2]. cbn [fst snd] in *. subst.
        apply Hzs in Hz. assert (existsb (fun j0 => nth j0 indices 0 =? nth j indices 0) (rng i) = true); [|congruence].
        apply existsb_exists. exists j. split; [apply in_seq; lia|apply Nat.eqb_refl].
      * intros j Hj. destruct (nth j indices 0 =? c) eqn:Ej; [|reflexivity]. assert (existsb (fun j => nth j indices 0 =? c) (rng i) = true); [|congruence].
        apply existsb_exists. exists j. split; assumption.
Qed.

(** * row_col_val *)
Lemma nsum_single : (forall x : N, nadd n0 x = x) -> forall x : N, nsum [x] = x.
Proof. intros H x. unfold nsum. cbn [fold_left]. apply H. Qed.

Lemma triples_row : forall row (i j i' : nat), increasing (map fst row) ->
  filter (fun z : nat * nat * N => (fst (fst z) =? i) && (snd (fst z) =? j)) (map (fun '(j0, x) => (i', j0, x)) row) =
  if i' =? i then (if memb j (map fst row) then [(i, j, stored row j)] else []) else [].
Proof.
  intros row i j i' H. destruct (Nat.eqb_spec i' i) as [->|Hne].
  - induction row as [|[k x] row IH]; [reflexivity|]. cbn [map fst] in H. inversion H; subst. cbn [map filter fst snd]. rewrite Nat.eqb_refl. cbn [andb].
    rewrite IH by assumption. cbn [stored memb existsb map fst]. rewrite (Nat.eqb_sym j k). destruct (Nat.eqb_spec k j) as [->|]; [|reflexivity].
    cbn [orb]. replace (memb j (map fst row)) with false; [reflexivity|]. symmetry. apply memb_notIn. intros G.
    rewrite Forall_forall in H3. apply H3 in G. lia.
  - apply filter_none. intros [[a b] x] Hz. apply in_map_iff in Hz as [[j0 y] [E _]]. injection E as <- <- <-. cbn [fst snd].
    replace (i' =? i) with false by (symmetry; apply Nat.eqb_neq; assumption). reflexivity.
Qed.

Lemma row_col_val_ok : (forall x : N, nadd n0 x = x) -> forall A : spmat N, sp_wf A ->
  (forall i j x, In (i, j, x) (row_col_val N A) -> i < sp_size1 N A /\ j < sp_size2 N A) /\
  NoDup (map fst (row_col_val N A)) /\
  (forall i j, i < sp_size1 N A -> j < sp_size2 N A -> triples_entry (row_col_val N A) i j = mnth N (dense A) i j).
Proof.
  intros Hadd A HA. unfold row_col_val. split; [|split].
  - intros i j x H. apply sp_entries_spec in H; [tauto|assumption].
  - unfold sp_entries. destruct HA as [_ HA]. generalize 0 as k. revert HA. generalize (sp_rows N A).
    induction l as [|row l IH]; intros HA k; [constructor|]. inversion HA as [|? ? [Hr _] HA']; subst. cbn [rows_entries]. rewrite map_app. apply NoDup_app_intro.
    + rewrite map_map. apply increasing_NoDup in Hr. clear - Hr. induction row as [|[j x] row IH]; [constructor|]. cbn [map fst] in *. inversion Hr; subst. constructor; [|apply IH; assumption].
      intros G. apply in_map_iff in G as [[j' x'] [E G]]. injection E as ->. apply H1. apply in_map_iff. exists (j, x'). auto.
    + apply IH. assumption.
    + intros [i j] H1 H2. apply in_map_iff in H1 as [[p x] [E1 H1]], H2 as [[p' x'] [E2 H2]]. cbn [fst] in *. subst p p'.
      apply in_map_iff in H1 as [[j0 x0] [E _]]. injection E as <- <- <-. apply in_rows_entries in H2. lia.
  - intros i j Hi Hj. rewrite dense_nth by assumption. unfold triples_entry, sp_entries.
    assert (G : forall rows k, Forall (fun row => increasing (map fst row)) rows -> k <= i -> i < k + length rows ->
      filter (fun z : nat * nat * N => (fst (fst z) =? i) && (snd (fst z) =? j)) (rows_entries N k rows) =
      if memb j (map fst (nth (i - k) rows [])) then [(i, j, stored (nth (i - k) rows []) j)] else []).
    { induction rows as [|row rows IH]; intros k HF Hk Hi'; [cbn in Hi'; lia|]. inversion HF; subst. cbn [rows_entries]. rewrite filter_app, triples_row by assumption.
      destruct (Nat.eqb_spec k i) as [->|].
      - rewrite Nat.sub_diag. cbn [nth]. replace (filter _ (rows_entries N (S i) rows)) with (@nil (nat * nat * N)); [rewrite app_nil_r; reflexivity|].
        symmetry. apply filter_none. intros [[a b] x] Hz. apply in_rows_entries in Hz. cbn [fst snd].
        replace (a =? i) with false by (symmetry; apply Nat.eqb_neq; lia). reflexivity.
      - cbn [app length] in *. rewrite IH by (auto; lia). replace (i - k) with (S (i - S k)) by lia. reflexivity. }
    destruct HA as [HA1 HA2]. rewrite G; [|eapply Forall_impl; [|exact HA2]; intros; cbv beta in *; tauto|lia|lia]. rewrite Nat.sub_0_r.
    destruct (memb j (map fst (nth i (sp_rows N A) []))) eqn:Em.
    + cbn [map snd]. apply nsum_single. assumption.
    + unfold nsum. cbn [map fold_left]. symmetry. apply stored_notin. intros x Hx. apply memb_notIn in Em. apply Em. apply in_map_iff. exists (j, x). auto.
Qed.

(** matrix::eye *)
Lemma eye_ok : forall O rep wf, ops_ok N O rep wf -> forall n, exists E, m_eye N O n = Ok E /\ wf E n n /\
  forall i j, i < n -> j < n -> mnth N (rep E) i j = if i =? j then n1 else n0.
Proof.
  intros O rep wf Hok n. unfold m_eye. destruct (ok_construct _ _ _ _ Hok n n) as [Wc Rc].
  destruct (set_loop N O _ _ Hok _ (fun _ => true) (fun i : nat => i) (fun i : nat => i) (fun _ => n1) n n (seq 0 n) _ Wc) as [B [E [W [G1 G2]]]].
  { intros i Hi _. apply in_seq in Hi. lia. } { reflexivity. }
  exists B. split; [rewrite for_each_for_in; exact E|]. split; [assumption|]. intros i j Hi Hj. destruct (Nat.eqb_spec i j) as [->|].
  - apply (G1 j); [apply in_seq; lia|reflexivity].
  - rewrite G2; [rewrite Rc; apply mnth_construct|]. intros k _ _ [E1 E2]. lia.
Qed.

End Sparse.
