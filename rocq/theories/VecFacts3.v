(** Lemmas for C110: algebraic laws, conversions, printing. *)
From Coq Require Import String List Bool Arith ZArith Lia.
From Verif Require Import Base Lists Num Fnum LinModel LinSpec LinBase MatBase Sparse Facts2 VecModel VecSpec VecFacts VecFacts2.
Import ListNotations.

Section Laws.
Variable N : num.
Hypothesis L : num_laws N.
Notation vec := (list N).
Notation mat := (list (list N)).

Lemma nsum_zero : forall A (l : list A), nsum (map (fun _ => n0 : N) l) = n0.
Proof using L. intros A l. induction l as [|x l IH]; [reflexivity|]. cbn [map]. rewrite (nsum_cons N L), IH. apply (law_add_0 N L). Qed.
Lemma nsum_swap : forall A B (f : A -> B -> N) l1 l2, nsum (map (fun x => nsum (map (f x) l2)) l1) = nsum (map (fun y => nsum (map (fun x => f x y) l1)) l2).
Proof using L.
  intros A B f l1 l2. induction l1 as [|x l1 IH].
  - cbn [map]. symmetry. apply nsum_zero.
  - cbn [map]. rewrite (nsum_cons N L), IH, <- (nsum_map_add N L). f_equal. apply map_ext. intros y. rewrite (nsum_cons N L). reflexivity.
Qed.
Lemma nsum_ext : forall A (f g : A -> N) l, (forall x, In x l -> f x = g x) -> nsum (map f l) = nsum (map g l).
Proof using Type. intros A f g l H. f_equal. apply map_ext_in. exact H. Qed.
Lemma mul_nsum_l : forall A (f : A -> N) c l, nmul (nsum (map f l)) c = nsum (map (fun x => nmul (f x) c) l).
Proof using L. intros A f c l. rewrite (law_mul_comm N L), <- (nsum_map_mul N L). apply nsum_ext. intros. apply (law_mul_comm N L). Qed.

Lemma entry_ext : forall n m (A B : mat), mat_wf n m A -> mat_wf n m B -> (forall i j, i < n -> j < m -> entry A i j = entry B i j) -> A = B.
Proof using Type. exact (mat_ext N). Qed.

Lemma mul_assoc : forall n (A B C : mat), mat_wf n n A -> mat_wf n n B -> mat_wf n n C -> (AB <- mat_mul N A B ;; mat_mul N AB C) = (BC <- mat_mul N B C ;; mat_mul N A BC) /\ exists D, (AB <- mat_mul N A B ;; mat_mul N AB C) = Ok D.
Proof using L.
  intros n A B C HA HB HC. destruct (mat_mul_ok N n n n n A B HA HB) as (AB & E1 & W1 & V1); try lia. destruct (mat_mul_ok N n n n n B C HB HC) as (BC & E2 & W2 & V2); try lia. rewrite E1, E2. cbn [bind].
  destruct (mat_mul_ok N n n n n AB C W1 HC) as (X & E3 & W3 & V3); try lia. destruct (mat_mul_ok N n n n n A BC HA W2) as (Y & E4 & W4 & V4); try lia. rewrite E3, E4. split; [|eauto]. f_equal. apply (entry_ext n n); [exact W3|exact W4|].
  intros i j Hi Hj. rewrite V3, V4 by assumption. unfold row_col. transitivity (nsum (map (fun k => nsum (map (fun l => nmul (nmul (entry A i l) (entry B l k)) (entry C k j)) (seq 0 n))) (seq 0 n))).
  - apply nsum_ext. intros k Hk. apply in_seq in Hk. rewrite V1 by lia. unfold row_col. apply mul_nsum_l.
  - rewrite nsum_swap. apply nsum_ext. intros l Hl. apply in_seq in Hl. rewrite V2 by lia. unfold row_col. rewrite <- (nsum_map_mul N L). apply nsum_ext. intros k _. symmetry. apply (law_mul_assoc N L).
Qed.
Lemma identity_wf : forall n, mat_wf n n (@identity N n).
Proof using Type. intros n. unfold identity. split; [rewrite map_length, seq_length; reflexivity|]. apply Forall_forall. intros row H. apply in_map_iff in H as (i & <- & _). rewrite map_length, seq_length. reflexivity. Qed.
Lemma identity_entry : forall n i j, i < n -> j < n -> entry (@identity N n) i j = if i =? j then n1 else n0.
Proof using Type.
  intros n i j Hi Hj. unfold entry, identity. rewrite (nth_map_lt _ _ _ (seq 0 n) i [] 0) by (rewrite seq_length; exact Hi). rewrite (nth_map_lt _ _ _ (seq 0 n) j n0 0) by (rewrite seq_length; exact Hj). rewrite !seq_nth by assumption. reflexivity.
Qed.
Lemma nsum_pick : forall (f : nat -> N) i n, i < n -> nsum (map (fun k => if i =? k then f k else n0) (seq 0 n)) = f i.
Proof using L.
  intros f i n Hi. assert (G : forall a c, nsum (map (fun k => if i =? k then f k else n0) (seq a c)) = if (a <=? i) && (i <? a + c) then f i else n0).
  { intros a c. revert a. induction c as [|c IH]; intros a; cbn [seq map].
    - destruct (Nat.leb_spec a i), (Nat.ltb_spec i (a + 0)); cbn [andb]; try reflexivity; lia.
    - rewrite (nsum_cons N L), IH. destruct (Nat.eqb_spec i a) as [Ea|], (Nat.leb_spec (S a) i), (Nat.leb_spec a i), (Nat.ltb_spec i (S a + c)), (Nat.ltb_spec i (a + S c)); cbn [andb]; try lia; rewrite ?(law_add_0 N L); try reflexivity.
      rewrite (law_add_comm N L), (law_add_0 N L), Ea. reflexivity. }
  rewrite G. cbn [Nat.leb Nat.add andb]. rewrite (proj2 (Nat.ltb_lt _ _) Hi). reflexivity.
Qed.
Lemma mul_identity : forall n (A : mat), mat_wf n n A -> mat_mul N (identity n) A = Ok A /\ mat_mul N A (identity n) = Ok A.
Proof using L.
  intros n A HA. destruct (mat_mul_ok N n n n n (identity n) A (identity_wf n) HA) as (X & E3 & W3 & V3); try lia. destruct (mat_mul_ok N n n n n A (identity n) HA (identity_wf n)) as (Y & E4 & W4 & V4); try lia. rewrite E3, E4.
  split; f_equal; apply (entry_ext n n); try assumption; intros i j Hi Hj; rewrite ?V3, ?V4 by assumption; unfold row_col.
  - rewrite (nsum_ext _ _ (fun k => if i =? k then entry A k j else n0)); [apply (nsum_pick (fun k => entry A k j)); exact Hi|]. intros k Hk. apply in_seq in Hk. rewrite identity_entry by lia. destruct (i =? k); [apply (law_mul_1 N L)|apply (law_mul_0 N L)].
  - rewrite (nsum_ext _ _ (fun k => if j =? k then entry A i k else n0)); [apply (nsum_pick (fun k => entry A i k)); exact Hj|]. intros k Hk. apply in_seq in Hk. rewrite identity_entry by lia. rewrite Nat.eqb_sym. rewrite (law_mul_comm N L). destruct (j =? k); [apply (law_mul_1 N L)|apply (law_mul_0 N L)].
Qed.
Lemma eye_identity : forall n, m_eye N (mat_ops N) n = Ok (identity n).
Proof using Type.
  intros n. unfold m_eye. destruct (cells_loop N n n (fun i _ => i) (fun i j => (i =? j)) (fun _ _ _ => n1) (fun i A => m_set N (mat_ops N) A i i n1) n 0 (mat_construct N n n)) as (C & E & W & V).
  - apply mat_construct_wf.
  - intros i R Hi HR. destruct (mat_set_ok N n n R i i n1 HR) as (R' & E & W & V); try lia. exists R'. split; [exact E|]. split; [exact W|]. intros p q. rewrite V. destruct (Nat.eqb_spec p i), (Nat.eqb_spec q i), (Nat.eqb_spec p q); cbn [andb]; try reflexivity; lia.
  - refine (eq_trans E _). f_equal. apply (entry_ext n n); [exact W|apply identity_wf|]. intros i j Hi Hj. rewrite V, identity_entry by assumption. cbn [Nat.leb Nat.add andb]. rewrite (proj2 (Nat.ltb_lt _ _) Hi), andb_true_r. destruct (i =? j); [reflexivity|]. exact (mnth_construct N n n i j).
Qed.
Lemma mul_vec : forall n (A B : mat) v, mat_wf n n A -> mat_wf n n B -> length v = n -> (AB <- mat_mul N A B ;; mat_vec N AB v) = (w <- mat_vec N B v ;; mat_vec N A w) /\ exists w, (AB <- mat_mul N A B ;; mat_vec N AB v) = Ok w.
Proof using L.
  intros n A B v HA HB Hv. destruct (mat_mul_ok N n n n n A B HA HB) as (AB & E1 & W1 & V1); try lia. rewrite E1. cbn [bind]. rewrite (mat_vec_ok N n n AB v W1), (mat_vec_ok N n n B v HB) by lia. cbn [bind].
  rewrite (mat_vec_ok N n n A _ HA) by (rewrite ?map_length, ?seq_length; lia). split; [|eauto]. f_equal. apply map_ext_in. intros i Hi. apply in_seq in Hi. unfold dot.
  transitivity (nsum (map (fun k => nsum (map (fun l => nmul (nmul (entry A i l) (entry B l k)) (nth k v n0)) (seq 0 n))) (seq 0 n))).
  - apply nsum_ext. intros k Hk. apply in_seq in Hk. change (nth k (nth i AB []) n0) with (entry AB i k). rewrite V1 by lia. unfold row_col. apply mul_nsum_l.
  - rewrite nsum_swap. apply nsum_ext. intros l Hl. apply in_seq in Hl. rewrite (nth_map_lt _ _ _ (seq 0 n) l n0 0) by (rewrite seq_length; lia). rewrite seq_nth by lia. cbn [Nat.add]. rewrite <- (nsum_map_mul N L). apply nsum_ext. intros k _. symmetry. apply (law_mul_assoc N L).
Qed.
Lemma dot_comm : forall v w : vec, length v = length w -> vec_dot N v w = vec_dot N w v.
Proof using L. intros v w H. rewrite !dot_ok by lia. f_equal. unfold dot. rewrite H. apply nsum_ext. intros. apply (law_mul_comm N L). Qed.
Lemma sub_add : forall v w : vec, length v = length w -> (d <- vec_sub N v w ;; vec_add N d w) = Ok v.
Proof using L.
  intros v w H. unfold vec_sub. rewrite (binop_ok _ _ _ v w (fun k => nsub (nth k v n0) (nth k w n0))) by (try lia; reflexivity). cbn [bind]. unfold vec_add. erewrite binop_ok; [|rewrite map_length, seq_length; lia|intros k Hk; reflexivity].
  f_equal. rewrite map_length, seq_length. apply list_ext_nth with (d := n0); [rewrite map_length, seq_length; reflexivity|]. intros k Hk. rewrite map_length, seq_length in Hk. rewrite (nth_map_lt _ _ _ (seq 0 (length v)) k n0 0) by (rewrite seq_length; exact Hk). rewrite seq_nth by exact Hk. cbn [Nat.add].
  rewrite (nth_map_lt _ _ _ (seq 0 (length v)) k n0 0) by (rewrite seq_length; exact Hk). rewrite seq_nth by exact Hk. cbn [Nat.add]. unfold nsub. rewrite <- (law_add_assoc N L), (law_add_comm N L (nopp _)), (law_opp N L), (law_add_comm N L), (law_add_0 N L). reflexivity.
Qed.
End Laws.

Section Convert.
Variable N : num.
Notation mat := (list (list N)).

Lemma fill2 : forall R (hold : R -> (nat -> nat -> N) -> Prop) n m (set : R -> nat -> nat -> N -> res R) (g : nat -> nat -> N),
  (forall r f i j x, hold r f -> i < n -> j < m -> exists r', set r i j x = Ok r' /\ hold r' (fun p q => if (p =? i) && (q =? j) then x else f p q)) ->
  (forall r f h, (forall p q, p < n -> q < m -> f p q = h p q) -> hold r f -> hold r h) ->
  forall r f, hold r f -> exists r', for_each (fun i r => for_each (fun j r => set r i j (g i j)) m 0 r) n 0 r = Ok r' /\ hold r' g.
Proof.
  intros R hold n m set g Hset Hext r f Hr.
  assert (Row : forall i c j0 r f, i < n -> j0 + c <= m -> hold r f -> exists r', for_each (fun j r => set r i j (g i j)) c j0 r = Ok r' /\ hold r' (fun p q => if (p =? i) && ((j0 <=? q) && (q <? j0 + c)) then g p q else f p q)).
  { intros i c. induction c as [|c IH]; intros j0 r0 f0 Hi Hj Hr0; cbn [for_each].
    - exists r0. split; [reflexivity|]. eapply Hext; [|exact Hr0]. intros p q _ _. destruct (p =? i), (Nat.leb_spec j0 q), (Nat.ltb_spec q (j0 + 0)); cbn [andb]; try reflexivity; lia.
    - destruct (Hset r0 f0 i j0 (g i j0) Hr0 Hi ltac:(lia)) as (r1 & E1 & H1). rewrite E1. cbn [bind]. destruct (IH (S j0) r1 _ Hi ltac:(lia) H1) as (r2 & E2 & H2). exists r2. split; [exact E2|]. eapply Hext; [|exact H2]. intros p q _ _. cbv beta.
      destruct (Nat.eqb_spec p i) as [Ep|], (Nat.eqb_spec q j0) as [Eq|], (Nat.leb_spec (S j0) q), (Nat.leb_spec j0 q), (Nat.ltb_spec q (S j0 + c)), (Nat.ltb_spec q (j0 + S c)); cbn [andb]; try reflexivity; try lia; subst; reflexivity. }
  assert (All : forall c i0 r f, i0 + c <= n -> hold r f -> exists r', for_each (fun i r => for_each (fun j r => set r i j (g i j)) m 0 r) c i0 r = Ok r' /\ hold r' (fun p q => if (i0 <=? p) && (p <? i0 + c) then g p q else f p q)).
  { induction c as [|c IH]; intros i0 r0 f0 Hi Hr0; cbn [for_each].
    - exists r0. split; [reflexivity|]. eapply Hext; [|exact Hr0]. intros p q _ _. destruct (Nat.leb_spec i0 p), (Nat.ltb_spec p (i0 + 0)); cbn [andb]; try reflexivity; lia.
    - destruct (Row i0 m 0 r0 f0 ltac:(lia) ltac:(lia) Hr0) as (r1 & E1 & H1). rewrite E1. cbn [bind]. destruct (IH (S i0) r1 _ ltac:(lia) H1) as (r2 & E2 & H2). exists r2. split; [exact E2|]. eapply Hext; [|exact H2]. intros p q _ Hq. cbv beta. change (0 <=? q) with true. change (0 + m) with m. cbn [andb]. rewrite (proj2 (Nat.ltb_lt q m) Hq), andb_true_r.
      destruct (Nat.eqb_spec p i0) as [Ep|], (Nat.leb_spec (S i0) p), (Nat.leb_spec i0 p), (Nat.ltb_spec p (S i0 + c)), (Nat.ltb_spec p (i0 + S c)); cbn [andb]; try reflexivity; lia. }
  destruct (All n 0 r f (le_n _) Hr) as (r' & E & H). exists r'. split; [exact E|]. eapply Hext; [|exact H]. intros p q Hp _. cbn [Nat.leb Nat.add andb]. rewrite (proj2 (Nat.ltb_lt _ _) Hp). reflexivity.
Qed.
Definition b_hold (n m : nat) (B : boost_mat N) (f : nat -> nat -> N) : Prop := b_size1 N B = n /\ b_size2 N B = m /\ length (b_data N B) = n * m /\ forall i j, i < n -> j < m -> nth (i * m + j) (b_data N B) n0 = f i j.
Lemma b_hold_set : forall n m r f i j x, b_hold n m r f -> i < n -> j < m -> exists r', b_set N r i j x = Ok r' /\ b_hold n m r' (fun p q => if (p =? i) && (q =? j) then x else f p q).
Proof.
  intros n m r f i j x (H1 & H2 & H3 & H4) Hi Hj. unfold b_set. rewrite H1, H2, (proj2 (Nat.ltb_lt _ _) Hi), (proj2 (Nat.ltb_lt _ _) Hj). cbn [andb]. assert (B : forall i j, i < n -> j < m -> i * m + j < n * m) by (intros; nia). rewrite vset_ok by (rewrite H3; apply B; assumption). cbn [bind]. eexists. split; [reflexivity|].
  split; [reflexivity|]. split; [reflexivity|]. cbn [b_data]. split; [rewrite upd_length; exact H3|]. intros p q Hp Hq. rewrite nth_upd, H3. rewrite (proj2 (Nat.ltb_lt (i * m + j) (n * m))) by (apply B; assumption). rewrite andb_true_r. rewrite H4 by assumption.
  destruct (Nat.eqb_spec (p * m + q) (i * m + j)) as [E|E].
  - assert (p = i) by nia. assert (q = j) by nia. subst. rewrite !Nat.eqb_refl. reflexivity.
  - destruct (Nat.eqb_spec p i) as [Ep|], (Nat.eqb_spec q j) as [Eq|]; cbn [andb]; try reflexivity. subst. lia.
Qed.
Lemma b_hold_ext : forall n m r (f h : nat -> nat -> N), (forall p q, p < n -> q < m -> f p q = h p q) -> b_hold n m r f -> b_hold n m r h.
Proof. intros n m r f h H (H1 & H2 & H3 & H4). repeat split; try assumption. intros. rewrite H4 by assumption. apply H; assumption. Qed.
Lemma b_construct_hold : forall n m, b_hold n m (b_construct N n m) (fun _ _ => n0).
Proof. intros n m. repeat split; cbn [b_construct b_data]; [apply repeat_length|]. intros. apply nth_repeat. Qed.
Definition m_hold (n m : nat) (A : mat) (f : nat -> nat -> N) : Prop := mat_wf n m A /\ forall i j, i < n -> j < m -> entry A i j = f i j.

Lemma for_each_ext_in : forall S (b1 b2 : nat -> S -> res S) n i s, (forall k s, i <= k < i + n -> b1 k s = b2 k s) -> for_each b1 n i s = for_each b2 n i s.
Proof. intros S b1 b2. induction n as [|n IH]; intros i s H; [reflexivity|]. cbn [for_each]. rewrite H by lia. destruct (b2 i s); cbn [bind]; try reflexivity. apply IH. intros. apply H. lia. Qed.
Lemma convert_ok : forall R T (hold : R -> (nat -> nat -> N) -> Prop) n m construct set size1 size2 get (input : T) (g : nat -> nat -> N),
  size1 input = n -> size2 input = Ok m -> (forall i j, i < n -> j < m -> get input i j = Ok (g i j)) ->
  (forall r f i j x, hold r f -> i < n -> j < m -> exists r', set r i j x = Ok r' /\ hold r' (fun p q => if (p =? i) && (q =? j) then x else f p q)) ->
  (forall r f h, (forall p q, p < n -> q < m -> f p q = h p q) -> hold r f -> hold r h) -> (exists f, hold (construct n m) f) ->
  exists r, naive_convert N (R := R) construct set size1 size2 get input = Ok r /\ hold r g.
Proof.
  intros R T hold n m construct set size1 size2 get input g E1 E2 Hg Hs He [f Hf]. unfold naive_convert. rewrite E2. cbn [bind]. rewrite E1. destruct (fill2 R hold n m set g Hs He _ f Hf) as (r & E & H). exists r. split; [|exact H]. rewrite <- E.
  apply for_each_ext_in. intros i s Hi. apply for_each_ext_in. intros j s' Hj. rewrite Hg by lia. reflexivity.
Qed.
Lemma to_boost : forall n m (A : mat), mat_wf n m A -> 0 < n -> exists B, mat_to_boost N A = Ok B /\ b_holds B n m A.
Proof.
  intros n m A HA Hn. apply (convert_ok _ _ (b_hold n m) n m); [apply HA| | |apply b_hold_set|apply b_hold_ext|exists (fun _ _ => n0); apply b_construct_hold].
  - unfold mat_size2. rewrite (vget_nth_ok _ A 0 []) by (destruct HA; lia). cbn [bind]. f_equal. apply (mat_wf_row N n m A 0 HA Hn).
  - intros i j Hi Hj. apply (mat_get_ok N n m); assumption.
Qed.
Lemma from_boost : forall n m (A : mat) B, mat_wf n m A -> b_holds B n m A -> boost_to_mat N B = Ok A.
Proof.
  intros n m A B HA (H1 & H2 & H3 & H4). destruct (convert_ok _ _ (m_hold n m) n m (mat_construct N) (mat_set N) (b_size1 N) (fun A => Ok (b_size2 N A)) (b_get N) B (entry A)) as (C & E & W & V).
  - exact H1.
  - rewrite H2. reflexivity.
  - intros i j Hi Hj. unfold b_get. rewrite H1, H2, (proj2 (Nat.ltb_lt _ _) Hi), (proj2 (Nat.ltb_lt _ _) Hj). cbn [andb]. rewrite (vget_nth_ok _ _ _ n0) by (rewrite H3; nia). rewrite H4 by assumption. reflexivity.
  - intros r f i j x (W & V) Hi Hj. destruct (mat_set_ok N n m r i j x W Hi Hj) as (r' & E & W' & V'). exists r'. split; [exact E|]. split; [exact W'|]. intros p q Hp Hq. rewrite V', V by assumption. reflexivity.
  - intros r f h H (W & V). split; [exact W|]. intros p q Hp Hq. rewrite V by assumption. apply H; assumption.
  - exists (fun _ _ => n0). split; [apply mat_construct_wf|]. intros. exact (mnth_construct N n m i j).
  - unfold boost_to_mat. rewrite E. f_equal. apply (entry_ext N n m); [exact W|exact HA|exact V].
Qed.
Lemma sp_boost : forall (S : spmat N), sp_wf S -> exists B, sp_to_boost N S = Ok B /\ b_holds B (sp_size1 N S) (sp_size2 N S) (dense S).
Proof.
  intros S HS. apply (convert_ok _ _ (b_hold (sp_size1 N S) (sp_size2 N S)) (sp_size1 N S) (sp_size2 N S)); [reflexivity|reflexivity| |apply b_hold_set|apply b_hold_ext|exists (fun _ _ => n0); apply b_construct_hold].
  intros i j Hi Hj. exact (ok_get N _ _ _ (spmat_ops_ok N) S (sp_size1 N S) (sp_size2 N S) i j (conj HS (conj eq_refl eq_refl)) Hi Hj).
Qed.
Lemma empty_boost : mat_to_boost N [] = Ub.
Proof. reflexivity. Qed.
End Convert.

Section Print.
Local Open Scope string_scope.
Lemma append_assoc : forall a b c : string, (a ++ b) ++ c = a ++ (b ++ c).
Proof. induction a as [|x a IH]; intros b c; [reflexivity|]. cbn [append]. rewrite IH. reflexivity. Qed.
Lemma print_loop : forall T sep (show : T -> res string) (f : T -> string) l c k0 t, k0 + c <= length l -> (forall a, In a l -> show a = Ok (f a)) ->
  for_each (fun i t => a <- vget l i ;; s <- show a ;; Ok (t ++ sep ++ s)) c k0 t = Ok (fold_left (fun t a => t ++ sep ++ f a) (firstn c (skipn k0 l)) t).
Proof.
  intros T sep show f l c. induction c as [|c IH]; intros k0 t Hk H; [reflexivity|]. cbn [for_each]. destruct (nth_error l k0) as [a|] eqn:E; [|apply nth_error_None in E; lia]. unfold vget. rewrite E. cbn [bind]. rewrite (H a) by (apply (nth_error_In _ _ E)). cbn [bind]. rewrite IH by (try lia; exact H).
  f_equal. assert (K : skipn k0 l = a :: skipn (S k0) l). { clear - E. revert k0 E. induction l as [|x l IHl]; intros [|k0] E; cbn in E |- *; try discriminate; [injection E as ->; reflexivity|]. apply IHl in E. exact E. } rewrite K. reflexivity.
Qed.
Lemma concat_fold : forall T sep (f : T -> string) l a, a ++ String.concat sep (map f l) = match l with [] => a ++ "" | x :: l' => fold_left (fun t y => t ++ sep ++ f y) l' (a ++ f x) end.
Proof.
  intros T sep f l. destruct l as [|x l]; [reflexivity|]. revert x. induction l as [|y l IH]; intros x a; [reflexivity|]. cbn [map fold_left]. change (String.concat sep (f x :: f y :: map f l)) with (f x ++ sep ++ String.concat sep (f y :: map f l)).
  rewrite <- !append_assoc. specialize (IH y ((a ++ f x) ++ sep)). cbn [map] in IH. rewrite IH. rewrite !append_assoc. reflexivity.
Qed.
Lemma print_ok : forall T sep close (show : T -> res string) (f : T -> string) l, l <> [] -> (forall a, In a l -> show a = Ok (f a)) -> print sep close show l = Ok ("[" ++ String.concat sep (map f l) ++ close).
Proof.
  intros T sep close show f [|x l] Hl H; [contradiction|]. unfold print. cbn [vget nth_error bind]. change (vget (x :: l) 0) with (Ok x). cbn [bind]. rewrite (H x) by (left; reflexivity). cbn [bind]. rewrite (print_loop T sep show f (x :: l)); [|cbn; lia|exact H]. cbn [bind length]. rewrite Nat.sub_succ, Nat.sub_0_r. cbn [skipn]. rewrite firstn_all.
  f_equal. rewrite <- append_assoc. rewrite (concat_fold T sep f (x :: l) "["). reflexivity.
Qed.
Lemma print_empty : forall T sep close (show : T -> res string), print sep close show [] = Ub.
Proof. reflexivity. Qed.
Lemma print_bad : forall T sep close (show : T -> res string) l x, (forall a, def_or_ub (show a)) -> In x l -> show x = Ub -> print sep close show l = Ub.
Proof.
  intros T sep close show l x Hd Hx Hs. assert (D : def_or_ub (print sep close show l)).
  { unfold print. apply dou_bind; [apply dou_vget|]. intros a _. apply dou_bind; [apply Hd|]. intros s _. apply dou_bind; [|intros; apply dou_ok]. apply dou_for. intros. apply dou_bind; [apply dou_vget|]. intros. apply dou_bind; [apply Hd|]. intros. apply dou_ok. }
  destruct D as [[C E]|E]; [|exact E]. exfalso. unfold print in E. apply bind_ok in E as (a & Ea & E). apply bind_ok in E as (s & Es & E). apply bind_ok in E as (t & Et & _). apply In_nth_error in Hx as [k Hk]. destruct k as [|k].
  - unfold vget in Ea. rewrite Hk in Ea. injection Ea as ->. congruence.
  - assert (S k < length l) by (apply nth_error_Some; congruence). destruct (for_each_visits _ _ _ _ _ _ Et (S k) ltac:(lia)) as (u & u' & E1). unfold vget in E1. rewrite Hk in E1. cbn [bind] in E1. rewrite Hs in E1. discriminate E1.
Qed.
End Print.
