(** Lemmas for C110: vectors, sums, multiples, laws. *)
From Coq Require Import String List Bool Arith ZArith Lia.
From Verif Require Import Base Lists Num Fnum LinModel LinSpec LinBase MatBase Sparse Facts2 VecModel VecSpec VecFacts.
Import ListNotations.

Lemma nth_error_upd : forall A (v : list A) i x k, i < length v -> nth_error (upd v i x) k = if k =? i then Some x else nth_error v k.
Proof.
  induction v as [|y v IH]; intros i x k Hi; [cbn in Hi; lia|]. destruct i, k; cbn [upd nth_error Nat.eqb]; try reflexivity. apply IH. cbn in Hi. lia.
Qed.
Lemma nth_error_eq : forall A (l l' : list A), length l = length l' -> (forall k, k < length l -> nth_error l k = nth_error l' k) -> l = l'.
Proof.
  induction l as [|x l IH]; intros [|y l'] H K; try discriminate H; [reflexivity|]. pose proof (K 0 ltac:(cbn; lia)) as K0. injection K0 as ->. f_equal. apply IH; [injection H as H; exact H|]. intros k Hk. apply (K (S k)). cbn. lia.
Qed.
Lemma fill_loop : forall T (f : nat -> T) (b : nat -> list T -> res (list T)) c k0 R, k0 + c <= length R ->
  (forall k R', k0 <= k < k0 + c -> length R' = length R -> nth_error R' k = nth_error R k -> b k R' = vset R' k (f k)) ->
  exists R', for_each b c k0 R = Ok R' /\ length R' = length R /\ forall p, nth_error R' p = if (k0 <=? p) && (p <? k0 + c) then Some (f p) else nth_error R p.
Proof.
  intros T f b. induction c as [|c IH]; intros k0 R HL H; cbn [for_each].
  - exists R. split; [reflexivity|]. split; [reflexivity|]. intros p. destruct (Nat.leb_spec k0 p), (Nat.ltb_spec p (k0 + 0)); cbn [andb]; try reflexivity; lia.
  - rewrite H; [|lia|reflexivity|reflexivity]. rewrite vset_ok by lia. cbn [bind]. destruct (IH (S k0) (upd R k0 (f k0))) as (R' & E & L & V); [rewrite upd_length; lia| |].
    + intros k R' Hk HR' Hn. rewrite upd_length in HR'. rewrite nth_error_upd in Hn by lia. apply H; [lia|exact HR'|]. rewrite Hn. destruct (Nat.eqb_spec k k0); [lia|reflexivity].
    + exists R'. split; [exact E|]. rewrite upd_length in L. split; [exact L|]. intros p. rewrite V, nth_error_upd by lia.
      destruct (Nat.eqb_spec p k0) as [Ep|], (Nat.leb_spec (S k0) p), (Nat.leb_spec k0 p), (Nat.ltb_spec p (S k0 + c)), (Nat.ltb_spec p (k0 + S c)); cbn [andb]; try reflexivity; try (rewrite Ep; reflexivity); lia.
Qed.
Lemma fill_all : forall T (f : nat -> T) (b : nat -> list T -> res (list T)) R,
  (forall k R', k < length R -> length R' = length R -> nth_error R' k = nth_error R k -> b k R' = vset R' k (f k)) -> for_each b (length R) 0 R = Ok (map f (seq 0 (length R))).
Proof.
  intros T f b R H. destruct (fill_loop T f b (length R) 0 R (le_n _)) as (R' & E & L & V); [intros k R' Hk; apply H; lia|]. rewrite E. f_equal. apply nth_error_eq; [rewrite map_length, seq_length; exact L|].
  intros k Hk. rewrite V. cbn [Nat.leb Nat.add andb]. rewrite (proj2 (Nat.ltb_lt _ _)) by lia. symmetry. apply (map_nth_error f). rewrite L in Hk. clear - Hk. rewrite (nth_error_nth' _ 0) by (rewrite seq_length; exact Hk). rewrite seq_nth by exact Hk. reflexivity.
Qed.
Lemma binop_ok : forall T (zero : T) op (v1 v2 : list T) f, length v1 <= length v2 -> (forall k, k < length v1 -> op (nth k v1 zero) (nth k v2 zero) = Ok (f k)) -> binop zero op v1 v2 = Ok (map f (seq 0 (length v1))).
Proof.
  intros T zero op v1 v2 f H Hop. unfold binop. pose proof (fill_all T f (fun i R => a <- vget v1 i ;; b <- vget v2 i ;; c <- op a b ;; vset R i c) (repeat zero (length v1))) as L. rewrite repeat_length in L. apply L.
  intros k R' Hk _ _. rewrite (vget_nth_ok _ v1 k zero), (vget_nth_ok _ v2 k zero) by lia. cbn [bind]. rewrite (Hop k Hk). reflexivity.
Qed.
Lemma binop_ub : forall T (zero : T) op (v1 v2 : list T), length v2 < length v1 -> (forall a b, def_or_ub (op a b)) -> binop zero op v1 v2 = Ub.
Proof.
  intros T zero op v1 v2 H Hop. assert (D : def_or_ub (binop zero op v1 v2)).
  { unfold binop. apply dou_for. intros k s. apply dou_bind; [apply dou_vget|]. intros. apply dou_bind; [apply dou_vget|]. intros. apply dou_bind; [apply Hop|]. intros. apply dou_vset. }
  destruct D as [[C E]|E]; [|exact E]. exfalso. unfold binop in E. destruct (for_each_visits _ _ _ _ _ _ E (length v2) ltac:(lia)) as (t & t' & E1). apply bind_ok in E1 as (a & _ & E1). apply bind_ok in E1 as (b & Eb & _). apply vget_lt in Eb. lia.
Qed.
Lemma scale_ok : forall T (op : T -> res T) g (v : list T), (forall a, In a v -> op a = Ok (g a)) -> scale op v = Ok (map g v).
Proof.
  intros T op g v H. destruct v as [|d v0]; [reflexivity|]. set (v := d :: v0) in *. unfold scale. rewrite (fill_all T (fun k => g (nth k v d))).
  - f_equal. rewrite <- (map_map (fun k => nth k v d) g). f_equal. clear. generalize v. clear. intros v. induction v as [|x v IH]; [reflexivity|]. cbn [length seq map nth]. f_equal. rewrite <- seq_shift, map_map. rewrite <- IH at 2. reflexivity.
  - intros k R' Hk HL Hn. unfold vget. rewrite Hn, (nth_error_nth' v d Hk). cbn [bind]. rewrite H by (apply nth_In; exact Hk). reflexivity.
Qed.

Section Vec.
Variable N : num.
Notation vec := (list N).
Notation mat := (list (list N)).

Lemma dot_loop : forall (f : nat -> N) (b : nat -> N -> res N) c k0 a, (forall k r, k0 <= k < k0 + c -> b k r = Ok (nadd r (f k))) -> for_each b c k0 a = Ok (fold_left nadd (map f (seq k0 c)) a).
Proof. intros f b. induction c as [|c IH]; intros k0 a H; [reflexivity|]. cbn [for_each seq map fold_left]. rewrite H by lia. cbn [bind]. apply IH. intros. apply H. lia. Qed.
Lemma dot_ok : forall v w : vec, length v <= length w -> vec_dot N v w = Ok (dot (length v) v w).
Proof.
  intros v w H. unfold vec_dot, dot, nsum. apply dot_loop. intros k r Hk. rewrite (vget_nth_ok _ v k n0), (vget_nth_ok _ w k n0) by lia. reflexivity.
Qed.
Lemma dot_ub : forall v w : vec, length w < length v -> vec_dot N v w = Ub.
Proof.
  intros v w H. assert (D : def_or_ub (vec_dot N v w)) by (unfold vec_dot; apply dou_for; intros; repeat (apply dou_bind; [apply dou_vget|]; intros); apply dou_ok).
  destruct D as [[C E]|E]; [|exact E]. exfalso. unfold vec_dot in E. destruct (for_each_visits _ _ _ _ _ _ E (length w) ltac:(lia)) as (t & t' & E1). apply bind_ok in E1 as (a & _ & E1). apply bind_ok in E1 as (b & Eb & _). apply vget_lt in Eb. lia.
Qed.

Lemma vec_acc : forall i (f : nat -> N) (b : nat -> vec -> res vec) c k0 R, i < length R -> (forall k R', k0 <= k < k0 + c -> length R' = length R -> b k R' = vset R' i (nadd (nth i R' n0) (f k))) ->
  for_each b c k0 R = Ok (upd R i (fold_left nadd (map f (seq k0 c)) (nth i R n0))).
Proof.
  intros i f b. induction c as [|c IH]; intros k0 R Hi H; cbn [for_each seq map fold_left].
  - f_equal. apply nth_error_eq; [rewrite upd_length; reflexivity|]. intros k Hk. rewrite nth_error_upd by exact Hi. destruct (Nat.eqb_spec k i) as [->|]; [|reflexivity]. apply nth_error_nth'. exact Hi.
  - rewrite H; [|lia|reflexivity]. rewrite vset_ok by exact Hi. cbn [bind]. rewrite IH; [|rewrite upd_length; exact Hi|intros k R' Hk HR'; rewrite upd_length in HR'; apply H; [lia|exact HR']].
    f_equal. rewrite nth_upd, Nat.eqb_refl, (proj2 (Nat.ltb_lt _ _) Hi). cbn [andb]. apply nth_error_eq; [rewrite !upd_length; reflexivity|]. intros k Hk. rewrite !nth_error_upd by (rewrite ?upd_length; exact Hi). destruct (k =? i) eqn:K; reflexivity.
Qed.
Lemma mat_vec_ok : forall n m (A : mat) v, mat_wf n m A -> n <= m -> n <= length v -> mat_vec N A v = Ok (map (fun i => dot n (nth i A []) v) (seq 0 n)).
Proof.
  intros n m A v HA H1 H2. unfold mat_vec. replace (length A) with n by (symmetry; apply HA).
  pose proof (fill_all N (fun i => dot n (nth i A []) v) (fun i R => for_each (fun j R => r <- vget R i ;; a <- mat_get N A i j ;; x <- vget v j ;; vset R i (nadd r (nmul a x))) n 0 R) (repeat n0 n)) as L. rewrite repeat_length in L. apply L. clear L.
  intros i R Hi HL Hn. rewrite (vec_acc i (fun j => nmul (nth j (nth i A []) n0) (nth j v n0))); [|lia|].
  - rewrite vset_ok by lia. f_equal. f_equal. unfold dot, nsum. f_equal. rewrite (nth_error_nth R i n0 (x := n0)); [reflexivity|]. rewrite Hn. rewrite nth_error_repeat by exact Hi. reflexivity.
  - intros j R' Hj HR'. rewrite (vget_nth_ok _ R' i n0), (mat_get_ok N n m A i j HA), (vget_nth_ok _ v j n0) by lia. reflexivity.
Qed.
Lemma mat_vec_ub : forall n m (A : mat) v, mat_wf n m A -> 0 < n -> ~ (n <= m /\ n <= length v) -> mat_vec N A v = Ub.
Proof.
  intros n m A v HA Hn H. assert (D : def_or_ub (mat_vec N A v)).
  { unfold mat_vec. apply dou_for. intros i R. apply dou_for. intros j R'. apply dou_bind; [apply dou_vget|]. intros. apply dou_bind; [apply dou_get|]. intros. apply dou_bind; [apply dou_vget|]. intros. apply dou_vset. }
  destruct D as [[C E]|E]; [|exact E]. exfalso. apply H. unfold mat_vec in E. replace (length A) with n in E by (symmetry; apply HA).
  destruct (for_each_visits _ _ _ _ _ _ E 0 ltac:(lia)) as (t & t' & E1). destruct (for_each_visits _ _ _ _ _ _ E1 (n - 1) ltac:(lia)) as (u & u' & E2).
  apply bind_ok in E2 as (r & _ & E3). apply bind_ok in E3 as (a & Ea & E3). apply bind_ok in E3 as (b & Eb & _). apply (mat_get_lt N n m) in Ea; [|exact HA]. apply vget_lt in Eb. lia.
Qed.
End Vec.
