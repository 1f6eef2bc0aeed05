(** Lemmas for C110: products. *)
From Coq Require Import String List Bool Arith ZArith Lia.
From Verif Require Import Base Lists Num Fnum LinModel LinSpec LinBase MatBase Sparse Facts2 VecModel VecSpec.
Import ListNotations.

(** The outcome is a value or undefined behaviour. *)
Definition def_or_ub {A} (x : res A) : Prop := (exists v, x = Ok v) \/ x = Ub.
Lemma dou_ok : forall A (v : A), def_or_ub (Ok v). Proof. intros. left. eauto. Qed.
Lemma dou_bind : forall A B (x : res A) (f : A -> res B), def_or_ub x -> (forall v, x = Ok v -> def_or_ub (f v)) -> def_or_ub (bind x f).
Proof. intros A B x f [[v ->]| ->] H; [apply H; reflexivity|right; reflexivity]. Qed.
Lemma dou_vget : forall A (v : list A) i, def_or_ub (vget v i).
Proof. intros. unfold vget. destruct nth_error; [left; eauto|right; reflexivity]. Qed.
Lemma dou_vset : forall A (v : list A) i x, def_or_ub (vset v i x).
Proof. intros. unfold vset. destruct (_ <? _); [left; eauto|right; reflexivity]. Qed.
Lemma dou_for : forall S (b : nat -> S -> res S) n i s, (forall k s, def_or_ub (b k s)) -> def_or_ub (for_each b n i s).
Proof. intros S b. induction n as [|n IH]; intros i s H; cbn [for_each]; [apply dou_ok|]. apply dou_bind; [apply H|]. intros v _. apply IH. exact H. Qed.
Lemma for_each_visits : forall S (b : nat -> S -> res S) n i s s', for_each b n i s = Ok s' -> forall k, i <= k < i + n -> exists t t', b k t = Ok t'.
Proof.
  intros S b. induction n as [|n IH]; intros i s s' H k Hk; [lia|]. cbn [for_each] in H. destruct (b i s) as [t| | | |] eqn:E; try discriminate H.
  destruct (Nat.eq_dec k i) as [->|D]; [eauto|]. eapply IH; [exact H|lia].
Qed.
Lemma vget_lt : forall A (v : list A) i x, vget v i = Ok x -> i < length v.
Proof. intros A v i x H. unfold vget in H. destruct (nth_error v i) eqn:E; [|discriminate]. apply nth_error_Some. congruence. Qed.
Lemma bind_ok : forall A B (x : res A) (f : A -> res B) b, bind x f = Ok b -> exists a, x = Ok a /\ f a = Ok b.
Proof. intros A B [a| | | |] f b H; try discriminate H. eauto. Qed.

Section Loops.
Variable N : num.
Notation mat := (list (list N)).
Notation mnth := (mnth N).

Lemma mat_get_ok : forall n m (A : mat) i j, mat_wf n m A -> i < n -> j < m -> mat_get N A i j = Ok (entry A i j).
Proof. intros n m A i j H Hi Hj. exact (ok_get N _ _ _ (mat_ops_ok N) A n m i j H Hi Hj). Qed.
Lemma mat_set_ok : forall n m (A : mat) i j x, mat_wf n m A -> i < n -> j < m -> exists A', mat_set N A i j x = Ok A' /\ mat_wf n m A' /\ forall p q, entry A' p q = if (p =? i) && (q =? j) then x else entry A p q.
Proof. intros n m A i j x H Hi Hj. destruct (ok_set N _ _ _ (mat_ops_ok N) A n m i j x H Hi Hj) as (A' & E & W & R). exists A'. split; [exact E|]. split; [exact W|]. intros p q. cbn in R. rewrite R. exact (mnth_mupd N n m A i j x p q H Hi Hj). Qed.

(** A loop whose iteration k changes only the cells with [key p q = k]. *)
Lemma cells_loop : forall n m (key : nat -> nat -> nat) (sel : nat -> nat -> bool) (v : nat -> nat -> N -> N) (b : nat -> mat -> res mat) c k0 R,
  mat_wf n m R -> (forall k R, k0 <= k < k0 + c -> mat_wf n m R -> exists R', b k R = Ok R' /\ mat_wf n m R' /\ forall p q, entry R' p q = if sel p q && (key p q =? k) then v p q (entry R p q) else entry R p q) ->
  exists R', for_each b c k0 R = Ok R' /\ mat_wf n m R' /\ forall p q, entry R' p q = if sel p q && ((k0 <=? key p q) && (key p q <? k0 + c)) then v p q (entry R p q) else entry R p q.
Proof.
  intros n m key sel v b. induction c as [|c IH]; intros k0 R HR H; cbn [for_each].
  - exists R. split; [reflexivity|]. split; [exact HR|]. intros p q. destruct (sel p q); cbn [andb]; [|reflexivity]. destruct (Nat.leb_spec k0 (key p q)), (Nat.ltb_spec (key p q) (k0 + 0)); cbn [andb]; try reflexivity; lia.
  - destruct (H k0 R ltac:(lia) HR) as (R1 & E1 & W1 & V1). rewrite E1. cbn [bind]. destruct (IH (S k0) R1 W1) as (R' & E & W & V); [intros k Q Hk HQ; apply H; [lia|exact HQ]|]. exists R'. split; [exact E|]. split; [exact W|].
    intros p q. rewrite V, V1. destruct (sel p q); cbn [andb]; [|reflexivity]. destruct (Nat.eqb_spec (key p q) k0), (Nat.leb_spec (S k0) (key p q)), (Nat.leb_spec k0 (key p q)), (Nat.ltb_spec (key p q) (S k0 + c)), (Nat.ltb_spec (key p q) (k0 + S c)); cbn [andb]; try reflexivity; lia.
Qed.
(** The accumulation into one cell. *)
Lemma acc_loop : forall n m i j (f : nat -> N) (b : nat -> mat -> res mat) c k0 R, i < n -> j < m -> mat_wf n m R ->
  (forall k R, k0 <= k < k0 + c -> mat_wf n m R -> b k R = mat_set N R i j (nadd (entry R i j) (f k))) ->
  exists R', for_each b c k0 R = Ok R' /\ mat_wf n m R' /\ forall p q, entry R' p q = if (p =? i) && (q =? j) then fold_left nadd (map f (seq k0 c)) (entry R p q) else entry R p q.
Proof.
  intros n m i j f b c k0 R Hi Hj. revert k0 R. induction c as [|c IH]; intros k0 R HR H; cbn [for_each].
  - exists R. split; [reflexivity|]. split; [exact HR|]. intros p q. destruct (_ && _); reflexivity.
  - rewrite H; [|lia|exact HR]. destruct (mat_set_ok n m R i j (nadd (entry R i j) (f k0)) HR Hi Hj) as (R1 & E1 & W1 & V1). rewrite E1. cbn [bind]. destruct (IH (S k0) R1 W1) as (R' & E & W & V); [intros k Q Hk HQ; apply H; [lia|exact HQ]|].
    exists R'. split; [exact E|]. split; [exact W|]. intros p q. rewrite V, V1. destruct ((p =? i) && (q =? j)) eqn:K; [|reflexivity]. cbn [seq map fold_left]. apply andb_true_iff in K as (K1 & K2). apply Nat.eqb_eq in K1, K2. subst. reflexivity.
Qed.

Lemma mat_mul_ok : forall n m p q (A B : mat), mat_wf n m A -> mat_wf p q B -> n <= m -> n <= p -> n <= q -> exists C, mat_mul N A B = Ok C /\ mat_wf n n C /\ forall i j, i < n -> j < n -> entry C i j = row_col n A B i j.
Proof.
  intros n m p q A B HA HB H1 H2 H3. unfold mat_mul. replace (length A) with n by (symmetry; apply HA).
  destruct (cells_loop n n (fun i _ => i) (fun _ j => j <? n) (fun i j x => fold_left nadd (map (fun k => nmul (entry A i k) (entry B k j)) (seq 0 n)) x)
    (fun i R => for_each (fun j R => for_each (fun k R => r <- mat_get N R i j ;; a <- mat_get N A i k ;; b <- mat_get N B k j ;; mat_set N R i j (nadd r (nmul a b))) n 0 R) n 0 R) n 0 (mat_construct N n n)) as (C & E & W & V).
  - apply mat_construct_wf.
  - intros i R Hi HR.
    destruct (cells_loop n n (fun _ j => j) (fun i' _ => i' =? i) (fun i j x => fold_left nadd (map (fun k => nmul (entry A i k) (entry B k j)) (seq 0 n)) x)
      (fun j R => for_each (fun k R => r <- mat_get N R i j ;; a <- mat_get N A i k ;; b <- mat_get N B k j ;; mat_set N R i j (nadd r (nmul a b))) n 0 R) n 0 R HR) as (C & E & W & V).
    + intros j Q Hj HQ. destruct (acc_loop n n i j (fun k => nmul (entry A i k) (entry B k j)) (fun k R => r <- mat_get N R i j ;; a <- mat_get N A i k ;; b <- mat_get N B k j ;; mat_set N R i j (nadd r (nmul a b))) n 0 Q) as (Q' & E' & W' & V'); try lia; [exact HQ| |].
      * intros k T Hk HT. rewrite (mat_get_ok n n T i j HT), (mat_get_ok n m A i k HA), (mat_get_ok p q B k j HB) by lia. reflexivity.
      * exists Q'. split; [exact E'|]. split; [exact W'|]. intros p' q'. rewrite V'. destruct ((p' =? i) && (q' =? j)) eqn:K; [|reflexivity]. apply andb_true_iff in K as (K1 & K2). apply Nat.eqb_eq in K1, K2. subst. reflexivity.
    + exists C. split; [exact E|]. split; [exact W|]. intros p' q'. rewrite V. cbn [Nat.leb Nat.add andb]. rewrite andb_comm. reflexivity.
  - exists C. split; [exact E|]. split; [exact W|]. intros i j Hi Hj. rewrite V. cbn [Nat.leb Nat.add andb]. rewrite (proj2 (Nat.ltb_lt _ _) Hi), (proj2 (Nat.ltb_lt _ _) Hj). cbn [andb]. change (entry (mat_construct N n n) i j) with (MatBase.mnth N (mat_construct N n n) i j). rewrite mnth_construct. reflexivity.
Qed.
Lemma dou_get : forall (A : mat) i j, def_or_ub (mat_get N A i j).
Proof. intros. unfold mat_get. apply dou_bind; [apply dou_vget|]. intros. apply dou_vget. Qed.
Lemma dou_set : forall (A : mat) i j x, def_or_ub (mat_set N A i j x).
Proof. intros. unfold mat_set. apply dou_bind; [apply dou_vget|]. intros. apply dou_bind; [apply dou_vset|]. intros. apply dou_vset. Qed.
Lemma mat_get_lt : forall n m (A : mat) i j x, mat_wf n m A -> mat_get N A i j = Ok x -> i < n /\ j < m.
Proof.
  intros n m A i j x (H1 & H2) H. unfold mat_get in H. apply bind_ok in H as (row & E & H). pose proof (vget_lt _ _ _ _ E). apply vget_lt in H. unfold vget in E. destruct (nth_error A i) as [r|] eqn:K; [|discriminate]. injection E as ->.
  apply nth_error_In in K. rewrite Forall_forall in H2. rewrite (H2 _ K) in H. lia.
Qed.
Lemma mat_mul_ub : forall n m p q (A B : mat), mat_wf n m A -> mat_wf p q B -> 0 < n -> ~ (n <= m /\ n <= p /\ n <= q) -> mat_mul N A B = Ub.
Proof.
  intros n m p q A B HA HB Hn H. assert (D : def_or_ub (mat_mul N A B)).
  { unfold mat_mul. apply dou_for. intros i R. apply dou_for. intros j R'. apply dou_for. intros k R''. repeat (apply dou_bind; [apply dou_get|]; intros). apply dou_set. }
  destruct D as [[C E]|E]; [|exact E]. exfalso. apply H. unfold mat_mul in E. replace (length A) with n in E by (symmetry; apply HA).
  assert (G : forall i j k, i < n -> j < n -> k < n -> k < m /\ k < p /\ j < q).
  { intros i j k Hi Hj Hk. destruct (for_each_visits _ _ _ _ _ _ E i ltac:(lia)) as (t & t' & E1). destruct (for_each_visits _ _ _ _ _ _ E1 j ltac:(lia)) as (u & u' & E2). destruct (for_each_visits _ _ _ _ _ _ E2 k ltac:(lia)) as (w & w' & E3).
    apply bind_ok in E3 as (r & _ & E3). apply bind_ok in E3 as (a & Ea & E3). apply bind_ok in E3 as (b & Eb & _). apply (mat_get_lt n m) in Ea; [|exact HA]. apply (mat_get_lt p q) in Eb; [|exact HB]. lia. }
  pose proof (G 0 (n - 1) (n - 1)). lia.
Qed.
End Loops.
