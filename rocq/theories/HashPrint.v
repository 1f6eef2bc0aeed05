(** hash_print is injective, and the hash table of an iterator is exact. *)
From Coq Require Import String Ascii List Bool Arith ZArith Lia Decimal DecimalString DecimalNat.
From Verif Require Import Base Lists IndexModel.
Import ListNotations.

Fixpoint no_dash (s : string) : Prop :=
  match s with EmptyString => True | String c r => c <> "-"%char /\ no_dash r end.

Lemma string_of_uint_no_dash : forall d, no_dash (NilEmpty.string_of_uint d).
Proof. induction d; simpl; (exact I || (split; [discriminate|assumption])). Qed.

Lemma append_cancel_dash : forall s1 s2 r1 r2, no_dash s1 -> no_dash s2 ->
  append s1 (String "-" r1) = append s2 (String "-" r2) -> s1 = s2 /\ r1 = r2.
Proof.
  induction s1 as [|c s1 IH]; intros [|c' s2] r1 r2 H1 H2 E; simpl in *.
  - injection E as <-. auto.
  - injection E as E1 E2. destruct H2 as [H2 _]. symmetry in E1. contradiction.
  - injection E as E1 E2. destruct H1 as [H1 _]. contradiction.
  - injection E as <- E. destruct H1, H2. apply IH in E as [-> ->]; auto.
Qed.

Lemma to_string_inj : forall a b, to_string a = to_string b -> a = b.
Proof.
  intros a b H. unfold to_string in H.
  assert (E : Some (Nat.to_uint a) = Some (Nat.to_uint b)).
  { rewrite <- (NilEmpty.usu (Nat.to_uint a)), <- (NilEmpty.usu (Nat.to_uint b)). rewrite H. reflexivity. }
  injection E as E. rewrite <- (Unsigned.of_to a), <- (Unsigned.of_to b), E. reflexivity.
Qed.

Lemma append_assoc_str : forall a b c, append (append a b) c = append a (append b c).
Proof. induction a; intros; simpl; [reflexivity|]. rewrite IHa. reflexivity. Qed.

Fixpoint hprint (v : mi) : string :=
  match v with [] => EmptyString | x :: t => append (to_string x) (String "-" (hprint t)) end.

Lemma hash_print_hprint : forall v, hash_print v = hprint v.
Proof.
  intros v. unfold hash_print.
  assert (G : forall v h, fold_left (fun hash x => append hash (append (to_string x) "-")) v h = append h (hprint v)).
  { induction v0 as [|x t IH]; intros h; simpl.
    - induction h; simpl; [reflexivity|]. rewrite <- IHh. reflexivity.
    - rewrite IH, !append_assoc_str. simpl. reflexivity. }
  rewrite G. reflexivity.
Qed.

Lemma append_nonempty : forall s c r, append s (String c r) <> EmptyString.
Proof. destruct s; discriminate. Qed.

Theorem hash_print_inj : forall v w, hash_print v = hash_print w -> v = w.
Proof.
  intros v w. rewrite !hash_print_hprint. revert w.
  induction v as [|x v IH]; intros [|y w] H; simpl in H.
  - reflexivity.
  - symmetry in H. apply append_nonempty in H. contradiction.
  - apply append_nonempty in H. contradiction.
  - apply append_cancel_dash in H as [H1 H2]; [|apply string_of_uint_no_dash|apply string_of_uint_no_dash].
    apply to_string_inj in H1. apply IH in H2. congruence.
Qed.

(** table as built by the constructor *)
Fixpoint table_of (l : list mi) (i : nat) : table :=
  match l with [] => [] | m :: t => (hash_print m, i) :: table_of t (S i) end.

Lemma table_find_app : forall t1 t2 k,
  table_find (t1 ++ t2) k = match table_find t1 k with Some v => Some v | None => table_find t2 k end.
Proof.
  unfold table_find. induction t1 as [|[k' v] t1 IH]; intros t2 k; simpl; [reflexivity|].
  destruct (String.eqb k' k); [reflexivity|]. apply IH.
Qed.

Lemma table_of_find : forall l i m,
  NoDup l -> forall j, table_find (table_of l i) (hash_print m) = Some j <-> i <= j /\ nth_error l (j - i) = Some m.
Proof.
  induction l as [|x l IH]; intros i m Hnd j.
  - simpl. split; [discriminate|]. intros [_ H]. destruct (j - i); discriminate.
  - inversion Hnd; subst. cbn [table_of]. unfold table_find. cbn [find fst].
    destruct (String.eqb (hash_print x) (hash_print m)) eqn:E.
    + apply String.eqb_eq, hash_print_inj in E. subst x. split.
      * intros H. injection H as <-. rewrite Nat.sub_diag. simpl. split; [lia|reflexivity].
      * intros [Hle H]. destruct (j - i) as [|n] eqn:En.
        -- f_equal. lia.
        -- simpl in H. apply nth_error_In in H. contradiction.
    + fold (table_find (table_of l (S i)) (hash_print m)). rewrite IH by assumption.
      apply String.eqb_neq in E. split.
      * intros [Hle H]. split; [lia|]. replace (j - i) with (S (j - S i)) by lia. exact H.
      * intros [Hle H]. destruct (j - i) as [|n] eqn:En.
        -- simpl in H. congruence.
        -- simpl in H. split; [lia|]. replace (j - S i) with n by lia. exact H.
Qed.

Lemma table_of_app_none : forall l i m, ~ In m l -> table_find (table_of l i) (hash_print m) = None.
Proof.
  induction l as [|x l IH]; intros i m H; [reflexivity|]. cbn [table_of]. unfold table_find. cbn [find fst].
  destruct (String.eqb (hash_print x) (hash_print m)) eqn:E.
  - apply String.eqb_eq, hash_print_inj in E. exfalso. apply H. left. assumption.
  - apply IH. intro. apply H. right. assumption.
Qed.

Lemma table_of_snoc : forall l m i, table_of (l ++ [m]) i = table_of l i ++ [(hash_print m, i + length l)].
Proof.
  induction l as [|x l IH]; intros m i; [cbn [app table_of length]; rewrite Nat.add_0_r; reflexivity|].
  rewrite <- app_comm_cons. cbn [table_of length]. rewrite IH, <- app_comm_cons, Nat.add_succ_r. reflexivity.
Qed.

Lemma make_table_spec : forall l, NoDup l -> make_table l = table_of l 0.
Proof.
  intros l Hnd. unfold make_table.
  assert (G : forall l2 l1 t, NoDup (l1 ++ l2) -> t = table_of l1 0 ->
    fst (fold_left (fun '(t, ind) m => (table_insert t (hash_print m) ind, S ind)) l2 (t, length l1)) = table_of (l1 ++ l2) 0).
  { induction l2 as [|m l2 IH]; intros l1 t Hn Ht.
    - rewrite app_nil_r. exact Ht.
    - cbn [fold_left]. unfold table_insert at 2. rewrite Ht, table_of_app_none.
      + specialize (IH (l1 ++ [m])). rewrite <- app_assoc in IH. cbn [app] in IH.
        rewrite app_length, Nat.add_1_r in IH. apply IH; [assumption|].
        rewrite table_of_snoc. reflexivity.
      + apply NoDup_remove_2 in Hn. intro. apply Hn. apply in_or_app. left. assumption. }
  apply (G l [] []); [assumption|reflexivity].
Qed.

Theorem make_table_find : forall l m i, NoDup l ->
  table_find (make_table l) (hash_print m) = Some i <-> nth_error l i = Some m.
Proof.
  intros. rewrite make_table_spec, table_of_find by assumption. rewrite Nat.sub_0_r. split; [tauto|]. intros; split; [lia|assumption].
Qed.
