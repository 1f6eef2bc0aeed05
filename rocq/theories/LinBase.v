(** Basic facts on coefficient lookup, directions and loops over iterators. *)
From Coq Require Import String List Bool Arith ZArith Lia Sorted.
From Verif Require Import Base Lists IndexModel Spec Traverse Triangle Binom Shell ShellList Cross CrossNc HashPrint
  IndexSet Degree Machine Facts1 Num LinModel LinSpec.
Import ListNotations.

(** * mi_eqb, value *)
Lemma mi_eqb_eq : forall m m', mi_eqb m m' = true <-> m = m'.
Proof.
  induction m as [|x m IH]; intros [|y m']; cbn [mi_eqb]; split; intros H; try reflexivity; try discriminate.
  - apply andb_true_iff in H as [H1 H2]. apply Nat.eqb_eq in H1. apply IH in H2. subst. reflexivity.
  - injection H as -> ->. apply andb_true_iff. split; [apply Nat.eqb_refl|apply IH; reflexivity].
Qed.

Lemma mi_eqb_refl : forall m, mi_eqb m m = true.
Proof. intros. apply mi_eqb_eq. reflexivity. Qed.

Lemma mi_eqb_neq : forall m m', m <> m' -> mi_eqb m m' = false.
Proof. intros m m' H. destruct (mi_eqb m m') eqn:E; [apply mi_eqb_eq in E; contradiction|reflexivity]. Qed.

Lemma value_nth : forall A (d : A) l v i m, NoDup l -> nth_error l i = Some m -> length v = length l -> value d l v m = nth i v d.
Proof.
  intros A d. induction l as [|x l IH]; intros v i m Hn Hi Hl; [destruct i; discriminate|].
  destruct v as [|c v]; [discriminate|]. inversion Hn; subst. destruct i as [|i]; cbn [nth_error nth value] in *.
  - injection Hi as ->. rewrite mi_eqb_refl. reflexivity.
  - rewrite mi_eqb_neq; [apply IH; auto|]. intros ->. apply H1. eapply nth_error_In. exact Hi.
Qed.

Lemma value_notin : forall A (d : A) l v m, ~ In m l -> value d l v m = d.
Proof.
  intros A d. induction l as [|x l IH]; intros v m H; [reflexivity|]. destruct v; [reflexivity|]. cbn [value].
  rewrite mi_eqb_neq; [apply IH|]; intros G; apply H; [right; assumption|left; assumption].
Qed.

Lemma value_ext : forall A (d : A) l v w, NoDup l -> length v = length l -> length w = length l ->
  (forall m, In m l -> value d l v m = value d l w m) -> v = w.
Proof.
  intros A d. induction l as [|x l IH]; intros v w Hn Hv Hw H; destruct v as [|c v], w as [|c' w]; try discriminate; [reflexivity|].
  inversion Hn; subst. f_equal.
  - specialize (H x (or_introl eq_refl)). cbn [value] in H. rewrite mi_eqb_refl in H. exact H.
  - apply IH; auto. intros m Hm. specialize (H m (or_intror Hm)). cbn [value] in H.
    rewrite mi_eqb_neq in H by (intros ->; contradiction). exact H.
Qed.

Lemma value_map : forall A (d : A) l (f : list nat -> A) m, In m l -> value d l (map f l) m = f m.
Proof.
  intros A d. induction l as [|x l IH]; intros f m H; [contradiction|]. cbn [map value].
  destruct (mi_eqb x m) eqn:E; [apply mi_eqb_eq in E; subst; reflexivity|]. destruct H as [->|H]; [rewrite mi_eqb_refl in E; discriminate|].
  apply IH. assumption.
Qed.

Lemma value_vmap : forall A B (d : A) (g : A -> B) l v m, value (g d) l (map g v) m = g (value d l v m).
Proof.
  intros A B d g. induction l as [|x l IH]; intros [|c v] m; try reflexivity. cbn [map value]. destruct (mi_eqb x m); [reflexivity|apply IH].
Qed.

Lemma map_value : forall A (d : A) l v, NoDup l -> length v = length l -> map (value d l v) l = v.
Proof.
  intros. apply value_ext with (d := d) (l := l); auto; [rewrite map_length; reflexivity|].
  intros m Hm. rewrite value_map by assumption. reflexivity.
Qed.

(** * lookup, reindex *)
Lemma lookup_notin : forall d m x, ~ In x d -> lookup d m x = 0.
Proof.
  induction d as [|y d IH]; intros m x H; [reflexivity|]. destruct m; [reflexivity|]. cbn [lookup].
  destruct (Nat.eqb_spec y x); [exfalso; apply H; left; assumption|]. apply IH. intros G. apply H. right. assumption.
Qed.

Lemma lookup_nth : forall d m k x, NoDup d -> nth_error d k = Some x -> length m = length d -> lookup d m x = nth k m 0.
Proof.
  induction d as [|y d IH]; intros m k x Hn Hk Hl; [destruct k; discriminate|]. destruct m as [|e m]; [discriminate|].
  inversion Hn; subst. destruct k as [|k]; cbn [nth_error nth lookup] in *.
  - injection Hk as ->. rewrite Nat.eqb_refl. reflexivity.
  - destruct (Nat.eqb_spec y x) as [->|]; [exfalso; apply H1; eapply nth_error_In; exact Hk|]. apply IH; auto.
Qed.

Lemma reindex_length : forall d d' m, length (reindex d d' m) = length d'.
Proof. intros. unfold reindex. apply map_length. Qed.

(** entries of a reindexed multi-index *)
Lemma lookup_map : forall d' (f : nat -> nat) x, In x d' -> lookup d' (map f d') x = f x.
Proof.
  induction d' as [|y d' IH]; intros f x H; [contradiction|]. cbn [map lookup].
  destruct (Nat.eqb_spec y x) as [->|Hn]; [reflexivity|]. destruct H as [->|H]; [contradiction|]. apply IH. assumption.
Qed.

Lemma lookup_reindex : forall d d' m x, In x d' -> lookup d' (reindex d d' m) x = lookup d m x.
Proof. intros. apply lookup_map. assumption. Qed.

Lemma reindex_reindex : forall d d' d'' m, (forall x, In x d'' -> In x d' \/ ~ In x d) ->
  reindex d' d'' (reindex d d' m) = reindex d d'' m.
Proof.
  intros d d' d'' m H. unfold reindex at 1 3. apply map_ext_in. intros x Hx. destruct (in_dec Nat.eq_dec x d') as [Hi|Hi].
  - apply lookup_reindex. assumption.
  - destruct (H x Hx) as [|Hd]; [contradiction|]. rewrite !lookup_notin by assumption. reflexivity.
Qed.

Lemma reindex_id : forall d m, NoDup d -> length m = length d -> reindex d d m = m.
Proof.
  intros d m Hn Hl. apply list_ext_nth with (d := 0); [rewrite reindex_length; symmetry; assumption|].
  intros k Hk. rewrite reindex_length in Hk. unfold reindex.
  destruct (nth_error d k) as [x|] eqn:E; [|apply nth_error_None in E; lia].
  rewrite (nth_indep _ 0 (lookup d m x)) by (rewrite map_length; assumption). rewrite map_nth.
  rewrite (nth_error_nth _ _ _ E). apply lookup_nth; assumption.
Qed.

Lemma lookup_ext_eq : forall d m m', NoDup d -> length m = length d -> length m' = length d ->
  (forall x, In x d -> lookup d m x = lookup d m' x) -> m = m'.
Proof.
  intros d m m' Hn H1 H2 H. rewrite <- (reindex_id d m), <- (reindex_id d m') by assumption. unfold reindex.
  apply map_ext_in. assumption.
Qed.

(** * closure of the index sets under restriction *)
Lemma sum_insert_le : forall d' (f : nat -> nat) y e, NoDup d' ->
  list_sum (map (fun x => if y =? x then e else f x) d') <= e + list_sum (map f d').
Proof.
  induction d' as [|x d' IH]; intros f y e Hn; [simpl; lia|]. inversion Hn; subst. cbn [map]. rewrite !list_sum_cons.
  destruct (Nat.eqb_spec y x) as [->|].
  - assert (E : map (fun z => if x =? z then e else f z) d' = map f d').
    { apply map_ext_in. intros z Hz. destruct (Nat.eqb_spec x z) as [->|]; [contradiction|reflexivity]. }
    rewrite E. lia.
  - specialize (IH f y e H2). lia.
Qed.

Lemma reindex_sum_le : forall d m d', NoDup d' -> list_sum (reindex d d' m) <= list_sum m.
Proof.
  induction d as [|y d IH]; intros m d' Hn.
  - unfold reindex. cbn [lookup]. assert (list_sum (map (fun _ : nat => 0) d') = 0).
    { clear. induction d'; [reflexivity|]. cbn [map]. rewrite list_sum_cons. lia. }
    destruct m; lia.
  - destruct m as [|e m].
    + unfold reindex. cbn [lookup]. assert (list_sum (map (fun _ : nat => 0) d') = 0).
      { clear. induction d'; [reflexivity|]. cbn [map]. rewrite list_sum_cons. lia. } lia.
    + unfold reindex in *. rewrite list_sum_cons. eapply Nat.le_trans; [apply (sum_insert_le d' (lookup d m) y e Hn)|].
      specialize (IH m d' Hn). lia.
Qed.

Lemma cross_insert_le : forall d' (f : nat -> nat) y e, NoDup d' ->
  cross_prod (map (fun x => if y =? x then e else f x) d') <= Nat.max 1 e * cross_prod (map f d').
Proof.
  induction d' as [|x d' IH]; intros f y e Hn; [change (1 <= Nat.max 1 e * 1); lia|]. inversion Hn; subst. cbn [map]. rewrite !cross_prod_cons.
  destruct (Nat.eqb_spec y x) as [->|].
  - assert (E : map (fun z => if x =? z then e else f z) d' = map f d').
    { apply map_ext_in. intros z Hz. destruct (Nat.eqb_spec x z) as [->|]; [contradiction|reflexivity]. }
    rewrite E. pose proof (cross_prod_pos (map f d')). nia.
  - specialize (IH f y e H2). rewrite Nat.mul_shuffle3. apply Nat.mul_le_mono_l. exact IH.
Qed.

Lemma cross_prod_map0 : forall d' : list nat, cross_prod (map (fun _ => 0) d') = 1.
Proof. induction d'; [reflexivity|]. cbn [map]. rewrite cross_prod_cons, IHd'. reflexivity. Qed.

Lemma reindex_cross_le : forall d m d', NoDup d' -> cross_prod (reindex d d' m) <= cross_prod m.
Proof.
  induction d as [|y d IH]; intros m d' Hn.
  - unfold reindex. cbn [lookup]. rewrite cross_prod_map0. apply cross_prod_pos.
  - destruct m as [|e m].
    + unfold reindex. cbn [lookup]. rewrite cross_prod_map0. apply cross_prod_pos.
    + unfold reindex in *. rewrite cross_prod_cons. eapply Nat.le_trans; [apply (cross_insert_le d' (lookup d m) y e Hn)|].
      apply Nat.mul_le_mono_l. exact (IH m d' Hn).
Qed.

Lemma lookup_in : forall d m x, In (lookup d m x) m \/ lookup d m x = 0.
Proof.
  induction d as [|y d IH]; intros m x; [right; reflexivity|]. destruct m as [|e m]; [right; reflexivity|]. cbn [lookup].
  destruct (y =? x); [left; left; reflexivity|]. destruct (IH m x) as [H|H]; [left; right; exact H|right; exact H].
Qed.

Lemma in_set_reindex : forall s degree d m d', NoDup d' ->
  (s = Rectangle -> forall x, In x (tl d') -> hd_error d <> Some x) ->
  in_set s degree m -> in_set s degree (reindex d d' m).
Proof.
  intros s degree d m d' Hn Hr H. destruct s; cbn [in_set] in *.
  - pose proof (reindex_sum_le d m d' Hn). lia.
  - apply Forall_forall. intros x Hx. unfold reindex in Hx. apply in_map_iff in Hx as [y [<- _]].
    destruct (lookup_in d m y) as [G| -> ]; [|lia]. rewrite Forall_forall in H. apply H. assumption.
  - pose proof (reindex_cross_le d m d' Hn). lia.
  - pose proof (reindex_cross_le d m d' Hn). lia.
  - unfold reindex. destruct d' as [|x d']; [exact I|]. cbn [map]. destruct m as [|e m].
    { assert (E : forall z, lookup d [] z = 0) by (destruct d; reflexivity). rewrite E. split; [lia|].
      apply Forall_forall. intros z Hz. apply in_map_iff in Hz as [y [<- _]]. rewrite E. lia. }
    destruct H as [H1 H2]. rewrite Forall_forall in H2. split.
    + destruct (lookup_in d (e :: m) x) as [[<-|G]| -> ]; [assumption| |lia]. apply H2 in G. lia.
    + apply Forall_forall. intros z Hz. apply in_map_iff in Hz as [y [<- Hy]]. specialize (Hr eq_refl y Hy).
      destruct d as [|w d]; [cbn [lookup]; lia|]. cbn [hd_error] in Hr. cbn [lookup].
      destruct (Nat.eqb_spec w y) as [->|]; [congruence|]. destruct (lookup_in d m y) as [G| -> ]; [apply H2; exact G|lia].
Qed.

(** * extract, is_aligned *)
Lemma seq_nth_error : forall n k, k < n -> nth_error (seq 0 n) k = Some k.
Proof.
  intros n k H. rewrite (nth_error_nth' _ 0) by (rewrite seq_length; assumption). rewrite seq_nth by assumption. reflexivity.
Qed.

Lemma lookup_seq : forall m k, k < length m -> lookup (seq 0 (length m)) m k = nth k m 0.
Proof. intros m k H. apply lookup_nth; [apply seq_NoDup|apply seq_nth_error; assumption|rewrite seq_length; reflexivity]. Qed.

Lemma extract_ok : forall m dirs, Forall (fun x => x < length m) dirs ->
  extract m dirs = Ok (reindex (seq 0 (length m)) dirs m).
Proof.
  intros m dirs H. unfold extract, reindex. induction H as [|x dirs Hx _ IH]; [reflexivity|]. cbn [mapM map].
  rewrite lookup_seq by assumption. rewrite IH. unfold vget. rewrite (nth_error_nth' _ 0) by assumption. reflexivity.
Qed.

Lemma in_dirs_loop : forall j dirs n i b, i + n <= length dirs ->
  for_each (fun k (b : bool) => dk <- vget dirs k ;; Ok (if j =? dk then true else b)) n i b =
  Ok (b || existsb (Nat.eqb j) (firstn n (skipn i dirs))).
Proof.
  intros j dirs. induction n as [|n IH]; intros i b H; [rewrite orb_false_r; reflexivity|]. rewrite for_each_S.
  destruct (nth_error dirs i) as [x|] eqn:E; [|apply nth_error_None in E; lia].
  unfold vget at 1. rewrite E. cbn [bind]. rewrite IH by lia.
  assert (Hs : skipn i dirs = x :: skipn (S i) dirs).
  { clear - E. revert i E. induction dirs as [|y dirs IH]; intros [|i] E; try discriminate; [injection E as ->; reflexivity|].
    cbn [nth_error] in E. cbn [skipn]. rewrite (IH i E). reflexivity. }
  rewrite Hs. cbn [firstn existsb]. destruct (j =? x); destruct b; reflexivity.
Qed.

Definition alignedb (m dirs : list nat) : bool :=
  forallb (fun j => (nth j m 0 =? 0) || existsb (Nat.eqb j) dirs) (seq 0 (length m)).

Lemma is_aligned_ok : forall m dirs, is_aligned m dirs = Ok (alignedb m dirs).
Proof.
  intros m dirs. unfold is_aligned, alignedb.
  assert (G : forall n i, i + n <= length m ->
    (r <- for_loop (fun j (_ : unit) =>
         in_dirs <- for_each (fun k (b : bool) =>
             dk <- vget dirs k ;; Ok (if j =? dk then true else b)) (length dirs) 0 false ;;
         x <- vget m j ;;
         if negb (x =? 0) && negb in_dirs then Ok (Return false) else Ok (Next tt)) n i tt ;;
     match r with inl b => Ok b | inr _ => Ok true end) =
    Ok (forallb (fun j => (nth j m 0 =? 0) || existsb (Nat.eqb j) dirs) (seq i n))).
  { induction n as [|n IH]; intros i H; [reflexivity|]. rewrite for_loop_S.
    rewrite in_dirs_loop by lia. rewrite skipn_O, firstn_all. cbn [bind orb].
    unfold vget at 1. rewrite (nth_error_nth' _ 0) by lia. cbn [bind seq forallb].
    destruct (nth i m 0 =? 0); [apply IH; lia|]. destruct (existsb (Nat.eqb i) dirs); [apply IH; lia|]. reflexivity. }
  apply G. lia.
Qed.

Lemma alignedb_spec : forall m dirs, alignedb m dirs = true <-> (forall j, j < length m -> nth j m 0 <> 0 -> In j dirs).
Proof.
  intros m dirs. unfold alignedb. rewrite forallb_forall. split.
  - intros H j Hj Hn. specialize (H j ltac:(apply in_seq; lia)). apply orb_true_iff in H as [H|H].
    + apply Nat.eqb_eq in H. contradiction.
    + apply existsb_exists in H as [x [Hx E]]. apply Nat.eqb_eq in E. subst. assumption.
  - intros H j Hj. apply in_seq in Hj. destruct (Nat.eqb_spec (nth j m 0) 0) as [|Hn]; [reflexivity|].
    apply existsb_exists. exists j. split; [apply H; [lia|assumption]|apply Nat.eqb_refl].
Qed.

(** aligned multi-indices are the embeddings of their restrictions *)
Lemma aligned_reindex : forall m dirs, NoDup dirs ->
  alignedb m dirs = true <-> m = reindex dirs (seq 0 (length m)) (reindex (seq 0 (length m)) dirs m).
Proof.
  intros m dirs Hn. rewrite alignedb_spec. split.
  - intros H. apply lookup_ext_eq with (d := seq 0 (length m)).
    + apply seq_NoDup.
    + rewrite seq_length; reflexivity.
    + rewrite reindex_length; reflexivity.
    + intros x Hx. rewrite lookup_reindex by assumption. apply in_seq in Hx. destruct (in_dec Nat.eq_dec x dirs) as [Hi|Hi].
      * rewrite lookup_reindex by assumption. reflexivity.
      * rewrite (lookup_notin dirs) by assumption. rewrite lookup_seq by lia.
        destruct (Nat.eq_dec (nth x m 0) 0) as [|Hz]; [assumption|]. exfalso. apply Hi, H; [lia|assumption].
  - intros E j Hj Hz. destruct (in_dec Nat.eq_dec j dirs) as [Hi|Hi]; [assumption|]. exfalso. apply Hz.
    rewrite <- lookup_seq by assumption. rewrite E at 2. rewrite lookup_reindex by (apply in_seq; lia). apply lookup_notin. assumption.
Qed.

(** * loops over iterators *)
Definition enum {A} (l : list A) : list (nat * A) := combine (seq 0 (length l)) l.

Lemma it_for_loop_state : forall St (body : nat -> mi -> St -> res St) l fuel k it s,
  state_at l k it -> k <= length l -> length l - k < fuel ->
  it_for_loop body fuel it k s = for_in (fun '(i, m) s => body i m s) (skipn k (enum l)) s.
Proof.
  intros St body l. induction fuel as [|fuel IH]; intros k it s Hs Hk Hf; [lia|].
  cbn [it_for_loop]. pose proof Hs as [H1 [H2 [H3 [H4 H5]]]]. rewrite H5.
  assert (Hle : length (enum l) = length l) by (unfold enum; rewrite combine_length, seq_length; lia).
  destruct (length l <=? k) eqn:E.
  - apply Nat.leb_le in E. rewrite skipn_all2 by lia. reflexivity.
  - apply Nat.leb_gt in E. destruct (it_increment_state l k it Hs) as [it' [E1 E2]].
    assert (Hn : nth_error (enum l) k = Some (k, it_multi_index it)).
    { rewrite H3 in H4. rewrite Nat.min_l in H4 by lia. unfold enum. clear - H4 E.
      assert (G : forall (l : list mi) i k m, nth_error l k = Some m -> nth_error (combine (seq i (length l)) l) k = Some (i + k, m)).
      { clear. induction l as [|x l IH]; intros i [|k] m H; try discriminate.
        - injection H as ->. cbn. rewrite Nat.add_0_r. reflexivity.
        - cbn [length seq combine nth_error] in *. rewrite (IH (S i) k m H). f_equal. f_equal. lia. }
      rewrite (G l 0 k _ H4). reflexivity. }
    assert (Hsk : forall A (l : list A) k x, nth_error l k = Some x -> skipn k l = x :: skipn (S k) l).
    { clear. intros A. induction l as [|y l IH]; intros [|k] x E; try discriminate; [injection E as ->; reflexivity|].
      cbn [nth_error] in E. cbn [skipn]. rewrite (IH k x E). reflexivity. }
    rewrite (Hsk _ _ _ _ Hn). cbn [for_in]. destruct (body k (it_multi_index it) s) as [s'| | | |]; cbn [bind]; try reflexivity.
    rewrite E1. cbn [bind]. apply IH; [assumption|lia|lia].
Qed.

Lemma it_for_fresh : forall St (body : nat -> mi -> St -> res St) s d degree st, set_ok s (S d) degree ->
  it_for body (fresh s d degree) st = for_in (fun '(i, m) s => body i m s) (enum (spec_list s d degree)) st.
Proof.
  intros. unfold it_for. rewrite (it_for_loop_state _ _ (spec_list s d degree)); [reflexivity|apply fresh_state; assumption|lia|cbn [fresh it_list]; lia].
Qed.

Lemma reset_fresh : forall s d degree, it_reset (fresh s d degree) = fresh s d degree.
Proof.
  intros. unfold it_reset, fresh. cbn [it_list it_table it_multi_index]. f_equal.
  generalize (S d). induction n as [|n IH]; [reflexivity|]. cbn [repeat map]. f_equal. exact IH.
Qed.

Lemma enum_nth : forall A (l : list A) i x, In (i, x) (enum l) <-> nth_error l i = Some x.
Proof.
  intros A. assert (G : forall (l : list A) k i x, In (i, x) (combine (seq k (length l)) l) <-> k <= i /\ nth_error l (i - k) = Some x).
  { induction l as [|y l IH]; intros k i x; cbn [length seq combine].
    - split; [contradiction|]. intros [_ H]. destruct (i - k); discriminate.
    - cbn [In]. rewrite IH. split.
      + intros [H|[H1 H2]]; [injection H as -> ->; rewrite Nat.sub_diag; split; [lia|reflexivity]|].
        split; [lia|]. replace (i - k) with (S (i - S k)) by lia. exact H2.
      + intros [H1 H2]. destruct (Nat.eq_dec i k) as [->|]; [rewrite Nat.sub_diag in H2; injection H2 as ->; left; reflexivity|].
        right. split; [lia|]. replace (i - k) with (S (i - S k)) in H2 by lia. exact H2. }
  intros l i x. unfold enum. rewrite G, Nat.sub_0_r. split; [tauto|]. intros; split; [lia|assumption].
Qed.

Lemma map_snd_enum : forall A (l : list A), map snd (enum l) = l.
Proof.
  intros A l. unfold enum. generalize 0. induction l as [|x l IH]; intros n; [reflexivity|]. cbn [length seq combine map]. f_equal. apply IH.
Qed.
Lemma map_fst_enum : forall A (l : list A), map fst (enum l) = seq 0 (length l).
Proof.
  intros A l. unfold enum. generalize 0. induction l as [|x l IH]; intros n; [reflexivity|]. cbn [length seq combine map]. f_equal. apply IH.
Qed.

(** a loop whose body never fails is a fold *)
Lemma for_in_fold : forall A S (P : S -> Prop) (body : A -> S -> res S) (f : S -> A -> S) l s,
  (forall x s, In x l -> P s -> body x s = Ok (f s x) /\ P (f s x)) -> P s ->
  for_in body l s = Ok (fold_left f l s) /\ P (fold_left f l s).
Proof.
  intros A S P body f. induction l as [|x l IH]; intros s H Hs; [split; [reflexivity|assumption]|]. cbn [for_in fold_left].
  destruct (H x s (or_introl eq_refl) Hs) as [E1 E2]. rewrite E1. cbn [bind]. apply IH; [|assumption].
  intros y s' Hy Hs'. apply H; [right; assumption|assumption].
Qed.

(** scattered writes at distinct places *)
Lemma fold_scatter : forall A B (sel : A -> bool) (pos : A -> nat) (val : A -> B) (d : B) l s,
  (forall x y, In x l -> In y l -> sel x = true -> sel y = true -> pos x = pos y -> val x = val y) ->
  (forall x, In x l -> sel x = true -> pos x < length s) ->
  let r := fold_left (fun s x => if sel x then upd s (pos x) (val x) else s) l s in
  length r = length s /\
  (forall x, In x l -> sel x = true -> nth (pos x) r d = val x) /\
  (forall p, (forall x, In x l -> sel x = true -> pos x <> p) -> nth p r d = nth p s d).
Proof.
  intros A B sel pos val d. induction l as [|x l IH]; intros s Hinj Hlt; cbn [fold_left].
  - split; [reflexivity|]. split; [intros x []|reflexivity].
  - set (s' := if sel x then upd s (pos x) (val x) else s).
    assert (Hl : length s' = length s) by (unfold s'; destruct (sel x); [apply upd_length|reflexivity]).
    destruct (IH s') as [H1 [H2 H3]].
    { intros y z Hy Hz. apply Hinj; right; assumption. }
    { intros y Hy Hs. rewrite Hl. apply Hlt; [right; assumption|assumption]. }
    split; [rewrite H1; exact Hl|]. split.
    + intros y Hy Hs. destruct Hy as [->|Hy]; [|apply H2; assumption].
      destruct (existsb (fun z => sel z && (pos z =? pos y)) l) eqn:E.
      * apply existsb_exists in E as [z [Hz E]]. apply andb_true_iff in E as [Ez Ep]. apply Nat.eqb_eq in Ep.
        rewrite <- Ep. rewrite (H2 z Hz Ez). apply Hinj; try assumption; [right; assumption|left; reflexivity].
      * rewrite H3.
        -- unfold s'. rewrite Hs. rewrite nth_upd, Nat.eqb_refl. replace (pos y <? length s) with true; [reflexivity|]. symmetry. apply Nat.ltb_lt, Hlt; [left; reflexivity|assumption].
        -- intros z Hz Ez Ep. assert (existsb (fun z => sel z && (pos z =? pos y)) l = true); [|congruence].
           apply existsb_exists. exists z. split; [assumption|]. rewrite Ez, Ep, Nat.eqb_refl. reflexivity.
    + intros p Hp. rewrite H3 by (intros z Hz; apply Hp; right; assumption). unfold s'. destruct (sel x) eqn:E; [|reflexivity].
      assert (pos x < length s) by (apply Hlt; [left; reflexivity|assumption]). rewrite nth_upd.
      destruct (Nat.eqb_spec p (pos x)) as [->|]; [|reflexivity]. exfalso. apply (Hp x); [left; reflexivity|assumption|reflexivity].
Qed.

(** * usable dimensions *)
Lemma u32_of_small : forall n, (Z.of_nat n < 2 ^ 32)%Z -> u32 (Z.of_nat n) = Z.of_nat n.
Proof. intros. unfold u32. apply Z.mod_small. lia. Qed.

Lemma set_ok_dim : forall s dim dim' degree, 1 <= dim' <= dim -> set_ok s dim degree -> set_ok s dim' degree.
Proof.
  intros [] dim dim' degree Hd H; cbn [set_ok] in *; auto. intros m Hl Hs.
  specialize (H (m ++ repeat 1 (dim - dim'))).
  assert (E : cross_prod (repeat 1 (dim - dim')) = 1).
  { generalize (dim - dim'). induction n as [|n IH]; [reflexivity|]. cbn [repeat]. rewrite cross_prod_cons, IH. reflexivity. }
  assert (E2 : list_sum (repeat 1 (dim - dim')) = dim - dim').
  { generalize (dim - dim'). induction n as [|n IH]; [reflexivity|]. cbn [repeat]. rewrite list_sum_cons, IH. reflexivity. }
  rewrite cross_prod_app, E, Nat.mul_1_r, app_length, repeat_length, list_sum_app, E2 in H. apply H; lia.
Qed.

Lemma in_set_snoc0 : forall s degree m k, in_set s degree m -> 1 <= length m -> in_set s degree (m ++ zeros k).
Proof.
  intros s degree m k H Hl. destruct s; cbn [in_set] in *.
  - rewrite list_sum_app, list_sum_zeros. lia.
  - apply Forall_app. split; [assumption|]. clear. induction k; [constructor|]. rewrite zeros_S. constructor; [lia|assumption].
  - rewrite cross_prod_app, cross_prod_zeros. lia.
  - rewrite cross_prod_app, cross_prod_zeros. lia.
  - destruct m as [|x m]; [cbn in Hl; lia|]. cbn [app]. destruct H as [H1 H2]. split; [assumption|]. apply Forall_app. split; [assumption|].
    clear. induction k; [constructor|]. rewrite zeros_S. constructor; [lia|assumption].
Qed.

Lemma spec_list_dim_le : forall s d d' degree, d' <= d -> length (spec_list s d' degree) <= length (spec_list s d degree).
Proof.
  intros s d d' degree H.
  rewrite <- (map_length (fun m => m ++ zeros (d - d')) (spec_list s d' degree)).
  apply NoDup_incl_length.
  - apply NoDup_map_inj; [|apply NoDup_spec_list]. intros x y _ _ E. apply app_inv_tail in E. exact E.
  - intros m Hm. apply in_map_iff in Hm as [x [<- Hx]]. apply in_spec_list in Hx as [Hl Hx]. apply in_spec_list.
    rewrite app_length, zeros_length. split; [lia|]. apply in_set_snoc0; [assumption|lia].
Qed.

Lemma usable_sub : forall s dim dim' degree, usable s dim degree -> 1 <= dim' <= dim -> usable s dim' degree.
Proof.
  intros s dim dim' degree [H1 [H2 [H3 H4]]] Hd. split; [lia|]. split; [assumption|]. split; [eapply set_ok_dim; eassumption|].
  intros l E. destruct (dim_S dim H1) as [d ->]. destruct (dim_S dim' ltac:(lia)) as [d' ->].
  rewrite s_list_Ok in E by (eapply set_ok_dim; eassumption). injection E as <-.
  specialize (H4 _ (s_list_Ok s d 250 H3)). pose proof (spec_list_dim_le s d d' 250 ltac:(lia)). lia.
Qed.

Lemma usable_dim4 : forall s dim degree, 1 <= dim <= 4 -> degree <= 250 -> usable s dim degree.
Proof.
  intros s dim degree Hd Hg. destruct (dim_S dim ltac:(lia)) as [d ->].
  assert (Hok : set_ok s (S d) 250) by (apply ok_dim4; lia).
  split; [lia|]. split; [assumption|]. split; [assumption|]. intros l E. rewrite s_list_Ok in E by assumption. injection E as <-.
  apply fits_dim4. lia.
Qed.

Lemma usable_set_ok : forall s dim degree, usable s dim degree -> set_ok s dim degree.
Proof. intros s dim degree [H1 [H2 [H3 _]]]. eapply set_ok_le; eassumption. Qed.

Lemma usable_recovered_ok : forall s dim degree, usable s dim degree -> set_ok s dim (recovered s degree).
Proof.
  intros s dim degree [H1 [H2 [H3 _]]]. destruct s; cbn [recovered]; try exact I. eapply set_ok_le; [|exact H3]. destruct (degree =? 1); lia.
Qed.

Lemma usable_length : forall s d degree, usable s (S d) degree -> (Z.of_nat (length (spec_list s d degree)) < 2 ^ 32)%Z.
Proof.
  intros s d degree [H1 [H2 [H3 H4]]]. specialize (H4 _ (s_list_Ok s d 250 H3)). pose proof (spec_list_le s d degree 250 H2). lia.
Qed.

Lemma usable_get_degree : forall s d degree, usable s (S d) degree ->
  s_get_degree s (S d) (u32 (Z.of_nat (length (spec_list s d degree)))) = Ok (recovered s degree).
Proof.
  intros s d degree Hu. rewrite u32_of_small by (apply usable_length; assumption).
  destruct Hu as [H1 [H2 [H3 H4]]]. apply get_degree_recover; auto. apply H4. apply s_list_Ok. assumption.
Qed.

Lemma fresh_recovered : forall s d degree, fresh s d (recovered s degree) = fresh s d degree.
Proof. intros. unfold fresh. rewrite spec_list_recovered. reflexivity. Qed.

Lemma usable_make_iterator : forall s d degree, usable s (S d) degree ->
  make_iterator s (S d) (recovered s degree) = Ok (fresh s d degree).
Proof. intros s d degree Hu. rewrite make_iterator_Ok by (apply usable_recovered_ok; assumption). rewrite fresh_recovered. reflexivity. Qed.

Lemma usable_s_size : forall s d degree, usable s (S d) degree ->
  s_size s (S d) (recovered s degree) = Ok (Z.of_nat (length (spec_list s d degree))).
Proof.
  intros s d degree Hu. rewrite s_size_Ok; rewrite ?spec_list_recovered; [reflexivity|apply usable_recovered_ok; assumption|apply usable_length; assumption].
Qed.

Lemma usable_s_list : forall s d degree, usable s (S d) degree ->
  s_list s (S d) (recovered s degree) = Ok (spec_list s d degree).
Proof. intros s d degree Hu. rewrite s_list_Ok by (apply usable_recovered_ok; assumption). rewrite spec_list_recovered. reflexivity. Qed.

Lemma usable_list : forall s d degree l, usable s (S d) degree -> s_list s (S d) degree = Ok l -> l = spec_list s d degree.
Proof. intros s d degree l Hu E. rewrite s_list_Ok in E by (apply usable_set_ok; assumption). injection E as <-. reflexivity. Qed.

(** * increasing lists *)
Lemma increasing_NoDup : forall d, increasing d -> NoDup d.
Proof.
  intros d H. induction H as [|x d Hs IH Hf]; constructor; [|assumption]. rewrite Forall_forall in Hf. intros G. apply Hf in G. lia.
Qed.

Lemma increasing_tl_pos : forall d x, increasing d -> In x (tl d) -> 0 < x.
Proof.
  intros d x H Hx. destruct H as [|y d Hs Hf]; [contradiction|]. cbn [tl] in Hx. rewrite Forall_forall in Hf. apply Hf in Hx. lia.
Qed.

Lemma hd_seq : forall n, hd_error (seq 0 n) = match n with 0 => None | _ => Some 0 end.
Proof. destruct n; reflexivity. Qed.

Lemma it_index_some : forall s d degree m, length m = S d -> in_set s degree m ->
  exists i, it_index (fresh s d degree) m = Ok i /\ nth_error (spec_list s d degree) i = Some m /\ i < length (spec_list s d degree).
Proof.
  intros s d degree m Hl Hm. assert (Hin : In m (spec_list s d degree)) by (apply in_spec_list; auto).
  apply In_nth_error in Hin as [i Hi]. exists i. split; [apply it_index_fresh; assumption|]. split; [assumption|].
  apply nth_error_Some. congruence.
Qed.
