(** Matrix types: a common interface for dense and sparse matrices, and loops that write entries. *)
From Coq Require Import String List Bool Arith ZArith Lia Sorted.
From Verif Require Import Base Lists IndexModel Spec Machine IndexSet Degree Num LinModel LinSpec LinBase.
Import ListNotations.

(** position of a multi-index *)
Fixpoint idx (l : list (list nat)) (m : list nat) : nat :=
  match l with
  | [] => 0
  | x :: l' => if mi_eqb x m then 0 else S (idx l' m)
  end.

Lemma idx_nth : forall l m, In m l -> nth_error l (idx l m) = Some m.
Proof.
  induction l as [|x l IH]; intros m H; [contradiction|]. cbn [idx]. destruct (mi_eqb x m) eqn:E.
  - apply mi_eqb_eq in E. subst. reflexivity.
  - destruct H as [->|H]; [rewrite mi_eqb_refl in E; discriminate|]. apply IH. assumption.
Qed.

Lemma idx_lt : forall l m, In m l -> idx l m < length l.
Proof. intros l m H. apply nth_error_Some. rewrite idx_nth by assumption. discriminate. Qed.

Lemma idx_inj : forall l m m', In m l -> In m' l -> idx l m = idx l m' -> m = m'.
Proof. intros l m m' H H' E. apply idx_nth in H, H'. rewrite E in H. congruence. Qed.

Lemma idx_of_nth : forall l i m, NoDup l -> nth_error l i = Some m -> idx l m = i.
Proof.
  intros l i m Hn Hi. assert (Hin : In m l) by (eapply nth_error_In; exact Hi). pose proof (idx_nth l m Hin) as G.
  rewrite NoDup_nth_error in Hn. apply Hn; [apply idx_lt; assumption|congruence].
Qed.

Lemma value_idx : forall A (d : A) l v m, NoDup l -> In m l -> length v = length l -> value d l v m = nth (idx l m) v d.
Proof. intros. apply value_nth; auto. apply idx_nth. assumption. Qed.

Lemma it_index_idx : forall s d degree m, In m (spec_list s d degree) ->
  it_index (fresh s d degree) m = Ok (idx (spec_list s d degree) m).
Proof. intros. apply it_index_fresh, idx_nth. assumption. Qed.

Definition inb (m : list nat) (l : list (list nat)) : bool := existsb (mi_eqb m) l.
Lemma inb_In : forall m l, inb m l = true <-> In m l.
Proof.
  intros. unfold inb. rewrite existsb_exists. split.
  - intros [x [H E]]. apply mi_eqb_eq in E. subst. assumption.
  - intros H. exists m. split; [assumption|apply mi_eqb_refl].
Qed.
Lemma it_has_inb : forall s d degree m, it_has (fresh s d degree) m = inb m (spec_list s d degree).
Proof.
  intros. destruct (inb m (spec_list s d degree)) eqn:E.
  - apply it_has_fresh, inb_In. assumption.
  - destruct (it_has (fresh s d degree) m) eqn:F; [|reflexivity]. apply it_has_fresh, inb_In in F. congruence.
Qed.

(** * Matrix interface *)
Section Mat.
Variable N : num.
Notation mat := (list (list N)) (only parsing).

Definition mupd (M : mat) (i j : nat) (x : N) : mat := upd M i (upd (nth i M []) j x).
Definition mnth (M : mat) (i j : nat) : N := nth j (nth i M []) n0.

Record ops_ok (O : matops N) (rep : mtype N O -> mat) (wf : mtype N O -> nat -> nat -> Prop) : Prop := {
  ok_mat : forall A n m, wf A n m -> mat_wf n m (rep A);
  ok_size : forall A n m, wf A n m -> m_size1 N O A = n;
  ok_construct : forall n m, wf (m_construct N O n m) n m /\ rep (m_construct N O n m) = mat_construct N n m;
  ok_get : forall A n m i j, wf A n m -> i < n -> j < m -> m_get N O A i j = Ok (mnth (rep A) i j);
  ok_set : forall A n m i j x, wf A n m -> i < n -> j < m ->
    exists A', m_set N O A i j x = Ok A' /\ wf A' n m /\ rep A' = mupd (rep A) i j x }.

Lemma mat_wf_row : forall n m (M : mat) i, mat_wf n m M -> i < n -> length (nth i M []) = m.
Proof.
  intros n m M i [H1 H2] Hi. rewrite Forall_forall in H2. apply H2. apply nth_In. lia.
Qed.

Lemma mupd_wf : forall n m (M : mat) i j x, mat_wf n m M -> i < n -> mat_wf n m (mupd M i j x).
Proof.
  intros n m M i j x H Hi. pose proof (mat_wf_row n m M i H Hi) as Hr. destruct H as [H1 H2]. split; [unfold mupd; rewrite upd_length; assumption|].
  apply Forall_forall. intros row Hrow. apply (In_nth _ _ []) in Hrow as [k [Hk <-]]. unfold mupd in *. rewrite upd_length in Hk.
  rewrite nth_upd. destruct (_ && _); [rewrite upd_length; assumption|]. rewrite Forall_forall in H2. apply H2, nth_In. assumption.
Qed.

Lemma mnth_mupd : forall n m (M : mat) i j x p q, mat_wf n m M -> i < n -> j < m ->
  mnth (mupd M i j x) p q = if (p =? i) && (q =? j) then x else mnth M p q.
Proof.
  intros n m M i j x p q H Hi Hj. pose proof (mat_wf_row n m M i H Hi) as Hr. destruct H as [H1 H2].
  unfold mnth, mupd. rewrite nth_upd. replace (i <? length M) with true by (symmetry; apply Nat.ltb_lt; lia). rewrite andb_true_r.
  destruct (Nat.eqb_spec p i) as [->|]; [|reflexivity]. cbn [andb]. rewrite nth_upd.
  replace (j <? length (nth i M [])) with true by (symmetry; apply Nat.ltb_lt; lia). rewrite andb_true_r. reflexivity.
Qed.

Lemma mat_construct_wf : forall n m, mat_wf n m (mat_construct N n m).
Proof.
  intros. unfold mat_construct. split; [apply repeat_length|]. apply Forall_forall. intros r Hr. apply repeat_spec in Hr. subst. apply repeat_length.
Qed.

Lemma mnth_construct : forall n m p q, mnth (mat_construct N n m) p q = n0.
Proof.
  intros. unfold mnth, mat_construct. destruct (Nat.lt_ge_cases p n) as [Hp|Hp].
  - rewrite (nth_indep _ [] (repeat n0 m)) by (rewrite repeat_length; assumption). rewrite nth_repeat. rewrite nth_repeat. reflexivity.
  - rewrite (nth_overflow (repeat _ _)) by (rewrite repeat_length; assumption). destruct q; reflexivity.
Qed.

Lemma mat_ext : forall n m (A B : mat), mat_wf n m A -> mat_wf n m B ->
  (forall i j, i < n -> j < m -> mnth A i j = mnth B i j) -> A = B.
Proof.
  intros n m A B HA HB H. apply list_ext_nth with (d := []); [destruct HA, HB; congruence|]. intros i Hi.
  destruct HA as [HA1 HA2]. assert (Hi' : i < n) by lia.
  apply list_ext_nth with (d := n0); [rewrite (mat_wf_row n m B i HB Hi'); apply (mat_wf_row n m A i (conj HA1 HA2) Hi')|].
  intros j Hj. rewrite (mat_wf_row n m A i (conj HA1 HA2) Hi') in Hj. exact (H i j Hi' Hj).
Qed.

(** writing a family of entries *)
Lemma set_loop : forall O rep wf, ops_ok O rep wf -> forall Z (sel : Z -> bool) (p q : Z -> nat) (v : Z -> N) n m zs A,
  wf A n m ->
  (forall z, In z zs -> sel z = true -> p z < n /\ q z < m) ->
  (forall z z', In z zs -> In z' zs -> sel z = true -> sel z' = true -> p z = p z' -> q z = q z' -> v z = v z') ->
  exists A', for_in (fun z A => if sel z then m_set N O A (p z) (q z) (v z) else Ok A) zs A = Ok A' /\ wf A' n m /\
    (forall z, In z zs -> sel z = true -> mnth (rep A') (p z) (q z) = v z) /\
    (forall i j, (forall z, In z zs -> sel z = true -> ~ (p z = i /\ q z = j)) -> mnth (rep A') i j = mnth (rep A) i j).
Proof.
  intros O rep wf Hok Z sel p q v n m. induction zs as [|z zs IH]; intros A Hw Hlt Hinj.
  - exists A. split; [reflexivity|]. split; [assumption|]. split; [intros z []|reflexivity].
  - cbn [for_in].
    assert (E : exists A1, (if sel z then m_set N O A (p z) (q z) (v z) else Ok A) = Ok A1 /\ wf A1 n m /\
      (forall i j, mnth (rep A1) i j = if sel z && ((i =? p z) && (j =? q z)) then v z else mnth (rep A) i j)).
    { destruct (sel z) eqn:Ez; [|exists A; auto].
      destruct (Hlt z (or_introl eq_refl) Ez) as [Hp Hq]. destruct (ok_set _ _ _ Hok A n m (p z) (q z) (v z) Hw Hp Hq) as [A1 [E1 [W1 R1]]].
      exists A1. split; [assumption|]. split; [assumption|]. intros i j. rewrite R1. cbn [andb].
      apply (mnth_mupd n m); auto. eapply ok_mat; eassumption. }
    destruct E as [A1 [E1 [W1 R1]]]. rewrite E1. cbn [bind].
    destruct (IH A1 W1) as [A' [E2 [W2 [G1 G2]]]].
    { intros y Hy. apply Hlt. right. assumption. }
    { intros y y' Hy Hy'. apply Hinj; right; assumption. }
    exists A'. split; [assumption|]. split; [assumption|]. split.
    + intros y Hy Hs. destruct Hy as [->|Hy]; [|apply G1; assumption].
      destruct (existsb (fun w => sel w && ((p w =? p y) && (q w =? q y))) zs) eqn:E.
      * apply existsb_exists in E as [w [Hw' E]]. apply andb_true_iff in E as [Ew E]. apply andb_true_iff in E as [Ep Eq].
        apply Nat.eqb_eq in Ep, Eq. rewrite <- Ep, <- Eq. rewrite (G1 w Hw' Ew). apply Hinj; auto; [right; assumption|left; reflexivity].
      * rewrite G2; [rewrite R1, Hs, !Nat.eqb_refl; reflexivity|]. intros w Hw' Ew [Ep Eq].
        assert (existsb (fun w => sel w && ((p w =? p y) && (q w =? q y))) zs = true); [|congruence].
        apply existsb_exists. exists w. split; [assumption|]. rewrite Ew, Ep, Eq, !Nat.eqb_refl. reflexivity.
    + intros i j Hij. rewrite G2 by (intros w Hw'; apply Hij; right; assumption). rewrite R1.
      destruct (sel z) eqn:Ez; [|reflexivity]. cbn [andb].
      destruct (Nat.eqb_spec i (p z)) as [->|]; [|reflexivity]. destruct (Nat.eqb_spec j (q z)) as [->|]; [|reflexivity].
      exfalso. apply (Hij z); [left; reflexivity|assumption|split; reflexivity].
Qed.

(** nested loops *)
Lemma for_in_ext : forall A S (f g : A -> S -> res S) l s, (forall x s, In x l -> f x s = g x s) -> for_in f l s = for_in g l s.
Proof.
  intros A S f g. induction l as [|x l IH]; intros s H; [reflexivity|]. cbn [for_in]. rewrite H by (left; reflexivity).
  destruct (g x s); cbn [bind]; try reflexivity. apply IH. intros. apply H. right. assumption.
Qed.

Lemma for_in_map : forall A B S (g : A -> B) (f : B -> S -> res S) l s, for_in f (map g l) s = for_in (fun x => f (g x)) l s.
Proof.
  intros A B S g f. induction l as [|x l IH]; intros s; [reflexivity|]. cbn [map for_in]. destruct (f (g x) s); cbn [bind]; auto.
Qed.

Lemma for_in_prod : forall A B S (f : A -> B -> S -> res S) l1 l2 s,
  for_in (fun x => for_in (f x) l2) l1 s = for_in (fun '(x, y) => f x y) (list_prod l1 l2) s.
Proof.
  intros A B S f. induction l1 as [|x l1 IH]; intros l2 s; [reflexivity|]. cbn [for_in list_prod]. rewrite for_in_app.
  rewrite for_in_map. destruct (for_in (f x) l2 s); cbn [bind]; auto.
Qed.

Lemma for_in_skip : forall A S (f : A -> S -> res S) l s, (forall x s, In x l -> f x s = Ok s) -> for_in f l s = Ok s.
Proof.
  intros A S f. induction l as [|x l IH]; intros s H; [reflexivity|]. cbn [for_in]. rewrite H by (left; reflexivity). cbn [bind].
  apply IH. intros. apply H. right. assumption.
Qed.

Lemma vget_nth_ok : forall A (v : list A) i d, i < length v -> vget v i = Ok (nth i v d).
Proof. intros A v i d H. unfold vget. rewrite (nth_error_nth' _ d) by assumption. reflexivity. Qed.

Lemma vset_ok : forall A (v : list A) i x, i < length v -> vset v i x = Ok (upd v i x).
Proof. intros A v i x H. unfold vset. replace (i <? length v) with true by (symmetry; apply Nat.ltb_lt; assumption). reflexivity. Qed.

Lemma nth_map_lt : forall A B (f : A -> B) l i d d', i < length l -> nth i (map f l) d = f (nth i l d').
Proof. intros A B f l i d d' H. rewrite (nth_indep _ d (f d')) by (rewrite map_length; assumption). apply map_nth. Qed.

(** * the dense instance *)
Lemma mat_ops_ok : ops_ok (mat_ops N) (fun A => A) (fun A n m => mat_wf n m A).
Proof.
  constructor; cbn [mat_ops mtype m_size1 m_construct m_get m_set].
  - auto.
  - intros A n m [H _]. exact H.
  - intros n m. split; [apply mat_construct_wf|reflexivity].
  - intros A n m i j H Hi Hj. unfold mat_get. pose proof (mat_wf_row n m A i H Hi) as Hr. destruct H as [H1 H2].
    rewrite (vget_nth_ok _ A i []) by lia. cbn [bind]. apply vget_nth_ok. lia.
  - intros A n m i j x H Hi Hj. exists (mupd A i j x). unfold mat_set. pose proof (mat_wf_row n m A i H Hi) as Hr.
    split; [|split; [apply mupd_wf; assumption|reflexivity]]. destruct H as [H1 H2].
    rewrite (vget_nth_ok _ A i []) by lia. cbn [bind]. rewrite vset_ok by lia. cbn [bind]. apply vset_ok. lia.
Qed.

(** * the sparse instance *)
Lemma row_get_stored : forall row j, row_get N row j = stored row j.
Proof. induction row as [|[k x] row IH]; intros j; [reflexivity|]. cbn [row_get stored]. rewrite IH. reflexivity. Qed.

Lemma stored_lt : forall row j, Forall (fun k => j < k) (map fst row) -> stored (N := N) row j = n0.
Proof.
  induction row as [|[k x] row IH]; intros j H; [reflexivity|]. cbn [map fst] in H. inversion H; subst. cbn [stored].
  destruct (Nat.eqb_spec k j); [lia|]. apply IH. assumption.
Qed.

Lemma row_set_fst : forall row j x k, In k (map fst (row_set N row j x)) <-> k = j \/ In k (map fst row).
Proof.
  induction row as [|[k y] row IH]; intros j x k'; cbn [row_set map fst In]; [intuition|].
  destruct (Nat.ltb_spec j k); [cbn [map fst In]; intuition|]. destruct (Nat.eqb_spec k j) as [->|]; cbn [map fst In]; [intuition|].
  rewrite IH. intuition.
Qed.

Lemma row_set_sorted : forall row j x, increasing (map fst row) -> increasing (map fst (row_set N row j x)).
Proof.
  induction row as [|[k y] row IH]; intros j x H; cbn [row_set map fst]; [constructor; constructor|].
  cbn [map fst] in H. inversion H; subst. destruct (Nat.ltb_spec j k).
  - cbn [map fst]. constructor; [assumption|]. constructor; [assumption|]. eapply Forall_impl; [|eassumption]. intros; cbv beta in *; lia.
  - destruct (Nat.eqb_spec k j) as [->|]; cbn [map fst]; constructor; auto; [apply IH; assumption|].
    apply Forall_forall. intros z Hz. apply row_set_fst in Hz as [->|Hz]; [lia|]. rewrite Forall_forall in H3. apply H3. assumption.
Qed.

Lemma stored_row_set : forall row j x k, increasing (map fst row) ->
  stored (row_set N row j x) k = if k =? j then x else stored row k.
Proof.
  induction row as [|[h y] row IH]; intros j x k H; cbn [row_set].
  - cbn [stored]. rewrite Nat.eqb_sym. destruct (k =? j); reflexivity.
  - cbn [map fst] in H. inversion H; subst. destruct (Nat.ltb_spec j h).
    + cbn [stored]. rewrite (Nat.eqb_sym j k). destruct (Nat.eqb_spec k j) as [->|]; reflexivity.
    + destruct (Nat.eqb_spec h j) as [->|].
      * cbn [stored]. rewrite (Nat.eqb_sym j k). destruct (k =? j); reflexivity.
      * cbn [stored]. rewrite IH by assumption. destruct (Nat.eqb_spec h k) as [->|]; [|reflexivity].
        destruct (Nat.eqb_spec k j); [contradiction|reflexivity].
Qed.

Definition sp_wf2 (A : spmat N) (n m : nat) : Prop := sp_wf A /\ sp_size1 N A = n /\ sp_size2 N A = m.

Lemma dense_wf : forall A : spmat N, sp_wf A -> mat_wf (sp_size1 N A) (sp_size2 N A) (dense A).
Proof.
  intros A [H1 H2]. unfold dense. split; [rewrite map_length; assumption|]. apply Forall_forall. intros r Hr.
  apply in_map_iff in Hr as [row [<- _]]. rewrite map_length, seq_length. reflexivity.
Qed.

Lemma dense_row : forall (A : spmat N) i, sp_wf A -> i < sp_size1 N A ->
  nth i (dense A) [] = map (stored (nth i (sp_rows N A) [])) (seq 0 (sp_size2 N A)).
Proof.
  intros A i [H1 H2] Hi. unfold dense.
  rewrite (nth_indep _ [] ((fun row => map (stored row) (seq 0 (sp_size2 N A))) [])) by (rewrite map_length; lia).
  rewrite (map_nth (fun row => map (stored row) (seq 0 (sp_size2 N A)))). reflexivity.
Qed.

Lemma dense_nth : forall (A : spmat N) i j, sp_wf A -> i < sp_size1 N A -> j < sp_size2 N A ->
  mnth (dense A) i j = stored (nth i (sp_rows N A) []) j.
Proof.
  intros A i j H Hi Hj. unfold mnth. rewrite dense_row by assumption.
  rewrite (nth_indep _ n0 (stored (nth i (sp_rows N A) []) 0)) by (rewrite map_length, seq_length; assumption).
  rewrite (map_nth (stored (nth i (sp_rows N A) []))). rewrite seq_nth by assumption. reflexivity.
Qed.

Lemma sp_wf_row : forall (A : spmat N) i, sp_wf A -> i < sp_size1 N A ->
  increasing (map fst (nth i (sp_rows N A) [])) /\ Forall (fun j => j < sp_size2 N A) (map fst (nth i (sp_rows N A) [])).
Proof. intros A i [H1 H2] Hi. rewrite Forall_forall in H2. apply H2, nth_In. lia. Qed.

Lemma spmat_ops_ok : ops_ok (spmat_ops N) (@dense N) sp_wf2.
Proof.
  constructor; cbn [spmat_ops mtype m_size1 m_construct m_get m_set].
  - intros A n m [H [<- <-]]. apply dense_wf. assumption.
  - intros A n m [H [H1 H2]]. exact H1.
  - intros n m. unfold sp_construct. split.
    + split; [|split; reflexivity]. split; cbn [sp_rows sp_size1 sp_size2]; [apply repeat_length|].
      apply Forall_forall. intros r Hr. apply repeat_spec in Hr. subst. split; constructor.
    + unfold dense, mat_construct. cbn [sp_rows sp_size2]. assert (E : map (stored (N := N) []) (seq 0 m) = repeat n0 m).
      { generalize 0. induction m as [|m IH]; intros k; [reflexivity|]. cbn [seq map repeat stored]. f_equal. apply IH. }
      induction n as [|n IH]; [reflexivity|]. cbn [repeat map]. rewrite E. f_equal. exact IH.
  - intros A n m i j [H [<- <-]] Hi Hj. unfold sp_get.
    replace (i <? sp_size1 N A) with true by (symmetry; apply Nat.ltb_lt; assumption).
    replace (j <? sp_size2 N A) with true by (symmetry; apply Nat.ltb_lt; assumption). cbn [andb].
    rewrite (vget_nth_ok _ _ i []) by (destruct H as [-> _]; assumption). cbn [bind]. rewrite row_get_stored, dense_nth by assumption. reflexivity.
  - intros A n m i j x [H [<- <-]] Hi Hj. unfold sp_set.
    replace (i <? sp_size1 N A) with true by (symmetry; apply Nat.ltb_lt; assumption).
    replace (j <? sp_size2 N A) with true by (symmetry; apply Nat.ltb_lt; assumption). cbn [andb].
    assert (Hl : length (sp_rows N A) = sp_size1 N A) by (destruct H; assumption).
    rewrite (vget_nth_ok _ _ i []) by lia. cbn [bind]. rewrite vset_ok by lia. cbn [bind].
    pose proof (sp_wf_row A i H Hi) as [Hr1 Hr2].
    eexists. split; [reflexivity|].
    assert (W : sp_wf {| sp_size1 := sp_size1 N A; sp_size2 := sp_size2 N A;
      sp_rows := upd (sp_rows N A) i (row_set N (nth i (sp_rows N A) []) j x) |}).
    { split; cbn [sp_rows sp_size1 sp_size2]; [rewrite upd_length; assumption|]. apply Forall_forall. intros r Hr.
      apply (In_nth _ _ []) in Hr as [k [Hk <-]]. rewrite upd_length in Hk. rewrite nth_upd.
      destruct (_ && _).
      - split; [apply row_set_sorted; assumption|]. apply Forall_forall. intros z Hz. apply row_set_fst in Hz as [->|Hz]; [assumption|].
        rewrite Forall_forall in Hr2. apply Hr2. assumption.
      - apply sp_wf_row; [assumption|lia]. }
    split; [split; [exact W|split; reflexivity]|].
    apply (mat_ext (sp_size1 N A) (sp_size2 N A)).
    + exact (dense_wf _ W).
    + apply mupd_wf; [apply dense_wf; assumption|assumption].
    + intros p q Hp Hq. rewrite (mnth_mupd (sp_size1 N A) (sp_size2 N A)) by (auto; apply dense_wf; assumption).
      rewrite dense_nth by assumption. cbn [sp_rows]. rewrite nth_upd.
      replace (i <? length (sp_rows N A)) with true by (symmetry; apply Nat.ltb_lt; lia). rewrite andb_true_r.
      destruct (Nat.eqb_spec p i) as [->|].
      * rewrite stored_row_set by assumption. cbn [andb]. destruct (q =? j); [reflexivity|]. rewrite dense_nth by assumption. reflexivity.
      * cbn [andb]. rewrite dense_nth by assumption. reflexivity.
Qed.

(** the stored entries *)
Lemma in_rows_entries : forall rows k i j x, In (i, j, x) (rows_entries N k rows) <->
  k <= i /\ i < k + length rows /\ In (j, x) (nth (i - k) rows []).
Proof.
  induction rows as [|row rows IH]; intros k i j x; cbn [rows_entries length].
  - split; [contradiction|]. intros [H1 [H2 _]]. lia.
  - rewrite in_app_iff, IH. split.
    + intros [H|[H1 [H2 H3]]].
      * apply in_map_iff in H as [[j' x'] [E H]]. injection E as -> -> ->. rewrite Nat.sub_diag. cbn [nth]. split; [lia|]. split; [lia|assumption].
      * split; [lia|]. split; [lia|]. replace (i - k) with (S (i - S k)) by lia. exact H3.
    + intros [H1 [H2 H3]]. destruct (Nat.eq_dec i k) as [->|].
      * left. rewrite Nat.sub_diag in H3. cbn [nth] in H3. apply in_map_iff. exists (j, x). split; [reflexivity|assumption].
      * right. split; [lia|]. split; [lia|]. replace (i - k) with (S (i - S k)) in H3 by lia. exact H3.
Qed.

Lemma stored_in : forall row j x, increasing (map fst row) -> In (j, x) row -> stored (N := N) row j = x.
Proof.
  induction row as [|[k y] row IH]; intros j x H Hin; [contradiction|]. cbn [map fst] in H. inversion H; subst. cbn [stored].
  destruct Hin as [E|Hin]; [injection E as -> ->; rewrite Nat.eqb_refl; reflexivity|].
  destruct (Nat.eqb_spec k j) as [->|]; [|apply IH; assumption].
  rewrite Forall_forall in H3. specialize (H3 j). assert (j < j); [|lia]. apply H3. apply in_map_iff. exists (j, x). auto.
Qed.

Lemma stored_notin : forall row j, (forall x, ~ In (j, x) row) -> stored (N := N) row j = n0.
Proof.
  induction row as [|[k y] row IH]; intros j H; [reflexivity|]. cbn [stored]. destruct (Nat.eqb_spec k j) as [->|].
  - exfalso. apply (H y). left. reflexivity.
  - apply IH. intros x Hx. apply (H x). right. assumption.
Qed.

Lemma sp_entries_spec : forall (A : spmat N) i j x, sp_wf A -> In (i, j, x) (sp_entries N A) ->
  i < sp_size1 N A /\ j < sp_size2 N A /\ mnth (dense A) i j = x.
Proof.
  intros A i j x H Hin. unfold sp_entries in Hin. apply in_rows_entries in Hin as [_ [H1 H2]]. rewrite Nat.sub_0_r in H2. cbn [plus] in H1.
  assert (Hi : i < sp_size1 N A) by (destruct H as [<- _]; assumption).
  pose proof (sp_wf_row A i H Hi) as [Hr1 Hr2]. assert (Hj : j < sp_size2 N A).
  { rewrite Forall_forall in Hr2. apply Hr2. apply in_map_iff. exists (j, x). auto. }
  split; [assumption|]. split; [assumption|]. rewrite dense_nth by assumption. apply stored_in; assumption.
Qed.

Lemma sp_entries_absent : forall (A : spmat N) i j, sp_wf A -> i < sp_size1 N A -> j < sp_size2 N A ->
  (forall x, ~ In (i, j, x) (sp_entries N A)) -> mnth (dense A) i j = n0.
Proof.
  intros A i j H Hi Hj Hn. rewrite dense_nth by assumption. apply stored_notin. intros x Hx. apply (Hn x).
  unfold sp_entries. apply in_rows_entries. rewrite Nat.sub_0_r. split; [lia|]. split; [|assumption]. destruct H as [-> _]. assumption.
Qed.

Lemma mvalue_nth : forall l (A : mat) r c, NoDup l -> In r l -> In c l -> mat_wf (length l) (length l) A ->
  mvalue l A r c = mnth A (idx l r) (idx l c).
Proof.
  intros l A r c Hn Hr Hc Hw. unfold mvalue, mnth. rewrite (value_idx _ [] l A r) by (auto; destruct Hw; assumption).
  apply value_idx; auto. eapply mat_wf_row; [exact Hw|apply idx_lt; assumption].
Qed.

End Mat.
