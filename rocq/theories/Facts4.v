(** Proofs behind Properties2: tensor products with the identity, inner products. *)
From Coq Require Import String List Bool Arith ZArith Lia Sorted Permutation.
From Verif Require Import Base Lists IndexModel Spec Machine IndexSet Degree Facts1 Num LinModel LinSpec LinBase MatBase Project Tensorize Dirs Sparse TensorMat Inner InnerSum Facts2 Facts3.
Import ListNotations.

Section Facts4.
Variable N : num.
Hypothesis L : num_laws N.

Lemma seq_increasing : forall n k, increasing (seq k n).
Proof.
  induction n as [|n IH]; intros k; [constructor|]. cbn [seq]. constructor; [apply IH|]. apply Forall_forall. intros x Hx. apply in_seq in Hx. lia.
Qed.

(** * one-dimensional sets *)
Lemma points_hd : forall s dim degree, usable s dim degree -> exists t, points s dim degree = zeros dim :: t.
Proof.
  intros s dim degree Hu. destruct (dim_S dim) as [d ->]; [apply Hu|]. rewrite points_spec by assumption.
  pose proof (iterator_list_first s d degree (usable_set_ok _ _ _ Hu)) as Hh. destruct (spec_list s d degree) as [|x t]; [discriminate|].
  injection Hh as ->. exists t. reflexivity.
Qed.

Lemma nprod_ones : forall l : list N, (forall x, In x l -> x = n1) -> nprod l = n1.
Proof. induction l as [|x l IH]; intros H; [reflexivity|]. rewrite nprod_cons by assumption. rewrite (H x) by (left; reflexivity). rewrite IH by (intros; apply H; right; assumption). apply (law_mul_1 _ L). Qed.

Lemma nprod_single : forall A (f : A -> N) l a, NoDup l -> In a l -> (forall x, In x l -> x <> a -> f x = n1) -> nprod (map f l) = f a.
Proof.
  intros A f. induction l as [|x l IH]; intros a Hn Ha H; [contradiction|]. cbn [map]. rewrite nprod_cons by assumption. inversion Hn; subst.
  destruct Ha as [->|Ha].
  - rewrite nprod_ones; [apply (mul1r _ L)|]. intros y Hy. apply in_map_iff in Hy as [z [<- Hz]]. apply H; [right; assumption|]. intros ->. contradiction.
  - rewrite (IH a); [|assumption|assumption|intros; apply H; [right|]; assumption]. rewrite (H x); [apply (law_mul_1 _ L)|left; reflexivity|]. intros ->. contradiction.
Qed.

Lemma combine_axes : forall A (l : list A) (d : A), combine (map (fun i : nat => [i]) (seq 0 (length l))) l = map (fun i => ([i], nth i l d)) (seq 0 (length l)).
Proof.
  intros A l d. apply (list_ext_nth _ _ _ ([], d)).
  - rewrite combine_length, !map_length, seq_length. lia.
  - intros i Hi. rewrite combine_length, map_length, seq_length in Hi. assert (Hi' : i < length l) by lia.
    rewrite combine_nth by (rewrite map_length, seq_length; reflexivity).
    rewrite (nth_map_lt _ _ (fun i : nat => [i]) (seq 0 (length l)) i [] 0) by (rewrite seq_length; assumption).
    rewrite (nth_map_lt _ _ (fun i : nat => ([i], nth i l d)) (seq 0 (length l)) i ([], d) 0) by (rewrite seq_length; assumption).
    rewrite seq_nth by assumption. reflexivity.
Qed.

Lemma concat_axes : forall n, concat (map (fun i : nat => [i]) (seq 0 n)) = seq 0 n.
Proof. intros n. generalize 0. induction n as [|n IH]; intros k; [reflexivity|]. cbn [seq map concat app]. f_equal. apply IH. Qed.

Lemma axes_inc : forall n, Forall (fun dj => increasing dj /\ dj <> []) (map (fun i : nat => [i]) (seq 0 n)).
Proof. intros n. apply Forall_forall. intros x Hx. apply in_map_iff in Hx as [i [<- _]]. split; [repeat constructor|discriminate]. Qed.

Lemma axes_ok : forall n, dirs_ok n (map (fun i : nat => [i]) (seq 0 n)).
Proof.
  intros n. apply Forall_forall. intros x Hx. apply in_map_iff in Hx as [i [<- Hi]]. apply in_seq in Hi.
  split; [repeat constructor|]. split; [discriminate|]. repeat constructor. lia.
Qed.

Lemma Forall2_axes : forall A (P : nat -> A -> Prop) (l : list A) k, (forall x, In x l -> P 1 x) ->
  Forall2 (fun dj x => P (length dj) x) (map (fun i : nat => [i]) (seq k (length l))) l.
Proof. intros A P. induction l as [|x l IH]; intros k H; [constructor|]. cbn [length seq map]. constructor; [apply H; left; reflexivity|]. apply IH. intros; apply H; right; assumption. Qed.

(** vectors along the axes (C19) *)
Lemma tensorize_axes_coef : forall s degree (inputs : list (list N)), usable s (length inputs) degree ->
  Forall (fun v => vec_for s 1 degree v) inputs ->
  exists out, tensorize_vecs_axes N s inputs = Ok out /\ vec_for s (length inputs) degree out /\
    forall m, index_of s (length inputs) degree m ->
      coef s (length inputs) degree out m = nprod (map (fun '(k, v) => coef s 1 degree v [k]) (combine m inputs)).
Proof.
  intros s degree inputs Hu HF. set (n := length inputs) in *.
  destruct (tensorize_vec_coef N s degree (map (fun i => [i]) (seq 0 n)) inputs n) as (out & E & W & G); auto.
  - rewrite concat_axes, seq_length. reflexivity.
  - apply axes_ok.
  - apply (Forall2_axes _ (fun k v => vec_for s k degree v)). apply Forall_forall. assumption.
  - exists out. split; [assumption|]. split; [assumption|]. intros m Hm. rewrite G by assumption. unfold vproduct, n. f_equal.
    rewrite (combine_axes _ inputs []), map_map. fold n. destruct Hm as [Hm _].
    apply (list_ext_nth _ _ _ n0); [rewrite !map_length, combine_length, seq_length; lia|]. intros i Hi. rewrite map_length, seq_length in Hi.
    rewrite (nth_map_lt _ _ _ (seq 0 n) i n0 0) by (rewrite seq_length; assumption). rewrite seq_nth by assumption.
    rewrite (nth_map_lt _ _ _ (combine m inputs) i n0 (0, [])) by (rewrite combine_length; fold n; lia).
    rewrite combine_nth by (fold n; assumption). cbn [plus length]. unfold reindex. cbn [map]. rewrite <- Hm, lookup_seq by lia. reflexivity.
Qed.

Lemma first_coef : forall s degree n k, usable s 1 degree -> n = length (points s 1 degree) -> index_of s 1 degree [k] ->
  coef s 1 degree (upd (repeat n0 n) 0 (@n1 N)) [k] = if k =? 0 then n1 else n0.
Proof.
  intros s degree n k Hu Hn Hk. destruct (points_hd s 1 degree Hu) as [t Et]. pose proof (points_NoDup s 1 degree Hu) as Hnd.
  apply points_In in Hk; [|assumption]. unfold coef. rewrite Et in *. subst n. cbn [length repeat upd value]. change (zeros 1) with [0]. cbn [mi_eqb].
  destruct k as [|k]; [reflexivity|]. cbn [Nat.eqb andb]. change (S k =? 0) with false. cbn iota.
  clear. induction t as [|x t IH]; [reflexivity|]. cbn [length repeat value]. destruct (mi_eqb x [S k]); [reflexivity|exact IH].
Qed.

Lemma axis_in : forall s dim degree m i, index_of s dim degree m -> i < dim -> index_of s 1 degree [nth i m 0].
Proof.
  intros s dim degree m i [Hm Hs] Hi. split; [reflexivity|]. pose proof (restrict_in s dim degree [i] m) as G. unfold restrict, reindex in G. cbn [map] in G.
  rewrite <- Hm, lookup_seq in G by lia. apply G; [|assumption]. rewrite Hm in *. split; [repeat constructor|]. split; [discriminate|]. repeat constructor. assumption.
Qed.

Lemma tensorize_vec_id_coef : forall s dim degree dir (v : list N), usable s dim degree -> dir < dim -> vec_for s 1 degree v ->
  exists out, tensorize_vec_id N s v dim dir = Ok out /\ vec_for s dim degree out /\
    forall m, index_of s dim degree m ->
      ((forall i, i < dim -> i <> dir -> nth i m 0 = 0) -> coef s dim degree out m = coef s 1 degree v [nth dir m 0]) /\
      (forall i, i < dim -> i <> dir -> nth i m 0 <> 0 -> coef s dim degree out m = n0).
Proof.
  intros s dim degree dir v Hu Hd Hv. assert (U1 : usable s 1 degree) by (eapply usable_sub; [exact Hu|lia]).
  destruct (points_hd s 1 degree U1) as [t Et]. unfold tensorize_vec_id. pose proof Hv as Hv'. unfold vec_for in Hv'. rewrite Et in Hv'. cbn [length] in Hv'. rewrite Hv'.
  rewrite vset_ok by (rewrite repeat_length; lia). cbn [bind]. rewrite vset_ok by (rewrite repeat_length; lia). cbn [bind].
  set (cst := upd (repeat n0 (length t + 1)) 0 n1). set (vecs := upd (repeat cst dim) dir v).
  assert (Hlen : length vecs = dim) by (unfold vecs; rewrite upd_length, repeat_length; reflexivity).
  assert (Hnth : forall i, i < dim -> nth i vecs [] = if i =? dir then v else cst).
  { intros i Hi. unfold vecs. destruct (Nat.eqb_spec i dir) as [->|Hne].
    - apply nth_upd_eq. rewrite repeat_length. assumption.
    - rewrite nth_upd_neq by auto. apply nth_error_nth. rewrite nth_error_repeat by assumption. reflexivity. }
  assert (Hcst : vec_for s 1 degree cst) by (unfold vec_for, cst; rewrite upd_length, repeat_length, Et; cbn [length]; lia).
  destruct (tensorize_axes_coef s degree vecs) as (out & E & W & G).
  - rewrite Hlen. assumption.
  - apply Forall_forall. intros x Hx. apply (In_nth _ _ []) in Hx as [i [Hi <-]]. rewrite Hlen in Hi. rewrite Hnth by assumption. destruct (i =? dir); assumption.
  - rewrite Hlen in W, G. exists out. split; [assumption|]. split; [assumption|]. intros m Hm. rewrite G by assumption.
    assert (Efac : map (fun '(k, v0) => coef s 1 degree v0 [k]) (combine m vecs) =
      map (fun i => if i =? dir then coef s 1 degree v [nth dir m 0] else if nth i m 0 =? 0 then n1 else n0) (seq 0 dim)).
    { pose proof (proj1 Hm) as Hml. apply (list_ext_nth _ _ _ n0); [rewrite !map_length, combine_length, seq_length; lia|]. intros i Hi. rewrite map_length, combine_length in Hi.
      assert (Hi' : i < dim) by lia.
      rewrite (nth_map_lt _ _ _ (seq 0 dim) i n0 0) by (rewrite seq_length; assumption). rewrite seq_nth by assumption. cbn [plus].
      rewrite (nth_map_lt _ _ _ (combine m vecs) i n0 (0, [])) by (rewrite combine_length; lia). rewrite combine_nth by lia. rewrite Hnth by assumption.
      destruct (Nat.eqb_spec i dir) as [->|]; [reflexivity|]. apply first_coef; [assumption|rewrite Et; cbn [length]; lia|]. eapply axis_in; eassumption. }
    rewrite Efac. split.
    + intros Hz. rewrite (nprod_single _ _ (seq 0 dim) dir).
      * rewrite Nat.eqb_refl. reflexivity.
      * apply seq_NoDup.
      * apply in_seq. lia.
      * intros i Hi Hne. apply in_seq in Hi. rewrite (proj2 (Nat.eqb_neq i dir)) by assumption. rewrite Hz by (auto; lia). reflexivity.
    + intros i Hi Hne Hnz. apply nprod_zero; [assumption|]. apply in_map_iff. exists i. split; [|apply in_seq; lia].
      rewrite (proj2 (Nat.eqb_neq i dir)), (proj2 (Nat.eqb_neq _ 0)) by assumption. reflexivity.
Qed.

Lemma tensorize_sp_id_entry : forall s dim degree dir (A : spmat N), usable s dim degree -> dir < dim -> sp_for s 1 degree A ->
  exists out, tensorize_sp_id N s A dim dir = Ok out /\ sp_for s dim degree out /\
    forall r c, index_of s dim degree r -> index_of s dim degree c ->
      ((forall i, i < dim -> i <> dir -> nth i r 0 = nth i c 0) ->
        entry s dim degree (dense out) r c = entry s 1 degree (dense A) [nth dir r 0] [nth dir c 0]) /\
      (forall i, i < dim -> i <> dir -> nth i r 0 <> nth i c 0 -> entry s dim degree (dense out) r c = n0).
Proof.
  intros s dim degree dir A Hu Hd HA. assert (U1 : usable s 1 degree) by (eapply usable_sub; [exact Hu|lia]).
  destruct (points_hd s 1 degree U1) as [t Et]. unfold tensorize_sp_id. pose proof HA as [A0 [A1 A2]]. rewrite A1, Et. cbn [length].
  destruct (eye_ok N (spmat_ops N) _ _ (spmat_ops_ok N) (length t + 1)) as (I & EI & WI & GI). rewrite EI. cbn [bind].
  rewrite vset_ok by (rewrite repeat_length; lia). cbn [bind]. set (mats := upd (repeat I dim) dir A).
  assert (Hlen : length mats = dim) by (unfold mats; rewrite upd_length, repeat_length; reflexivity).
  assert (Hlen' : @length (spmat N) mats = dim) by exact Hlen.
  assert (Hnth : forall i, i < dim -> @nth (spmat N) i mats A = if i =? dir then A else I).
  { intros i Hi. unfold mats. destruct (Nat.eqb_spec i dir) as [->|Hne].
    - apply nth_upd_eq. rewrite repeat_length. assumption.
    - rewrite nth_upd_neq by auto. apply nth_error_nth. rewrite nth_error_repeat by assumption. reflexivity. }
  assert (Hlt : length (points s 1 degree) = length t + 1) by (rewrite Et; cbn [length]; lia).
  assert (HI : sp_for s 1 degree I) by (unfold sp_for; rewrite Hlt; exact WI).
  assert (HIe : forall j k, index_of s 1 degree j -> index_of s 1 degree k -> j <> k -> entry s 1 degree (dense I) j k = n0).
  { intros j k Hj Hk Hne. apply points_In in Hj, Hk; try assumption. unfold entry. pose proof (points_NoDup s 1 degree U1) as Hnd.
    destruct WI as [WI0 [WI1 WI2]]. rewrite mvalue_nth; auto.
    - refine (eq_trans (GI _ _ _ _) _); [rewrite <- Hlt; apply idx_lt; assumption|rewrite <- Hlt; apply idx_lt; assumption|].
      rewrite (proj2 (Nat.eqb_neq _ _)); [reflexivity|]. intros E. apply Hne. eapply idx_inj; eassumption.
    - rewrite Hlt. pose proof (dense_wf N I WI0) as Hw. rewrite WI1, WI2 in Hw. exact Hw. }
  assert (HIe1 : forall j, index_of s 1 degree j -> entry s 1 degree (dense I) j j = n1).
  { intros j Hj. apply points_In in Hj; try assumption. unfold entry. pose proof (points_NoDup s 1 degree U1) as Hnd.
    destruct WI as [WI0 [WI1 WI2]]. rewrite mvalue_nth; auto.
    - refine (eq_trans (GI _ _ _ _) _); [rewrite <- Hlt; apply idx_lt; assumption|rewrite <- Hlt; apply idx_lt; assumption|].
      rewrite Nat.eqb_refl. reflexivity.
    - rewrite Hlt. pose proof (dense_wf N I WI0) as Hw. rewrite WI1, WI2 in Hw. exact Hw. }
  destruct (tensorize_sp_entry N L s degree (map (fun i => [i]) (seq 0 dim)) mats (seq 0 dim)) as (out & E & W & G).
  - apply seq_increasing.
  - rewrite concat_axes. reflexivity.
  - rewrite seq_length. assumption.
  - apply axes_inc.
  - pose proof (Forall2_axes _ (fun k M => sp_for s k degree M) mats 0) as F2. rewrite Hlen' in F2. apply F2. intros x Hx. apply (In_nth _ _ A) in Hx as [i [Hi <-]]. rewrite Hlen' in Hi. rewrite Hnth by assumption.
    destruct (i =? dir); assumption.
  - rewrite seq_length in W, G. exists out. unfold tensorize_sps_axes. rewrite Hlen'. split; [exact E|]. split; [assumption|]. intros r c Hr Hc. rewrite G by assumption.
    unfold mproduct. pose proof (proj1 Hr) as Hrl. pose proof (proj1 Hc) as Hcl.
    assert (Efac : map (fun '(dj, A0) => entry s (length dj) degree A0 (reindex (seq 0 dim) dj r) (reindex (seq 0 dim) dj c))
        (combine (map (fun i => [i]) (seq 0 dim)) (map (@dense N) mats)) =
      map (fun i => entry s 1 degree (dense (if i =? dir then A else I)) [nth i r 0] [nth i c 0]) (seq 0 dim)).
    { pose proof (combine_axes (spmat N) mats A) as Hca. rewrite Hlen' in Hca. rewrite combine_map_r, Hca, !map_map. apply map_ext_in. intros i Hi. apply in_seq in Hi. cbn [fst snd length].
      rewrite Hnth by lia. unfold reindex. cbn [map]. rewrite <- Hrl at 1. rewrite lookup_seq by lia. rewrite <- Hcl. rewrite lookup_seq by lia. reflexivity. }
    rewrite Efac. split.
    + intros Hz. rewrite (nprod_single _ _ (seq 0 dim) dir).
      * rewrite Nat.eqb_refl. reflexivity.
      * apply seq_NoDup.
      * apply in_seq. lia.
      * intros i Hi Hne. apply in_seq in Hi. rewrite (proj2 (Nat.eqb_neq i dir)) by assumption. rewrite Hz by (auto; lia).
        apply HIe1. eapply axis_in; [exact Hc|lia].
    + intros i Hi Hne Hnz. apply nprod_zero; [assumption|]. apply in_map_iff. exists i. split; [|apply in_seq; lia].
      rewrite (proj2 (Nat.eqb_neq i dir)) by assumption. apply HIe; [eapply axis_in; eassumption|eapply axis_in; eassumption|]. congruence.
Qed.

(** * inner products *)
Lemma inc_unique : forall a b : list nat, increasing a -> increasing b -> (forall x, In x a <-> In x b) -> a = b.
Proof.
  intros a b Ha Hb H. apply increasing_perm; auto. apply NoDup_Permutation; auto using increasing_NoDup.
Qed.

Lemma inner_out : forall s degree d1 d2 dres dinn (v1 v2 : list N), increasing d1 -> increasing d2 -> d1 <> [] -> d2 <> [] ->
  inner_dirs d1 d2 dres dinn -> usable s (length d1) degree -> usable s (length d2) degree -> (dres <> [] -> usable s (length dres) degree) ->
  vec_for s (length d1) degree v1 -> vec_for s (length d2) degree v2 ->
  inner N s v1 v2 d1 d2 = Ok (map (contraction s degree d1 d2 dres dinn v1 v2) (points s (length dres) degree)).
Proof.
  intros s degree d1 d2 dres dinn v1 v2 H1 H2 N1 N2 (I1 & I2 & I3 & I4) U1 U2 U3 V1 V2.
  destruct (dim_S (length d1)) as [p1 E1]; [apply U1|]. destruct (dim_S (length d2)) as [p2 E2]; [apply U2|].
  unfold vec_for, contraction, coef in *. rewrite E1, E2 in *. rewrite points_spec in V1, V2 by assumption.
  destruct (inner_list N (fun x y => law_add_0 _ L (nmul x y)) (law_add_0 _ L n0) (fun x y => add0r N L (nadd x y)) (law_mul_0 _ L) (mul0r N L) d1 d2 H1 H2 s p1 p2 degree E1 E2 U1 U2 v1 v2 V1 V2)
    as (dres' & dinn' & out & J1 & J2 & J3 & J4 & J).
  assert (dres' = dres) by (apply inc_unique; auto; intros x; rewrite J3, I3; tauto).
  assert (dinn' = dinn) by (apply inc_unique; auto; intros x; rewrite J4, I4; tauto). subst dres' dinn'.
  destruct (J U3) as [E ->]. rewrite E. f_equal. apply map_ext. intros r. f_equal. apply map_ext. intros q. unfold term. rewrite !points_spec by assumption. reflexivity.
Qed.

Lemma points_In0 : forall s (d : list nat) degree m, (d <> [] -> usable s (length d) degree) -> index_of s (length d) degree m -> In m (points s (length d) degree).
Proof.
  intros s d degree m Hu Hm. destruct d as [|x d].
  - left. destruct Hm as [Hm _]. destruct m; [reflexivity|discriminate].
  - apply points_In; auto. apply Hu. discriminate.
Qed.

Lemma inner_coef : forall s degree d1 d2 dres dinn (v1 v2 : list N), increasing d1 -> increasing d2 -> d1 <> [] -> d2 <> [] ->
  inner_dirs d1 d2 dres dinn -> usable s (length d1) degree -> usable s (length d2) degree -> (dres <> [] -> usable s (length dres) degree) ->
  vec_for s (length d1) degree v1 -> vec_for s (length d2) degree v2 ->
  exists out, inner N s v1 v2 d1 d2 = Ok out /\ vec_for s (length dres) degree out /\
    forall r, index_of s (length dres) degree r -> coef s (length dres) degree out r = contraction s degree d1 d2 dres dinn v1 v2 r.
Proof.
  intros. eexists. split; [apply inner_out; eassumption|]. split; [unfold vec_for; apply map_length|].
  intros r Hr. unfold coef. rewrite value_map; [reflexivity|]. apply points_In0; assumption.
Qed.

(** no common multi-index is missed by the sum: whenever both coefficients can be nonzero, the shared part is listed *)
Lemma contraction_complete : forall s degree d1 d2 dres dinn q r, increasing d1 -> inner_dirs d1 d2 dres dinn -> d1 <> [] ->
  length r = length dres -> length q = length dinn -> in_set s degree (reindex (dres ++ dinn) d1 (r ++ q)) -> in_set s degree q.
Proof.
  intros s degree d1 d2 dres dinn q r H1 (I1 & I2 & I3 & I4) N1 Hr Hq Hin.
  assert (E : q = reindex d1 dinn (reindex (dres ++ dinn) d1 (r ++ q))).
  { rewrite reindex_reindex.
    - unfold reindex. rewrite <- (reindex_id dinn q (increasing_NoDup _ I2) Hq) at 1. unfold reindex. apply map_ext_in. intros x Hx.
      rewrite lookup_app by assumption. destruct (memb x dres) eqn:M.
      + apply memb_In in M. apply I3 in M. apply I4 in Hx. tauto.
      + reflexivity.
    - intros x Hx. left. apply I4 in Hx. tauto. }
  rewrite E. apply in_set_sub; auto. intros x Hx. apply I4 in Hx. tauto.
Qed.


Lemma inner_dirs_swap : forall d1 d2 dres dinn, inner_dirs d1 d2 dres dinn -> inner_dirs d2 d1 dres dinn.
Proof. intros d1 d2 dres dinn (I1 & I2 & I3 & I4). split; [assumption|]. split; [assumption|]. split; intros x; [rewrite I3|rewrite I4]; tauto. Qed.

Lemma inner_sym : forall s degree d1 d2 dres dinn (v1 v2 : list N), increasing d1 -> increasing d2 -> d1 <> [] -> d2 <> [] ->
  inner_dirs d1 d2 dres dinn -> usable s (length d1) degree -> usable s (length d2) degree -> (dres <> [] -> usable s (length dres) degree) ->
  vec_for s (length d1) degree v1 -> vec_for s (length d2) degree v2 ->
  inner N s v1 v2 d1 d2 = inner N s v2 v1 d2 d1.
Proof.
  intros s degree d1 d2 dres dinn v1 v2 H1 H2 N1 N2 Hi U1 U2 U3 V1 V2.
  rewrite (inner_out s degree d1 d2 dres dinn) by assumption. rewrite (inner_out s degree d2 d1 dres dinn) by (auto using inner_dirs_swap).
  f_equal. apply map_ext. intros r. unfold contraction. f_equal. apply map_ext. intros q. apply (law_mul_comm _ L).
Qed.

Lemma lincomb_length : forall (a b : N) v w, length v = length w -> length (lincomb a b v w) = length v.
Proof. intros. unfold lincomb. rewrite map_length, combine_length. lia. Qed.

Lemma coef_lincomb : forall s dim degree a b (v w : list N) m, vec_for s dim degree v -> vec_for s dim degree w ->
  coef s dim degree (lincomb a b v w) m = nadd (nmul a (coef s dim degree v m)) (nmul b (coef s dim degree w m)).
Proof.
  intros s dim degree a b v w m. unfold vec_for, coef. generalize (points s dim degree) as l. intros l. revert v w.
  induction l as [|x l IH]; intros [|y v] [|z w] Hv Hw; try discriminate.
  - cbn [value]. rewrite !(mul0r _ L), (law_add_0 _ L). reflexivity.
  - unfold lincomb. cbn [combine map value]. destruct (mi_eqb x m); [reflexivity|]. apply IH; cbn [length] in *; lia.
Qed.

Lemma inner_linear : forall s degree d1 d2 dres dinn a b (v1 w1 v2 : list N), increasing d1 -> increasing d2 -> d1 <> [] -> d2 <> [] ->
  inner_dirs d1 d2 dres dinn -> usable s (length d1) degree -> usable s (length d2) degree -> (dres <> [] -> usable s (length dres) degree) ->
  vec_for s (length d1) degree v1 -> vec_for s (length d1) degree w1 -> vec_for s (length d2) degree v2 ->
  exists x y, inner N s v1 v2 d1 d2 = Ok x /\ inner N s w1 v2 d1 d2 = Ok y /\ inner N s (lincomb a b v1 w1) v2 d1 d2 = Ok (lincomb a b x y).
Proof.
  intros s degree d1 d2 dres dinn a b v1 w1 v2 H1 H2 N1 N2 Hi U1 U2 U3 V1 W1 V2.
  rewrite !(inner_out s degree d1 d2 dres dinn); auto.
  2: { unfold vec_for in *. rewrite lincomb_length by congruence. assumption. }
  do 2 eexists. split; [reflexivity|]. split; [reflexivity|]. f_equal. generalize (points s (length dres) degree) as l.
  induction l as [|r l IH]; [reflexivity|]. unfold lincomb in *. cbn [map combine]. f_equal; [|exact IH]. unfold contraction.
  rewrite <- (nsum_map_mul _ L _ _ a), <- (nsum_map_mul _ L _ _ b), <- nsum_map_add by assumption. f_equal. apply map_ext. intros q.
  change (map (fun '(x, y) => nadd (nmul a x) (nmul b y)) (combine v1 w1)) with (lincomb a b v1 w1). rewrite coef_lincomb by assumption.
  rewrite (law_distr _ L), <- !(law_mul_assoc _ L). reflexivity.
Qed.

(** identical directions: the dot product *)
Lemma inner_dot : forall s degree d (v w : list N), increasing d -> d <> [] -> usable s (length d) degree ->
  vec_for s (length d) degree v -> vec_for s (length d) degree w ->
  inner N s v w d d = Ok [nsum (map (fun '(x, y) => nmul x y) (combine v w))].
Proof.
  intros s degree d v w Hd Hne Hu Hv Hw. rewrite (inner_out s degree d d [] d); auto.
  - cbn [length points map]. f_equal. f_equal. unfold contraction. cbn [app]. f_equal.
    rewrite (map_ext_in _ (fun q => nmul (coef s (length d) degree v q) (coef s (length d) degree w q))).
    + pose proof (points_NoDup s _ degree Hu) as Hn. unfold vec_for, coef in *. revert Hn v w Hv Hw. generalize (points s (length d) degree) as l.
      intros l Hn v w Hv Hw. apply (list_ext_nth _ _ _ n0); [rewrite !map_length, combine_length; lia|]. intros i Hi. rewrite map_length in Hi.
      rewrite (nth_map_lt _ _ _ l i n0 []) by assumption. rewrite (nth_map_lt _ _ _ (combine v w) i n0 (n0, n0)) by (rewrite combine_length; lia).
      rewrite combine_nth by lia. rewrite !(value_nth _ n0 l _ i) by (auto; apply nth_error_nth'; assumption). reflexivity.
    + intros q Hq. apply points_In in Hq; [|assumption]. rewrite reindex_id; [reflexivity|apply increasing_NoDup; assumption|apply Hq].
  - split; [constructor|]. split; [assumption|]. split; intros x; cbn [In]; tauto.
  - intros H. contradiction.
Qed.

(** disjoint directions: the tensor product *)
Lemma inner_tensor : forall s degree d1 d2 dres (v1 v2 : list N), increasing d1 -> increasing d2 -> d1 <> [] -> d2 <> [] ->
  increasing dres -> Permutation dres (d1 ++ d2) -> usable s (length dres) degree ->
  vec_for s (length d1) degree v1 -> vec_for s (length d2) degree v2 ->
  exists out, inner N s v1 v2 d1 d2 = Ok out /\ vec_for s (length dres) degree out /\
    forall r, index_of s (length dres) degree r -> coef s (length dres) degree out r =
      nmul (coef s (length d1) degree v1 (reindex dres d1 r)) (coef s (length d2) degree v2 (reindex dres d2 r)).
Proof.
  intros s degree d1 d2 dres v1 v2 H1 H2 N1 N2 Hd Hp Hu V1 V2.
  assert (Hn : NoDup (d1 ++ d2)) by (eapply Permutation_NoDup; [exact Hp|apply increasing_NoDup; assumption]).
  assert (Hdis : forall x, In x d1 -> In x d2 -> False) by (intros x Ha Hb; exact (NoDup_app_disj _ _ _ Hn x Ha Hb)).
  assert (Hin : forall x, In x dres <-> In x d1 \/ In x d2).
  { intros x. rewrite <- in_app_iff. split; apply Permutation_in; [assumption|apply Permutation_sym; assumption]. }
  pose proof (Permutation_length Hp) as Hl. rewrite app_length in Hl. apply length_ge1 in N1 as G1. apply length_ge1 in N2 as G2.
  destruct (inner_coef s degree d1 d2 dres [] v1 v2) as (out & E & W & G); auto.
  - split; [assumption|]. split; [constructor|]. split; intros x; [rewrite Hin; specialize (Hdis x); tauto|]. specialize (Hdis x). cbn [In]. tauto.
  - eapply usable_sub; [exact Hu|lia].
  - eapply usable_sub; [exact Hu|lia].
  - exists out. split; [assumption|]. split; [assumption|]. intros r Hr. rewrite G by assumption. unfold contraction. cbn [length points map].
    rewrite !app_nil_r. unfold nsum. cbn [fold_left]. apply (law_add_0 _ L).
Qed.

Lemma inner_tensorize : forall s degree d1 d2 dim (v1 v2 : list N), increasing d1 -> increasing d2 -> d1 <> [] -> d2 <> [] ->
  Permutation (seq 0 dim) (d1 ++ d2) -> usable s dim degree ->
  vec_for s (length d1) degree v1 -> vec_for s (length d2) degree v2 ->
  exists out, inner N s v1 v2 d1 d2 = Ok out /\ tensorize_vec N s [v1; v2] [d1; d2] = Ok out.
Proof.
  intros s degree d1 d2 dim v1 v2 H1 H2 N1 N2 Hp Hu V1 V2. pose proof (seq_length dim 0) as Hsl.
  destruct (inner_tensor s degree d1 d2 (seq 0 dim) v1 v2) as (out & E & W & G); auto; [apply seq_increasing|rewrite seq_length; assumption|].
  rewrite Hsl in W, G.
  destruct (tensorize_vec_coef N s degree [d1; d2] [v1; v2] dim) as (out' & E' & W' & G'); auto.
  - cbn [concat]. rewrite app_nil_r, <- (Permutation_length Hp), seq_length. reflexivity.
  - assert (Hlt : forall x, In x (d1 ++ d2) -> x < dim) by (intros x Hx; apply (Permutation_in x (Permutation_sym Hp)) in Hx; apply in_seq in Hx; lia).
    constructor; [|constructor; [|constructor]].
    + split; [assumption|]. split; [assumption|]. apply Forall_forall. intros x Hx. apply Hlt, in_app_iff. left. assumption.
    + split; [assumption|]. split; [assumption|]. apply Forall_forall. intros x Hx. apply Hlt, in_app_iff. right. assumption.
  - exists out. split; [assumption|]. rewrite E'. f_equal. apply (coef_ext N s dim degree); auto. intros m Hm. rewrite G, G' by assumption.
    unfold vproduct. cbn [combine map]. rewrite !nprod_cons by assumption. unfold nprod. cbn [fold_left]. rewrite (mul1r _ L). reflexivity.
Qed.

End Facts4.
