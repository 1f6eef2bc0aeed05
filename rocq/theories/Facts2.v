(** Proofs behind Properties2. *)
From Coq Require Import String List Bool Arith ZArith Lia Sorted Permutation Reals.
From Verif Require Import Base Lists IndexModel Spec Machine IndexSet Degree Facts1 Num LinModel LinSpec LinBase MatBase Project Tensorize Dirs Sparse TensorMat Inner InnerSum.
Import ListNotations.

(** * Arithmetic *)
Lemma num_Z_laws : num_laws num_Z.
Proof.
  constructor; cbn [carrier n0 n1 nadd nmul nopp neqb num_Z]; intros; [ring|ring|ring|ring|ring|ring|ring|ring|ring|].
  exact (Z.eqb_eq x y).
Qed.
Lemma num_R_laws : num_laws num_R.
Proof.
  constructor; cbn [carrier n0 n1 nadd nmul nopp neqb num_R]; intros; [ring|ring|ring|ring|ring|ring|ring|ring|ring|].
  destruct (Req_EM_T x y) as [->|H].
  - split; reflexivity.
  - split; [discriminate|intros; contradiction].
Qed.

Section Laws.
Variable N : num.
Hypothesis L : num_laws N.
Lemma add0r : forall x : N, nadd x n0 = x. Proof. intros. rewrite (law_add_comm _ L). apply (law_add_0 _ L). Qed.
Lemma mul0r : forall x : N, nmul x n0 = n0. Proof. intros. rewrite (law_mul_comm _ L). apply (law_mul_0 _ L). Qed.
Lemma mul1r : forall x : N, nmul x n1 = x. Proof. intros. rewrite (law_mul_comm _ L). apply (law_mul_1 _ L). Qed.
Lemma distr_l : forall x y z : N, nmul z (nadd x y) = nadd (nmul z x) (nmul z y).
Proof. intros. rewrite (law_mul_comm _ L), (law_distr _ L), (law_mul_comm _ L x), (law_mul_comm _ L y). reflexivity. Qed.

Lemma prod_acc : forall (l : list N) a, fold_left nmul l a = nmul a (nprod l).
Proof.
  unfold nprod. induction l as [|x l IH]; intros a; cbn [fold_left]; [symmetry; apply mul1r|]. rewrite IH, (IH (nmul n1 x)).
  rewrite (law_mul_assoc _ L). rewrite (law_mul_1 _ L). reflexivity.
Qed.
Lemma nprod_cons : forall (l : list N) a, nprod (a :: l) = nmul a (nprod l).
Proof. intros. unfold nprod at 1. cbn [fold_left]. rewrite (law_mul_1 _ L). apply prod_acc. Qed.
Lemma nprod_app : forall l l' : list N, nprod (l ++ l') = nmul (nprod l) (nprod l').
Proof.
  induction l as [|x l IH]; intros l'; [cbn [app]; symmetry; apply (law_mul_1 _ L)|]. cbn [app]. rewrite !nprod_cons, IH. apply (law_mul_assoc _ L).
Qed.
Lemma nprod_perm : forall l l' : list N, Permutation l l' -> nprod l = nprod l'.
Proof.
  intros l l' H. induction H; rewrite ?nprod_cons; [reflexivity| | |congruence].
  - rewrite IHPermutation. reflexivity.
  - rewrite !(law_mul_assoc _ L), (law_mul_comm _ L y). reflexivity.
Qed.
Lemma nprod_zero : forall l : list N, In n0 l -> nprod l = n0.
Proof.
  induction l as [|x l IH]; intros H; [contradiction|]. rewrite nprod_cons. destruct H as [->|H]; [apply (law_mul_0 _ L)|]. rewrite IH by assumption. apply mul0r.
Qed.
Lemma sum_acc : forall (l : list N) a, fold_left nadd l a = nadd a (nsum l).
Proof.
  unfold nsum. induction l as [|x l IH]; intros a; cbn [fold_left]; [symmetry; apply add0r|]. rewrite IH, (IH (nadd n0 x)).
  rewrite (law_add_assoc _ L). rewrite (law_add_0 _ L). reflexivity.
Qed.
Lemma nsum_cons : forall (l : list N) a, nsum (a :: l) = nadd a (nsum l).
Proof. intros. unfold nsum at 1. cbn [fold_left]. rewrite (law_add_0 _ L). apply sum_acc. Qed.
Lemma nsum_map_add : forall A (f g : A -> N) l, nsum (map (fun x => nadd (f x) (g x)) l) = nadd (nsum (map f l)) (nsum (map g l)).
Proof.
  intros A f g. induction l as [|x l IH]; [symmetry; apply (law_add_0 _ L)|]. cbn [map]. rewrite !nsum_cons, IH.
  rewrite !(law_add_assoc _ L). f_equal. rewrite <- !(law_add_assoc _ L). f_equal. apply (law_add_comm _ L).
Qed.
Lemma nsum_map_mul : forall A (f : A -> N) c l, nsum (map (fun x => nmul c (f x)) l) = nmul c (nsum (map f l)).
Proof.
  intros A f c. induction l as [|x l IH]; [symmetry; apply mul0r|]. cbn [map]. rewrite !nsum_cons, IH. symmetry. apply distr_l.
Qed.
End Laws.

(** * Multi-indices *)
Lemma points_In : forall s dim degree m, usable s dim degree -> In m (points s dim degree) <-> index_of s dim degree m.
Proof.
  intros s dim degree m Hu. destruct (dim_S dim) as [d ->]; [apply Hu|]. rewrite points_spec by assumption. apply in_spec_list.
Qed.
Lemma points_NoDup : forall s dim degree, usable s dim degree -> NoDup (points s dim degree).
Proof. intros s dim degree Hu. destruct (dim_S dim) as [d ->]; [apply Hu|]. rewrite points_spec by assumption. apply NoDup_spec_list. Qed.
Lemma points_list : forall s dim degree, usable s dim degree -> s_list s dim degree = Ok (points s dim degree).
Proof.
  intros s dim degree Hu. destruct (dim_S dim) as [d ->]; [apply Hu|]. rewrite points_spec by assumption. apply s_list_Ok, usable_set_ok. assumption.
Qed.
Lemma points_sub : forall s dim degree (dirs : list nat), usable s dim degree -> 1 <= length dirs <= dim ->
  points s (length dirs) degree = spec_list s (pred (length dirs)) degree.
Proof.
  intros s dim degree dirs Hu Hl. destruct (dim_S (length dirs) ltac:(lia)) as [k E]. rewrite E. cbn [pred]. apply points_spec. eapply usable_sub; [exact Hu|lia].
Qed.

Lemma coef_ext : forall (N : num) s dim degree (v w : list N), usable s dim degree -> vec_for s dim degree v -> vec_for s dim degree w ->
  (forall m, index_of s dim degree m -> coef s dim degree v m = coef s dim degree w m) -> v = w.
Proof.
  intros N s dim degree v w Hu Hv Hw H. apply (value_ext _ n0 (points s dim degree)); auto; [apply points_NoDup; assumption|].
  intros m Hm. apply H. apply points_In; assumption.
Qed.
Lemma entry_ext : forall (N : num) s dim degree (A B : list (list N)), usable s dim degree -> mat_for s dim degree A -> mat_for s dim degree B ->
  (forall r c, index_of s dim degree r -> index_of s dim degree c -> entry s dim degree A r c = entry s dim degree B r c) -> A = B.
Proof.
  intros N s dim degree A B Hu HA HB H. set (l := points s dim degree) in *. assert (Hn : NoDup l) by (apply points_NoDup; assumption).
  apply (mat_ext N (length l) (length l)); auto. intros i j Hi Hj.
  destruct (nth_error l i) as [r|] eqn:Er; [|apply nth_error_None in Er; lia]. destruct (nth_error l j) as [c|] eqn:Ec; [|apply nth_error_None in Ec; lia].
  assert (Hr : In r l) by (eapply nth_error_In; exact Er). assert (Hc : In c l) by (eapply nth_error_In; exact Ec).
  specialize (H r c). unfold entry in H. fold l in H. rewrite !mvalue_nth in H by auto.
  rewrite (idx_of_nth l i r Hn Er), (idx_of_nth l j c Hn Ec) in H. apply H; apply points_In; assumption.
Qed.

(** * C16-C18 *)
Section Projections.
Variable N : num.

Lemma project_vec_coef : forall s dim degree dirs (v : list N), usable s dim degree -> vec_for s dim degree v ->
  increasing dirs -> dirs <> [] -> Forall (fun x => x < dim) dirs ->
  exists out, project_vec N s v dim dirs = Ok out /\ vec_for s (length dirs) degree out /\
    forall m, index_of s (length dirs) degree m -> coef s (length dirs) degree out m = coef s dim degree v (reindex dirs (seq 0 dim) m).
Proof.
  intros s dim degree dirs v Hu Hv Hi Hne Hlt. assert (Hd : dirs_in dim dirs) by (split; [assumption|split; assumption]).
  pose proof (dirs_in_length _ _ Hd) as Hl. assert (Hus : usable s (length dirs) degree) by (eapply usable_sub; [exact Hu|assumption]).
  destruct (dim_S dim ltac:(lia)) as [d ->]. destruct (dim_S (length dirs) ltac:(lia)) as [k Ek].
  unfold vec_for, coef in *. rewrite points_spec in Hv by assumption.
  rewrite (project_vec_list N s d k degree dirs Hd Ek v Hu Hv). eexists. split; [reflexivity|].
  rewrite Ek in *. rewrite !points_spec by assumption. split; [apply map_length|].
  intros m Hm. rewrite value_map by (apply in_spec_list; assumption). reflexivity.
Qed.

Lemma project_gen_entry : forall O rep wf, ops_ok N O rep wf -> forall s dim degree dirs A, usable s dim degree ->
  wf A (length (points s dim degree)) (length (points s dim degree)) -> increasing dirs -> dirs <> [] -> Forall (fun x => x < dim) dirs ->
  exists out, project_mat N O s A dim dirs = Ok out /\ wf out (length (points s (length dirs) degree)) (length (points s (length dirs) degree)) /\
    forall r c, index_of s (length dirs) degree r -> index_of s (length dirs) degree c ->
      entry s (length dirs) degree (rep out) r c = entry s dim degree (rep A) (reindex dirs (seq 0 dim) r) (reindex dirs (seq 0 dim) c).
Proof.
  intros O rep wf Hok s dim degree dirs A Hu Hv Hi Hne Hlt. assert (Hd : dirs_in dim dirs) by (split; [assumption|split; assumption]).
  pose proof (dirs_in_length _ _ Hd) as Hl. assert (Hus : usable s (length dirs) degree) by (eapply usable_sub; [exact Hu|assumption]).
  destruct (dim_S dim ltac:(lia)) as [d ->]. destruct (dim_S (length dirs) ltac:(lia)) as [k Ek].
  rewrite points_spec in Hv by assumption.
  destruct (project_mat_list N s d k degree dirs Hd Ek O rep wf Hok A Hu Hv) as (out & E & W & G).
  exists out. split; [assumption|]. unfold entry. rewrite Ek in *. rewrite !points_spec by assumption. split; [assumption|].
  intros r c Hr Hc. apply G; apply in_spec_list; assumption.
Qed.

Lemma project_mat_entry : forall s dim degree dirs (A : list (list N)), usable s dim degree -> mat_for s dim degree A ->
  increasing dirs -> dirs <> [] -> Forall (fun x => x < dim) dirs ->
  exists out, project_mat N (mat_ops N) s A dim dirs = Ok out /\ mat_for s (length dirs) degree out /\
    forall r c, index_of s (length dirs) degree r -> index_of s (length dirs) degree c ->
      entry s (length dirs) degree out r c = entry s dim degree A (reindex dirs (seq 0 dim) r) (reindex dirs (seq 0 dim) c).
Proof. intros. apply (project_gen_entry _ _ _ (mat_ops_ok N)); assumption. Qed.

Lemma project_sp_entry : forall s dim degree dirs (A : spmat N), usable s dim degree -> sp_for s dim degree A ->
  increasing dirs -> dirs <> [] -> Forall (fun x => x < dim) dirs ->
  exists out, project_mat N (spmat_ops N) s A dim dirs = Ok out /\ sp_for s (length dirs) degree out /\
    forall r c, index_of s (length dirs) degree r -> index_of s (length dirs) degree c ->
      entry s (length dirs) degree (dense out) r c = entry s dim degree (dense A) (reindex dirs (seq 0 dim) r) (reindex dirs (seq 0 dim) c).
Proof. intros. apply (project_gen_entry _ _ _ (spmat_ops_ok N)); assumption. Qed.

Lemma nth_increasing : forall d1 d2, increasing d1 -> increasing d2 -> Forall (fun x => x < length d1) d2 -> increasing (map (fun k => nth k d1 0) d2).
Proof.
  intros d1 d2 H1 H2 Hf. apply increasing_nth. rewrite map_length. intros p q Hpq Hq. rewrite !(nth_map_lt _ _ _ d2 _ 0 0) by lia.
  apply (proj1 (increasing_nth d1) H1); [apply (proj1 (increasing_nth d2) H2); assumption|]. rewrite Forall_forall in Hf. apply Hf, nth_In. assumption.
Qed.

Lemma lookup_nth_map : forall d1 d2 m x, NoDup d1 -> Forall (fun k => k < length d1) d2 ->
  lookup (map (fun k => nth k d1 0) d2) m x = lookup d1 (reindex d2 (seq 0 (length d1)) m) x.
Proof.
  intros d1 d2 m x Hn Hf. destruct (in_dec Nat.eq_dec x d1) as [Hx|Hx].
  - apply (In_nth _ _ 0) in Hx as [k [Hk <-]].
    rewrite (lookup_nth d1 _ k); [|assumption|rewrite (nth_error_nth' _ 0) by assumption; reflexivity|rewrite reindex_length, seq_length; reflexivity].
    unfold reindex. rewrite (nth_map_lt _ _ _ _ k 0 0) by (rewrite seq_length; assumption). rewrite seq_nth by assumption. cbn [plus].
    revert m. induction Hf as [|y d2 Hy Hf IH]; intros m; [reflexivity|]. destruct m as [|e m]; [reflexivity|]. cbn [map lookup].
    destruct (Nat.eqb_spec y k) as [->|Hne]; [rewrite Nat.eqb_refl; reflexivity|].
    replace (nth y d1 0 =? nth k d1 0) with false; [apply IH|]. symmetry. apply Nat.eqb_neq. intros E. apply Hne. exact (proj1 (NoDup_nth d1 0) Hn y k Hy Hk E).
  - rewrite !lookup_notin; auto. intros G. apply in_map_iff in G as [k [<- G]]. apply Hx, nth_In. rewrite Forall_forall in Hf. apply Hf. assumption.
Qed.

Lemma project_compose : forall s dim degree d1 d2 (v : list N), usable s dim degree -> vec_for s dim degree v ->
  increasing d1 -> d1 <> [] -> Forall (fun x => x < dim) d1 -> increasing d2 -> d2 <> [] -> Forall (fun x => x < length d1) d2 ->
  exists w out, project_vec N s v dim d1 = Ok w /\ project_vec N s w (length d1) d2 = Ok out /\
    project_vec N s v dim (map (fun k => nth k d1 0) d2) = Ok out.
Proof.
  intros s dim degree d1 d2 v Hu Hv H1 N1 F1 H2 N2 F2.
  assert (Hd1 : dirs_in dim d1) by (split; [assumption|split; assumption]). pose proof (dirs_in_length _ _ Hd1) as Hl1.
  assert (Hd2 : dirs_in (length d1) d2) by (split; [assumption|split; assumption]). pose proof (dirs_in_length _ _ Hd2) as Hl2.
  assert (U1 : usable s (length d1) degree) by (eapply usable_sub; [exact Hu|lia]).
  assert (U2 : usable s (length d2) degree) by (eapply usable_sub; [exact Hu|lia]).
  destruct (project_vec_coef s dim degree d1 v Hu Hv H1 N1 F1) as (w & Ew & Hw & Cw).
  destruct (project_vec_coef s (length d1) degree d2 w U1 Hw H2 N2 F2) as (out & Eo & Ho & Co).
  destruct (project_vec_coef s dim degree (map (fun k => nth k d1 0) d2) v Hu Hv) as (out' & Eo' & Ho' & Co').
  { apply nth_increasing; assumption. } { destruct d2; [contradiction|discriminate]. }
  { apply Forall_forall. intros x Hx. apply in_map_iff in Hx as [k [<- Hk]]. rewrite Forall_forall in F1, F2. apply F1, nth_In, F2. assumption. }
  exists w, out. split; [assumption|]. split; [assumption|]. rewrite Eo'. f_equal. rewrite map_length in Ho', Co'.
  apply (coef_ext N s (length d2) degree); auto. intros m Hm. rewrite Co', Co by assumption.
  set (m1 := reindex d2 (seq 0 (length d1)) m).
  assert (E12 : reindex (map (fun k => nth k d1 0) d2) (seq 0 dim) m = reindex d1 (seq 0 dim) m1).
  { unfold reindex at 1 2. apply map_ext. intros x. apply lookup_nth_map; [apply increasing_NoDup; assumption|assumption]. }
  rewrite E12. assert (Hlm : length m1 = length d1) by (unfold m1; rewrite reindex_length, seq_length; reflexivity).
  destruct (in_dec (list_eq_dec Nat.eq_dec) m1 (points s (length d1) degree)) as [Hin|Hin].
  - apply points_In in Hin; [|assumption]. symmetry. apply Cw. assumption.
  - unfold coef at 2. rewrite (value_notin _ n0 (points s (length d1) degree)) by assumption.
    unfold coef. apply value_notin. intros G. apply Hin. apply points_In in G; [|assumption]. apply points_In; [assumption|].
    split; [assumption|]. destruct G as [_ G]. rewrite <- (restrict_embed dim d1 m1 Hd1 Hlm). apply restrict_in; assumption.
Qed.
End Projections.
