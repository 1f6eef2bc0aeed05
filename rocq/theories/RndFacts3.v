(** Lemmas for C109: the transform. *)
From Coq Require Import String List Bool Arith ZArith Lia Reals Lra.
From Verif Require Import Base Lists IndexModel Spec Machine IndexSet Grid Cross Degree Num Fnum LinModel LinSpec LinBase MatBase Tensorize Facts1 Facts2 CalcModel CalcSpec CalcBase CalcHermite CalcTransform CalcReal RndModel RndSpec RndFacts RndFacts2.
Import ListNotations.
Local Open Scope R_scope.

Section Table.
Variables (u : R) (r : rounding).
Hypothesis A : accurate u r.
Let Hu : 0 <= u < 1 := acc_u u r A.
Let F := fnum_rnd r.
Notation near := (near u).

Definition crow (f degree : nat) (x : R) : list R := match basis_row F f degree x with Ok row => row | _ => [] end.
Lemma crow_near : forall f degree x, flag_ok degree f -> basis_row F f degree x = Ok (crow f degree x) /\ length (crow f degree x) = (degree + 1)%nat /\
  forall n, (n <= degree)%nat -> near (6 * n + 5) (nth n (crow f degree x) 0) (basis f n x) (basis_abs f n x).
Proof using A. intros f degree x H. destruct (basis_row_near u r A f degree x H) as (row & E & H1 & H2). unfold crow. change (basis_row F f degree x = Ok row) in E. rewrite E. auto. Qed.

Definition ctable (degree : nat) (nodes : list (list R)) (flags : list nat) : list (list (list R)) := map (fun '(f, xs) => map (crow f degree) xs) (combine flags nodes).
Lemma bases_1d_near : forall degree nodes flags, length flags = length nodes -> Forall (flag_ok degree) flags -> bases_1d F degree nodes flags = Ok (ctable degree nodes flags).
Proof using A.
  intros degree nodes flags Hl Hf. unfold bases_1d, ctable.
  assert (G : forall nodes flags pre, length flags = length nodes -> Forall (flag_ok degree) flags ->
    mapM (fun '(i, xs) => mapM (fun x => f <- vget (pre ++ flags) i ;; basis_row F f degree x) xs) (combine (seq (length pre) (length nodes)) nodes)
    = Ok (map (fun '(f, xs) => map (crow f degree) xs) (combine flags nodes))).
  { clear - A Hu. induction nodes as [|xs nodes IH]; intros flags pre Hl Hf; destruct flags as [|f flags]; try discriminate; [reflexivity|].
    cbn [length seq combine map mapM]. inversion Hf as [|f' l' Hf1 Hf2]; subst.
    rewrite (mapM_Ok_map _ _ _ (crow f degree)).
    - cbn [bind]. specialize (IH flags (pre ++ [f])). rewrite app_length in IH. cbn [length] in IH. rewrite Nat.add_1_r, <- app_assoc in IH. cbn [app] in IH.
      cbn [fn F fnum_rnd carrier] in *. rewrite IH by (auto; congruence). reflexivity.
    - intros x _. rewrite vget_app_hd by reflexivity. cbn [bind]. apply crow_near. assumption. }
  apply (G nodes flags [] Hl Hf).
Qed.

Section Grid.
Variables (s : iset) (degree : nat) (nodes weights : list (list R)) (flags : list nat).
Let dim := length nodes.
Hypothesis Hfit : fits s dim degree.
Hypothesis Hgrid : grid_fits nodes.
Hypothesis Hflags : flags_ok s degree flags.
Hypothesis Hlen : length flags = dim.

Lemma ctable_nth : forall k, (k < dim)%nat -> nth k (ctable degree nodes flags) [] = map (crow (nth k flags 0%nat) degree) (nth k nodes []).
Proof using Hlen. intros k Hk. unfold ctable. rewrite (nth_map_lt _ _ _ _ _ _ (0%nat, [])) by (rewrite combine_length; fold dim; lia). rewrite combine_nth by assumption. reflexivity. Qed.

(** The value computed for a basis function. *)
Definition cval (p m : list nat) : R := fold_left (fun v k => rnd r (v * tab F (ctable degree nodes flags) k (nth k p 0%nat) (nth k m 0%nat))) (seq 0 dim) 1.
Lemma crow_at : forall f x k, nth k flags 0%nat = f -> (k < dim)%nat -> length (crow f degree x) = (degree + 1)%nat.
Proof using A Hflags Hlen. intros f x k <- Hk. apply crow_near. destruct Hflags as (Hf & _). rewrite Forall_forall in Hf. apply Hf, nth_In. rewrite Hlen. exact Hk. Qed.
Lemma val_at_point_c : forall p m, In p (grid nodes) -> index_of s dim degree m -> val_at_point F (ctable degree nodes flags) p m dim = Ok (cval p m).
Proof using A Hflags Hlen.
  intros p m Hp [Hm Hs]. apply in_grid in Hp. pose proof (Forall2_length _ _ _ _ _ Hp) as Hpl. fold dim in Hpl.
  assert (Hb : forall k, (nth k m 0 <= degree)%nat) by (intros; eapply in_set_bound; [apply Hflags|exact Hs]).
  rewrite val_at_point_Ok; [reflexivity| | assumption | assumption | | ].
  - unfold ctable. rewrite map_length, combine_length. fold dim. rewrite Hlen. apply Nat.min_id.
  - intros k Hk. change (carrier (fn F)) with R. rewrite ctable_nth by assumption. rewrite map_length. apply (Forall2_nth _ _ _ _ _ k 0%nat [] Hp). lia.
  - intros k Hk. change (carrier (fn F)) with R. rewrite ctable_nth by assumption. pose proof (Forall2_nth _ _ _ _ _ k 0%nat [] Hp ltac:(lia)) as Hk1. cbv beta in Hk1.
    rewrite (nth_map_lt _ _ _ _ _ _ 0) by assumption. rewrite (crow_at _ _ k) by (reflexivity || assumption). specialize (Hb k). lia.
Qed.
Lemma list_sum_ones : forall n a, list_sum (map (fun _ : nat => 1%nat) (seq a n)) = n.
Proof using Type. clear. induction n as [|n IH]; intros a; [reflexivity|]. cbn [seq map]. change (1 + list_sum (map (fun _ : nat => 1%nat) (seq (S a) n)) = S n)%nat. rewrite IH. reflexivity. Qed.
Lemma list_sum_count : forall (m : list nat) n, length m = n -> (list_sum (map (fun k => S (6 * nth k m 0 + 5)) (seq 0 n)) = 6 * list_sum m + 6 * n)%nat.
Proof using Type.
  clear. induction m as [|x m IH]; intros n <-; [reflexivity|]. cbn [length seq map]. rewrite <- seq_shift, map_map. change (list_sum (x :: m)) with (x + list_sum m)%nat.
  change (list_sum (S (6 * nth 0 (x :: m) 0 + 5) :: map (fun k => S (6 * nth (S k) (x :: m) 0 + 5)) (seq 0 (length m))))%nat with (S (6 * x + 5) + list_sum (map (fun k => S (6 * nth k m 0 + 5)) (seq 0 (length m))))%nat. rewrite (IH _ eq_refl). lia.
Qed.
Lemma cval_near : forall p m, In p (grid nodes) -> index_of s dim degree m -> near (6 * list_sum m + 6 * dim) (cval p m) (phi flags m (at_pos nodes p)) (phi_abs flags m (at_pos nodes p)).
Proof using A Hflags Hlen.
  intros p m Hp [Hm Hs]. apply in_grid in Hp. pose proof (Forall2_length _ _ _ _ _ Hp) as Hpl. fold dim in Hpl. assert (Hb : forall k, (nth k m 0 <= degree)%nat) by (intros; eapply in_set_bound; [apply Hflags|exact Hs]).
  assert (EP : forall b : nat -> nat -> R -> R, rprod (map (fun '(f, (n, t)) => b f n t) (combine flags (combine m (at_pos nodes p)))) = rprod (map (fun k => b (nth k flags 0%nat) (nth k m 0%nat) (nth (nth k p 0%nat) (nth k nodes []) 0)) (seq 0 dim))).
  { intros b. rewrite (combine_map_seq _ _ _ _ flags m (at_pos nodes p) 0%nat 0%nat 0); [|congruence|rewrite at_pos_length by assumption; symmetry; assumption]. rewrite Hlen. f_equal. apply map_ext_in. intros k Hk. apply in_seq in Hk. rewrite at_pos_nth by (assumption || (fold dim; lia)). reflexivity. }
  unfold phi, phi_abs. rewrite (EP basis), (EP basis_abs). unfold cval.
  pose proof (near_prod u Hu (rnd r) (acc_rnd u r A) nat (fun k => tab F (ctable degree nodes flags) k (nth k p 0%nat) (nth k m 0%nat)) (fun k => basis (nth k flags 0%nat) (nth k m 0%nat) (nth (nth k p 0%nat) (nth k nodes []) 0))
    (fun k => basis_abs (nth k flags 0%nat) (nth k m 0%nat) (nth (nth k p 0%nat) (nth k nodes []) 0)) (fun k => 6 * nth k m 0 + 5)%nat (seq 0 dim) 0%nat 1 1 1) as N.
  cbv beta in N. rewrite (list_sum_count m dim Hm), !Rmult_1_l in N. apply N.
  - intros k Hk. apply in_seq in Hk. unfold tab. change (carrier (fn F)) with R. change (@n0 (fn F)) with 0. rewrite ctable_nth by lia. pose proof (Forall2_nth _ _ _ _ _ k 0%nat [] Hp ltac:(lia)) as Hk1. cbv beta in Hk1.
    rewrite (nth_map_lt _ _ _ _ _ _ 0) by assumption. apply crow_near; [|apply Hb]. destruct Hflags as (Hf & _). rewrite Forall_forall in Hf. apply Hf, nth_In. lia.
  - pose proof (near_exact u 1) as H1. rewrite Rabs_pos_eq in H1 by lra. exact H1.
Qed.

(** The value computed for a weight. *)
Definition cweight (p : list nat) : R := fold_left (fun v k => rnd r (v * nth (nth k p 0%nat) (nth k weights []) 0)) (seq 0 dim) 1.
Lemma weights_in : forall p, rules_match nodes weights -> In p (grid nodes) -> length p = dim /\ length weights = dim /\ forall k, (k < dim)%nat -> (nth k p 0 < length (nth k weights []))%nat.
Proof using Hlen.
  intros p Hw Hp. apply in_grid in Hp. pose proof (Forall2_length _ _ _ _ _ Hp) as Hpl. pose proof (Forall2_length _ _ _ _ _ Hw) as Hwl. fold dim in Hpl, Hwl. split; [exact Hpl|]. split; [congruence|].
  intros k Hk. pose proof (Forall2_nth _ _ _ _ _ k 0%nat [] Hp ltac:(lia)) as H1. pose proof (Forall2_nth _ _ _ _ _ k [] [] Hw ltac:(fold dim; lia)) as H2. cbv beta in *. lia.
Qed.
Lemma point_weight_c : forall p, rules_match nodes weights -> In p (grid nodes) -> point_weight F weights p dim = Ok (cweight p).
Proof using Hlen. intros p Hw Hp. destruct (weights_in p Hw Hp) as (H1 & H2 & H3). rewrite point_weight_Ok; [reflexivity|assumption|assumption|exact H3]. Qed.
Lemma cweight_near : forall p, rules_match nodes weights -> In p (grid nodes) -> near dim (cweight p) (rprod (at_pos weights p)) (rprod (at_pos (map (map Rabs) weights) p)).
Proof using A Hlen.
  intros p Hw Hp. destruct (weights_in p Hw Hp) as (H1 & H2 & H3). unfold at_pos. rewrite (combine_map_seq2 _ _ _ weights p [] 0%nat), (combine_map_seq2 _ _ _ (map (map Rabs) weights) p [] 0%nat) by (rewrite ?map_length; congruence). rewrite map_length, H2. unfold cweight.
  pose proof (near_prod u Hu (rnd r) (acc_rnd u r A) nat (fun k => nth (nth k p 0%nat) (nth k weights []) 0) (fun k => nth (nth k p 0%nat) (nth k weights []) 0) (fun k => nth (nth k p 0%nat) (nth k (map (map Rabs) weights) []) 0) (fun _ => 0%nat) (seq 0 dim) 0%nat 1 1 1) as N.
  cbv beta in N. rewrite list_sum_ones in N. cbn [Nat.add] in N.
  rewrite !Rmult_1_l in N. apply N.
  - intros k Hk. apply in_seq in Hk. rewrite (nth_map_lt _ _ _ _ _ _ []) by lia. rewrite (nth_map_lt _ _ _ _ _ _ 0) by (apply H3; lia). apply near_exact.
  - pose proof (near_exact u 1) as K. rewrite Rabs_pos_eq in K by lra. exact K.
Qed.

Lemma forward_near : forall input, rules_match nodes weights -> length input = length (grid nodes) -> exists out,
  transform F s degree input nodes weights flags true = Ok (map out (points s dim degree)) /\
  forall m, index_of s dim degree m -> near (length (grid nodes) + 6 * list_sum m + 7 * dim + 2) (out m) (quadrature nodes weights input (phi flags m)) (quadrature_abs nodes weights input (phi_abs flags m)).
Proof using A Hfit Hgrid Hflags Hlen.
  intros input Hw Hin. exists (fun m => fold_left (fun o x => rnd r (o + (fun '(y, p) => rnd r (rnd r (y * cweight p) * cval p m)) x)) (combine input (grid nodes)) 0). split.
  - pose proof Hfit as [H1 [H2 H3]]. unfold grid_fits in Hgrid. rewrite grid_glist in Hgrid, Hin |- *. destruct (dim_S dim H1) as [d Ed]. rewrite Ed in H2, H3 |- *. rewrite points_spec_ok in H3 |- * by assumption.
    etransitivity.
    + apply (transform_forward F s d degree input nodes weights flags (ctable degree nodes flags) cval cweight); try assumption.
      * apply bases_1d_near; [assumption|apply Hflags].
      * intros p m Hp Hm. apply val_at_point_c; [rewrite grid_glist; assumption|]. fold dim. rewrite Ed. apply in_spec_list. assumption.
      * intros p Hp. apply point_weight_c; [assumption|]. rewrite grid_glist. assumption.
    + f_equal. apply map_ext. intros m. apply fold_left_ext. intros a [y p] _. reflexivity.
  - intros m Hm. unfold quadrature_abs, quadrature.
    replace (rsum (map (fun '(y, p) => y * rprod (at_pos (map (map Rabs) weights) p) * phi_abs flags m (at_pos nodes p)) (combine (map Rabs input) (grid nodes))))
      with (rsum (map (fun '(y, p) => Rabs y * rprod (at_pos (map (map Rabs) weights) p) * phi_abs flags m (at_pos nodes p)) (combine input (grid nodes)))) by (f_equal; generalize (grid nodes); clear; induction input as [|y l IH]; intros [|p g]; cbn [map combine]; [reflexivity..|]; f_equal; apply IH).
    pose proof (near_sum u Hu (rnd r) (acc_rnd u r A) (R * list nat) (fun '(y, p) => rnd r (rnd r (y * cweight p) * cval p m)) (fun '(y, p) => y * rprod (at_pos weights p) * phi flags m (at_pos nodes p))
      (fun '(y, p) => Rabs y * rprod (at_pos (map (map Rabs) weights) p) * phi_abs flags m (at_pos nodes p)) (6 * list_sum m + 7 * dim + 2) (combine input (grid nodes)) (6 * list_sum m + 7 * dim + 2) 0 0 0) as N.
    rewrite !Rplus_0_l in N. rewrite combine_length, Hin, Nat.min_id in N. replace (length (grid nodes) + 6 * list_sum m + 7 * dim + 2)%nat with (6 * list_sum m + 7 * dim + 2 + length (grid nodes))%nat by lia. apply N; [|lia|].
    + intros [y p] Hyp. pose proof (in_combine_r _ _ _ _ Hyp) as Hp. replace (6 * list_sum m + 7 * dim + 2)%nat with (S (S (0 + dim) + (6 * list_sum m + 6 * dim))) by lia. apply (rnd_near u r A). apply near_mul; [exact Hu| |apply cval_near; assumption].
      apply (rnd_near u r A). apply near_mul; [exact Hu|apply near_exact|apply cweight_near; assumption].
    + apply near_le with 0%nat; [exact Hu|lia|]. pose proof (near_exact u 0) as K. rewrite Rabs_R0 in K. exact K.
Qed.

Lemma backward_near : forall c, @vec_for num_R s dim degree c -> exists out,
  transform F s degree c nodes weights flags false = Ok (map out (grid nodes)) /\
  forall p, In p (grid nodes) -> near (length (points s dim degree) + 6 * (dim * degree) + 6 * dim + 2) (out p) (series s degree flags c (at_pos nodes p)) (series_abs s degree flags c (at_pos nodes p)).
Proof using A Hfit Hgrid Hflags Hlen.
  intros c Hc. exists (fun p => fold_left (fun o x => rnd r (o + (fun '(y, m) => rnd r (rnd r (y * 1) * cval p m)) x)) (combine c (points s dim degree)) 0). unfold vec_for in Hc. pose proof Hfit as [H1 [H2 H3]]. split.
  - unfold grid_fits in Hgrid. rewrite grid_glist in Hgrid |- *. destruct (dim_S dim H1) as [d Ed]. rewrite Ed in H2, H3, Hc |- *. rewrite points_spec_ok in H3, Hc |- * by assumption.
    etransitivity.
    + apply (transform_backward F s d degree c nodes weights flags (ctable degree nodes flags) cval); try assumption.
      * apply bases_1d_near; [assumption|apply Hflags].
      * intros p m Hp Hm. apply val_at_point_c; [rewrite grid_glist; assumption|]. fold dim. rewrite Ed. apply in_spec_list. assumption.
    + f_equal. apply map_ext. intros p. apply fold_left_ext. intros a [y m] _. reflexivity.
  - intros p Hp. unfold series, series_abs. rewrite Hlen.
    assert (ES : forall g : R -> list nat -> R, rsum (map (fun m => g (@coef num_R s dim degree c m) m) (points s dim degree)) = rsum (map (fun '(y, m) => g y m) (combine c (points s dim degree)))).
    { intros g. pose proof (points_NoDup_ok s dim degree H1 H2) as ND. unfold coef, LinSpec.vec_for in *. f_equal. change (@n0 num_R) with 0. revert Hc ND. generalize (points s dim degree). clear. intros l. revert c. 
      induction l as [|m l IH]; intros [|y c] Hc ND; try discriminate Hc; [reflexivity|]. cbn [map combine]. inversion ND as [|m' l' N1 N2]; subst. f_equal.
      - f_equal. cbn [value]. rewrite mi_eqb_refl. reflexivity.
      - rewrite <- IH; [|injection Hc as Hc; exact Hc|exact N2]. apply map_ext_in. intros m' Hm'. f_equal. cbn [value]. destruct (mi_eqb m m') eqn:E; [apply mi_eqb_eq in E; subst; contradiction|reflexivity]. }
    rewrite (ES (fun y m => y * phi flags m (at_pos nodes p))), (ES (fun y m => Rabs y * phi_abs flags m (at_pos nodes p))).
    pose proof (near_sum u Hu (rnd r) (acc_rnd u r A) (R * list nat) (fun '(y, m) => rnd r (rnd r (y * 1) * cval p m)) (fun '(y, m) => y * phi flags m (at_pos nodes p))
      (fun '(y, m) => Rabs y * phi_abs flags m (at_pos nodes p)) (6 * (dim * degree) + 6 * dim + 2) (combine c (points s dim degree)) (6 * (dim * degree) + 6 * dim + 2) 0 0 0) as N.
    rewrite !Rplus_0_l in N. rewrite combine_length, Hc, Nat.min_id in N. replace (length (points s dim degree) + 6 * (dim * degree) + 6 * dim + 2)%nat with (6 * (dim * degree) + 6 * dim + 2 + length (points s dim degree))%nat by lia. apply N; [|lia|].
    + intros [y m] Hym. pose proof (in_combine_r _ _ _ _ Hym) as Hm. apply points_In_ok in Hm; [|exact H1|exact H2].
      assert (LS : (list_sum m <= dim * degree)%nat). { destruct Hm as (Hl & Hs). rewrite <- Hl. assert (Hb : forall k, (nth k m 0 <= degree)%nat) by (intros; eapply in_set_bound; [apply Hflags|exact Hs]). clear - Hb. induction m as [|x m IH]; [cbn; lia|]. change (list_sum (x :: m)) with (x + list_sum m)%nat. pose proof (Hb 0%nat). cbn [nth] in *. specialize (IH (fun k => Hb (S k))). cbn [length]. lia. }
      apply near_le with (S (S (0 + 0) + (6 * list_sum m + 6 * dim))); [exact Hu|lia|]. apply (rnd_near u r A). apply near_mul; [exact Hu| |apply cval_near; assumption].
      apply (rnd_near u r A). rewrite Rmult_1_r. apply near_exact.
    + apply near_le with 0%nat; [exact Hu|lia|]. pose proof (near_exact u 0) as K. rewrite Rabs_R0 in K. exact K.
Qed.
End Grid.
End Table.
