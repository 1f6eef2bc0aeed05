(** Weights of positions. *)
From Coq Require Import String List Bool Arith Reals Lia Lra Sorted Permutation.
From Verif Require Import Base Lists PyBase IndexModel Spec Num Fnum LinModel LinSpec LinBase CalcModel CalcSpec CalcReal CalcTensor PosModel PosSpec PosFacts SeriesModel PyQuadSpec PyQuadFacts PyQuadFacts2 ProjFacts NdFacts WeightModel WeightSpec.
Import ListNotations.
Local Open Scope R_scope.

Lemma diag_nth_row : forall (l : list R), diag_mat num_R l = map (fun i => map (fun j => if (i =? j)%nat then nth i l 0 else 0) (seq 0 (length l))) (seq 0 (length l)).
Proof.
  intros l. apply PyQuadFacts.nth_error_ext. intros i. destruct (Nat.lt_ge_cases i (length l)) as [H|H].
  - etransitivity; [exact (diag_row l i H)|]. rewrite (map_nth_error _ i (seq 0 (length l)) (d := i)); [reflexivity|]. rewrite nth_error_nth' with (d := 0%nat) by (rewrite seq_length; exact H). rewrite seq_nth by exact H. reflexivity.
  - transitivity (@None (list R)); [|symmetry]; apply nth_error_None; [eapply Nat.le_trans; [|exact H]; apply Nat.eq_le_incl; exact (proj1 (diag_mat_wf num_R l))|rewrite map_length, seq_length; exact H].
Qed.

Lemma get_ok : forall A (l : list A) d i, (i < length l)%nat -> py_get l i = Ok (nth i l d).
Proof. intros A l d i H. unfold py_get. rewrite (nth_error_nth' _ d H). reflexivity. Qed.
Lemma gets_ok : forall A (l : list A) d ind, (forall i, In i ind -> (i < length l)%nat) -> mapM (py_get l) ind = Ok (map (fun i => nth i l d) ind).
Proof. intros A l d. induction ind as [|i ind IH]; intros H; [reflexivity|]. cbn [mapM map]. rewrite (get_ok _ l d) by (apply H; left; reflexivity). cbn [bind]. rewrite IH by (intros j Hj; apply H; right; exact Hj). reflexivity. Qed.
Lemma mapM_ok : forall A B (f : A -> res B) (g : A -> B) l, (forall a, In a l -> f a = Ok (g a)) -> mapM f l = Ok (map g l).
Proof. intros A B f g. induction l as [|a l IH]; intros H; [reflexivity|]. cbn [mapM map]. rewrite H by (left; reflexivity). cbn [bind]. rewrite IH by (intros b Hb; apply H; right; exact Hb). reflexivity. Qed.

Lemma take_ix_diag : forall (vars : list R) ind, NoDup ind -> (forall i, In i ind -> (i < length vars)%nat) -> take_ix (diag_mat num_R vars) ind = Ok (diag_mat num_R (map (fun i => nth i vars 0) ind)).
Proof.
  intros vars ind Hn Hi. unfold take_ix. rewrite (mapM_ok _ _ _ (fun i => map (fun j => if (i =? j)%nat then nth i vars 0 else 0) ind)).
  - apply (f_equal (@Ok (list (list R)))). rewrite diag_nth_row, map_length. apply PyQuadFacts.nth_error_ext. intros k. destruct (Nat.lt_ge_cases k (length ind)) as [H|H].
    + destruct (in_nth_error _ ind k H) as [i Hk]. rewrite (map_nth_error _ _ _ Hk). rewrite (map_nth_error _ k (seq 0 (length ind)) (d := k)) by (apply seq_nth_error; exact H). f_equal.
      apply PyQuadFacts.nth_error_ext. intros c. destruct (Nat.lt_ge_cases c (length ind)) as [Hc|Hc].
      * destruct (in_nth_error _ ind c Hc) as [j Hj]. rewrite (map_nth_error _ _ _ Hj). rewrite (map_nth_error _ c (seq 0 (length ind)) (d := c)) by (apply seq_nth_error; exact Hc). f_equal.
        replace (nth k (map (fun i0 => nth i0 vars 0) ind) 0) with (nth i vars 0) by (symmetry; apply nth_error_nth; apply (map_nth_error (fun i0 => nth i0 vars 0)); exact Hk).
        destruct (Nat.eqb_spec i j) as [->|Hne]; destruct (Nat.eqb_spec k c) as [->|Hne']; try reflexivity; [exfalso; apply Hne'; apply (NoDup_nth_error_eq _ ind k c j); assumption|congruence].
      * transitivity (@None R); [|symmetry]; apply nth_error_None; rewrite map_length; [exact Hc|rewrite seq_length; exact Hc].
    + transitivity (@None (list R)); [|symmetry]; apply nth_error_None; rewrite map_length; [exact H|rewrite seq_length; exact H].
  - intros i H. assert (Hl : (i < length vars)%nat) by (apply Hi; exact H). rewrite diag_nth_row. unfold py_get. rewrite (map_nth_error _ i (seq 0 (length vars)) (d := i)) by (apply seq_nth_error; exact Hl). cbn [bind]. unfold take.
    apply mapM_ok. intros j Hj. unfold py_get. rewrite (map_nth_error _ j (seq 0 (length vars)) (d := j)) by (apply seq_nth_error; apply Hi; exact Hj). reflexivity.
Qed.

(** the Hermite directions *)
Lemma ind_spec : forall types, hermite_ind types = filter (fun i => String.eqb (nth i types EmptyString) "hermite") (seq 0 (length types)).
Proof.
  intros types. unfold hermite_ind.
  assert (G : forall n l, (forall i, (i < length l)%nat -> nth (n + i) types EmptyString = nth i l EmptyString) -> map fst (filter (fun '(i, t) => String.eqb t "hermite") (combine (seq n (length l)) l)) = filter (fun i => String.eqb (nth i types EmptyString) "hermite") (seq n (length l))).
  { intros n l. revert n. induction l as [|t l IH]; intros n H; [reflexivity|]. cbn [length seq combine filter]. pose proof (H 0%nat (Nat.lt_0_succ _)) as H0. rewrite Nat.add_0_r in H0. cbn [nth] in H0. rewrite H0.
    assert (IH' := IH (S n) ltac:(intros i Hi; specialize (H (S i) ltac:(cbn; lia)); cbn [nth] in H; rewrite <- H; f_equal; lia)).
    destruct (String.eqb t "hermite"); cbn [map fst]; rewrite IH'; reflexivity. }
  apply (G 0%nat types). intros i _. reflexivity.
Qed.
Lemma ind_count : forall types, length (hermite_ind types) = length (filter (fun t => String.eqb t "hermite") types).
Proof.
  intros types. unfold hermite_ind. rewrite map_length. generalize 0%nat. induction types as [|t types IH]; intros n; [reflexivity|]. cbn [length seq combine filter]. destruct (String.eqb t "hermite"); cbn [length]; rewrite IH; reflexivity.
Qed.
Lemma filter_count : forall A (f : A -> bool) l, (length (filter f l) + length (filter (fun x => negb (f x)) l) = length l)%nat.
Proof. intros A f. induction l as [|a l IH]; [reflexivity|]. cbn. destruct (f a); cbn; lia. Qed.
Lemma rprod_filter : forall A (c : A -> bool) (f : A -> R) l, rprod (map (fun a => if c a then f a else 1) l) = rprod (map f (filter c l)).
Proof. intros A c f. induction l as [|a l IH]; [reflexivity|]. cbn [map filter]. rewrite rprod_cons, IH. destruct (c a); [cbn [map]; rewrite rprod_cons; reflexivity|ring]. Qed.

(** products of densities *)
Lemma rprod_pos : forall l, Forall (fun v => 0 < v) l -> 0 < rprod l.
Proof. induction l as [|a l IH]; intros H; [cbn; lra|]. inversion H; subst. rewrite rprod_cons. apply Rmult_lt_0_compat; [assumption|apply IH; assumption]. Qed.
Lemma two_pi : 0 < 2 * PI.
Proof. pose proof PI_RGT_0. lra. Qed.
Lemma density_product : forall A (m v x : A -> R) l, (forall a, In a l -> 0 < v a) ->
  rprod (map (fun a => normal_density (m a) (v a) (x a)) l) = exp (- (/ 2 * rsum (map (fun a => / v a * (x a - m a) * (x a - m a)) l))) / sqrt ((2 * PI) ^ length l * rprod (map v l)).
Proof.
  intros A m v x. induction l as [|a l IH]; intros H.
  - cbn [map length pow]. unfold rprod, rsum. cbn. rewrite Rmult_0_r, Ropp_0, exp_0, Rmult_1_r, sqrt_1. field.
  - cbn [map length]. rewrite !rprod_cons, rsum_cons, IH by (intros b Hb; apply H; right; exact Hb). unfold normal_density. pose proof two_pi as H2. pose proof (H a (or_introl eq_refl)) as Ha.
    assert (Hp : 0 < rprod (map v l)) by (apply rprod_pos; apply Forall_forall; intros y Hy; apply in_map_iff in Hy as (b & <- & Hb); apply H; right; exact Hb).
    assert (Hq : 0 < (2 * PI) ^ length l) by (apply pow_lt; exact H2).
    replace ((2 * PI) ^ S (length l) * (v a * rprod (map v l))) with ((2 * PI * v a) * ((2 * PI) ^ length l * rprod (map v l))) by (cbn [pow]; ring).
    rewrite (sqrt_mult (2 * PI * v a)) by (apply Rlt_le; apply Rmult_lt_0_compat; assumption).
    replace (- (/ 2 * (/ v a * (x a - m a) * (x a - m a) + rsum (map (fun a0 => / v a0 * (x a0 - m a0) * (x a0 - m a0)) l)))) with (- ((x a - m a) ^ 2 / (2 * v a)) + - (/ 2 * rsum (map (fun a0 => / v a0 * (x a0 - m a0) * (x a0 - m a0)) l))) by (field; lra).
    rewrite exp_plus. assert (S1 : 0 < sqrt (2 * PI * v a)) by (apply sqrt_lt_R0, Rmult_lt_0_compat; assumption). assert (S2 : 0 < sqrt ((2 * PI) ^ length l * rprod (map v l))) by (apply sqrt_lt_R0, Rmult_lt_0_compat; assumption). field. split; lra.
Qed.

Section Weight.
Variable far_from_diag : list (list R) -> bool.
Hypothesis Hfar : forall l, far_from_diag (diag_mat num_R l) = false.
Variable la_inv : list (list R) -> res (list (list R)).
Variable la_det : list (list R) -> R.
Hypothesis Hla : la_diag la_inv la_det.
Notation pos_weight := (pos_weight la_inv la_det).
Notation pos_weights := (pos_weights far_from_diag la_inv la_det).

Theorem weight_value : forall p vars env, diag_position p vars -> In "hermite"%string (p_types p) -> pos_weight p env = Ok (rprod (weight_list p vars env) / sqrt ((2 * PI) ^ others p)).
Proof using Hla.
  intros p vars env (P1 & P2 & P3 & P4 & P5 & P6 & P7) Hh. unfold WeightModel.pos_weight. set (ind := hermite_ind (p_types p)).
  assert (Hb : forall i, In i ind -> (i < length vars)%nat) by (intros i Hi; unfold ind in Hi; rewrite ind_spec in Hi; apply filter_In in Hi as [Hi _]; apply in_seq in Hi; lia).
  assert (Hn : NoDup ind) by (unfold ind; rewrite ind_spec; apply NoDup_filter, seq_NoDup).
  assert (Hl : (length ind =? 0)%nat = false).
  { apply Nat.eqb_neq. unfold ind. rewrite ind_count. intros G. apply length_zero_iff_nil in G. assert (G' : In "hermite"%string (filter (fun t => String.eqb t "hermite") (p_types p))) by (apply filter_In; split; [exact Hh|reflexivity]). rewrite G in G'. destruct G'. }
  rewrite Hl. unfold take at 1. rewrite (gets_ok _ (p_mean p) 0) by (intros i Hi; rewrite P4; apply Hb; exact Hi). cbn [bind]. rewrite P1, take_ix_diag by assumption. cbn [bind].
  rewrite (gets_ok _ (p_dirs p) 0%nat) by (intros i Hi; rewrite P3; apply Hb; exact Hi). cbn [bind].
  assert (Hv : Forall (fun v => 0 < v) (map (fun i => nth i vars 0) ind)) by (apply Forall_forall; intros y Hy; apply in_map_iff in Hy as (i & <- & Hi); rewrite Forall_forall in P2; apply P2, nth_In, Hb; exact Hi).
  destruct (Hla _ Hv) as [L1 L2]. rewrite L1, L2. cbn [bind]. set (y := minus _ _).
  assert (Hy : y = map (fun i => env (nth i (p_dirs p) 0%nat) - nth i (p_mean p) 0) ind) by (unfold y, minus; rewrite map_map; clear; induction ind as [|i l IH]; [reflexivity|cbn [map combine]; f_equal; exact IH]).
  pose proof (np_dot_diag (map Rinv (map (fun i => nth i vars 0) ind)) y) as Hd. change (np_dot fnum_R) with (np_dot num_R) in Hd. change (diag_mat fnum_R) with (diag_mat num_R) in Hd. rewrite Hd by (rewrite Hy, !map_length; reflexivity). clear Hd. cbn [bind]. f_equal.
  assert (Hw : rprod (weight_list p vars env) = rprod (map (fun i => normal_density (nth i (p_mean p) 0) (nth i vars 0) (env (nth i (p_dirs p) 0%nat))) ind)).
  { unfold weight_list, ind, direction_weight. rewrite ind_spec, P3, <- P5. apply (rprod_filter _ (fun i => String.eqb (nth i (p_types p) EmptyString) "hermite")). }
  rewrite Hw, density_product by (intros i Hi; rewrite Forall_forall in P2; apply P2, nth_In, Hb; exact Hi).
  assert (Hdim : p_dim p = (length ind + others p)%nat) by (unfold p_dim, others, ind; rewrite ind_count, filter_count, P4, P5; reflexivity). rewrite Hdim.
  pose proof two_pi as H2. set (q := rprod (map (fun i => nth i vars 0) ind)). assert (Hq : 0 < q) by (apply rprod_pos; exact Hv).
  assert (Hk1 : 0 < (2 * PI) ^ length ind) by (apply pow_lt; exact H2). assert (Hk2 : 0 < (2 * PI) ^ others p) by (apply pow_lt; exact H2).
  replace ((2 * PI) ^ (length ind + others p) * q) with (((2 * PI) ^ length ind * q) * (2 * PI) ^ others p) by (rewrite pow_add; ring). rewrite (sqrt_mult ((2 * PI) ^ length ind * q)) by (apply Rlt_le; first [exact Hk2|apply Rmult_lt_0_compat; assumption]).
  assert (Hpot : row_dot num_R (map (fun '(x, y0) => x * y0) (combine (map Rinv (map (fun i => nth i vars 0) ind)) y)) y = rsum (map (fun i => / nth i vars 0 * (env (nth i (p_dirs p) 0%nat) - nth i (p_mean p) 0) * (env (nth i (p_dirs p) 0%nat) - nth i (p_mean p) 0)) ind)).
  { rewrite Hy. unfold row_dot. rewrite map_map. clear. match goal with |- fold_left _ ?l _ = rsum ?l' => assert (G : l = l'); [|rewrite G; clear G; generalize l'] end.
    - induction ind as [|i l IH]; [reflexivity|]. cbn [map combine]. f_equal. exact IH.
    - intros l. change (fold_left Rplus l 0 = rsum l). unfold rsum. first [reflexivity|apply fold_symmetric; intros; ring]. }
  rewrite Hpot. assert (S1 : 0 < sqrt ((2 * PI) ^ length ind * q)) by (apply sqrt_lt_R0, Rmult_lt_0_compat; assumption). assert (S2 : 0 < sqrt ((2 * PI) ^ others p)) by (apply sqrt_lt_R0; exact Hk2). field. split; lra.
Qed.

Theorem weight_hermite : forall p vars env, diag_position p vars -> Forall (fun t => t = "hermite"%string) (p_types p) -> pos_weight p env = Ok (rprod (weight_list p vars env)).
Proof using Hla.
  intros p vars env Hp Hh. destruct (p_types p) as [|t l] eqn:Et.
  - unfold WeightModel.pos_weight. rewrite Et. cbn. destruct Hp as (_ & _ & P3 & _ & P5 & _). unfold weight_list. rewrite P3, <- P5, Et. reflexivity.
  - rewrite (weight_value p vars env Hp) by (rewrite Et; inversion Hh; subst; left; reflexivity). f_equal. replace (others p) with 0%nat; [cbn [pow]; rewrite sqrt_1; field|]. unfold others. rewrite Et. symmetry. clear -Hh. induction Hh as [|a l0 Ha H IH]; [reflexivity|]. subst a. exact IH.
Qed.
Theorem weight_none : forall p env, ~ In "hermite"%string (p_types p) -> pos_weight p env = Ok 1.
Proof using.
  intros p env H. unfold WeightModel.pos_weight. rewrite ind_count. replace (filter _ (p_types p)) with (@nil string); [reflexivity|]. symmetry. induction (p_types p) as [|t l IH]; [reflexivity|]. cbn. destruct (String.eqb_spec t "hermite") as [->|Hn]; [exfalso; apply H; left; reflexivity|]. apply IH. intros G. apply H. right. exact G.
Qed.

Theorem weights_value : forall p vars env, diag_position p vars -> pos_weights p env = Ok (weight_list p vars env).
Proof using Hfar Hla.
  intros p vars env Hp. pose proof Hp as (P1 & P2 & P3 & P4 & P5 & P6 & P7). unfold WeightModel.pos_weights. rewrite P7. cbn [require bind]. unfold weight_list.
  assert (Hd : p_dirs p = map (fun i => nth i (p_dirs p) 0%nat) (seq 0 (length (p_dirs p)))) by (apply (list_ext_nth _ _ _ 0%nat); [rewrite map_length, seq_length; reflexivity|intros i Hi; rewrite (nth_indep (map _ _) 0%nat (nth 0 (p_dirs p) 0%nat)) by (rewrite map_length, seq_length; exact Hi); rewrite (map_nth (fun i0 => nth i0 (p_dirs p) 0%nat)), seq_nth by exact Hi; reflexivity]).
  rewrite Hd at 1. rewrite mapM_map. apply mapM_ok. intros i Hi. apply in_seq in Hi. set (d := nth i (p_dirs p) 0%nat).
  assert (Hin : nth_error (p_dirs p) i = Some d) by (apply nth_error_nth'; lia).
  unfold pos_project. rewrite P7. replace (nats_eqb [d] (py_sorted [d])) with true by (cbn; rewrite Nat.eqb_refl; reflexivity). cbn [andb require bind mapM length].
  destruct (py_index_in (p_dirs p) d (nth_error_In _ _ Hin)) as (j & J1 & J2). assert (j = i) by (apply (NoDup_nth_error_eq _ (p_dirs p) j i d); assumption). subst j. rewrite J1. cbn [bind mapM].
  rewrite (get_ok _ (p_mean p) 0) by lia. cbn [bind]. unfold variance. rewrite P1, diag_nth_row. unfold py_get at 1. rewrite (map_nth_error _ i (seq 0 (length vars)) (d := i)) by (apply seq_nth_error; lia). cbn [bind]. unfold py_get at 1. rewrite (map_nth_error _ i (seq 0 (length vars)) (d := i)) by (apply seq_nth_error; lia). rewrite Nat.eqb_refl. cbn [bind].
  rewrite (get_ok _ (p_types p) EmptyString) by lia. cbn [bind].
  pose proof (position_init_full num_R far_from_diag Hfar (Some 1%nat) [nth i (p_mean p) 0] [nth i vars 0] [nth i (p_types p) EmptyString] [d] eq_refl eq_refl eq_refl (or_intror eq_refl)) as Hq.
  etransitivity; [apply (f_equal (fun o => bind o (fun q => pos_weight q env))); exact Hq|]. cbn [bind].
  assert (Hvi : 0 < nth i vars 0) by (rewrite Forall_forall in P2; apply P2, nth_In; lia).
  destruct (String.eqb_spec (nth i (p_types p) EmptyString) "hermite") as [Ht|Ht].
  - rewrite (weight_hermite _ [nth i vars 0]).
    + unfold weight_list. cbn [p_dirs p_mean p_types length seq map nth]. unfold rprod. cbn [fold_right fold_left]. f_equal. ring.
    + split; [reflexivity|]. split; [constructor; [exact Hvi|constructor]|]. repeat split. constructor; [intros []|constructor].
    + cbn [p_types]. rewrite Ht. constructor; [reflexivity|constructor].
  - rewrite weight_none; [|cbn [p_types]; intros [G|[]]; congruence]. unfold direction_weight. apply String.eqb_neq in Ht. rewrite Ht. reflexivity.
Qed.
End Weight.

Lemma nth_map_seq : forall A (f : nat -> A) n i d, (i < n)%nat -> nth i (map f (seq 0 n)) d = f i.
Proof. intros A f n i d H. rewrite (nth_indep _ d (f 0%nat)) by (rewrite map_length, seq_length; exact H). rewrite map_nth, seq_nth by exact H. reflexivity. Qed.
Lemma r_la_diag : la_diag PyQuadSpec.r_la_inv (fun m => rprod (map (fun i => nth i (nth i m []) 0) (seq 0 (length m)))).
Proof.
  intros l Hl. split.
  - unfold PyQuadSpec.r_la_inv, diag_mat. rewrite map_map, map_length. apply f_equal. apply map_ext_in. intros i Hi. apply in_seq in Hi. rewrite map_map. apply map_ext_in. intros j _. destruct (i =? j)%nat.
    + etransitivity; [|symmetry; apply (nth_indep (map Rinv l) _ (/ 0)); rewrite map_length; lia]. rewrite (map_nth Rinv). destruct (Req_EM_T _ 0) as [H|_]; [|reflexivity]. exfalso. rewrite Forall_forall in Hl. assert (0 < nth i l 0) by (apply Hl, nth_In; lia). cbn in H. lra.
    + destruct (Req_EM_T _ 0) as [_|H]; [reflexivity|]. exfalso. apply H. reflexivity.
  - unfold diag_mat. rewrite map_length, seq_length. apply f_equal. apply (list_ext_nth _ _ _ 0); [rewrite map_length, seq_length; reflexivity|]. rewrite map_length, seq_length. intros i Hi.
    etransitivity; [apply nth_map_seq; exact Hi|]. cbn beta. etransitivity; [apply (f_equal (fun r => nth i r 0)); apply nth_map_seq; exact Hi|]. cbn beta. etransitivity; [apply nth_map_seq; exact Hi|]. cbn beta. rewrite Nat.eqb_refl. reflexivity.
Qed.
