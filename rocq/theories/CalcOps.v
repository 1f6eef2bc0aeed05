(** Matrix types of varf / varfd; one-dimensional index sets; tensor products of factors. *)
From Coq Require Import List Bool Arith ZArith Lia Sorted Permutation.
From Verif Require Import Base Lists IndexModel Spec Triangle Shell ShellList Cross CrossNc IndexSet Num Fnum LinModel LinSpec LinBase MatBase Tensorize Sparse Facts1 Facts2 Facts3 Facts4 CalcModel CalcBase.
Import ListNotations.

(** * index sets in dimension 1 *)
Lemma flat_map_singletons : forall A B (f : A -> list B) (g : A -> B) l, (forall x, In x l -> f x = [g x]) -> flat_map f l = map g l.
Proof. intros A B f g l. induction l as [|x l IH]; intros H; [reflexivity|]. cbn [flat_map map]. rewrite H by (left; reflexivity). rewrite IH by (intros; apply H; right; assumption). reflexivity. Qed.

Lemma shell_1 : forall degree, shell_spec [1] degree = map (fun i => [i]) (seq 0 (S degree)).
Proof.
  intros degree. unfold shell_spec. apply flat_map_singletons. intros M _. unfold lvl. cbn [length seq filter].
  unfold valid, wk. cbn [nth length]. rewrite Nat.mod_1_r. cbn [Nat.eqb andb]. rewrite orb_true_r. cbn [flat_map].
  unfold blk, wk. cbn [nth firstn skipn]. cbn [cap_a cap_b map app box]. rewrite Nat.div_1_r. reflexivity.
Qed.
Lemma tri_1 : forall degree, tri_spec 0 degree = map (fun i => [i]) (seq 0 (S degree)).
Proof. intros degree. unfold tri_spec. apply flat_map_singletons. intros M _. reflexivity. Qed.

Lemma spec_list_1 : forall s degree, 1 <= degree \/ s <> Cross /\ s <> CrossNc -> spec_list s 0 degree = map (fun i => [i]) (seq 0 (degree + 1)).
Proof.
  intros s degree H. rewrite Nat.add_1_r. destruct s; cbn [spec_list].
  - apply tri_1.
  - apply shell_1.
  - destruct H as [H|[H _]]; [|contradiction]. unfold cross_spec. rewrite Nat.max_r by lia. destruct degree as [|[|k]]; [lia|reflexivity|].
    cbn [seq flat_map map]. cbn [clev fac flat_map app]. unfold clev at 1. cbn. f_equal. f_equal. f_equal.
    apply flat_map_singletons. intros P HP. apply in_seq in HP. unfold clev. cbn [fac flat_map]. unfold core1.
    replace (P =? 1) with false by (symmetry; apply Nat.eqb_neq; lia). cbn [fills]. replace (P =? 0) with false by (symmetry; apply Nat.eqb_neq; lia). reflexivity.
  - destruct H as [H|[_ H]]; [|contradiction]. unfold nc_spec. rewrite Nat.max_r, Nat.add_0_r by lia. rewrite tri_1.
    assert (E : forall l, (forall i, In i l -> i <= degree) -> filter (fun m => cross_prod m <=? degree) (map (fun i => [i]) l) = map (fun i : nat => [i]) l).
    { induction l as [|i l IH]; intros Hl; [reflexivity|]. cbn [map filter]. rewrite IH by (intros; apply Hl; right; assumption).
      specialize (Hl i (or_introl eq_refl)). unfold cross_prod. cbn [map fold_right]. replace (_ <=? degree) with true by (symmetry; apply Nat.leb_le; lia). reflexivity. }
    apply E. intros i Hi. apply in_seq in Hi. lia.
  - apply shell_1.
Qed.

Lemma points_1 : forall s degree, set_ok s 1 degree -> 1 <= degree \/ s <> Cross /\ s <> CrossNc -> points s 1 degree = map (fun i => [i]) (seq 0 (degree + 1)).
Proof. intros s degree H H1. unfold points. rewrite s_list_Ok by assumption. apply spec_list_1. assumption. Qed.

Lemma value_1 : forall A (d : A) n v i, i < n -> length v = n -> value d (map (fun i => [i]) (seq 0 n)) v [i] = nth i v d.
Proof.
  intros A d n v i Hi Hl. apply value_nth.
  - apply FinFun.Injective_map_NoDup; [intros x y E; congruence|apply seq_NoDup].
  - rewrite (nth_error_nth' _ []) by (rewrite map_length, seq_length; lia). f_equal.
    rewrite (nth_map_lt _ _ _ _ _ _ 0) by (rewrite seq_length; lia). rewrite seq_nth by lia. reflexivity.
  - rewrite map_length, seq_length. lia.
Qed.

(** * the matrix types *)
Section Ops.
Variable F : fnum.
Hypothesis L : num_laws F.

Record calc_ok (C : calcops F) (rep : mtype F (co_ops F C) -> list (list F)) (wf : mtype F (co_ops F C) -> nat -> nat -> Prop) : Prop := {
  cok_ops : ops_ok F (co_ops F C) rep wf;
  cok_convert : forall A n m, sp_wf2 F A n m -> exists B, co_convert F C A = Ok B /\ wf B n m /\ rep B = dense A;
  cok_axpy : forall A B n m x, wf A n m -> wf B n m -> exists A', co_axpy F C A B x = Ok A' /\ wf A' n m /\
    forall i j, i < n -> j < m -> mnth F (rep A') i j = nadd (mnth F (rep A) i j) (nmul (mnth F (rep B) i j) x);
  cok_size2 : forall A n m, wf A n m -> 0 < n -> co_size2 F C A = m;
  cok_entries : forall A n m, wf A n m ->
    (forall i j x, In (i, j, x) (co_entries F C A) -> i < n /\ j < m /\ x = mnth F (rep A) i j) /\
    (forall i j, i < n -> j < m -> (forall x, ~ In (i, j, x) (co_entries F C A)) -> mnth F (rep A) i j = n0) }.

Lemma mapM_combine_seq : forall A B (f : nat -> A -> res B) (g : nat -> A -> B) l, (forall i x, nth_error l i = Some x -> f i x = Ok (g i x)) ->
  mapM (fun '(i, x) => f i x) (combine (seq 0 (length l)) l) = Ok (map (fun '(i, x) => g i x) (combine (seq 0 (length l)) l)).
Proof.
  intros A B f g l H. apply mapM_Ok_map. intros [i x] Hin. apply H.
  assert (G : forall (l : list A) n i x, In (i, x) (combine (seq n (length l)) l) -> n <= i /\ nth_error l (i - n) = Some x).
  { clear. intros l. induction l as [|y l IH]; intros n i x Hin; [destruct Hin|]. cbn [length seq combine] in Hin. destruct Hin as [E|Hin].
    - inversion E; subst. rewrite Nat.sub_diag. split; [lia|reflexivity].
    - apply IH in Hin as [H1 H2]. split; [lia|]. replace (i - n) with (S (i - S n)) by lia. exact H2. }
  apply G in Hin as [_ Hin]. rewrite Nat.sub_0_r in Hin. assumption.
Qed.

Lemma nth_map_combine_seq : forall A B (g : nat -> A -> B) l i d d', i < length l -> nth i (map (fun '(i, x) => g i x) (combine (seq 0 (length l)) l)) d = g i (nth i l d').
Proof.
  intros A B g l i d d' Hi. rewrite (nth_map_lt _ _ _ _ _ _ (0, d')) by (rewrite combine_length, seq_length; lia).
  rewrite combine_nth by apply seq_length. rewrite seq_nth by assumption. reflexivity.
Qed.

Lemma mat_axpy_ok : forall (A B : list (list F)) n m x, mat_wf n m A -> mat_wf n m B -> exists A', mat_axpy F A B x = Ok A' /\ mat_wf n m A' /\
  forall i j, i < n -> j < m -> mnth F A' i j = nadd (mnth F A i j) (nmul (mnth F B i j) x).
Proof.
  intros A B n m x HA HB. pose proof (fun i => mat_wf_row F n m A i HA) as RA. pose proof (fun i => mat_wf_row F n m B i HB) as RB. destruct HA as [A1 A2], HB as [B1 B2].
  eexists. split; [|split].
  - unfold mat_axpy. apply (mapM_combine_seq _ _ (fun i row => rowB <- vget B i ;; mapM (fun '(j, a) => b <- vget rowB j ;; Ok (nadd a (nmul b x))) (combine (seq 0 (length row)) row))
      (fun i row => map (fun '(j, a) => nadd a (nmul (nth j (nth i B []) n0) x)) (combine (seq 0 (length row)) row))).
    intros i row Hr. assert (Hi : i < n) by (rewrite <- A1; apply nth_error_Some; congruence). rewrite (vget_nth_ok _ B i []) by lia. cbn [bind].
    apply (mapM_combine_seq _ _ (fun j a => b <- vget (nth i B []) j ;; Ok (nadd a (nmul b x))) (fun j a => nadd a (nmul (nth j (nth i B []) n0) x))).
    intros j a Hj. assert (Hjl : j < length row) by (apply nth_error_Some; congruence). assert (length row = m) by (rewrite Forall_forall in A2; apply A2, (nth_error_In _ i); assumption).
    rewrite (vget_nth_ok _ _ j n0) by (rewrite RB; lia). reflexivity.
  - split; [rewrite map_length, combine_length, seq_length; lia|]. apply Forall_forall. intros r Hr. apply in_map_iff in Hr as [[i row] [<- Hr]]. apply in_combine_r in Hr.
    rewrite map_length, combine_length, seq_length. rewrite Forall_forall in A2. rewrite (A2 row Hr). lia.
  - intros i j Hi Hj. unfold mnth. rewrite (nth_map_combine_seq _ _ (fun i row => map (fun '(j, a) => nadd a (nmul (nth j (nth i B []) n0) x)) (combine (seq 0 (length row)) row)) A i [] []) by lia.
    rewrite (nth_map_combine_seq _ _ (fun j a => nadd a (nmul (nth j (nth i B []) n0) x)) (nth i A []) j n0 n0) by (rewrite RA; assumption). reflexivity.
Qed.

Lemma calc_mat_ok : calc_ok (calc_mat F) (fun A => A) (fun A n m => mat_wf n m A).
Proof.
  constructor; cbn [calc_mat co_ops co_convert co_axpy co_size2 co_entries].
  - apply mat_ops_ok.
  - intros A n m [H [H1 H2]]. exists (dense A). rewrite full_ok by assumption. split; [reflexivity|]. split; [|reflexivity]. rewrite <- H1, <- H2. apply dense_wf. assumption.
  - apply mat_axpy_ok.
  - intros A n m [H1 H2] Hn. destruct A as [|r A]; [cbn in H1; lia|]. inversion H2; subst. reflexivity.
  - intros A n m HA. pose proof (fun i => mat_wf_row F n m A i HA) as RA. destruct HA as [A1 A2]. unfold mat_entries.
    assert (G : forall i j x, In (i, j, x) (concat (map (fun '(i, row) => map (fun '(j, x) => (i, j, x)) (combine (seq 0 (length row)) row)) (combine (seq 0 (length A)) A))) <-> i < n /\ j < m /\ x = mnth F A i j).
    { intros i j x. rewrite in_concat. split.
      - intros [l [Hl Hx]]. apply in_map_iff in Hl as [[i' row] [<- Hl]]. apply in_map_iff in Hx as [[j' x'] [E Hx]]. inversion E; subst.
        apply (In_nth _ _ (0, [])) in Hl as [k [Hk El]]. rewrite combine_length, seq_length in Hk. rewrite combine_nth in El by apply seq_length. rewrite seq_nth in El by lia. inversion El; subst. cbn [plus].
        apply (In_nth _ _ (0, n0)) in Hx as [q [Hq Eq]]. rewrite combine_length, seq_length in Hq. rewrite combine_nth in Eq by apply seq_length. rewrite seq_nth in Eq by lia. inversion Eq; subst.
        rewrite RA in Hq by lia. split; [lia|]. split; [lia|]. reflexivity.
      - intros [Hi [Hj ->]]. exists (map (fun '(j, x) => (i, j, x)) (combine (seq 0 (length (nth i A []))) (nth i A []))). split.
        + apply in_map_iff. exists (i, nth i A []). split; [reflexivity|]. apply (nth_error_In _ i). apply (nth_error_enum _ A i). apply nth_error_nth'. lia.
        + apply in_map_iff. exists (j, mnth F A i j). split; [reflexivity|]. unfold mnth. apply (nth_error_In _ j). apply (nth_error_enum _ (nth i A []) j). apply nth_error_nth'. rewrite RA; lia. }
    split; [intros i j x Hin; apply G; assumption|]. intros i j Hi Hj Hn. destruct (Hn (mnth F A i j)). apply G. auto.
Qed.

(** sparse *)
Lemma row_merge_nil_l : forall (x : F) rb, row_merge F x [] rb = map (fun '(j, b) => (j, nadd n0 (nmul b x))) rb.
Proof. intros x [|? ?]; reflexivity. Qed.
Lemma row_merge_nil_r : forall (x : F) ra, row_merge F x ra [] = map (fun '(j, a) => (j, nadd a n0)) ra.
Proof. intros x [|[? ?] ?]; reflexivity. Qed.
Lemma row_merge_cons : forall (x : F) j a ra k b rb, row_merge F x ((j, a) :: ra) ((k, b) :: rb) =
  if j <? k then (j, nadd a n0) :: row_merge F x ra ((k, b) :: rb)
  else if k <? j then (k, nadd n0 (nmul b x)) :: row_merge F x ((j, a) :: ra) rb
  else (j, nadd a (nmul b x)) :: row_merge F x ra rb.
Proof. reflexivity. Qed.

Lemma row_merge_fst : forall (x : F) ra rb k, In k (map fst (row_merge F x ra rb)) <-> In k (map fst ra) \/ In k (map fst rb).
Proof.
  intros x ra. induction ra as [|[j a] ra IHa]; intros rb k.
  - rewrite row_merge_nil_l, map_map. rewrite (map_ext _ fst) by (intros [? ?]; reflexivity). cbn [map In]. intuition.
  - induction rb as [|[j' b] rb IHb].
    + rewrite row_merge_nil_r, map_map. rewrite (map_ext _ fst) by (intros [? ?]; reflexivity). cbn [map In]. intuition.
    + rewrite row_merge_cons. destruct (Nat.ltb_spec j j'); [|destruct (Nat.ltb_spec j' j)]; cbn [map fst In].
      * rewrite IHa. cbn [map fst In]. intuition.
      * rewrite IHb. cbn [map fst In]. intuition.
      * rewrite IHa. assert (j = j') by lia. intuition.
Qed.

Lemma increasing_map : forall (f : F -> F) (r : list (nat * F)), increasing (map fst r) -> increasing (map fst (map (fun '(j, a) => (j, f a)) r)).
Proof. intros f r H. rewrite map_map. rewrite (map_ext _ fst) by (intros [? ?]; reflexivity). assumption. Qed.

Lemma row_merge_sorted : forall (x : F) ra rb, increasing (map fst ra) -> increasing (map fst rb) -> increasing (map fst (row_merge F x ra rb)).
Proof.
  intros x ra. induction ra as [|[j a] ra IHa]; intros rb Ha Hb.
  - rewrite row_merge_nil_l. apply (increasing_map (fun b => nadd n0 (nmul b x))). assumption.
  - induction rb as [|[k b] rb IHb].
    + rewrite row_merge_nil_r. apply (increasing_map (fun a => nadd a n0)). assumption.
    + rewrite row_merge_cons. inversion Ha as [|? ? Ha1 Ha2]; subst. inversion Hb as [|? ? Hb1 Hb2]; subst. rewrite Forall_forall in Ha2, Hb2.
      destruct (Nat.ltb_spec j k); [|destruct (Nat.ltb_spec k j)]; cbn [map fst]; constructor; auto; try (apply IHa; assumption); try (apply IHb; assumption); apply Forall_forall; intros z Hz; apply row_merge_fst in Hz; cbn [map fst In] in Hz.
      * destruct Hz as [Hz|[<-|Hz]]; [apply Ha2; assumption|assumption|]. specialize (Hb2 z Hz). lia.
      * destruct Hz as [[<-|Hz]|Hz]; [assumption| |apply Hb2; assumption]. specialize (Ha2 z Hz). lia.
      * destruct Hz as [Hz|Hz]; [apply Ha2; assumption|]. specialize (Hb2 z Hz). lia.
Qed.

Lemma stored_map : forall (f : F -> F) r k, f n0 = n0 -> stored (N := F) (map (fun '(j, a) => (j, f a)) r) k = f (stored r k).
Proof. intros f r k H0. induction r as [|[j a] r IH]; cbn [map stored]; [auto|]. destruct (j =? k); [reflexivity|assumption]. Qed.

Lemma row_merge_stored : forall (x : F) ra rb k, increasing (map fst ra) -> increasing (map fst rb) ->
  stored (N := F) (row_merge F x ra rb) k = nadd (stored ra k) (nmul (stored rb k) x).
Proof using L.
  intros x ra. induction ra as [|[j a] ra IHa]; intros rb k Ha Hb.
  - rewrite row_merge_nil_l. rewrite (stored_map (fun b => nadd n0 (nmul b x))) by (rewrite (law_mul_0 _ L); apply (law_add_0 _ L)). reflexivity.
  - induction rb as [|[j' b] rb IHb].
    + rewrite row_merge_nil_r. rewrite (stored_map (fun a => nadd a n0)) by apply (law_add_0 _ L). cbn [stored]. rewrite (law_mul_0 _ L). reflexivity.
    + rewrite row_merge_cons. inversion Ha as [|? ? Ha1 Ha2]; subst. inversion Hb as [|? ? Hb1 Hb2]; subst.
      destruct (Nat.ltb_spec j j'); [|destruct (Nat.ltb_spec j' j)].
      * cbn [stored]. destruct (Nat.eqb_spec j k) as [<-|].
        -- destruct (Nat.eqb_spec j' j); [lia|]. rewrite (stored_lt F rb j). rewrite (law_mul_0 _ L). reflexivity. eapply Forall_impl; [|exact Hb2]. intros; cbv beta in *; lia.
        -- rewrite IHa by assumption. reflexivity.
      * cbn [stored]. destruct (Nat.eqb_spec j' k) as [<-|].
        -- destruct (Nat.eqb_spec j j'); [lia|]. rewrite (stored_lt F ra j'). reflexivity. eapply Forall_impl; [|exact Ha2]. intros; cbv beta in *; lia.
        -- rewrite IHb by assumption. reflexivity.
      * assert (j = j') by lia. subst j'. cbn [stored]. destruct (j =? k); [reflexivity|]. apply IHa; assumption.
Qed.

Lemma filter_nz_stored : forall (r : list (nat * F)) k, increasing (map fst r) -> stored (N := F) (filter (fun '(_, y) => negb (neqb y n0)) r) k = stored r k.
Proof using L.
  induction r as [|[j a] r IH]; intros k H; [reflexivity|]. inversion H as [|? ? H1 H2]; subst. cbn [filter]. destruct (neqb a n0) eqn:E; cbn [negb stored]; rewrite IH by assumption; [|reflexivity].
  apply (law_eqb _ L) in E. subst a. destruct (Nat.eqb_spec j k) as [<-|]; [|reflexivity]. apply stored_lt. assumption.
Qed.
Lemma filter_nz_sorted : forall (r : list (nat * F)), increasing (map fst r) -> increasing (map fst (filter (fun '(_, y) => negb (neqb y n0)) r)).
Proof.
  induction r as [|[j a] r IH]; intros H; [constructor|]. inversion H as [|? ? H1 H2]; subst. cbn [filter]. destruct (negb (neqb a n0)); cbn [map fst]; [|apply IH; assumption].
  constructor; [apply IH; assumption|]. apply Forall_forall. intros z Hz. rewrite Forall_forall in H2. apply H2. apply in_map_iff in Hz as [q [<- Hq]]. apply filter_In in Hq. apply in_map. apply Hq.
Qed.

Lemma sp_axpy_ok : forall (A B : spmat F) n m x, sp_wf2 F A n m -> sp_wf2 F B n m -> exists A', sp_axpy F A B x = Ok A' /\ sp_wf2 F A' n m /\
  forall i j, i < n -> j < m -> mnth F (dense A') i j = nadd (mnth F (dense A) i j) (nmul (mnth F (dense B) i j) x).
Proof using L.
  intros A B n m x [HA [A1 A2]] [HB [B1 B2]]. unfold sp_axpy. rewrite A1, A2, B1, B2, !Nat.eqb_refl. cbn [andb].
  set (A' := {| sp_size1 := n; sp_size2 := m; sp_rows := map (fun '(ra, rb) => filter (fun '(_, y) => negb (neqb y n0)) (row_merge F x ra rb)) (combine (sp_rows F A) (sp_rows F B)) |}).
  pose proof (fun i => sp_wf_row F A i HA) as RA. pose proof (fun i => sp_wf_row F B i HB) as RB. rewrite A1, A2 in RA. rewrite B1, B2 in RB. pose proof (proj1 HA) as LA. pose proof (proj1 HB) as LB. rewrite A1 in LA. rewrite B1 in LB.
  assert (R : forall i, i < n -> nth i (sp_rows F A') [] = filter (fun '(_, y) => negb (neqb y n0)) (row_merge F x (nth i (sp_rows F A) []) (nth i (sp_rows F B) []))).
  { intros i Hi. unfold A'. cbn [sp_rows]. rewrite (nth_map_lt _ _ _ _ _ _ ([], [])) by (rewrite combine_length; lia). rewrite combine_nth by lia. reflexivity. }
  assert (W : sp_wf A').
  { split; [unfold A'; cbn [sp_rows sp_size1]; rewrite map_length, combine_length; lia|]. apply Forall_forall. intros r Hr. apply (In_nth _ _ []) in Hr as [i [Hi <-]].
    assert (Hi' : i < n) by (unfold A' in Hi; cbn [sp_rows] in Hi; rewrite map_length, combine_length in Hi; lia). rewrite R by assumption. destruct (RA i Hi') as [S1 T1]. destruct (RB i Hi') as [S2 T2].
    split; [apply filter_nz_sorted, row_merge_sorted; assumption|]. apply Forall_forall. intros z Hz. cbn [A' sp_size2]. rewrite Forall_forall in T1, T2.
    apply in_map_iff in Hz as [q [<- Hq]]. apply filter_In in Hq as [Hq _]. apply (in_map fst) in Hq. apply row_merge_fst in Hq as [Hq|Hq]; auto. }
  exists A'. split; [reflexivity|]. split; [split; [assumption|split; reflexivity]|]. intros i j Hi Hj. rewrite !dense_nth by (auto; try rewrite A1; try rewrite A2; try rewrite B1; try rewrite B2; auto).
  rewrite R by assumption. destruct (RA i Hi) as [S1 T1]. destruct (RB i Hi) as [S2 T2]. rewrite filter_nz_stored by (apply row_merge_sorted; assumption). apply row_merge_stored; assumption.
Qed.

Lemma calc_spmat_ok : calc_ok (calc_spmat F) (@dense F) (sp_wf2 F).
Proof using L.
  constructor; cbn [calc_spmat co_ops co_convert co_axpy co_size2 co_entries].
  - apply spmat_ops_ok.
  - intros A n m H. exists A. auto.
  - apply sp_axpy_ok.
  - intros A n m [_ [_ H]] _. assumption.
  - intros A n m [H [<- <-]]. split.
    + intros i j x Hin. apply sp_entries_spec in Hin; [|assumption]. intuition.
    + intros i j Hi Hj Hn. apply sp_entries_absent; assumption.
Qed.
End Ops.
