(** Tensorized transform and variational formulation, in the vocabulary of CalcSpec. *)
From Coq Require Import List Bool Arith ZArith Reals Lra Lia Permutation.
From Verif Require Import Base Lists IndexModel Spec Grid IndexSet Degree Num Fnum LinModel LinSpec LinBase MatBase Tensorize Project Facts1 Facts2 Facts3 Facts4 CalcModel CalcSpec CalcReal CalcTriple CalcQuad CalcOps CalcVarf2 Facts6 Facts7 CalcTensor.
Import ListNotations.
Local Open Scope R_scope.

Lemma reindex_pick : forall dim m dj, length m = dim -> Forall (fun x => (x < dim)%nat) dj -> reindex (seq 0 dim) dj m = pick 0%nat m dj.
Proof.
  intros dim m dj <- H. unfold reindex, pick. apply map_ext_in. intros x Hx. rewrite Forall_forall in H. apply lookup_seq. apply H. assumption.
Qed.

Lemma pick_index : forall s dim degree dj m, increasing dj -> dj <> [] -> Forall (fun x => (x < dim)%nat) dj -> index_of s dim degree m -> index_of s (length dj) degree (pick 0%nat m dj).
Proof.
  intros s dim degree dj m H1 H2 H3 [L H]. split; [unfold pick; apply map_length|]. rewrite <- (reindex_pick dim) by assumption. apply in_set_reindex; [apply increasing_NoDup; assumption| |assumption].
  intros _ x Hx. destruct dim as [|n]; [destruct dj as [|y dj]; [contradiction|]; inversion H3; lia|]. cbn [seq hd_error]. intros E. injection E as <-.
  destruct dj as [|y dj]; [contradiction|]. inversion H1 as [|? ? _ Hy]; subst. rewrite Forall_forall in Hy. specialize (Hy _ Hx). lia.
Qed.

Lemma flags_ok_pick : forall s degree flags dj, flags_ok s degree flags -> Forall (fun x => (x < length flags)%nat) dj -> flags_ok s degree (pick 0%nat flags dj).
Proof.
  intros s degree flags dj [H1 H2] H. split; [|assumption]. apply Forall_forall. intros f Hf. unfold pick in Hf. apply in_map_iff in Hf as [x [<- Hx]].
  rewrite Forall_forall in H1, H. apply H1, nth_In, H. assumption.
Qed.

Lemma rules_match_pick : forall nodes weights dj, rules_match nodes weights -> Forall (fun x => (x < length nodes)%nat) dj -> rules_match (pick [] nodes dj) (pick [] weights dj).
Proof.
  intros nodes weights dj H Hd. unfold rules_match, pick. induction Hd as [|x dj Hx Hd IH]; cbn [map]; constructor; [|assumption].
  eapply (Forall2_nth _ _ (fun xs ws : list R => length xs = length ws) nodes weights x [] []); assumption.
Qed.

Section Groups.
Variables (s : iset) (degree : nat) (nodes weights : list (list R)) (flags : list nat) (dirs : list (list nat)) (factors : list (list R)).
Let dim := length nodes.
Hypothesis Hu : usable s dim degree.
Hypothesis Hflags : flags_ok s degree flags.
Hypothesis Hlen : length flags = dim.
Hypothesis Hmatch : rules_match nodes weights.
Hypothesis Hgrid : grid_fits nodes.
Hypothesis HP : Permutation (seq 0 dim) (concat dirs).
Hypothesis Hd : Forall (fun dj => increasing dj /\ dj <> [] /\ grid_fits (pick [] nodes dj)) dirs.
Hypothesis Hf : Forall2 (fun dj f => length f = length (grid (pick [] nodes dj))) dirs factors.

Lemma group_in : forall dj f, In (dj, f) (combine dirs factors) -> In dj dirs /\ increasing dj /\ dj <> [] /\ grid_fits (pick [] nodes dj) /\ Forall (fun x => (x < dim)%nat) dj /\
  length f = length (grid (pick [] nodes dj)) /\ (1 <= length dj <= dim)%nat.
Proof.
  intros dj f H. pose proof (in_combine_l _ _ _ _ H) as Hin. rewrite Forall_forall in Hd. destruct (Hd _ Hin) as [H1 [H2 H3]].
  split; [assumption|]. split; [assumption|]. split; [assumption|]. split; [assumption|]. split; [apply (dirs_lt nodes dirs HP); assumption|]. split.
  - clear -Hf H. induction Hf as [|d g ds gs H1 H2 IH]; [contradiction|]. destruct H as [E|Hin]; [injection E as -> ->; assumption|apply IH; assumption].
  - split; [apply length_ge1; assumption|]. pose proof (Permutation_length HP) as E. rewrite seq_length in E. rewrite E. apply sub_length. assumption.
Qed.

Definition group_coefs (pr : list nat * list R) : list R :=
  map (fun m => quadrature (pick [] nodes (fst pr)) (pick [] weights (fst pr)) (snd pr) (phi (pick 0%nat flags (fst pr)) m)) (points s (length (fst pr)) degree).

Lemma group_transform : forall dj f, In (dj, f) (combine dirs factors) ->
  transform fnum_R s degree f (pick [] nodes dj) (pick [] weights dj) (pick 0%nat flags dj) true = Ok (group_coefs (dj, f)).
Proof.
  intros dj f H. destruct (group_in dj f H) as [Hin [H1 [H2 [H3 [H4 [H5 H6]]]]]].
  assert (Lp : forall A (d : A) l, length (pick d l dj) = length dj) by (intros; unfold pick; apply map_length).
  pose proof (transform_forward_R s degree (pick [] nodes dj) (pick [] weights dj) (pick 0%nat flags dj)) as G. rewrite !Lp in G. apply G; try assumption.
  - apply usable_fits. eapply usable_sub; eassumption.
  - apply flags_ok_pick; [assumption|]. rewrite Hlen. assumption.
  - reflexivity.
  - apply rules_match_pick; assumption.
Qed.

Lemma transform_tensor : exists cs out,
  mapM (fun '(dj, f) => transform fnum_R s degree f (pick [] nodes dj) (pick [] weights dj) (pick 0%nat flags dj) true) (combine dirs factors) = Ok cs /\
  tensorize_vec fnum_R s cs dirs = Ok out /\
  transform fnum_R s degree (product_values nodes dirs factors) nodes weights flags true = Ok out.
Proof.
  assert (Hlf : length dirs = length factors) by (eapply Forall2_length; exact Hf).
  assert (Hdim : dim = length (concat dirs)) by (rewrite <- (Permutation_length HP), seq_length; reflexivity).
  assert (Ecs : mapM (fun '(dj, f) => transform fnum_R s degree f (pick [] nodes dj) (pick [] weights dj) (pick 0%nat flags dj) true) (combine dirs factors) = Ok (map group_coefs (combine dirs factors))).
  { apply mapM_Ok_map. intros [dj f] H. apply group_transform. assumption. }
  destruct (tensorize_vec_coef fnum_R s degree dirs (map group_coefs (combine dirs factors)) dim Hdim Hu) as [out [E1 [E2 E3]]].
  - apply Forall_forall. intros dj Hj. rewrite Forall_forall in Hd. destruct (Hd _ Hj) as [H1 [H2 _]]. split; [assumption|]. split; [assumption|]. apply (dirs_lt nodes dirs HP). assumption.
  - revert Hlf. clear. revert factors. induction dirs as [|dj l IH]; intros [|f fs] H; try discriminate; cbn [combine map]; constructor; [unfold vec_for, group_coefs; apply map_length|]. apply IH. cbn in H. lia.
  - exists (map group_coefs (combine dirs factors)), out. split; [exact Ecs|]. split; [exact E1|].
    assert (Efull : transform fnum_R s degree (product_values nodes dirs factors) nodes weights flags true = Ok (map (fun m => quadrature nodes weights (product_values nodes dirs factors) (phi flags m)) (points s dim degree))).
    { apply transform_forward_R; try assumption; [apply usable_fits; assumption|apply product_values_length]. }
    refine (eq_trans Efull _). apply (f_equal (@Ok (list R))). symmetry. apply (coef_ext num_R s dim degree); try assumption; [unfold vec_for; apply map_length|].
    intros m Hm. refine (eq_trans (E3 m Hm) _). unfold coef. rewrite value_map_in by (apply (points_In s dim degree _ Hu); assumption).
    rewrite (quadrature_groups nodes weights dirs factors HP Hmatch Hf (phi flags m) (fun dj => phi (pick 0%nat flags dj) (pick 0%nat m dj))) by (intros x Hx; apply (phi_groups dim dirs); try assumption; apply Hm).
    unfold vproduct. refine (eq_trans (nprod_R _) _). f_equal.
    assert (G : forall l (g : list nat * list R -> R) (k : list nat * list R -> list R) (h : list nat -> list R -> R), (forall dj f, In (dj, f) l -> h dj (k (dj, f)) = g (dj, f)) -> map (fun '(dj, v) => h dj v) (combine (map fst l) (map k l)) = map g l).
    { clear. induction l as [|[dj f] l IH]; intros g k h H; [reflexivity|]. cbn [map combine fst]. rewrite (H dj f) by (left; reflexivity). rewrite (IH g k h); [reflexivity|]. intros. apply H. right. assumption. }
    assert (Hfst : map fst (combine dirs factors) = dirs) by (clear -Hlf; revert factors Hlf; induction dirs as [|d l IH]; intros [|f fs] H; try discriminate; [reflexivity|]; cbn [combine map fst]; rewrite IH by (cbn in H; lia); reflexivity).
    rewrite <- Hfst at 1. rewrite (G _ (fun pr => quadrature (pick [] nodes (fst pr)) (pick [] weights (fst pr)) (snd pr) (phi (pick 0%nat flags (fst pr)) (pick 0%nat m (fst pr))))); [apply map_ext; intros [dj f]; reflexivity|].
    intros dj f Hin. destruct (group_in dj f Hin) as [Hj [H1 [H2 [H3 [H4 [H5 H6]]]]]]. rewrite reindex_pick by (try assumption; apply Hm). unfold coef, group_coefs. cbn [fst snd].
    apply (value_map_in _ (0 : R) (fun m => quadrature (pick [] nodes dj) (pick [] weights dj) f (phi (pick 0%nat flags dj) m))). apply (points_In s (length dj) degree); [eapply usable_sub; eassumption|]. apply (pick_index s dim); assumption.
Qed.

Lemma usable_double : usable s dim (2 * degree) -> usable s dim degree.
Proof. intros [H1 [H2 [H3 H4]]]. split; [assumption|]. split; [lia|]. split; assumption. Qed.

Lemma closed_pick : forall dj, closed_products s degree flags -> increasing dj -> dj <> [] -> Forall (fun x => (x < dim)%nat) dj -> closed_products s degree (pick 0%nat flags dj).
Proof.
  intros dj [H1|H1] Hi Hn Hl.
  - left. unfold pick. rewrite map_length. rewrite Hlen in H1. pose proof (dirs_in_length dim dj (conj Hi (conj Hn Hl))). lia.
  - right. rewrite Forall_forall in Hl. destruct s; try assumption.
    + rewrite Forall_forall in H1. apply Forall_forall. intros f Hin. unfold pick in Hin. apply in_map_iff in Hin as [x [<- Hx]]. apply H1, nth_In. rewrite Hlen. apply Hl. assumption.
    + destruct H1 as [H1|H1]; [left|right; assumption]. rewrite Forall_forall in H1. destruct dj as [|y dj]; [contradiction|]. cbn [pick map tl]. apply Forall_forall. intros f Hin.
      apply in_map_iff in Hin as [x [<- Hx]]. assert (Hxd : (x < dim)%nat) by (apply Hl; right; assumption).
      inversion Hi as [|? ? _ Hy]; subst. rewrite Forall_forall in Hy. specialize (Hy _ Hx). apply H1. destruct flags as [|f0 fs]; [cbn in Hlen; lia|]. destruct x as [|x]; [lia|]. cbn [nth tl]. apply nth_In. cbn in Hlen. lia.
Qed.

Lemma varf_tensor : usable s dim (2 * degree) -> closed_products s degree flags ->
  (forall dj f, In (dj, f) (combine dirs factors) -> nothing_dropped s degree (pick [] nodes dj) (pick [] weights dj) (pick 0%nat flags dj) f) ->
  nothing_dropped s degree nodes weights flags (product_values nodes dirs factors) ->
  exists As A,
  mapM (fun '(dj, f) => varf fnum_R (calc_mat fnum_R) s degree f (pick [] nodes dj) (pick [] weights dj) (pick 0%nat flags dj)) (combine dirs factors) = Ok As /\
  tensorize_mats fnum_R s As dirs = Ok A /\
  varf fnum_R (calc_mat fnum_R) s degree (product_values nodes dirs factors) nodes weights flags = Ok A.
Proof.
  intros Hu2 Hcl Hdrop Hdrop0. pose proof (num_R_laws : num_laws fnum_R) as L.
  assert (Hlf : length dirs = length factors) by (eapply Forall2_length; exact Hf).
  assert (Lp : forall A (d : A) l dj, length (pick d l dj) = length dj) by (intros; unfold pick; apply map_length).
  assert (Hsub : forall dj f, In (dj, f) (combine dirs factors) -> exists M,
    varf fnum_R (calc_mat fnum_R) s degree f (pick [] nodes dj) (pick [] weights dj) (pick 0%nat flags dj) = Ok M /\ @mat_for num_R s (length dj) degree M /\
    forall r c, index_of s (length dj) degree r -> index_of s (length dj) degree c -> @entry num_R s (length dj) degree M r c = galerkin (pick [] nodes dj) (pick [] weights dj) (pick 0%nat flags dj) f r c).
  { intros dj f Hin. destruct (group_in dj f Hin) as [Hj [H1 [H2 [H3 [H4 [H5 H6]]]]]].
    pose proof (varf_galerkin s degree (pick [] nodes dj) (pick [] weights dj) (pick 0%nat flags dj) f) as G. rewrite !Lp in G.
    destruct G as [M [MB [E1 [E2 [_ [_ E3]]]]]]; try assumption; try reflexivity.
    - eapply usable_sub; eassumption.
    - apply usable_fits. eapply usable_sub; eassumption.
    - apply flags_ok_pick; [assumption|]. rewrite Hlen. assumption.
    - apply rules_match_pick; assumption.
    - apply closed_pick; assumption.
    - apply Hdrop. assumption.
    - exists M. split; [exact E1|]. split; [exact E2|]. intros r c Hr Hc. apply E3; assumption. }
  assert (Has : exists As, mapM (fun '(dj, f) => varf fnum_R (calc_mat fnum_R) s degree f (pick [] nodes dj) (pick [] weights dj) (pick 0%nat flags dj)) (combine dirs factors) = Ok As /\
    Forall2 (fun pr M => @mat_for num_R s (length (fst pr)) degree M /\ forall r c, index_of s (length (fst pr)) degree r -> index_of s (length (fst pr)) degree c ->
      @entry num_R s (length (fst pr)) degree M r c = galerkin (pick [] nodes (fst pr)) (pick [] weights (fst pr)) (pick 0%nat flags (fst pr)) (snd pr) r c) (combine dirs factors) As).
  { clear -Hsub. induction (combine dirs factors) as [|[dj f] l IH]; [exists []; split; [reflexivity|constructor]|].
    destruct (Hsub dj f (or_introl eq_refl)) as [M [E1 [E2 E3]]]. destruct IH as [As [F1 F2]]; [intros d g Hg; apply Hsub; right; assumption|].
    exists (M :: As). cbn [mapM]. rewrite E1, F1. split; [reflexivity|]. constructor; [split; assumption|assumption]. }
  destruct Has as [As [EA FA]].
  assert (Hfst : map fst (combine dirs factors) = dirs) by (clear -Hlf; revert factors Hlf; induction dirs as [|d l IH]; intros [|f fs] H; try discriminate; [reflexivity|]; cbn [combine map fst]; rewrite IH by (cbn in H; lia); reflexivity).
  assert (F2 : Forall2 (fun dj M => @mat_for num_R s (length dj) degree M) dirs As).
  { rewrite <- Hfst. clear -FA. induction FA as [|pr M l As [H1 H2] FA IH]; cbn [map]; constructor; assumption. }
  destruct (tensorize_mat_entry fnum_R L s degree dirs As (seq 0 dim)) as [A [T1 [T2 T3]]].
  - apply seq_increasing.
  - exact HP.
  - rewrite seq_length. exact Hu.
  - apply Forall_forall. intros dj Hj. rewrite Forall_forall in Hd. destruct (Hd _ Hj) as [H1 [H2 _]]. auto.
  - exact F2.
  - rewrite seq_length in T2, T3. exists As, A. split; [exact EA|]. split; [exact T1|].
    destruct (varf_galerkin s degree nodes weights flags (product_values nodes dirs factors)) as [M [MB [E1 [E2 [_ [_ E3]]]]]]; try assumption; [apply usable_fits; assumption|apply product_values_length|].
    refine (eq_trans E1 _). apply (f_equal (@Ok (list (list R)))). apply (entry_ext num_R s dim degree); try assumption.
    intros r c Hr Hc. refine (eq_trans (proj1 (E3 r c Hr Hc)) _). symmetry. refine (eq_trans (T3 r c Hr Hc) _).
    unfold galerkin. rewrite (quadrature_groups nodes weights dirs factors HP Hmatch Hf (fun x => phi flags r x * phi flags c x) (fun dj x => phi (pick 0%nat flags dj) (pick 0%nat r dj) x * phi (pick 0%nat flags dj) (pick 0%nat c dj) x)).
    + unfold mproduct. refine (eq_trans (nprod_R _) _). f_equal.
      rewrite <- Hfst at 1. assert (Hgi : forall pr, In pr (combine dirs factors) -> index_of s (length (fst pr)) degree (reindex (seq 0 dim) (fst pr) r) /\ index_of s (length (fst pr)) degree (reindex (seq 0 dim) (fst pr) c) /\
         reindex (seq 0 dim) (fst pr) r = pick 0%nat r (fst pr) /\ reindex (seq 0 dim) (fst pr) c = pick 0%nat c (fst pr)).
      { intros [dj f] Hin. cbn [fst]. destruct (group_in dj f Hin) as [Hj [H1 [H2 [H3 [H4 [H5 H6]]]]]]. rewrite !(reindex_pick dim) by (try assumption; try apply Hr; try apply Hc).
        split; [apply (pick_index s dim); assumption|]. split; [apply (pick_index s dim); assumption|]. split; reflexivity. }
      clear -FA Hgi. induction FA as [|[dj f] M l As [H1 H2] FA IH]; [reflexivity|]. cbn [map combine fst]. rewrite IH by (intros; apply Hgi; right; assumption). f_equal.
      destruct (Hgi _ (or_introl eq_refl)) as [G1 [G2 [G3 G4]]]. cbn [fst snd] in *. refine (eq_trans (H2 _ _ G1 G2) _). rewrite G3, G4. reflexivity.
    + intros x Hx. rewrite (phi_groups dim dirs flags r x), (phi_groups dim dirs flags c x); try assumption; try apply Hr; try apply Hc. rewrite <- rprod_map_mult. reflexivity.
Qed.
End Groups.
