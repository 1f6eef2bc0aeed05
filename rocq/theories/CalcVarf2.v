(** varf over the reals: the sum it computes, and the Galerkin matrix. *)
From Coq Require Import List Bool Arith ZArith Reals Lra Lia Sorted Permutation.
From Verif Require Import Base Lists IndexModel Spec Cross Grid IndexSet Degree Num Fnum LinModel LinSpec LinBase MatBase Tensorize Sparse Facts1 Facts2 Facts3 Facts4 CalcModel CalcSpec CalcBase CalcHermite CalcTransform CalcReal CalcTriple CalcFourier CalcQuad CalcOps CalcVarf.
Import ListNotations.

Local Open Scope R_scope.

Lemma nprod_R : forall l : list R, @nprod num_R l = rprod l.
Proof.
  intros l. change (fold_left Rmult l 1 = rprod l). assert (G : forall (l : list R) a, fold_left Rmult l a = a * rprod l).
  { induction l0 as [|x l0 IH]; intros a; cbn [fold_left]; [unfold rprod; cbn; ring|]. rewrite IH, rprod_cons. ring. }
  rewrite G. ring.
Qed.

Lemma hf_norm_R : forall (h : list nat -> R) pts, hf_norm fnum_R (map h pts) = Rmax 1 (sqrt (rsum (map (fun m => h m * h m) pts))).
Proof.
  intros h pts. unfold hf_norm. cbn [fltb fnum_R fabs fsqrt nadd nmul n0 n1 fn num_R carrier].
  assert (G : forall l a, fold_left (fun acc x => acc + Rabs x * Rabs x) l a = a + rsum (map (fun x => x * x) l)).
  { induction l as [|x l IH]; intros a; cbn [fold_left map]; [unfold rsum; cbn; ring|]. rewrite IH, rsum_cons. rewrite <- Rabs_mult, (Rabs_pos_eq (x * x)) by nra. ring. }
  rewrite G, map_map, Rplus_0_l. destruct (Rlt_dec _ 1); [rewrite Rmax_left; lra|rewrite Rmax_right; lra].
Qed.

Lemma threshold_R : forall (h : list nat -> R) pts, @nmul fnum_R (THRESHOLD fnum_R) (hf_norm fnum_R (map h pts)) = threshold h pts.
Proof.
  intros h pts. rewrite hf_norm_R. unfold threshold, THRESHOLD. cbn [nmul fnum_R fn num_R fdiv n1 fofZ]. f_equal.
  unfold Rdiv. rewrite Rmult_1_l. f_equal. rewrite pow_IZR. reflexivity.
Qed.

Lemma mapM_ext_in : forall A B (f g : A -> res B) l, (forall x, In x l -> f x = g x) -> mapM f l = mapM g l.
Proof.
  intros A B f g. induction l as [|x l IH]; intros H; [reflexivity|]. cbn [mapM]. rewrite H by (left; reflexivity). rewrite IH; [reflexivity|]. intros. apply H. right. assumption.
Qed.

Section Varf.
Variables (C : calcops fnum_R) (rep : mtype fnum_R (co_ops fnum_R C) -> list (list R)) (wf : mtype fnum_R (co_ops fnum_R C) -> nat -> nat -> Prop).
Hypothesis HC : calc_ok fnum_R C rep wf.
Variables (s : iset) (D : nat) (nodes weights : list (list R)) (flags : list nat) (input : list R) (TH TF : list (list (list R))).
Let dim := length nodes.
Let n := length (points s dim D).
Let pts := points s dim (2 * D).
Let h := fun m => quadrature nodes weights input (phi flags m).
Hypothesis Hu : usable s dim D.
Hypothesis Hfit : fits s dim (2 * D).
Hypothesis Hgrid : grid_fits nodes.
Hypothesis Hflags : flags_ok s D flags.
Hypothesis Hlen : length flags = dim.
Hypothesis Hmatch : rules_match nodes weights.
Hypothesis Hin : length input = length (grid nodes).
Hypothesis HTH : triple_products_1d fnum_R D = Ok TH.
Hypothesis HTF : In 1%nat flags -> triple_products_fourier fnum_R D = Ok TF.

Let tab (f : nat) := if (f =? 1)%nat then TF else TH.

Lemma flags_ok_double : flags_ok s (2 * D) flags.
Proof.
  destruct Hflags as [H1 H2]. split.
  - eapply Forall_impl; [|exact H1]. intros f [[-> H]|[-> H]]; [left; lia|right; split; [reflexivity|]]. rewrite Nat.even_mul. reflexivity.
  - intros H. specialize (H2 H). lia.
Qed.

Lemma cross_degree : (1 <= D \/ s <> Cross /\ s <> CrossNc)%nat.
Proof.
  destruct Hflags as [_ H]. destruct s; try (right; split; discriminate); left; apply H; auto.
Qed.

Lemma flag_01 : forall f, In f flags -> flag_ok D f.
Proof. destruct Hflags as [H _]. rewrite Forall_forall in H. exact H. Qed.

Lemma tab_ok : forall f, In f flags -> cwf (F:=fnum_R) (2 * D + 1) (D + 1) (tab f) /\
  (forall i j x, (i <= D)%nat -> (j <= D)%nat -> basis f i x * basis f j x = sumn (2 * D + 1) (fun k => cell (tab f) k i j * basis f k x)) /\
  (f = 0%nat -> forall k i j, (i <= D)%nat -> (j <= D)%nat -> (i + j < k)%nat -> cell (tab f) k i j = 0) /\
  (f = 1%nat -> forall q k i j, (i <= D)%nat -> (j <= D)%nat -> (i <= 2 * q)%nat -> (j <= 2 * q)%nat -> (4 * q < k)%nat -> cell (tab f) k i j = 0).
Proof.
  intros f Hf. destruct (flag_01 f Hf) as [[-> HD]|[-> HE]]; unfold tab; cbn [Nat.eqb].
  - destruct (triple_products_1d_ok D) as [c [E [W [H1 [H2 H3]]]]]. rewrite HTH in E. injection E as <-. split; [exact W|]. split; [exact H3|]. split; [|discriminate]. intros _ k i j Hi Hj Hk. apply H2; auto.
  - destruct (triple_products_fourier_ok D HE) as [c [E [W [H1 [H2 H3]]]]]. rewrite (HTF Hf) in E. injection E as <-. split; [exact W|]. split; [exact H2|]. split; [discriminate|].
    intros _ q k i j Hi Hj Hiq Hjq Hk. refine (eq_trans (H3 k i j Hi Hj) _). destruct (Req_dec (tf k i j) 0) as [|Hz]; [assumption|]. pose proof (tf_support q k i j Hiq Hjq Hz). lia.
Qed.

Lemma pts_bound : forall m, In m pts -> length m = dim /\ forall k, (nth k m 0 <= 2 * D)%nat.
Proof. intros m Hm. apply (points_bound s (2 * D) nodes flags Hfit flags_ok_double m Hm). Qed.

Lemma factors_ok : forall m, In m pts -> exists factors,
  mapM (fun d => f <- vget flags d ;; md <- vget m d ;; vget (if (f =? 1)%nat then TF else TH) md) (seq 0 dim) = Ok factors /\
  length factors = dim /\ Forall (mat_wf (D + 1) (D + 1)) factors /\
  forall r c, axes_product fnum_R factors r c = table_product TH TF flags m r c.
Proof.
  intros m Hm. destruct (pts_bound m Hm) as [Hml Hmb].
  exists (map (fun d => nth (nth d m 0%nat) (tab (nth d flags 0%nat)) []) (seq 0 dim)).
  assert (W : forall d, (d < dim)%nat -> cwf (F:=fnum_R) (2 * D + 1) (D + 1) (tab (nth d flags 0%nat))) by (intros d Hd; apply tab_ok, nth_In; lia).
  split; [|split; [|split]].
  - apply mapM_Ok_map. intros d Hd. apply in_seq in Hd. rewrite (vget_nth_ok _ flags d 0%nat) by lia. cbn [bind]. rewrite (vget_nth_ok _ m d 0%nat) by lia. cbn [bind].
    specialize (W d ltac:(lia)). destruct W as [W1 _]. specialize (Hmb d). apply vget_nth_ok. fold (tab (nth d flags 0%nat)). cbn [fn fnum_R num_R carrier] in *. lia.
  - rewrite map_length, seq_length. reflexivity.
  - apply Forall_forall. intros A HA. apply in_map_iff in HA as [d [<- Hd]]. apply in_seq in Hd. specialize (W d ltac:(lia)). destruct W as [_ W]. apply W. specialize (Hmb d). lia.
  - intros r c. unfold axes_product, table_product. refine (eq_trans (nprod_R _) _). f_equal. rewrite map_length, seq_length, Hlen. apply map_ext_in. intros k Hk. apply in_seq in Hk.
    unfold mnth, cell. rewrite (nth_map_lt _ _ _ _ _ _ 0%nat) by (rewrite seq_length; lia). rewrite seq_nth by lia. reflexivity.
Qed.

Definition kept (m : list nat) : R := if Rlt_dec (Rabs (h m)) (threshold h pts) then 0 else h m.

Definition step (i : nat) (m : list nat) (result : mtype fnum_R (co_ops fnum_R C)) : res (mtype fnum_R (co_ops fnum_R C)) :=
  if fltb (f := fnum_R) (fabs (f := fnum_R) (h m)) (threshold h pts) then Ok result
  else factors <- mapM (fun d => f <- vget flags d ;; md <- vget m d ;; vget (if (f =? 1)%nat then TF else TH) md) (seq 0 dim) ;;
       result_iteration <- tensorize_factors fnum_R C s factors ;; co_axpy fnum_R C result result_iteration (h m).

Lemma entry_mnth : forall A, mat_wf n n A -> forall r c, index_of s dim D r -> index_of s dim D c ->
  @entry num_R s dim D A r c = mnth fnum_R A (idx (points s dim D) r) (idx (points s dim D) c) /\ (idx (points s dim D) r < n)%nat /\ (idx (points s dim D) c < n)%nat.
Proof.
  intros A W r c Hr Hc. apply (points_In s dim D _ Hu) in Hr. apply (points_In s dim D _ Hu) in Hc.
  split; [|split; apply idx_lt; assumption]. unfold entry. apply (mvalue_nth num_R); auto. apply points_NoDup. assumption.
Qed.

Lemma varf_loop : forall l A, (forall p, In p l -> In (snd p) pts) -> wf A n n -> exists A', for_in (fun '(i, m) st => step i m st) l A = Ok A' /\ wf A' n n /\
  forall r c, index_of s dim D r -> index_of s dim D c ->
    @entry num_R s dim D (rep A') r c = @entry num_R s dim D (rep A) r c + rsum (map (fun p => kept (snd p) * table_product TH TF flags (snd p) r c) l).
Proof.
  pose proof (num_R_laws : num_laws fnum_R) as L.
  induction l as [|[i m] l IH]; intros A Hl WA.
  - exists A. split; [reflexivity|]. split; [assumption|]. intros r c _ _. cbn [map]. unfold rsum at 1. cbn [fold_right]. symmetry. apply Rplus_0_r.
  - assert (S1 : exists A1, step i m A = Ok A1 /\ wf A1 n n /\ forall r c, index_of s dim D r -> index_of s dim D c ->
      @entry num_R s dim D (rep A1) r c = @entry num_R s dim D (rep A) r c + kept m * table_product TH TF flags m r c).
    { unfold step, kept. cbn [fltb fabs fnum_R]. destruct (Rlt_dec (Rabs (h m)) (threshold h pts)) as [Ht|Ht].
      - exists A. split; [reflexivity|]. split; [assumption|]. intros r c _ _. rewrite Rmult_0_l. symmetry. apply Rplus_0_r.
      - assert (Hm : In m pts) by (apply (Hl (i, m)); left; reflexivity).
        destruct (factors_ok m Hm) as [factors [E1 [E2 [E3 E4]]]]. rewrite E1. cbn [bind].
        destruct (tensorize_factors_ok fnum_R L C rep wf HC s dim D factors Hu cross_degree E2 E3) as [B [F1 [F2 F3]]]. rewrite F1. cbn [bind]. fold n in F2.
        destruct (cok_axpy _ _ _ _ HC A B n n (h m) WA F2) as [A1 [G1 [G2 G3]]]. exists A1. split; [exact G1|]. split; [exact G2|].
        intros r c Hr Hc. pose proof (cok_ops _ _ _ _ HC) as HO.
        destruct (entry_mnth (rep A1) (ok_mat _ _ _ _ HO _ _ _ G2) r c Hr Hc) as [N1 [N2 N3]].
        destruct (entry_mnth (rep A) (ok_mat _ _ _ _ HO _ _ _ WA) r c Hr Hc) as [M1 _].
        destruct (entry_mnth (rep B) (ok_mat _ _ _ _ HO _ _ _ F2) r c Hr Hc) as [B1 _].
        rewrite N1, G3 by assumption. rewrite <- M1, <- B1. specialize (F3 r c Hr Hc). rewrite E4 in F3. cbn [nadd nmul fnum_R fn num_R]. assert (F4 : @entry num_R s dim D (rep B) r c = table_product TH TF flags m r c) by exact F3. rewrite F4. f_equal. apply Rmult_comm. }
    destruct S1 as [A1 [E1 [W1 V1]]]. destruct (IH A1) as [A' [E2 [W2 V2]]]; [intros p Hp; apply Hl; right; assumption|assumption|].
    exists A'. split; [cbn [for_in]; rewrite E1; exact E2|]. split; [assumption|]. intros r c Hr Hc. rewrite V2, V1 by assumption. cbn [map snd]. rewrite rsum_cons. apply Rplus_assoc.
Qed.

Lemma varf_sum : exists out, varf fnum_R C s D input nodes weights flags = Ok out /\ wf out n n /\
  forall r c, index_of s dim D r -> index_of s dim D c ->
    @entry num_R s dim D (rep out) r c = rsum (map (fun m => kept m * table_product TH TF flags m r c) pts).
Proof.
  pose proof (num_R_laws : num_laws fnum_R) as L.
  destruct (dim_S dim) as [d Ed]; [apply Hfit|]. assert (Hpts : pts = spec_list s d (2 * D)) by (unfold pts; rewrite Ed; apply points_spec_ok; rewrite <- Ed; apply Hfit).
  assert (Hn : n = length (spec_list s d D)) by (unfold n; rewrite Ed; rewrite points_spec_ok; [reflexivity|]; apply (usable_set_ok s (S d) D); rewrite <- Ed; assumption).
  unfold varf. cbv zeta. cbn [carrier fnum_R fn num_R]. fold dim.
  assert (Es : s_size s dim D = Ok (Z.of_nat n)).
  { rewrite Ed, Hn. apply s_size_Ok; [apply (usable_set_ok s (S d) D); rewrite <- Ed; assumption|].
    apply usable_length. rewrite <- Ed. assumption. }
  rewrite Es. cbn [bind].
  assert (Et : transform fnum_R s (2 * D) input nodes weights flags true = Ok (map h pts)).
  { apply transform_forward_R; try assumption. apply flags_ok_double. }
  rewrite Et. cbn [bind]. pose proof (make_iterator_Ok s d (2 * D)) as Em. rewrite Ed, Em by (rewrite <- Ed; apply Hfit). cbn [bind].
  rewrite HTH. cbn [bind].
  match goal with |- context [bind ?x _] => match x with (if existsb _ _ then _ else _) => set (X := x) end end.
  assert (Ef : exists TF', X = Ok TF' /\ (In 1%nat flags -> TF' = TF)).
  { unfold X. destruct (existsb (fun f => f =? 1)%nat flags) eqn:Ex.
    - apply existsb_exists in Ex as [f [Hf E1]]. apply Nat.eqb_eq in E1. subst f. exists TF. auto.
    - exists []. split; [reflexivity|]. intros H1. exfalso. assert (existsb (fun f => f =? 1)%nat flags = true); [|congruence]. apply existsb_exists. exists 1%nat. auto. }
  destruct Ef as [TF' [Ef ETF]]. rewrite Ef. cbn [bind]. rewrite threshold_R. rewrite Nat2Z.id. rewrite reset_fresh.
  rewrite (bind_snd iterator (mtype fnum_R (co_ops fnum_R C)) _ _ (fun r => Ok r)).
  rewrite map_length.
  erewrite (for_each_it _ _ step (spec_list s d (2 * D))); [|shelve|apply fresh_state; rewrite <- Ed; apply Hfit|rewrite <- Hpts; reflexivity].
  cbn [skipn]. destruct (ok_construct _ _ _ _ (cok_ops _ _ _ _ HC) n n) as [W0 R0].
  destruct (varf_loop (enum (spec_list s d (2 * D))) (m_construct num_R (co_ops fnum_R C) n n)) as [A' [E [W V]]]; [|exact W0|].
  { intros [i m] Hp. rewrite Hpts. apply in_combine_r in Hp. exact Hp. }
  exists A'. rewrite E. split; [reflexivity|]. split; [exact W|]. intros r c Hr Hc. rewrite <- Ed in *. rewrite V by assumption.
  assert (Z0 : @entry num_R s dim D (rep (m_construct num_R (co_ops fnum_R C) n n)) r c = 0).
  { destruct (entry_mnth (rep (m_construct num_R (co_ops fnum_R C) n n))) with (r := r) (c := c) as [Z1 [Z2 Z3]]; [|assumption|assumption|].
    - apply (ok_mat _ _ _ _ (cok_ops _ _ _ _ HC)). exact W0.
    - refine (eq_trans Z1 _). refine (eq_trans (f_equal (fun M => mnth fnum_R M _ _) R0) _). unfold mnth, mat_construct. rewrite nth_repeat_any. rewrite (proj2 (Nat.ltb_lt _ _) Z2). rewrite nth_repeat_any. destruct (_ <? _)%nat; reflexivity. }
  rewrite Z0, Rplus_0_l. rewrite Hpts.
  assert (G : forall (g : list nat -> R) (l : list (list nat)) k, map (fun p => g (snd p)) (combine (seq k (length l)) l) = map g l).
  { clear. induction l as [|x l IH]; intros k; cbn [length seq combine map snd]; [reflexivity|]. rewrite IH. reflexivity. }
  f_equal. apply (G (fun m => kept m * table_product TH TF flags m r c)).
  Unshelve.
  intros j it st Hj Hst. pose proof Hst as [H1 [H2 [H3 [H4 H5]]]]. cbv beta iota.
  rewrite H3, Nat.min_l in H4 by lia. unfold vget at 1. rewrite nth_error_map, Hpts, H4. cbn [option_map bind].
  assert (Hm : In (it_multi_index it) pts) by (rewrite Hpts; eapply nth_error_In; exact H4).
  rewrite <- Hpts. unfold step. f_equal. destruct (fltb _ _); [reflexivity|]. rewrite <- Ed. f_equal.
  apply mapM_ext_in. intros k Hk. apply in_seq in Hk. rewrite (vget_nth_ok _ flags k 0%nat) by lia. cbn [bind].
  destruct (vget (it_multi_index it) k); cbn [bind]; try reflexivity. destruct (_ =? 1)%nat eqn:E1; [|reflexivity].
  rewrite ETF; [reflexivity|]. apply Nat.eqb_eq in E1. rewrite <- E1. apply nth_In. lia.
Qed.

(** Products of basis functions. *)
Lemma table_product_cons : forall f fs a m b r e c,
  table_product TH TF (f :: fs) (a :: m) (b :: r) (e :: c) = cell (tab f) a b e * table_product TH TF fs m r c.
Proof.
  intros. unfold table_product. cbn [length seq map]. rewrite rprod_cons. cbn [nth]. f_equal. f_equal. rewrite <- seq_shift, map_map. reflexivity.
Qed.

Lemma product_box : forall fs r c x, incl fs flags -> length r = length fs -> length c = length fs -> length x = length fs ->
  (forall k, (nth k r 0 <= D)%nat) -> (forall k, (nth k c 0 <= D)%nat) ->
  phi fs r x * phi fs c x = rsum (map (fun m => table_product TH TF fs m r c * phi fs m x) (row_major (repeat (2 * D + 1)%nat (length fs)))).
Proof.
  induction fs as [|f fs IH]; intros [|b r] [|e c] [|t x] Hi Hr Hc Hx Br Bc; try discriminate.
  - cbn. unfold phi, table_product, rprod. cbn. ring.
  - cbn [length repeat]. rewrite rsum_row_major_cons. rewrite !phi_cons.
    assert (Hf : In f flags) by (apply Hi; left; reflexivity). destruct (tab_ok f Hf) as [_ [Hlin _]].
    specialize (Hlin b e t (Br 0%nat) (Bc 0%nat)).
    replace (basis f b t * phi fs r x * (basis f e t * phi fs c x)) with ((basis f b t * basis f e t) * (phi fs r x * phi fs c x)) by ring.
    rewrite Hlin, IH; cbn [length] in *; try lia; [|intros g Hg; apply Hi; right; assumption|intros k; apply (Br (S k))|intros k; apply (Bc (S k))].
    rewrite Rmult_comm, <- sumn_mult. apply sumn_ext. intros k Hk. rewrite Rmult_comm, <- rsum_map_mult. apply rsum_map_ext. intros m Hm.
    rewrite table_product_cons, phi_cons. ring.
Qed.

Lemma quadrature_sum : forall A (g : A -> R) (f : A -> list R -> R) l vals,
  quadrature nodes weights vals (fun x => rsum (map (fun a => g a * f a x) l)) = rsum (map (fun a => quadrature nodes weights vals (f a) * g a) l).
Proof.
  intros A g f l vals. unfold quadrature. erewrite (rsum_map_ext _ _ (fun '(y, p) => rsum (map (fun a => y * rprod (at_pos weights p) * f a (at_pos nodes p) * g a) l))).
  - erewrite (rsum_map_ext A _ (fun a => rsum (map (fun '(y, p) => y * rprod (at_pos weights p) * f a (at_pos nodes p) * g a) (combine vals (grid nodes))))).
    + rewrite <- rsum_swap. apply rsum_map_ext. intros [y p] _. reflexivity.
    + intros a _. rewrite <- rsum_map_mult_r. apply rsum_map_ext. intros [y p] _. reflexivity.
  - intros [y p] _. rewrite <- rsum_map_mult. apply rsum_map_ext. intros a _. ring.
Qed.

Lemma index_bound : forall r, index_of s dim D r -> length r = dim /\ forall k, (nth k r 0 <= D)%nat.
Proof.
  intros r [Hl Hr]. split; [assumption|]. intros k. eapply in_set_bound; [apply Hflags|exact Hr].
Qed.

Lemma at_pos_len : forall p, In p (grid nodes) -> length (at_pos nodes p) = dim.
Proof. intros p Hp. apply at_pos_length. apply in_grid in Hp. apply Forall2_length in Hp. exact Hp. Qed.

Lemma galerkin_box : forall r c, index_of s dim D r -> index_of s dim D c ->
  galerkin nodes weights flags input r c = rsum (map (fun m => h m * table_product TH TF flags m r c) (row_major (repeat (2 * D + 1)%nat dim))).
Proof.
  intros r c Hr Hc. apply index_bound in Hr as [Lr Br]. apply index_bound in Hc as [Lc Bc].
  unfold galerkin. etransitivity; [|apply (quadrature_sum _ (fun m => table_product TH TF flags m r c) (phi flags))].
  unfold quadrature. apply rsum_map_ext. intros [y p] Hp. f_equal. apply in_combine_r in Hp. pose proof (at_pos_len p Hp) as Hx. rewrite <- Hlen. apply product_box; try congruence; auto.
Qed.

Lemma rsum_support : forall (f : list nat -> R) l1 l2, NoDup l1 -> NoDup l2 -> incl l2 l1 -> (forall m, In m l1 -> ~ In m l2 -> f m = 0) ->
  rsum (map f l1) = rsum (map f l2).
Proof.
  clear. intros f l1 l2 N1 N2 Hi Hz.
  set (b := fun m => if in_dec (list_eq_dec Nat.eq_dec) m l2 then true else false).
  transitivity (rsum (map f (filter b l1))).
  - clear Hi N1 N2. induction l1 as [|m l1 IH]; [reflexivity|]. cbn [map filter]. rewrite rsum_cons, IH by (intros; apply Hz; [right; assumption|assumption]).
    unfold b at 2. destruct (in_dec _ m l2); [cbn [map]; rewrite rsum_cons; reflexivity|]. rewrite Hz; [ring|left; reflexivity|assumption].
  - assert (P : Permutation (filter b l1) l2).
    { apply NoDup_Permutation; [apply NoDup_filter; assumption|assumption|]. intros m. rewrite filter_In. unfold b. destruct (in_dec _ m l2) as [Hm|Hm]; split; intros H; auto; try (destruct H; discriminate); contradiction. }
    clear - P. apply (Permutation_map f) in P. induction P; rewrite ?rsum_cons; lra.
Qed.

Lemma row_major_glist : forall sizes, row_major sizes = glist sizes.
Proof. clear. induction sizes as [|k l IH]; [reflexivity|]. cbn [row_major glist]. rewrite IH. reflexivity. Qed.

Lemma in_box : forall N k m, In m (row_major (repeat N k)) <-> length m = k /\ forall i, (i < k)%nat -> (nth i m 0 < N)%nat.
Proof.
  clear. intros N k m. rewrite row_major_glist, in_glist. split.
  - revert m. induction k as [|k IH]; intros m H; inversion H; subst; [split; [reflexivity|intros; lia]|].
    match goal with H : Forall2 _ _ _ |- _ => apply IH in H as [H1 H2] end. split; [cbn; congruence|]. intros [|i] Hi; cbn [nth]; [assumption|]. apply H2. lia.
  - revert m. induction k as [|k IH]; intros [|x m] [H1 H2]; try discriminate; constructor; [apply (H2 0%nat); lia|]. apply IH. split; [cbn in H1; congruence|]. intros i Hi. apply (H2 (S i)). lia.
Qed.

Lemma rprod_nz : forall l x, rprod l <> 0 -> In x l -> x <> 0.
Proof. clear. induction l as [|y l IH]; intros x H Hx; [contradiction|]. rewrite rprod_cons in H. destruct Hx as [->|Hx]; [intros ->; lra|]. apply IH; [intros E; rewrite E in H; lra|assumption]. Qed.

Lemma list_sum_nth_le : forall m r c, length m = length r -> length m = length c -> (forall k, (k < length m)%nat -> (nth k m 0 <= nth k r 0 + nth k c 0)%nat) -> (list_sum m <= list_sum r + list_sum c)%nat.
Proof.
  clear. induction m as [|x m IH]; intros [|a r] [|b c] H1 H2 H; try discriminate; [cbn; lia|]. cbn [list_sum fold_right] in *. fold (list_sum m) (list_sum r) (list_sum c).
  specialize (IH r c ltac:(cbn in *; lia) ltac:(cbn in *; lia) (fun k Hk => H (S k) ltac:(cbn; lia))). specialize (H 0%nat ltac:(cbn; lia)). cbn [nth] in H. lia.
Qed.

Lemma closed_support : closed_products s D flags -> forall r c m, index_of s dim D r -> index_of s dim D c ->
  In m (row_major (repeat (2 * D + 1)%nat dim)) -> ~ In m pts -> table_product TH TF flags m r c = 0.
Proof.
  intros Hcl r c m Hr Hc Hm Hn. destruct (Req_dec (table_product TH TF flags m r c) 0) as [E|E]; [assumption|]. exfalso. apply Hn.
  pose proof flag_01 as F01. apply in_box in Hm as [Lm Bm]. pose proof (index_bound r Hr) as [Lr Br]. pose proof (index_bound c Hc) as [Lc Bc].
  assert (NZ : forall k, (k < dim)%nat -> cell (tab (nth k flags 0%nat)) (nth k m 0%nat) (nth k r 0%nat) (nth k c 0%nat) <> 0).
  { intros k Hk. apply (rprod_nz _ _ E). apply in_map_iff. exists k. split; [reflexivity|]. apply in_seq. lia. }
  assert (K : forall k, (k < dim)%nat -> nth k flags 0%nat = 0%nat -> (nth k m 0 <= nth k r 0 + nth k c 0)%nat).
  { intros k Hk Hf. destruct (le_lt_dec (nth k m 0%nat) (nth k r 0%nat + nth k c 0%nat)) as [|Hlt]; [assumption|]. exfalso.
    apply (NZ k Hk). apply tab_ok; auto. apply nth_In. lia. }
  assert (K1 : forall q k, (k < dim)%nat -> nth k flags 0%nat = 1%nat -> (nth k r 0 <= 2 * q)%nat -> (nth k c 0 <= 2 * q)%nat -> (nth k m 0 <= 4 * q)%nat).
  { intros q k Hk Hf H1 H2. destruct (le_lt_dec (nth k m 0%nat) (4 * q)) as [|Hlt]; [assumption|]. exfalso.
    apply (NZ k Hk). assert (Hin' : In (nth k flags 0%nat) flags) by (apply nth_In; lia). apply (proj2 (proj2 (proj2 (tab_ok _ Hin'))) Hf q); auto. }
  apply points_In_ok; [apply Hfit|apply Hfit|]. split; [assumption|]. destruct Hr as [_ Hr]. destruct Hc as [_ Hc].
  destruct Hcl as [H1|Hcl].
  - rewrite Hlen in H1. rewrite H1 in Lm, Bm. destruct m as [|x [|]]; try discriminate. specialize (Bm 0%nat ltac:(lia)). cbn [nth] in Bm.
    destruct s; cbn [in_set list_sum fold_right] in *; try lia; [constructor; [lia|constructor]|rewrite cross_prod_single; lia|rewrite cross_prod_single; lia|split; [lia|constructor]].
  - destruct s; cbn [in_set] in *; try contradiction.
    + rewrite Forall_forall in Hcl. assert (list_sum m <= list_sum r + list_sum c)%nat; [|lia]. apply list_sum_nth_le; try congruence. intros k Hk. apply K; [lia|]. apply Hcl. apply nth_In. lia.
    + apply Forall_forall. intros x Hx. apply (In_nth _ _ 0%nat) in Hx as [k [Hk <-]]. specialize (Bm k ltac:(lia)). lia.
    + destruct m as [|x m]; [exact I|]. destruct r as [|a r]; [cbn in *; lia|]. destruct c as [|b c]; [cbn in *; lia|]. destruct Hr as [_ Hr]. destruct Hc as [_ Hc].
      split; [specialize (Bm 0%nat ltac:(cbn in *; lia)); cbn in Bm; lia|]. apply Forall_forall. intros y Hy. apply (In_nth _ _ 0%nat) in Hy as [k [Hk <-]].
      rewrite Forall_forall in Hr, Hc. assert (Rr : (2 * nth k r 0 <= D)%nat) by (apply Hr, nth_In; cbn in *; lia). assert (Rc : (2 * nth k c 0 <= D)%nat) by (apply Hc, nth_In; cbn in *; lia).
      assert (Hsk : (S k < dim)%nat) by (cbn in *; lia).
      assert (Hf : nth (S k) flags 0%nat = 0%nat \/ nth (S k) flags 0%nat = 1%nat /\ (D mod 4 = 0)%nat).
      { destruct Hcl as [Hcl|Hcl].
        - left. rewrite Forall_forall in Hcl. destruct flags as [|f fs]; [reflexivity|]. cbn [nth tl] in *. destruct (Nat.lt_ge_cases k (length fs)); [apply Hcl, nth_In; assumption|apply nth_overflow; assumption].
        - destruct (F01 (nth (S k) flags 0%nat)) as [[? _]|[? _]]; [apply nth_In; lia|left; assumption|right; split; assumption]. }
      destruct Hf as [Hf|[Hf H4]].
      * specialize (K (S k) Hsk Hf). cbn [nth] in K. lia.
      * apply Nat.mod_divides in H4 as [q Hq]; [|lia]. specialize (K1 q (S k) Hsk Hf). cbn [nth] in K1. lia.
Qed.

Lemma galerkin_points : closed_products s D flags -> forall r c, index_of s dim D r -> index_of s dim D c ->
  galerkin nodes weights flags input r c = rsum (map (fun m => h m * table_product TH TF flags m r c) pts).
Proof.
  intros Hcl r c Hr Hc. rewrite galerkin_box by assumption. apply rsum_support.
  - rewrite row_major_glist. apply NoDup_glist.
  - apply points_NoDup_ok; apply Hfit.
  - intros m Hm. destruct (pts_bound m Hm) as [H1 H2]. apply in_box. split; [assumption|]. intros i _. specialize (H2 i). lia.
  - intros m Hm Hn. rewrite (closed_support Hcl r c m) by assumption. ring.
Qed.

Lemma threshold_pos : 0 <= threshold h pts.
Proof.
  unfold threshold. apply Rmult_le_pos; [left; apply Rinv_0_lt_compat, pow_lt; lra|]. pose proof (Rmax_l 1 (sqrt (rsum (map (fun m => h m * h m) pts)))). lra.
Qed.

Lemma rabs_rsum : forall A (f g : A -> R) l, (forall x, In x l -> Rabs (f x) <= g x) -> Rabs (rsum (map f l)) <= rsum (map g l).
Proof.
  clear. intros A f g. induction l as [|x l IH]; intros H; cbn [map]; [unfold rsum; cbn; rewrite Rabs_R0; lra|]. rewrite !rsum_cons.
  eapply Rle_trans; [apply Rabs_triang|]. apply Rplus_le_compat; [apply H; left; reflexivity|]. apply IH. intros. apply H. right. assumption.
Qed.

Lemma varf_error : closed_products s D flags -> exists out, varf fnum_R C s D input nodes weights flags = Ok out /\ wf out n n /\
  (forall r c, index_of s dim D r -> index_of s dim D c ->
    Rabs (@entry num_R s dim D (rep out) r c - galerkin nodes weights flags input r c) <= threshold h pts * rsum (map (fun m => Rabs (table_product TH TF flags m r c)) pts)) /\
  ((forall m, In m pts -> h m = 0 \/ threshold h pts <= Rabs (h m)) ->
   forall r c, index_of s dim D r -> index_of s dim D c -> @entry num_R s dim D (rep out) r c = galerkin nodes weights flags input r c).
Proof.
  intros Hcl. destruct varf_sum as [out [E [W V]]]. exists out. split; [assumption|]. split; [assumption|]. split.
  - intros r c Hr Hc. rewrite V, galerkin_points by assumption.
    replace (rsum (map (fun m => kept m * table_product TH TF flags m r c) pts) - rsum (map (fun m => h m * table_product TH TF flags m r c) pts))
      with (rsum (map (fun m => (kept m - h m) * table_product TH TF flags m r c) pts)).
    + rewrite <- rsum_map_mult. apply rabs_rsum. intros m Hm. rewrite Rabs_mult. apply Rmult_le_compat_r; [apply Rabs_pos|]. unfold kept.
      destruct (Rlt_dec _ _) as [Hlt|Hlt]; [rewrite Rminus_0_l, Rabs_Ropp; lra|]. replace (h m - h m) with 0 by ring. rewrite Rabs_R0. apply threshold_pos.
    + replace (rsum (map (fun m => h m * table_product TH TF flags m r c) pts)) with ((-1) * rsum (map (fun m => (-1) * (h m * table_product TH TF flags m r c)) pts)) by (rewrite rsum_map_mult; ring).
      rewrite rsum_map_mult. replace (rsum (map (fun m => (kept m - h m) * table_product TH TF flags m r c) pts)) with (rsum (map (fun m => kept m * table_product TH TF flags m r c + (-1) * (h m * table_product TH TF flags m r c)) pts)) by (apply rsum_map_ext; intros; ring).
      rewrite rsum_map_plus, rsum_map_mult. ring.
  - intros Hk r c Hr Hc. rewrite V, galerkin_points by assumption. apply rsum_map_ext. intros m Hm. f_equal. unfold kept. destruct (Rlt_dec _ _); [|reflexivity]. destruct (Hk m Hm); lra.
Qed.
End Varf.
