(** Projections of series. *)
From Coq Require Import String List Bool Arith Reals Lia Lra Sorted Permutation.
From Verif Require Import Base Lists PyBase IndexModel Spec Num LinModel LinSpec LinBase Project Facts2 CalcModel CalcSpec CalcReal CalcTriple CalcQuad CalcTensor PosModel PosSpec PosFacts SeriesModel SeriesSpec SeriesFacts SeriesFacts3 SplitModel PyQuadSpec PyQuadFacts OpQuadSpec ProjModel ProjSpec.
Import ListNotations.

(** relative and absolute directions *)
Lemma rel_exists : forall dirs directions, NoDup dirs -> incl directions dirs -> exists rel, mapM (py_index dirs) directions = Ok rel /\ Forall2 (fun d k => nth_error dirs k = Some d) directions rel.
Proof.
  intros dirs. induction directions as [|d directions IH]; intros Hn Hi; [exists []; split; [reflexivity|constructor]|].
  destruct (py_index_in dirs d (Hi d (or_introl eq_refl))) as (i & H1 & H2). destruct (IH Hn (fun x Hx => Hi x (or_intror Hx))) as (rel & H3 & H4).
  exists (i :: rel). cbn [mapM]. rewrite H1. cbn [bind]. rewrite H3. split; [reflexivity|constructor; assumption].
Qed.
Lemma increasing_nth : forall dirs i j a b, increasing dirs -> nth_error dirs i = Some a -> nth_error dirs j = Some b -> a < b -> i < j.
Proof.
  intros dirs i j a b Hs Hi Hj Hab. destruct (Nat.lt_ge_cases i j) as [H|H]; [exact H|]. exfalso. revert i j Hi Hj H. induction Hs as [|x l Hs IH Hx]; intros [|i] [|j] Hi Hj H; cbn in Hi, Hj; try discriminate; try lia.
  - injection Hi as ->. injection Hj as ->. lia.
  - injection Hj as ->. rewrite Forall_forall in Hx. apply nth_error_In, Hx in Hi. lia.
  - apply (IH i j Hi Hj). lia.
Qed.
Lemma rel_increasing : forall dirs directions rel, increasing dirs -> increasing directions -> Forall2 (fun d k => nth_error dirs k = Some d) directions rel -> increasing rel.
Proof.
  intros dirs directions rel Hs Hi H. induction H as [|d k directions rel Hk H IH]; [constructor|]. inversion Hi as [|? ? Hi' Hd]; subst. constructor; [apply IH; exact Hi'|].
  clear IH Hi Hi'. induction H as [|d' k' directions rel Hk' H IH]; constructor; inversion Hd; subst; [eapply increasing_nth; eassumption|apply IH; assumption].
Qed.
Lemma rel_bound : forall (dirs directions rel : list nat), Forall2 (fun d k => nth_error dirs k = Some d) directions rel -> Forall (fun k => k < length dirs) rel.
Proof. intros dirs directions rel H. induction H as [|d k directions rel Hk H IH]; constructor; [apply nth_error_Some; congruence|exact IH]. Qed.

Lemma lookup_rel : forall dirs directions rel m k d, NoDup dirs -> Forall2 (fun d k => nth_error dirs k = Some d) directions rel -> nth_error dirs k = Some d -> lookup rel m k = lookup directions m d.
Proof.
  intros dirs directions rel m k d Hn H Hk. revert m. induction H as [|d' k' directions rel Hk' H IH]; intros m; [reflexivity|]. destruct m as [|a m]; [reflexivity|]. cbn [lookup].
  destruct (Nat.eqb_spec k' k) as [->|Hne].
  - rewrite Hk in Hk'. injection Hk' as ->. rewrite Nat.eqb_refl. reflexivity.
  - destruct (Nat.eqb_spec d' d) as [->|_]; [|apply IH]. exfalso. apply Hne. apply (proj1 (NoDup_nth_error dirs) Hn); [apply nth_error_Some; congruence|congruence].
Qed.
Lemma reindex_rel : forall dirs directions rel m, NoDup dirs -> Forall2 (fun d k => nth_error dirs k = Some d) directions rel -> reindex rel (seq 0 (length dirs)) m = reindex directions dirs m.
Proof.
  intros dirs directions rel m Hn H. unfold reindex. apply (list_ext_nth _ _ _ 0); [rewrite !map_length, seq_length; reflexivity|]. intros k Hk. rewrite map_length, seq_length in Hk.
  rewrite (nth_indep _ 0 (lookup rel m 0)), map_nth by (rewrite map_length, seq_length; exact Hk). rewrite seq_nth by exact Hk. rewrite (nth_indep (map (lookup directions m) dirs) 0 (lookup directions m 0)), map_nth by (rewrite map_length; exact Hk).
  apply (lookup_rel dirs); [exact Hn|exact H|]. rewrite (nth_error_nth' dirs 0) by exact Hk. reflexivity.
Qed.

Section Series.
Variable N : num.
Variable far : list (list N) -> bool.
Hypothesis Hfar : forall l, far (diag_mat N l) = false.
Variable E : Type.
Variable e_mul : E -> E -> E.
Variable e_1 : E.
Variables add_args mul_args : E -> list E.
Variable free_vars : E -> list nat.
Notation series_project := (series_project N far E e_mul e_1 add_args mul_args free_vars).
Notation fun_project := (fun_project E e_mul e_1 add_args mul_args free_vars).

Theorem project_series : forall (f : series N E) directions w, series_ok f (length (p_dirs (s_pos f))) -> pos_ok (s_pos f) -> increasing (p_dirs (s_pos f)) -> increasing directions -> directions <> [] -> incl directions (p_dirs (s_pos f)) ->
  fun_project (s_factor f) directions = Ok w ->
  exists r, series_project f directions = Ok r /\ series_ok r (length directions) /\ pos_ok (s_pos r) /\ p_dirs (s_pos r) = directions /\ (forall d m v t, In d directions -> records (s_pos f) d m v t -> records (s_pos r) d m v t) /\
    s_set r = s_set f /\ s_factor r = w /\ (forall m, series_index r m <-> index_of (s_set f) (length directions) (s_degree f) m) /\
    forall m, series_index r m -> series_at r m = series_at f (reindex directions (p_dirs (s_pos f)) m).
Proof using Hfar.
  intros f directions w [(_ & P2 & P3) Hc] Hp Hs Hi Hne Hin Hw. destruct Hp as (Hp1 & Hp2). destruct (rel_exists (p_dirs (s_pos f)) directions Hp1 Hin) as (rel & R1 & R2).
  pose proof (rel_increasing _ _ _ Hs Hi R2) as R3. pose proof (rel_bound _ _ _ R2) as R4. pose proof (Forall2_length _ _ _ _ _ R2) as R5.
  assert (R6 : rel <> []) by (destruct rel; [destruct directions; [contradiction|discriminate R5]|discriminate]).
  unfold ProjModel.series_project. rewrite R1. cbn [bind]. unfold p_dim. rewrite P2.
  destruct (project_vec_coef N (s_set f) (length (p_dirs (s_pos f))) (s_degree f) rel (s_coeffs f) P3 Hc R3 R6 R4) as (out & O1 & O2 & O3). rewrite O1. cbn [bind].
  destruct (project_increasing N far (s_pos f) directions Hfar (conj Hp1 Hp2) Hin Hi) as (p & Q1 & Q2 & Q3 & Q4). rewrite Q1. cbn [bind]. rewrite Hw. cbn [bind].
  assert (Hd : dirs_in (length (p_dirs (s_pos f))) rel) by (split; [exact R3|split; assumption]). pose proof (dirs_in_length _ _ Hd) as Hl.
  assert (Hpd : pos_dim p (s_set f) (length directions) (s_degree f)). { split; [rewrite Q3; reflexivity|]. split; [rewrite (proj1 (proj2 Q2)), Q3; reflexivity|]. eapply usable_sub; [exact P3|lia]. }
  rewrite <- R5 in *. destruct (rebuild N E e_1 out p w (s_set f) (length directions) (s_degree f) Hpd O2) as (r & E1 & E2 & E3 & E4 & E5 & E6 & E7 & E8).
  exists r. split; [exact E1|]. split; [exact E2|]. rewrite E3. split; [exact Q2|]. split; [exact Q3|]. split; [exact Q4|]. split; [exact E4|]. split; [exact E5|]. split; [exact E7|].
  intros m Hm. apply E7 in Hm. rewrite E8, O3 by exact Hm. rewrite (reindex_rel _ _ _ _ Hp1 R2). reflexivity.
Qed.

Theorem project_missing : forall (f : series N E) directions, ~ incl directions (p_dirs (s_pos f)) -> series_project f directions = Throw "ValueError"%string.
Proof using.
  intros f directions H. unfold ProjModel.series_project. replace (mapM (py_index (p_dirs (s_pos f))) directions) with (@Throw (list nat) "ValueError"%string); [reflexivity|].
  induction directions as [|d directions IH]; [exfalso; apply H; intros x []|]. cbn [mapM]. destruct (in_dec Nat.eq_dec d (p_dirs (s_pos f))) as [Hd|Hd].
  - destruct (py_index_in _ _ Hd) as (i & -> & _). cbn [bind]. rewrite <- IH; [reflexivity|]. intros G. apply H. intros x [<-|Hx]; [exact Hd|apply G; exact Hx].
  - rewrite py_index_throw by exact Hd. reflexivity.
Qed.
Theorem project_order : forall (f : series N E) directions r, pos_ok (s_pos f) -> series_project f directions = Ok r -> StronglySorted le directions.
Proof using.
  intros f directions r Hp H. unfold ProjModel.series_project in H. destruct (mapM _ _) as [rel| | | |]; cbn [bind] in H; try discriminate H. destruct (project_vec _ _ _ _ _) as [cs| | | |]; cbn [bind] in H; try discriminate H.
  destruct (pos_project N far (s_pos f) directions) as [p| | | |] eqn:Hpp; cbn [bind] in H; try discriminate H.
  unfold pos_project in Hpp. replace (p_is_diag (s_pos f)) with true in Hpp by (symmetry; apply Hp). cbn [andb] in Hpp. destruct (nats_eqb directions (py_sorted directions)) eqn:Hn; [|discriminate Hpp].
  apply nats_eqb_eq in Hn. rewrite Hn. apply py_sorted_sorted.
Qed.
Theorem project_factor : forall (f : series N E) directions e, series_ok f (length (p_dirs (s_pos f))) -> pos_ok (s_pos f) -> increasing (p_dirs (s_pos f)) -> increasing directions -> directions <> [] -> incl directions (p_dirs (s_pos f)) ->
  fun_project (s_factor f) directions = Throw e -> series_project f directions = Throw e.
Proof using Hfar.
  intros f directions e [(_ & P2 & P3) Hc] Hp Hs Hi Hne Hin Hw. destruct Hp as (Hp1 & Hp2). destruct (rel_exists (p_dirs (s_pos f)) directions Hp1 Hin) as (rel & R1 & R2).
  pose proof (rel_increasing _ _ _ Hs Hi R2) as R3. pose proof (rel_bound _ _ _ R2) as R4. pose proof (Forall2_length _ _ _ _ _ R2) as R5.
  assert (R6 : rel <> []) by (destruct rel; [destruct directions; [contradiction|discriminate R5]|discriminate]).
  unfold ProjModel.series_project. rewrite R1. cbn [bind]. unfold p_dim. rewrite P2.
  destruct (project_vec_coef N (s_set f) (length (p_dirs (s_pos f))) (s_degree f) rel (s_coeffs f) P3 Hc R3 R6 R4) as (out & O1 & O2 & O3). rewrite O1. cbn [bind].
  destruct (project_increasing N far (s_pos f) directions Hfar (conj Hp1 Hp2) Hin Hi) as (p & Q1 & Q2 & Q3 & Q4). rewrite Q1. cbn [bind]. rewrite Hw. reflexivity.
Qed.

Theorem varf_project_raises : forall (v : SeriesModel.varf N E) directions, directions <> [] -> varf_project N far E e_mul e_1 add_args mul_args free_vars v directions = Throw "AttributeError"%string.
Proof using. intros v [|d directions] H; [contradiction|]. reflexivity. Qed.
End Series.

(** averages over the other directions *)
Local Open Scope R_scope.
Lemma hermite_averages : forall degree xs ws, exact_rule degree 0 xs ws -> averages degree 0 xs ws.
Proof.
  intros degree xs ws [H1 H2]. split; [exact H1|]. intros n Hn. rewrite <- (H2 n 0%nat Hn (Nat.le_0_l _)). apply rsum_map_ext. intros [x w] _. unfold basis. cbn [Nat.eqb]. unfold hermite at 3. cbn [fact He]. change (INR 1) with 1. rewrite sqrt_1. unfold Rdiv. rewrite Rinv_1. ring.
Qed.
Lemma fourier_averages : forall degree xs ws, exact_rule degree 1 xs ws -> averages degree 1 xs (map (fun w => w / sqrt (2 * PI)) ws).
Proof.
  intros degree xs ws [H1 H2]. split; [rewrite map_length; exact H1|]. intros n Hn. rewrite <- (H2 n 0%nat Hn (Nat.le_0_l _)).
  assert (G : forall (f : R -> R -> R) (h : R -> R) a b, rsum (map (fun '(x, w) => f x w) (combine a (map h b))) = rsum (map (fun '(x, w) => f x (h w)) (combine a b))).
  { intros f h a. induction a as [|x a IH]; intros [|y b]; try reflexivity. cbn [map combine]. rewrite !rsum_cons, IH. reflexivity. }
  rewrite (G (fun x w => w * basis 1 n x)). apply rsum_map_ext. intros [x w] _. unfold basis at 3. cbn [Nat.eqb]. unfold fourier at 1. cbn [Nat.eqb]. unfold Rdiv. ring.
Qed.

Definition rule_value (flags : list nat) (nodes weights : list (list R)) (m : list nat) (k : nat) : R :=
  rsum (map (fun '(x, w) => w * basis (nth k flags 0%nat) (nth k m 0%nat) x) (combine (nth k nodes []) (nth k weights []))).
Lemma grid_phi : forall nodes weights flags m, length weights = length nodes -> length flags = length nodes -> length m = length nodes -> (forall k, (k < length nodes)%nat -> length (nth k nodes []) = length (nth k weights [])) ->
  rsum (map (fun p => rprod (at_pos weights p) * phi flags m (at_pos nodes p)) (grid nodes)) = rprod (map (rule_value flags nodes weights m) (seq 0 (length nodes))).
Proof.
  induction nodes as [|xs nodes IH]; intros [|ws weights] [|f flags] [|a m] Hw Hf Hm Hl; try discriminate; [cbn; lra|].
  cbn [length] in *. unfold grid. cbn [map]. rewrite rsum_row_major_cons. fold (grid nodes). cbn [seq map]. rewrite rprod_cons.
  assert (Hl' : forall k, (k < length nodes)%nat -> length (nth k nodes []) = length (nth k weights [])) by (intros k Hk; apply (Hl (S k)); lia).
  rewrite (sumn_ext _ _ (fun i => nth i ws 0 * basis f a (nth i xs 0) * rprod (map (rule_value flags nodes weights m) (seq 0 (length nodes))))).
  - rewrite (sumn_combine (fun x w => w * basis f a x * rprod (map (rule_value flags nodes weights m) (seq 0 (length nodes)))) xs ws (Hl 0%nat ltac:(lia))).
    rewrite <- seq_shift, map_map. unfold rule_value at 2. cbn [nth]. rewrite <- rsum_map_mult_r. apply rsum_map_ext. intros [x w] _. f_equal.
  - intros i Hi. rewrite <- (IH weights flags m ltac:(lia) ltac:(lia) ltac:(lia) Hl'). rewrite <- rsum_map_mult. apply rsum_map_ext. intros p _. unfold at_pos. cbn [combine map]. rewrite !phi_cons, rprod_cons. ring.
Qed.

Lemma rsum_embed : forall A B (eqA : forall a a' : A, {a = a'} + {a <> a'}) (g : A -> R) (h : B -> R) (e : B -> A) P Q, NoDup P -> NoDup Q -> (forall b b', In b Q -> In b' Q -> e b = e b' -> b = b') ->
  (forall a, In a P -> (forall b, In b Q -> e b <> a) -> g a = 0) -> (forall b, In b Q -> In (e b) P -> h b = g (e b)) -> (forall b, In b Q -> ~ In (e b) P -> h b = 0) ->
  rsum (map g P) = rsum (map h Q).
Proof.
  intros A B eqA g h e P Q NP NQ Hinj H1 H2 H3.
  set (inP := fun b => if in_dec eqA (e b) P then true else false). set (im := fun a => if in_dec eqA a (map e Q) then true else false).
  assert (F : forall C (u : C -> R) t l, (forall x, In x l -> t x = false -> u x = 0) -> rsum (map u (filter t l)) = rsum (map u l)).
  { clear. intros C u t. induction l as [|x l IH]; intros H; [reflexivity|]. cbn [filter map]. rewrite rsum_cons. destruct (t x) eqn:Ht; cbn [map]; rewrite ?rsum_cons, IH; try (intros y Hy; apply H; right; exact Hy); [reflexivity|]. rewrite (H x (or_introl eq_refl) Ht). ring. }
  rewrite <- (F _ g im P). 2: { intros a Ha Ht. apply H1; [exact Ha|]. intros b Hb <-. unfold im in Ht. destruct (in_dec eqA (e b) (map e Q)) as [_|Hn]; [discriminate Ht|]. apply Hn. apply in_map. exact Hb. }
  rewrite <- (F _ h inP Q). 2: { intros b Hb Ht. apply H3; [exact Hb|]. unfold inP in Ht. destruct (in_dec eqA (e b) P) as [_|Hn]; [discriminate Ht|exact Hn]. }
  transitivity (rsum (map g (map e (filter inP Q)))).
  - apply rsum_perm, Permutation_map, NoDup_Permutation.
    + apply NoDup_filter. exact NP.
    + assert (G : forall l, incl l Q -> NoDup l -> NoDup (map e l)).
      { induction l as [|b l IH]; intros Hi Hn; [constructor|]. inversion Hn as [|? ? Hb Hn']; subst. cbn [map]. constructor; [|apply IH; [intros x Hx; apply Hi; right; exact Hx|exact Hn']].
        intros Hin. apply in_map_iff in Hin as (b' & E1 & E2). apply Hinj in E1; [subst; contradiction|apply Hi; right; exact E2|apply Hi; left; reflexivity]. }
      apply G; [intros x Hx; apply filter_In in Hx; tauto|apply NoDup_filter; exact NQ].
    + intros a. rewrite filter_In, in_map_iff. unfold im. split.
      * intros [Ha Ht]. destruct (in_dec eqA a (map e Q)) as [Hi|_]; [|discriminate Ht]. apply in_map_iff in Hi as (b & <- & Hb). exists b. split; [reflexivity|]. apply filter_In. split; [exact Hb|]. unfold inP. destruct (in_dec eqA (e b) P); [reflexivity|contradiction].
      * intros (b & <- & Hb). apply filter_In in Hb as [Hb Ht]. unfold inP in Ht. destruct (in_dec eqA (e b) P) as [Hi|_]; [|discriminate Ht]. split; [exact Hi|]. destruct (in_dec eqA (e b) (map e Q)) as [_|Hn]; [reflexivity|]. exfalso. apply Hn. apply in_map. exact Hb.
  - rewrite map_map. apply rsum_map_ext. intros b Hb. apply filter_In in Hb as [Hb Ht]. unfold inP in Ht. destruct (in_dec eqA (e b) P) as [Hi|_]; [|discriminate Ht]. symmetry. apply H2; assumption.
Qed.

Section Marginal.
Variables (s : iset) (dim degree : nat) (rel : list nat) (flags : list nat) (nodes weights : list (list R)) (x : list R).
Hypothesis Hu : usable s dim degree.
Hypothesis Hdeg : (s = Cross \/ s = CrossNc) -> (1 <= degree)%nat.
Hypothesis Hrel : dirs_in dim rel.
Hypothesis Hflags : length flags = dim.
Hypothesis Hnodes : length nodes = dim.
Hypothesis Hweights : length weights = dim.
Hypothesis Hx : length x = length rel.
Hypothesis Hkept : forall j k, nth_error rel j = Some k -> nth k nodes [] = [nth j x 0] /\ nth k weights [] = [1].
Hypothesis Hother : forall k, (k < dim)%nat -> ~ In k rel -> averages degree (nth k flags 0%nat) (nth k nodes []) (nth k weights []).

Lemma match_rules : forall k, (k < dim)%nat -> length (nth k nodes []) = length (nth k weights []).
Proof using Hkept Hother.
  intros k Hk. destruct (in_dec Nat.eq_dec k rel) as [Hi|Hn]; [|apply (Hother k Hk Hn)]. apply In_nth_error in Hi as [j Hj]. destruct (Hkept j k Hj) as [-> ->]. reflexivity.
Qed.
Lemma seq_split : Permutation (seq 0 dim) (rel ++ filter (fun k => negb (existsb (Nat.eqb k) rel)) (seq 0 dim)).
Proof using All.
  destruct Hrel as (H1 & H2 & H3). rewrite Forall_forall in H3. apply NoDup_Permutation; [apply seq_NoDup| |].
  - apply NoDup_app_intro; [apply increasing_NoDup; exact H1|apply NoDup_filter, seq_NoDup|]. intros k Hk Hf. apply filter_In in Hf as [_ Hf]. apply negb_true_iff in Hf. assert (G : existsb (Nat.eqb k) rel = true) by (apply existsb_exists; exists k; split; [exact Hk|apply Nat.eqb_refl]). congruence.
  - intros k. rewrite in_app_iff, filter_In, in_seq. split.
    + intros Hk. destruct (in_dec Nat.eq_dec k rel) as [Hi|Hn]; [left; exact Hi|right]. split; [lia|]. apply negb_true_iff. apply not_true_is_false. intros G. apply existsb_exists in G as (y & Hy & E). apply Nat.eqb_eq in E. subst. contradiction.
    + intros [Hk|[Hk _]]; [|lia]. specialize (H3 k Hk). lia.
Qed.

Lemma kept_value : forall m j k, nth_error rel j = Some k -> rule_value flags nodes weights m k = basis (nth k flags 0%nat) (nth k m 0%nat) (nth j x 0).
Proof using All. intros m j k Hj. destruct (Hkept j k Hj) as [H1 H2]. unfold rule_value. rewrite H1, H2. cbn [combine map]. unfold rsum. cbn. ring. Qed.
Lemma other_value : forall m k, (nth k m 0 <= degree)%nat -> (k < dim)%nat -> ~ In k rel -> rule_value flags nodes weights m k = if (nth k m 0 =? 0)%nat then 1 else 0.
Proof using All. intros m k Hm Hk Hn. apply (proj2 (Hother k Hk Hn)). exact Hm. Qed.
Lemma rprod_zero : forall A (f : A -> R) l a, In a l -> f a = 0 -> rprod (map f l) = 0.
Proof using. intros A f. induction l as [|b l IH]; intros a Ha H; [destruct Ha|]. cbn [map]. rewrite rprod_cons. destruct Ha as [->|Ha]; [rewrite H; ring|rewrite (IH a Ha H); ring]. Qed.
Lemma rprod_one : forall A (f : A -> R) l, (forall a, In a l -> f a = 1) -> rprod (map f l) = 1.
Proof using. intros A f. induction l as [|b l IH]; intros H; [reflexivity|]. cbn [map]. rewrite rprod_cons, (H b (or_introl eq_refl)), IH; [ring|]. intros a Ha. apply H. right. exact Ha. Qed.

Lemma restrict_nth : forall m, length m = dim -> restrict dim rel m = map (fun k => nth k m 0%nat) rel.
Proof using All. intros m Hm. unfold restrict, reindex. apply map_ext_in. intros k Hk. rewrite <- Hm. destruct Hrel as (_ & _ & H3). rewrite Forall_forall in H3. apply lookup_seq. rewrite Hm. apply H3. exact Hk. Qed.

Lemma rel_phi : forall m, length m = dim -> rprod (map (rule_value flags nodes weights m) rel) = phi (map (fun k => nth k flags 0%nat) rel) (restrict dim rel m) x.
Proof using All.
  intros m Hm. rewrite restrict_nth by exact Hm. clear -Hkept Hx. revert x Hx Hkept. induction rel as [|k rel' IH]; intros [|t x'] Hx' Hk; try discriminate Hx'; [reflexivity|].
  cbn [map]. rewrite rprod_cons, phi_cons. rewrite <- (IH x'); [|cbn in Hx'; lia|intros j k' Hj; apply (Hk (S j) k' Hj)]. f_equal. destruct (Hk 0%nat k eq_refl) as [H1 H2]. unfold rule_value. rewrite H1, H2. cbn [combine map nth]. unfold rsum. cbn. ring.
Qed.

Theorem marginal_sum : forall c : list R,
  rsum (map (fun p => rprod (at_pos weights p) * CalcSpec.series s degree flags c (at_pos nodes p)) (grid nodes)) =
  rsum (map (fun m => @coef num_R s dim degree c (embed dim rel m) * phi (map (fun k => nth k flags 0%nat) rel) m x) (points s (length rel) degree)).
Proof using Hu Hdeg Hrel Hflags Hnodes Hweights Hx Hkept Hother.
  intros c. unfold CalcSpec.series. rewrite Hflags.
  transitivity (rsum (map (fun m => @coef num_R s dim degree c m * rprod (map (rule_value flags nodes weights m) (seq 0 dim))) (points s dim degree))).
  { rewrite (rsum_map_ext _ _ (fun p => rsum (map (fun m => rprod (at_pos weights p) * (@coef num_R s dim degree c m * phi flags m (at_pos nodes p))) (points s dim degree)))) by (intros p _; symmetry; apply rsum_map_mult).
    rewrite rsum_swap. apply rsum_map_ext. intros m Hm. apply points_In in Hm; [|exact Hu]. rewrite <- Hnodes. rewrite <- grid_phi; [|rewrite Hnodes; exact Hweights|rewrite Hnodes; exact Hflags|rewrite Hnodes; apply Hm|rewrite Hnodes; exact match_rules].
    rewrite <- rsum_map_mult. apply rsum_map_ext. intros p _. ring. }
  pose proof (dirs_in_length _ _ Hrel) as Hl. assert (Hus : usable s (length rel) degree) by (eapply usable_sub; [exact Hu|lia]).
  assert (Bound : forall m k, index_of s dim degree m -> (nth k m 0 <= degree)%nat) by (intros m k [_ Hm]; eapply in_set_bound; [exact Hdeg|exact Hm]).
  assert (Val : forall m, index_of s dim degree m -> (forall k, (k < dim)%nat -> ~ In k rel -> nth k m 0 = 0)%nat -> rprod (map (rule_value flags nodes weights m) (seq 0 dim)) = phi (map (fun k => nth k flags 0%nat) rel) (restrict dim rel m) x).
  { intros m Hm Hz. rewrite (rprod_perm _ _ (Permutation_map _ seq_split)), map_app, rprod_app, rel_phi by apply Hm. rewrite rprod_one; [ring|]. intros k Hk. apply filter_In in Hk as [Hk Hn]. apply in_seq in Hk.
    assert (Hn' : ~ In k rel). { intros G. apply negb_true_iff in Hn. assert (G' : existsb (Nat.eqb k) rel = true) by (apply existsb_exists; exists k; split; [exact G|apply Nat.eqb_refl]). congruence. }
    rewrite other_value; [rewrite Hz by (lia || assumption); reflexivity|apply Bound; exact Hm|lia|exact Hn']. }
  assert (Emb : forall m k, (k < dim)%nat -> ~ In k rel -> nth k (embed dim rel m) 0%nat = 0%nat).
  { intros m k Hk Hn. unfold embed, reindex. rewrite (nth_indep _ 0%nat (lookup rel m 0)) by (rewrite map_length, seq_length; exact Hk). rewrite map_nth, seq_nth by exact Hk. cbn [Nat.add]. clear -Hn. revert m. induction rel as [|y l IH]; intros m; [reflexivity|]. destruct m as [|a m]; [reflexivity|]. cbn [lookup].
    destruct (Nat.eqb_spec y k) as [->|_]; [exfalso; apply Hn; left; reflexivity|]. apply IH. intros G. apply Hn. right. exact G. }
  apply (rsum_embed _ _ (list_eq_dec Nat.eq_dec) _ _ (embed dim rel)).
  - apply points_NoDup. exact Hu.
  - apply points_NoDup. exact Hus.
  - intros b b' Hb Hb' H. apply points_In in Hb as [Hb _]; [|exact Hus]. apply points_In in Hb' as [Hb' _]; [|exact Hus]. rewrite <- (restrict_embed dim rel b Hrel Hb), <- (restrict_embed dim rel b' Hrel Hb'), H. reflexivity.
  - intros m Hm Hno. apply points_In in Hm; [|exact Hu].
    assert (G : exists k, (k < dim)%nat /\ ~ In k rel /\ nth k m 0%nat <> 0%nat).
    { destruct (existsb (fun k => negb (existsb (Nat.eqb k) rel) && negb (nth k m 0 =? 0)%nat) (seq 0 dim)) eqn:Hex.
      - apply existsb_exists in Hex as (k & Hk & Ht). apply in_seq in Hk. apply andb_true_iff in Ht as [T1 T2]. apply negb_true_iff in T1, T2. exists k. split; [lia|]. split; [|apply Nat.eqb_neq; exact T2].
        intros G. assert (G' : existsb (Nat.eqb k) rel = true) by (apply existsb_exists; exists k; split; [exact G|apply Nat.eqb_refl]). congruence.
      - exfalso. apply (Hno (restrict dim rel m)).
        + apply points_In; [exact Hus|]. split; [unfold restrict; apply reindex_length|apply restrict_in; [exact Hrel|apply Hm]].
        + apply (list_ext_nth _ _ _ 0%nat); [rewrite embed_length; symmetry; apply Hm|]. intros k Hk. rewrite embed_length in Hk. destruct (in_dec Nat.eq_dec k rel) as [Hi|Hn].
          * unfold embed, reindex. rewrite (nth_indep _ 0%nat (lookup rel (restrict dim rel m) 0)) by (rewrite map_length, seq_length; exact Hk). rewrite map_nth, seq_nth by exact Hk. cbn [Nat.add]. rewrite restrict_nth by apply Hm.
            clear -Hi. induction rel as [|y l IH]; [destruct Hi|]. cbn [map lookup]. destruct (Nat.eqb_spec y k) as [->|Hne]; [reflexivity|]. apply IH. destruct Hi as [Hi|Hi]; [contradiction|exact Hi].
          * rewrite Emb by assumption. apply not_true_iff_false in Hex. destruct (Nat.eq_dec (nth k m 0) 0)%nat as [->|Hz]; [reflexivity|]. exfalso. apply Hex. apply existsb_exists. exists k. split; [apply in_seq; lia|].
            apply andb_true_iff. split; [|apply negb_true_iff, Nat.eqb_neq; exact Hz]. apply negb_true_iff. apply not_true_is_false. intros G. apply existsb_exists in G as (y & Hy & E0). apply Nat.eqb_eq in E0. subst. contradiction. }
    destruct G as (k & G1 & G2 & G3). rewrite (rprod_zero _ _ (seq 0 dim) k); [ring|apply in_seq; lia|]. rewrite other_value by (try apply Bound; assumption). apply Nat.eqb_neq in G3. rewrite G3. reflexivity.
  - intros b Hb Hin. apply points_In in Hb as [Hb _]; [|exact Hus]. apply points_In in Hin; [|exact Hu]. rewrite Val; [|exact Hin|intros k Hk Hn; apply Emb; assumption]. rewrite restrict_embed by assumption. reflexivity.
  - intros b Hb Hn. unfold coef. rewrite (value_notin _ (@n0 num_R) (points s dim degree)) by exact Hn. apply Rmult_0_l.
Qed.
End Marginal.

Lemma integral_sum : forall nodes weights g, integral nodes weights g = rsum (map (fun p => rprod (at_pos weights p) * g (at_pos nodes p)) (grid nodes)).
Proof.
  intros nodes weights g. unfold integral, quadrature. generalize (grid nodes). induction l as [|p l IH]; [reflexivity|]. cbn [map combine]. rewrite !rsum_cons, IH. ring.
Qed.
Lemma NoDup_nth_error_eq : forall A (l : list A) i j a, NoDup l -> nth_error l i = Some a -> nth_error l j = Some a -> i = j.
Proof. intros A l i j a Hn Hi Hj. rewrite NoDup_nth_error in Hn. apply Hn; [apply nth_error_Some; congruence|congruence]. Qed.
Lemma in_nth_error : forall A (l : list A) n, (n < length l)%nat -> exists a, nth_error l n = Some a.
Proof. intros A l n H. apply nth_error_Some in H. destruct (nth_error l n) as [a|]; [exists a; reflexivity|contradiction]. Qed.

Section Mean.
Variable far : list (list R) -> bool.
Hypothesis Hfar : forall l, far (diag_mat num_R l) = false.
Variable E : Type.
Variable e_mul : E -> E -> E.
Variable e_1 : E.
Variables add_args mul_args : E -> list E.
Variable free_vars : E -> list nat.
Notation series_project := (series_project num_R far E e_mul e_1 add_args mul_args free_vars).
Notation fun_project := (fun_project E e_mul e_1 add_args mul_args free_vars).

Theorem project_marginal : forall (f r : SeriesModel.series num_R E) directions w x nodes weights, series_ok f (length (p_dirs (s_pos f))) -> pos_ok (s_pos f) -> increasing (p_dirs (s_pos f)) -> increasing directions -> directions <> [] -> incl directions (p_dirs (s_pos f)) ->
  fun_project (s_factor f) directions = Ok w -> (s_set f = Cross \/ s_set f = CrossNc -> (1 <= s_degree f)%nat) -> length x = length directions ->
  average_but (p_dirs (s_pos f)) directions x (s_degree f) (kinds (p_types (s_pos f))) nodes weights ->
  series_project f directions = Ok r ->
  CalcSpec.series (s_set r) (s_degree r) (kinds (p_types (s_pos r))) (s_coeffs r) x = integral nodes weights (CalcSpec.series (s_set f) (s_degree f) (kinds (p_types (s_pos f))) (s_coeffs f)).
Proof using Hfar.
  intros f r directions w x nodes weights Hf Hp Hs Hi Hne Hin Hw Hdeg Hx (An & Aw & Ak) Hr.
  destruct (project_series num_R far Hfar E e_mul e_1 add_args mul_args free_vars f directions w Hf Hp Hs Hi Hne Hin Hw) as (r' & R1 & R2 & R3 & R4 & R5 & R6 & R7 & R8 & R9).
  rewrite Hr in R1. injection R1 as <-. destruct Hp as (P1 & P2 & P3 & P4 & P5). destruct R3 as (S1 & S2 & S3 & S4 & S5). destruct Hf as [(F1 & F2 & F3) Fc]. destruct R2 as [(G1 & G2 & G3) Gc].
  destruct (rel_exists (p_dirs (s_pos f)) directions P1 Hin) as (rel & _ & L2). pose proof (rel_increasing _ _ _ Hs Hi L2) as L3. pose proof (rel_bound _ _ _ L2) as L4. pose proof (Forall2_length _ _ _ _ _ L2) as L5.
  assert (L6 : rel <> []) by (destruct rel; [destruct directions; [contradiction|discriminate L5]|discriminate]).
  assert (Hd : dirs_in (length (p_dirs (s_pos f))) rel) by (split; [exact L3|split; assumption]).
  assert (Lk : forall j k, nth_error rel j = Some k -> exists d, nth_error directions j = Some d /\ nth_error (p_dirs (s_pos f)) k = Some d).
  { clear -L2. induction L2 as [|d k ds ks H1 H2 IH]; intros [|j] k' Hj; try discriminate Hj; [injection Hj as <-; exists d; split; [reflexivity|exact H1]|apply (IH j k' Hj)]. }
  assert (Kl : length (kinds (p_types (s_pos f))) = length (p_dirs (s_pos f))) by (unfold kinds; rewrite map_length; exact P4).
  assert (Kr : kinds (p_types (s_pos r)) = map (fun k => nth k (kinds (p_types (s_pos f))) 0%nat) rel).
  { apply PyQuadFacts.nth_error_ext. intros j. destruct (Nat.lt_ge_cases j (length directions)) as [Hj|Hj].
    - assert (Hj' : (j < length rel)%nat) by lia. destruct (in_nth_error _ rel j Hj') as [k Hk]. rewrite (map_nth_error _ _ _ Hk). destruct (Lk j k Hk) as (d & D1 & D2).
      assert (Bk : (k < length (p_dirs (s_pos f)))%nat) by (apply nth_error_Some; congruence).
      destruct (in_nth_error _ (p_mean (s_pos f)) k) as [me M1]; [rewrite P2; exact Bk|]. destruct P3 as [C1 C2]. destruct (in_nth_error _ (p_cov (s_pos f)) k) as [row M2]; [rewrite C1; exact Bk|].
      rewrite Forall_forall in C2. destruct (in_nth_error _ row k) as [va M3]; [rewrite (C2 row (nth_error_In _ _ M2)); exact Bk|]. destruct (in_nth_error _ (p_types (s_pos f)) k) as [ty M4]; [rewrite P4; exact Bk|].
      destruct (R5 d me va ty (nth_error_In _ _ D1)) as (i & row' & N1 & _ & _ & _ & N5); [exists k, row; auto|].
      rewrite R4 in N1, S1. assert (i = j) by (apply (NoDup_nth_error_eq _ directions i j d); assumption). subst i.
      unfold kinds. rewrite (map_nth_error _ _ _ N5). f_equal. symmetry. apply nth_error_nth. apply (map_nth_error (fun t => if String.eqb t "fourier" then 1%nat else 0%nat)). exact M4.
    - transitivity (@None nat); [|symmetry]; apply nth_error_None; [unfold kinds; rewrite map_length, S4, R4; exact Hj|rewrite map_length; lia]. }
  rewrite integral_sum. rewrite (marginal_sum (s_set f) (length (p_dirs (s_pos f))) (s_degree f) rel (kinds (p_types (s_pos f))) nodes weights x F3 Hdeg Hd Kl An Aw).
  - unfold CalcSpec.series. rewrite Kr, map_length, <- L5.
    assert (Hus : usable (s_set f) (length directions) (s_degree f)) by (eapply usable_sub; [exact F3|pose proof (dirs_in_length _ _ Hd) as Hl; lia]).
    assert (Perm : Permutation (points (s_set r) (length directions) (s_degree r)) (points (s_set f) (length directions) (s_degree f))).
    { apply NoDup_Permutation; [apply points_NoDup; exact G3|apply points_NoDup; exact Hus|]. intros m. rewrite !points_In by assumption. rewrite <- (R8 m). unfold series_index. rewrite R4. reflexivity. }
    rewrite (rsum_perm _ _ (Permutation_map _ Perm)). apply rsum_map_ext. intros m Hm. f_equal. apply points_In in Hm; [|exact Hus]. apply R8 in Hm. apply R9 in Hm. unfold series_at in Hm. rewrite R4 in Hm.
    etransitivity; [exact Hm|]. unfold embed. rewrite (reindex_rel _ _ _ m P1 L2). reflexivity.
  - lia.
  - intros j k Hj. destruct (Lk j k Hj) as (d & D1 & D2). destruct (Ak k d D2) as [A1 _]. apply A1. exact D1.
  - intros k Hk Hn. destruct (in_nth_error _ (p_dirs (s_pos f)) k Hk) as [d Hd2]. destruct (Ak k d Hd2) as [_ A2]. apply A2. intros G. apply In_nth_error in G as [j Hj].
    apply Hn. assert (Hj' : (j < length rel)%nat) by (rewrite <- L5; apply nth_error_Some; congruence). destruct (in_nth_error _ rel j Hj') as [k' Hk']. destruct (Lk j k' Hk') as (d' & D1 & D2). assert (d' = d) by congruence. subst d'.
    assert (k' = k) by (apply (NoDup_nth_error_eq _ (p_dirs (s_pos f)) k' k d); assumption). subst k'. eapply nth_error_In. exact Hk'.
Qed.
End Mean.
