(** Facts about the values of quadratures, C65 and C66. *)
From Coq Require Import String List Bool Arith ZArith Reals Lra Lia.
From Verif Require Import Base Lists IndexModel Num Fnum LinModel LinSpec CalcModel CalcSpec CalcReal Facts6 Facts7 Facts11 CalcQuad CalcTensor PyBase PosModel PosSpec PosFacts SeriesModel SeriesSpec SeriesFacts SplitModel SplitSpec MulModel PyQuadModel PyQuadSpec PyQuadFacts.
Import ListNotations.
Local Open Scope string_scope. Local Open Scope list_scope. Local Open Scope nat_scope. Local Open Scope R_scope.

Lemma nth_error_comb : forall A B (a : list A) (b : list B) i, nth_error (combine a b) i = match nth_error a i, nth_error b i with Some x, Some y => Some (x, y) | _, _ => None end.
Proof.
  intros A B. induction a as [|x a IH]; intros [|y b] [|i]; cbn [combine nth_error]; try reflexivity; [destruct (nth_error a i); reflexivity|apply IH].
Qed.
Lemma row_dot_unit : forall c i n s (y : list R), length y = n -> rsum (map (fun '(a, x) => a * x) (combine (map (fun j => if (i =? j)%nat then c else 0) (seq s n)) y)) = if ((s <=? i) && (i <? s + n))%nat then c * nth (i - s) y 0 else 0.
Proof.
  intros c i. induction n as [|n IH]; intros s y Hy; destruct y as [|t y]; cbn [length] in Hy; try discriminate Hy.
  - cbn [seq map combine rsum fold_right]. destruct (Nat.leb_spec s i), (Nat.ltb_spec i (s + 0)); cbn [andb]; try reflexivity; lia.
  - cbn [seq map combine]. rewrite rsum_cons, IH by lia. destruct (Nat.eqb_spec i s) as [->|Hi].
    + replace (s - s)%nat with 0%nat by lia. rewrite Nat.leb_refl. destruct (Nat.ltb_spec s (s + S n)); [|lia]. cbn [andb nth]. destruct (Nat.leb_spec (S s) s); [lia|]. cbn [andb]. lra.
    + destruct (Nat.leb_spec s i), (Nat.leb_spec (S s) i), (Nat.ltb_spec i (s + S n)), (Nat.ltb_spec i (S s + n)); cbn [andb]; try lia; try lra.
      replace (i - s)%nat with (S (i - S s)) by lia. cbn [nth]. lra.
Qed.
Lemma diag_row : forall (l : list R) i, (i < length l)%nat -> @nth_error (list R) (diag_mat fnum_R l) i = Some (map (fun j => if (i =? j)%nat then nth i l 0 else 0) (seq 0 (length l))).
Proof. intros l i Hi. unfold diag_mat. exact (nth_error_map_seq _ _ _ _ Hi). Qed.
Lemma diag_row_dot : forall (l y : list R) i row, length y = length l -> @nth_error (list R) (diag_mat fnum_R l) i = Some row -> rsum (map (fun '(a, x) => a * x) (combine row y)) = nth i l 0 * nth i y 0.
Proof.
  intros l y i row Hy H. assert (Hi : (i < length l)%nat). { assert (i < @length (list R) (diag_mat fnum_R l))%nat by (apply nth_error_Some; rewrite H; discriminate). unfold diag_mat in H0. rewrite map_length, seq_length in H0. exact H0. }
  rewrite diag_row in H by exact Hi. injection H as <-. rewrite row_dot_unit by exact Hy. replace ((0 <=? i) && (i <? 0 + length l))%nat with true by (symmetry; apply andb_true_iff; split; [apply Nat.leb_le|apply Nat.ltb_lt]; lia).
  rewrite Nat.sub_0_r. reflexivity.
Qed.
Lemma affine_diag : forall (t d y : list R), length t = length d -> length y = length d ->
  map (fun '(ti, row) => ti + rsum (map (fun '(a, x) => a * x) (combine row y))) (@combine R (list R) t (diag_mat fnum_R d)) = map (fun '(m, (v, x)) => m + v * x) (combine t (combine d y)).
Proof.
  intros t d y H1 H2. apply nth_error_ext. intros i. rewrite !nth_error_map, !nth_error_comb. destruct (nth_error t i) as [m|] eqn:Et; [|reflexivity].
  assert (Hi : (i < length d)%nat) by (rewrite <- H1; apply nth_error_Some; rewrite Et; discriminate).
  destruct (@nth_error (list R) (diag_mat fnum_R d) i) as [row|] eqn:Er; [|rewrite diag_row in Er by exact Hi; discriminate Er].
  destruct (nth_error d i) as [v|] eqn:Ed; [|apply nth_error_None in Ed; lia]. destruct (nth_error y i) as [x|] eqn:Ey; [|apply nth_error_None in Ey; lia].
  cbn [option_map]. transitivity (Some (m + nth i d 0 * nth i y 0)); [apply (f_equal (fun z => Some (m + z))); exact (diag_row_dot d y i row H2 Er)|]. rewrite (nth_error_nth _ _ _ Ed), (nth_error_nth _ _ _ Ey). reflexivity.
Qed.

Lemma at_pos_length : forall (nodes : list (list R)) p, length p = length nodes -> length (at_pos nodes p) = length nodes.
Proof. intros nodes p H. unfold at_pos. rewrite map_length, combine_length. lia. Qed.
Lemma grid_length_in : forall nodes p, In p (grid nodes) -> length p = length nodes.
Proof. intros nodes p H. apply in_row_major in H as [H _]. rewrite map_length in H. exact H. Qed.
Lemma diag_wf : forall (l : list R), mat_wf (length l) (length l) (diag_mat fnum_R l).
Proof. exact (diag_mat_wf fnum_R). Qed.

Lemma place_nth : forall dirs d, In d dirs -> nth_error dirs (place d dirs) = Some d.
Proof. induction dirs as [|x dirs IH]; intros d H; [destruct H|]. cbn [place]. destruct (Nat.eqb_spec x d) as [->|Hx]; [reflexivity|]. cbn [nth_error]. apply IH. destruct H; [contradiction|assumption]. Qed.

Lemma np_vec_ok : forall (F : fnum) (op : F -> F -> F) v w, length v = length w -> np_vec F op v w = Ok (map (fun '(x, y) => op x y) (combine v w)).
Proof.
  intros F op v w H. unfold np_vec, np_bin. rewrite H, Nat.eqb_refl. apply mapM_Ok_map. intros (x, y) _. reflexivity.
Qed.
Lemma np_dot_diag : forall (a v : list R), length v = length a -> np_dot fnum_R (diag_mat fnum_R a) v = Ok (map (fun '(x, y) => x * y) (combine a v)).
Proof.
  intros a v H. unfold np_dot. rewrite (mapM_Ok_map _ _ _ (fun row : list R => rsum (map (fun '(x, y) => x * y) (combine row v)))).
  - apply (f_equal (@Ok (list R))). apply nth_error_ext. intros i. rewrite !nth_error_map, nth_error_comb. destruct (nth_error a i) as [x|] eqn:Ea.
    + assert (Hi : (i < length a)%nat) by (apply nth_error_Some; rewrite Ea; discriminate). destruct (nth_error v i) as [y|] eqn:Ev; [|apply nth_error_None in Ev; lia].
      destruct (@nth_error (list R) (diag_mat fnum_R a) i) as [row|] eqn:Er; [|discriminate (eq_trans (eq_sym (diag_row a i Hi)) Er)]. cbn [option_map].
      transitivity (Some (nth i a 0 * nth i v 0)); [apply (f_equal Some); exact (diag_row_dot a v i row H Er)|]. rewrite (nth_error_nth _ _ _ Ea), (nth_error_nth _ _ _ Ev). reflexivity.
    + assert (G : @nth_error (list R) (diag_mat fnum_R a) i = None); [|rewrite G; reflexivity]. apply nth_error_None. apply nth_error_None in Ea. unfold diag_mat. rewrite map_length, seq_length. exact Ea.
  - intros row Hr. pose proof (diag_wf a) as [_ G]. rewrite Forall_forall in G. match goal with |- context [require ?b _] => replace b with true by (symmetry; apply Nat.eqb_eq; etransitivity; [exact (G row Hr)|symmetry; exact H]) end. cbn [require bind]. apply (f_equal (@Ok R)).
    unfold row_dot. change (fold_left Rplus (map (fun '(x, y) => x * y) (combine row v)) 0 = rsum (map (fun '(x, y) => x * y) (combine row v))).
    rewrite <- (map_id (map _ _)) at 2. rewrite <- (Rplus_0_l (rsum _)). exact (fold_left_rsum R (fun x => x) _ 0).
Qed.
Lemma np_mat_diag : forall a b : list R, length a = length b -> np_mat fnum_R nmul (diag_mat fnum_R a) (diag_mat fnum_R b) = Ok (diag_mat fnum_R (map (fun '(x, y) => x * y) (combine a b))).
Proof.
  intros a b H. assert (La : length (diag_mat fnum_R a) = length a) by apply (diag_wf a). assert (Lb : length (diag_mat fnum_R b) = length b) by apply (diag_wf b).
  unfold np_mat, np_bin at 1. rewrite La, Lb, H, Nat.eqb_refl. rewrite (mapM_Ok_map _ _ _ (fun '(r, s) => map (fun '(x, y) => x * y) (combine r s))).
  - apply (f_equal (@Ok (list (list R)))). apply nth_error_ext. intros i. rewrite nth_error_map, nth_error_comb. destruct (Nat.lt_ge_cases i (length a)) as [Hi|Hi].
    + rewrite !diag_row by (try rewrite map_length, combine_length; lia). cbn [option_map]. apply (f_equal Some). rewrite map_length, combine_length, <- H, Nat.min_id.
      assert (G : forall s n, map (fun '(x, y) => x * y) (combine (map (fun j => if (i =? j)%nat then nth i a 0 else 0) (seq s n)) (map (fun j => if (i =? j)%nat then nth i b 0 else 0) (seq s n))) =
        map (fun j => if (i =? j)%nat then nth i (map (fun '(x, y) => x * y) (combine a b)) 0 else 0) (seq s n)).
      { assert (N : nth i (map (fun '(x, y) => x * y) (combine a b)) 0 = nth i a 0 * nth i b 0).
        { apply nth_error_nth. rewrite nth_error_map, nth_error_comb. rewrite !(nth_error_nth' _ 0) by lia. reflexivity. }
        intros s n. revert s. induction n as [|n IH]; intros s; [reflexivity|]. cbn [seq map combine]. rewrite IH. f_equal. destruct (i =? s)%nat; [rewrite N; reflexivity|ring]. }
      exact (G 0%nat (length a)).
    + rewrite (proj2 (nth_error_None (diag_mat fnum_R a) i)) by lia. symmetry. apply nth_error_None. etransitivity; [|exact Hi]. apply Nat.eq_le_incl. etransitivity; [apply diag_wf|]. rewrite map_length, combine_length. lia.
  - intros (r, s) Hrs. refine (np_vec_ok fnum_R nmul r s _). pose proof (diag_wf a) as [_ Ga]. pose proof (diag_wf b) as [_ Gb]. rewrite Forall_forall in Ga, Gb. etransitivity; [exact (Ga r (in_combine_l _ _ _ _ Hrs))|]. etransitivity; [exact H|symmetry; exact (Gb s (in_combine_r _ _ _ _ Hrs))].
Qed.
Definition remap (nodes : list (list R)) (cs tr : list R) : list (list R) := map (fun '(n, (c, t)) => map (fun x => x * c + t) n) (combine nodes (combine cs tr)).
Lemma remap_lengths : forall nodes cs tr, length cs = length nodes -> length tr = length nodes -> map (@length R) (remap nodes cs tr) = map (@length R) nodes.
Proof.
  intros nodes cs tr Lc Lt. apply nth_error_ext. intros i. unfold remap. rewrite !nth_error_map, !nth_error_comb. destruct (nth_error nodes i) as [x|] eqn:Ex; [|reflexivity].
  assert (Hi : (i < length nodes)%nat) by (apply nth_error_Some; rewrite Ex; discriminate). rewrite (nth_error_nth' cs 0), (nth_error_nth' tr 0) by lia. cbn [option_map]. rewrite map_length. reflexivity.
Qed.
Lemma remap_at : forall nodes vars vs mq ms p, length vars = length nodes -> length vs = length nodes -> length mq = length nodes -> length ms = length nodes -> Forall (fun v => 0 < v) vs -> In p (grid nodes) ->
  at_pos (remap nodes (map (fun '(x, y) => x * y) (combine (map Rinv (map sqrt vs)) (map sqrt vars))) (map (fun '(x, y) => x * y) (combine (map Rinv (map sqrt vs)) (map (fun '(x, y) => x - y) (combine mq ms))))) p =
  standardised ms vs (located mq vars (at_pos nodes p)).
Proof.
  intros nodes vars vs mq ms p L1 L2 L3 L4 Hv Hp. apply in_row_major in Hp as [Hk1 Hk2]. rewrite map_length in Hk1, Hk2.
  set (cs := map (fun '(x, y) => x * y) (combine (map Rinv (map sqrt vs)) (map sqrt vars))). set (tr := map (fun '(x, y) => x * y) (combine (map Rinv (map sqrt vs)) (map (fun '(x, y) => x - y) (combine mq ms)))).
  assert (Lcs : length cs = length nodes) by (unfold cs; rewrite ?map_length, ?combine_length, ?map_length; lia).
  assert (Ltr : length tr = length nodes) by (unfold tr; rewrite ?map_length, ?combine_length, ?map_length, ?combine_length; lia).
  apply nth_error_ext. intros i. unfold standardised, located, at_pos, remap. rewrite ?nth_error_map, ?nth_error_comb, ?nth_error_map, ?nth_error_comb.
  destruct (Nat.lt_ge_cases i (length nodes)) as [Hi|Hi].
  - rewrite (nth_error_nth' nodes []) by lia. rewrite (nth_error_nth' cs 0), (nth_error_nth' tr 0) by lia. rewrite (nth_error_nth' p 0%nat) by lia.
    rewrite (nth_error_nth' vs 0), (nth_error_nth' vars 0) by lia. rewrite (nth_error_nth' mq 0), (nth_error_nth' ms 0) by lia. cbn [option_map].
    rewrite nth_error_map, nth_error_comb. rewrite (nth_error_nth' nodes []) by lia. rewrite (nth_error_nth' p 0%nat) by lia. cbn [option_map]. apply (f_equal Some).
    assert (Hp : (nth i p 0 < length (nth i nodes []))%nat).
    { specialize (Hk2 i ltac:(lia)). rewrite (nth_indep (map (@length R) nodes) 0%nat (length (@nil R))) in Hk2 by (rewrite map_length; lia). rewrite map_nth in Hk2. exact Hk2. }
    rewrite (nth_indep _ 0 (0 * nth i cs 0 + nth i tr 0)) by (rewrite map_length; exact Hp). rewrite (map_nth (fun x => x * nth i cs 0 + nth i tr 0)).
    set (y := nth (nth i p 0%nat) (nth i nodes []) 0).
    assert (Ec : nth i cs 0 = / sqrt (nth i vs 0) * sqrt (nth i vars 0)).
    { apply nth_error_nth. unfold cs. rewrite nth_error_map, nth_error_comb, !nth_error_map. rewrite (nth_error_nth' vs 0), (nth_error_nth' vars 0) by lia. reflexivity. }
    assert (Et : nth i tr 0 = / sqrt (nth i vs 0) * (nth i mq 0 - nth i ms 0)).
    { apply nth_error_nth. unfold tr. rewrite nth_error_map, nth_error_comb, !nth_error_map, nth_error_comb. rewrite (nth_error_nth' vs 0), (nth_error_nth' mq 0), (nth_error_nth' ms 0) by lia. reflexivity. }
    rewrite Ec, Et. assert (Hs : 0 < sqrt (nth i vs 0)) by (apply sqrt_lt_R0; rewrite Forall_forall in Hv; apply Hv, nth_In; lia). field. lra.
  - rewrite (proj2 (nth_error_None nodes i) Hi). assert (Hi2 : nth_error vs i = None) by (apply nth_error_None; lia). rewrite Hi2. destruct (nth_error ms i); reflexivity.
Qed.
Lemma remap_nodes : forall (nodes : list (list R)) (cs tr : list R), length cs = length nodes -> length tr = length nodes ->
  mapM (fun '(i, n) => row <- @py_get (list R) (diag_mat fnum_R cs) i;; c <- @py_get R row i;; t <- @py_get R tr i;; Ok (map (fun x => x * c + t) n)) (combine (seq 0 (length nodes)) nodes) = Ok (remap nodes cs tr).
Proof.
  intros nodes cs tr Lcs Ltr.
  assert (G : forall i x, nth_error nodes i = Some x -> (row <- @py_get (list R) (diag_mat fnum_R cs) i;; c <- @py_get R row i;; t <- @py_get R tr i;; Ok (map (fun x : R => x * c + t) x)) = Ok (map (fun y => y * nth i cs 0 + nth i tr 0) x)).
  { intros i x Hx. assert (Hi : (i < length nodes)%nat) by (apply nth_error_Some; rewrite Hx; discriminate).
    assert (T1 := py_get_ok _ _ _ _ (diag_row cs i ltac:(lia))). rewrite T1. cbn [bind].
    assert (T := nth_error_map_seq _ (fun j => if (i =? j)%nat then nth i cs 0 else 0) (length cs) i ltac:(lia)). cbn beta in T. rewrite Nat.eqb_refl in T.
    assert (T2 := py_get_ok _ _ _ _ T). rewrite T2. cbn [bind]. assert (T3 := py_get_ok _ _ _ _ (@nth_error_nth' R tr i 0 ltac:(lia))). rewrite T3. cbn [bind]. reflexivity. }
  etransitivity; [exact (CalcOps.mapM_combine_seq _ _ _ _ _ G)|]. apply (f_equal (@Ok (list (list R)))). unfold remap. apply nth_error_ext. intros i. rewrite !nth_error_map, !nth_error_comb.
  destruct (nth_error nodes i) as [x|] eqn:Ex.
  - assert (Hi : (i < length nodes)%nat) by (apply nth_error_Some; rewrite Ex; discriminate). rewrite (nth_error_nth' cs 0), (nth_error_nth' tr 0) by lia.
    assert (Es : nth_error (seq 0 (length nodes)) i = Some i) by (rewrite <- (map_id (seq 0 _)); rewrite nth_error_map_seq by exact Hi; reflexivity). rewrite Es. reflexivity.
  - destruct (nth_error (seq 0 (length nodes)) i); reflexivity.
Qed.
Lemma product_nth : forall A (g : A -> R) l (fv : list R) k p v, nth_error l k = Some p -> nth_error fv k = Some v -> nth_error (map (fun '(x, y) => x * y) (combine (map g l) fv)) k = Some (g p * v).
Proof. intros A g l fv k p v H1 H2. rewrite nth_error_map, nth_error_comb, nth_error_map, H1, H2. reflexivity. Qed.

Lemma divided_eq : forall (tiny : R) (values fv : list R), map (fun '(x, y) => x / y) (combine values (map (fun f : R => tiny * (if @neqb num_R f 0 then 1 else 0) + f) fv)) = divided tiny values fv.
Proof.
  intros tiny values fv. unfold divided. revert values. induction fv as [|f fv IH]; intros [|y values]; cbn [map combine]; try reflexivity. f_equal; [|apply IH]. f_equal.
  destruct (Req_EM_T f 0) as [->|Hf].
  - replace (@neqb num_R 0 0) with true by (symmetry; apply (law_eqb _ Facts2.num_R_laws); reflexivity). ring.
  - destruct (@neqb num_R f 0) eqn:Ef; [apply (law_eqb _ Facts2.num_R_laws) in Ef; contradiction|]. ring.
Qed.

Lemma standard_located : forall m v y : list R, length m = length v -> length y = length v -> Forall (fun v => 0 < v) v -> standardised m v (located m v y) = y.
Proof.
  intros m v. revert m. induction v as [|v vs IH]; intros [|m ms] [|y ys] H1 H2 Hp; cbn [length] in *; try discriminate; [reflexivity|]. inversion Hp as [|? ? Hv Hp']; subst. cbn [located standardised combine map]. f_equal.
  - assert (0 < sqrt v) by (apply sqrt_lt_R0; exact Hv). field. lra.
  - apply IH; [lia|lia|exact Hp'].
Qed.

Lemma divided_map : forall A (tiny : R) (G : list A) (values fv : list R) (g h : A -> R), length values = length G ->
  (forall k p, nth_error G k = Some p -> nth_error values k = Some (g p * h p) /\ nth_error fv k = Some (h p) /\ h p <> 0) -> divided tiny values fv = map g G.
Proof.
  intros A tiny G values fv g h Hl H. apply nth_error_ext. intros k. unfold divided. rewrite !nth_error_map, nth_error_comb. destruct (nth_error G k) as [p|] eqn:Ek.
  - destruct (H k p Ek) as (-> & -> & Hn). cbn [option_map]. destruct (Req_EM_T (h p) 0) as [E|E]; [contradiction|]. f_equal. field. exact Hn.
  - apply nth_error_None in Ek. rewrite (proj2 (nth_error_None values k)) by lia. reflexivity.
Qed.

Section Values.
Variable E : Type.
Variable free_vars : E -> list nat.
Variable eval : E -> (nat -> R) -> R.
Variable cov_factor : list (list R) -> list (list R).
Variable la_inv : list (list R) -> res (list (list R)).
Variable far8 : list (list R) -> bool.
Variable junk tiny : R.
Variable e_1 : E.
Hypothesis NP : numpy_ok cov_factor la_inv far8.
Hypothesis RF : reads_free eval free_vars.
Notation quad := (quad fnum_R E).
Notation quad_discretize := (quad_discretize fnum_R E free_vars eval cov_factor junk).
Notation quad_eval := (quad_eval fnum_R E free_vars eval cov_factor la_inv far8 junk).
Notation quad_transform := (quad_transform fnum_R E e_1 free_vars eval cov_factor junk tiny).

Lemma discretize_values : forall (q : quad) vars f, quad_R q vars -> f_dirs f = p_dirs (q_pos q) -> incl (free_vars (f_sym f)) (f_dirs f) ->
  exists values, quad_discretize q f = Ok values /\ grid_values q vars values (eval (f_sym f)).
Proof using NP RF.
  intros q vars f ((P1 & P2 & P3 & P4 & P5 & P6) & Q1 & Q2 & Q3) Hd Hi. unfold PyQuadModel.quad_discretize.
  assert (Hplace : forallb (fun d => (place d (f_dirs f) <? length (q_nodes q))%nat) (free_vars (f_sym f)) = true).
  { apply forallb_forall. intros d Hx. apply Hi in Hx. apply place_nth in Hx. apply Nat.ltb_lt. rewrite Q1, <- P3, <- Hd. apply nth_error_Some. rewrite Hx. discriminate. }
  rewrite Hplace. clear Hplace.
  assert (D : discretize fnum_R junk (compiled fnum_R E eval f) (q_nodes q) (p_mean (q_pos q)) (cov_factor (p_cov (q_pos q))) = Ok (map (fun p => compiled fnum_R E eval f (grid_point q vars p)) (grid (q_nodes q)))).
  { rewrite P1, (ok_cov_factor _ _ _ NP vars P2). rewrite (discretize_R junk (compiled fnum_R E eval f) (q_nodes q) (p_mean (q_pos q)) (diag_mat fnum_R (map sqrt vars)) Q2 Q3).
    - apply (f_equal (@Ok (list R))). apply map_ext_in. intros p Hp. apply (f_equal (compiled fnum_R E eval f)). unfold grid_point, located.
      etransitivity; [refine (affine_diag (p_mean (q_pos q)) (map sqrt vars) (at_pos (q_nodes q) p) _ _)|].
      + rewrite map_length. exact P4.
      + rewrite map_length, at_pos_length; [exact Q1|]. apply grid_length_in. exact Hp.
      + clear. generalize (at_pos (q_nodes q) p) as y. generalize (p_mean (q_pos q)) as t. induction vars as [|v vars IH]; intros [|m t] [|x y]; cbn [map combine]; try reflexivity. f_equal. apply IH.
    - etransitivity; [exact P4|symmetry; exact Q1].
    - pose proof (diag_wf (map sqrt vars)) as G. rewrite map_length, <- Q1 in G. exact G. }
  exists (map (fun p => compiled fnum_R E eval f (grid_point q vars p)) (grid (q_nodes q))). split; [exact D|]. split; [apply map_length|].
  intros k p env Hk He. rewrite nth_error_map, Hk. cbn [option_map]. f_equal. unfold compiled. apply RF. intros x Hx. apply Hi in Hx. apply place_nth in Hx. rewrite Hd in Hx |- *. apply He in Hx. exact (nth_error_nth _ _ _ Hx).
Qed.

Theorem eval_values : forall (q : quad) vars (f : series fnum_R E) vs, quad_R q vars -> gaussian (s_pos f) vs -> p_dirs (s_pos f) = p_dirs (q_pos q) ->
  f_dirs (s_factor f) = p_dirs (q_pos q) -> incl (free_vars (f_sym (s_factor f))) (f_dirs (s_factor f)) ->
  fits (s_set f) (length vs) (s_degree f) -> flags_ok (s_set f) (s_degree f) (kinds (p_types (q_pos q))) -> @vec_for num_R (s_set f) (length vs) (s_degree f) (s_coeffs f) ->
  exists values, quad_eval q f = Ok values /\
    length values = length (grid (q_nodes q)) /\
    forall k p env, nth_error (grid (q_nodes q)) k = Some p -> at_point (p_dirs (q_pos q)) (grid_point q vars p) env ->
      nth_error values k = Some (CalcSpec.series (s_set f) (s_degree f) (kinds (p_types (q_pos q))) (s_coeffs f) (standardised (p_mean (s_pos f)) vs (grid_point q vars p)) * eval (f_sym (s_factor f)) env).
Proof using NP RF.
  intros q vars f vs Hq Hf Hdirs Hfd Hfi Hfit Hfl Hc. pose proof Hq as ((P1 & P2 & P3 & P4 & P5 & P6) & Q1 & Q2 & Q3). pose proof Hf as (R1 & R2 & R3 & R4 & R5 & R6).
  assert (Hn : length vs = length vars) by (rewrite <- R3, Hdirs, P3; reflexivity).
  destruct (discretize_values q vars (s_factor f) Hq Hfd Hfi) as (fv & D1 & D2 & D3).
  assert (Hpos : forall l, Forall (fun v => 0 < v) l -> Forall (fun v => 0 < v) (map sqrt l)) by (intros l Hl; apply Forall_map; eapply Forall_impl; [|exact Hl]; intros; apply sqrt_lt_R0; assumption).
  unfold PyQuadModel.quad_eval. rewrite R1, P1, !(ok_cov_factor _ _ _ NP) by assumption. rewrite (ok_la_inv _ _ _ NP) by (apply Hpos; exact R2). cbn [bind].
  assert (Hmm : length (p_mean (q_pos q)) = length (p_mean (s_pos f))) by (etransitivity; [exact P4|]; symmetry; etransitivity; [exact R4|exact Hn]).
  rewrite (np_vec_ok fnum_R nsub _ _ Hmm). cbn [bind].
  set (diff := map (fun '(x, y) => nsub x y) (combine (p_mean (q_pos q)) (p_mean (s_pos f)))).
  assert (Hld : length diff = length (map Rinv (map sqrt vs))) by (unfold diff; rewrite !map_length, combine_length, <- Hmm, Nat.min_id; etransitivity; [exact P4|symmetry; exact Hn]).
  rewrite (np_dot_diag (map Rinv (map sqrt vs)) diff Hld). cbn [bind].
  rewrite (np_mat_diag (map Rinv (map sqrt vs)) (map sqrt vars)) by (rewrite !map_length; exact Hn). cbn [bind]. rewrite (ok_far8 _ _ _ NP). cbn [negb require bind].
  set (tr := map (fun '(x, y) => x * y) (combine (map Rinv (map sqrt vs)) diff)). set (cs := map (fun '(x, y) => x * y) (combine (map Rinv (map sqrt vs)) (map sqrt vars))).
  assert (Lcs : length cs = length vs) by (unfold cs; rewrite map_length, combine_length, !map_length; lia).
  assert (Ltr : length tr = length vs) by (unfold tr; rewrite map_length, combine_length, Hld, !map_length; lia).
  assert (Hmap := remap_nodes (q_nodes q) cs tr (eq_trans Lcs (eq_trans Hn (eq_sym Q1))) (eq_trans Ltr (eq_trans Hn (eq_sym Q1)))). set (mapped := remap (q_nodes q) cs tr) in *.
  match goal with |- context [mapM ?g (combine (seq 0 ?n) ?l)] => replace (mapM g (combine (seq 0 n) l)) with (@Ok (list (list R)) mapped) by (symmetry; exact Hmap) end. cbn [bind].
  assert (Hlen : map (@length R) mapped = map (@length R) (q_nodes q)) by (exact (remap_lengths (q_nodes q) cs tr (eq_trans Lcs (eq_trans Hn (eq_sym Q1))) (eq_trans Ltr (eq_trans Hn (eq_sym Q1))))).
  assert (Lm : length mapped = length (q_nodes q)) by (exact (eq_trans (eq_sym (map_length (@length R) mapped)) (eq_trans (f_equal (@length nat) Hlen) (map_length (@length R) (q_nodes q))))).
  assert (Hgrid : grid mapped = grid (q_nodes q)) by (unfold grid; rewrite Hlen; reflexivity).
  assert (Hflen : length (kinds (p_types (q_pos q))) = length mapped) by (unfold kinds; rewrite map_length, Lm; etransitivity; [exact P5|symmetry; exact Q1]).
  assert (Hnm : length mapped = length vs) by (rewrite Lm, Q1; symmetry; exact Hn).
  rewrite <- Hnm in Hfit, Hc.
  assert (Hback := backward_values (s_set f) (s_degree f) mapped (q_weights q) (kinds (p_types (q_pos q))) (s_coeffs f) Hfit ltac:(unfold grid_fits; rewrite Hgrid; exact Q3) Hfl Hflen Hc). rewrite Hgrid in Hback.
  set (sv := map (fun p => CalcSpec.series (s_set f) (s_degree f) (kinds (p_types (q_pos q))) (s_coeffs f) (at_pos mapped p)) (grid (q_nodes q))) in *.
  match goal with |- context [transform fnum_R ?a ?b ?c ?d ?e ?g false] => replace (transform fnum_R a b c d e g false) with (@Ok (list R) sv) by (symmetry; exact Hback) end. cbn [bind].
  rewrite D1. cbn [bind]. assert (Lsv : length sv = length fv) by (unfold sv; rewrite map_length; symmetry; exact D2).
  rewrite (np_vec_ok fnum_R nmul sv fv Lsv).
  eexists. split; [reflexivity|]. split; [rewrite map_length, combine_length; etransitivity; [|exact D2]; apply Nat.min_r, Nat.eq_le_incl; symmetry; exact Lsv|].
  intros k p env Hk He. etransitivity; [exact (product_nth _ _ _ fv k p _ Hk (D3 k p env Hk He))|]. apply (f_equal Some). cbv beta.
  f_equal. f_equal. apply nth_error_In in Hk. apply remap_at; [symmetry; exact Q1|exact (eq_trans Hn (eq_sym Q1))|exact (eq_trans P4 (eq_sym Q1))|exact (eq_trans R4 (eq_trans Hn (eq_sym Q1)))|exact R2|exact Hk].
Qed.

Lemma transform_mapped : forall (q : quad) vars values, quad_R q vars -> f_dirs (q_factor q) = p_dirs (q_pos q) -> incl (free_vars (f_sym (q_factor q))) (f_dirs (q_factor q)) -> length values = length (grid (q_nodes q)) ->
  exists fv, grid_values q vars fv (eval (f_sym (q_factor q))) /\ length (divided tiny values fv) = length (grid (q_nodes q)) /\
    forall degree s, quad_transform q values degree s = (coeffs <- transform fnum_R s degree (divided tiny values fv) (q_nodes q) (q_weights q) (kinds (p_types (q_pos q))) true ;; series_init fnum_R E e_1 coeffs (q_pos q) (Some (q_factor q)) s).
Proof using NP RF.
  intros q vars values Hq Hfd Hfi Hv. destruct (discretize_values q vars (q_factor q) Hq Hfd Hfi) as (fv & D1 & D2). exists fv. split; [exact D2|]. destruct D2 as (D2 & _).
  split; [unfold divided; rewrite map_length, combine_length; rewrite Hv; apply Nat.min_l, Nat.eq_le_incl; symmetry; exact D2|].
  intros degree s. unfold PyQuadModel.quad_transform. rewrite D1. cbn [bind].
  assert (L : length values = length (map (fun f : fnum_R => @nadd fnum_R (@nmul fnum_R tiny (if neqb f n0 then n1 else n0)) f) fv)) by (rewrite map_length; etransitivity; [exact Hv|symmetry; exact D2]).
  rewrite (np_vec_ok fnum_R fdiv values _ L). cbn [bind]. pose proof (divided_eq tiny values fv) as G.
  match goal with |- context [transform fnum_R s degree ?v _ _ _ true] => replace v with (divided tiny values fv) by (symmetry; exact G) end. reflexivity.
Qed.

Theorem transform_coefficients : forall (q : quad) vars values degree s, quad_R q vars -> f_dirs (q_factor q) = p_dirs (q_pos q) -> incl (free_vars (f_sym (q_factor q))) (f_dirs (q_factor q)) ->
  length values = length (grid (q_nodes q)) -> rules_match (q_nodes q) (q_weights q) -> usable s (length vars) degree -> flags_ok s degree (kinds (p_types (q_pos q))) ->
  exists r fv, quad_transform q values degree s = Ok r /\ grid_values q vars fv (eval (f_sym (q_factor q))) /\
    s_pos r = q_pos q /\ s_set r = s /\ s_factor r = q_factor q /\ series_ok r (length vars) /\
    (forall m, series_index r m <-> index_of s (length vars) degree m) /\
    forall m, series_index r m -> series_at r m = quadrature (q_nodes q) (q_weights q) (divided tiny values fv) (phi (kinds (p_types (q_pos q))) m).
Proof using NP RF.
  intros q vars values degree s Hq Hfd Hfi Hv Hw Hu Hfl. destruct (transform_mapped q vars values Hq Hfd Hfi Hv) as (fv & D1 & D2 & D3). pose proof Hq as ((P1 & P2 & P3 & P4 & P5 & P6) & Q1 & Q2 & Q3).
  assert (Hu' : usable s (length (q_nodes q)) degree) by (rewrite Q1; exact Hu).
  destruct (forward_coef s degree (q_nodes q) (q_weights q) (kinds (p_types (q_pos q))) (divided tiny values fv)) as (out & O1 & O2 & O3); try assumption.
  { apply usable_fits. exact Hu'. } { unfold kinds. rewrite map_length. exact (eq_trans P5 (eq_sym Q1)). }
  assert (Hpd : forall d, usable s (length vars) d -> pos_dim (q_pos q) s (length vars) d) by (intros d Hd; split; [exact P3|split; [exact P4|exact Hd]]).
  assert (Lo : length out = length (points s (length vars) degree)) by (rewrite <- Q1; exact O2).
  assert (Hi : series_init fnum_R E e_1 out (q_pos q) (Some (q_factor q)) s = Ok (Ser out (q_pos q) s (Degree.recovered s degree) (q_factor q))).
  { apply (series_init_ok fnum_R E e_1 out (q_pos q) (Some (q_factor q)) s (length vars) degree (Hpd degree Hu) Lo). left. intros G. discriminate G. }
  exists (Ser out (q_pos q) s (Degree.recovered s degree) (q_factor q)), fv.
  split; [rewrite D3; rewrite O1; cbn [bind]; exact Hi|]. split; [exact D1|]. cbn [s_pos s_set s_factor]. split; [reflexivity|]. split; [reflexivity|]. split; [reflexivity|].
  split; [split; cbn [s_pos s_set s_degree s_coeffs]; [apply Hpd, usable_recovered, Hu|unfold vec_for; rewrite points_recovered by exact Hu; exact Lo]|].
  unfold series_index, series_at. cbn [s_pos s_set s_degree s_coeffs]. split; [intros m; rewrite P3; apply index_of_recovered|].
  intros m Hm. rewrite P3 in *. apply (proj1 (index_of_recovered _ _ _ _)) in Hm. unfold coef. rewrite points_recovered by exact Hu. rewrite <- Q1. apply O3. exact (eq_ind _ (fun n => index_of s n degree m) Hm _ (eq_sym Q1)).
Qed.

Theorem transform_eval_same : forall (q : quad) vars (f : series fnum_R E), quad_R q vars -> s_pos f = q_pos q -> s_factor f = q_factor q ->
  f_dirs (q_factor q) = p_dirs (q_pos q) -> incl (free_vars (f_sym (q_factor q))) (f_dirs (q_factor q)) ->
  (forall p env, In p (grid (q_nodes q)) -> at_point (p_dirs (q_pos q)) (grid_point q vars p) env -> eval (f_sym (q_factor q)) env <> 0) ->
  series_ok f (length vars) -> flags_ok (s_set f) (s_degree f) (kinds (p_types (q_pos q))) -> exact_rules (s_degree f) (kinds (p_types (q_pos q))) (q_nodes q) (q_weights q) ->
  exists values g, quad_eval q f = Ok values /\ quad_transform q values (s_degree f) (s_set f) = Ok g /\
    s_coeffs g = s_coeffs f /\ s_pos g = s_pos f /\ s_set g = s_set f /\ s_factor g = s_factor f /\ (s_set f <> CrossNc -> g = f).
Proof using NP RF.
  intros q vars f Hq Hp Hf Hfd Hfi Hnz ((S1 & S2 & S3) & S4) Hfl Hex. pose proof Hq as ((P1 & P2 & P3 & P4 & P5 & P6) & Q1 & Q2 & Q3).
  destruct (eval_values q vars f vars Hq) as (values & V1 & V2 & V3); try assumption.
  { rewrite Hp. apply Hq. } { rewrite Hp. reflexivity. } { rewrite Hf. exact Hfd. } { rewrite Hf. exact Hfi. } { apply usable_fits. exact S3. }
  destruct (transform_mapped q vars values Hq Hfd Hfi V2) as (fv & D1 & D2 & D3).
  assert (S3' : usable (s_set f) (length (q_nodes q)) (s_degree f)) by (rewrite Q1; exact S3).
  assert (S4' : @vec_for num_R (s_set f) (length (q_nodes q)) (s_degree f) (s_coeffs f)) by (rewrite Q1; exact S4).
  assert (Hl : length (kinds (p_types (q_pos q))) = length (q_nodes q)) by apply Hex.
  destruct (transform_eval (s_set f) (s_degree f) (q_nodes q) (q_weights q) (kinds (p_types (q_pos q))) (usable_fits _ _ _ S3') Q3 Hfl Hex (s_coeffs f) S4') as (vals & T1 & T2).
  rewrite (backward_values (s_set f) (s_degree f) (q_nodes q) (q_weights q) (kinds (p_types (q_pos q))) (s_coeffs f) (usable_fits _ _ _ S3') Q3 Hfl Hl S4') in T1. injection T1 as <-.
  assert (Heq : divided tiny values fv = map (fun p => CalcSpec.series (s_set f) (s_degree f) (kinds (p_types (q_pos q))) (s_coeffs f) (at_pos (q_nodes q) p)) (grid (q_nodes q))).
  { apply (divided_map _ tiny (grid (q_nodes q)) values fv _ (fun p => eval (f_sym (q_factor q)) (fun d => nth (place d (p_dirs (q_pos q))) (grid_point q vars p) 0)) V2).
    intros k p Ek. pose proof (nth_error_In _ _ Ek) as Hin. set (env := fun d => nth (place d (p_dirs (q_pos q))) (grid_point q vars p) 0).
    assert (Hat : at_point (p_dirs (q_pos q)) (grid_point q vars p) env).
    { intros i d Hd. unfold env. assert (place d (p_dirs (q_pos q)) = i) as ->.
      { pose proof (place_nth _ _ (nth_error_In _ _ Hd)) as G. apply (proj1 (NoDup_nth_error _) P6); [apply nth_error_Some; rewrite G; discriminate|congruence]. }
      apply nth_error_nth'. assert (Hi : (i < length (p_dirs (q_pos q)))%nat) by (apply nth_error_Some; rewrite Hd; discriminate). unfold grid_point, located. rewrite map_length, !combine_length.
      assert (Ha : length (at_pos (q_nodes q) p) = length vars) by (etransitivity; [apply at_pos_length, grid_length_in; exact Hin|exact Q1]). rewrite Ha.
      eapply Nat.lt_le_trans; [exact Hi|]. rewrite P3. apply Nat.min_glb; [apply Nat.eq_le_incl; symmetry; exact P4|apply Nat.min_glb; lia]. }
    split; [|split; [exact (proj2 D1 k p env Ek Hat)|exact (Hnz p env Hin Hat)]].
    etransitivity; [exact (V3 k p env Ek Hat)|]. apply (f_equal Some). rewrite Hf, Hp. f_equal. f_equal. apply standard_located; [exact P4| |exact P2].
    etransitivity; [apply at_pos_length, grid_length_in; exact Hin|exact Q1]. }
  assert (Hpd : pos_dim (q_pos q) (s_set f) (length vars) (s_degree f)) by (split; [exact P3|split; [exact P4|exact S3]]).
  assert (Hi : series_init fnum_R E e_1 (s_coeffs f) (q_pos q) (Some (q_factor q)) (s_set f) = Ok (Ser (s_coeffs f) (q_pos q) (s_set f) (Degree.recovered (s_set f) (s_degree f)) (q_factor q))).
  { apply (series_init_ok fnum_R E e_1 (s_coeffs f) (q_pos q) (Some (q_factor q)) (s_set f) (length vars) (s_degree f) Hpd S4). left. intros G. discriminate G. }
  exists values, (Ser (s_coeffs f) (q_pos q) (s_set f) (Degree.recovered (s_set f) (s_degree f)) (q_factor q)).
  split; [exact V1|]. split; [rewrite D3, Heq; match goal with |- bind ?x _ = _ => replace x with (@Ok (list R) (s_coeffs f)) by (symmetry; exact T2) end; exact Hi|]. cbn [s_coeffs s_pos s_set s_factor]. split; [reflexivity|]. split; [symmetry; exact Hp|]. split; [reflexivity|]. split; [symmetry; exact Hf|].
  intros Hnc. assert (Degree.recovered (s_set f) (s_degree f) = s_degree f) as ->.
  { destruct Hfl as [_ Hfl]. destruct (s_set f); cbn [Degree.recovered]; try reflexivity; [specialize (Hfl (or_introl eq_refl)); lia|contradiction]. }
  rewrite <- Hp, <- Hf. destruct f. reflexivity.
Qed.
End Values.

Lemma r_reads : reads_free r_eval r_free.
Proof.
  intros e env env'. induction e; intros H; cbn [r_eval r_free] in *; try reflexivity.
  - apply H. left. reflexivity.
  - rewrite IHe1, IHe2; [reflexivity| |]; intros x Hx; apply H, in_or_app; auto.
  - rewrite IHe1, IHe2; [reflexivity| |]; intros x Hx; apply H, in_or_app; auto.
Qed.
Lemma map_diag : forall (f : R -> R) l, f 0 = 0 -> map (map f) (diag_mat fnum_R l) = diag_mat fnum_R (map f l).
Proof.
  intros f l Hf. unfold diag_mat. rewrite map_map, map_length. apply map_ext_in. intros i Hi. rewrite map_map. apply map_ext. intros j.
  change (@n0 (fn fnum_R)) with 0%R. apply in_seq in Hi. destruct (i =? j)%nat; [|exact Hf]. rewrite (nth_indep (map f l) 0%R (f 0%R)) by (rewrite map_length; lia). symmetry. exact (map_nth f l 0%R i).
Qed.
Lemma numpy_sample : numpy_ok r_cov_factor r_la_inv r_far.
Proof.
  split.
  - intros l _. exact (map_diag sqrt l sqrt_0).
  - intros l Hl. unfold r_la_inv. apply f_equal. etransitivity; [apply map_diag; destruct (Req_EM_T 0 0) as [_|n]; [reflexivity|destruct (n eq_refl)]|]. f_equal. apply map_ext_in. intros x Hx.
    destruct (Req_EM_T x 0) as [->|_]; [|reflexivity]. rewrite Forall_forall in Hl. specialize (Hl 0%R Hx). lra.
  - reflexivity.
Qed.

From Verif Require Import CalcHermite.
Lemma eval_types : ~ forall (q : quad fnum_R rexpr) vars (f : SeriesModel.series fnum_R rexpr) vs values, quad_R q vars -> gaussian (s_pos f) vs -> p_dirs (s_pos f) = p_dirs (q_pos q) ->
  f_dirs (s_factor f) = p_dirs (q_pos q) -> incl (r_free (f_sym (s_factor f))) (f_dirs (s_factor f)) -> fits (s_set f) (length vs) (s_degree f) ->
  flags_ok (s_set f) (s_degree f) (kinds (p_types (q_pos q))) -> flags_ok (s_set f) (s_degree f) (kinds (p_types (s_pos f))) -> vec_for (N := fnum_R) (s_set f) (length vs) (s_degree f) (s_coeffs f) ->
  quad_eval fnum_R rexpr r_free r_eval r_cov_factor r_la_inv r_far 0 q f = Ok values ->
  forall k p env, nth_error (grid (q_nodes q)) k = Some p -> at_point (p_dirs (q_pos q)) (grid_point q vars p) env ->
    nth_error values k = Some (CalcSpec.series (s_set f) (s_degree f) (kinds (p_types (s_pos f))) (s_coeffs f) (standardised (p_mean (s_pos f)) vs (grid_point q vars p)) * r_eval (f_sym (s_factor f)) env).
Proof.
  intros H. set (q := Qd (F := fnum_R) (E := rexpr) [[0]] [[1]] (Pos (N := fnum_R) [0]%nat [0] (diag_mat fnum_R [1]) ["hermite"]%string true) (Fn (RNum 1) [0]%nat)).
  set (f := Ser (N := fnum_R) [1; 0; 0] (Pos (N := fnum_R) [0]%nat [0] (diag_mat fnum_R [1]) ["fourier"]%string true) Triangle 2 (Fn (RNum 1) [0]%nat)).
  assert (G : forall ts, gaussian (Pos (N := fnum_R) [0]%nat [0] (diag_mat fnum_R [1]) [ts] true) [1]).
  { intros ts. split; [reflexivity|]. split; [repeat constructor; lra|]. repeat split; repeat constructor; cbn; intuition discriminate. }
  assert (Hq : quad_R q [1]). { split; [apply G|]. split; [reflexivity|]. split; [discriminate|unfold grid_fits; cbn; lia]. }
  assert (F1 : flags_ok Triangle 2 [0]%nat) by (split; [repeat constructor|intros [K|K]; discriminate K]).
  assert (F2 : flags_ok Triangle 2 [1]%nat) by (split; [repeat constructor; right; split; reflexivity|intros [K|K]; discriminate K]).
  assert (Hf : fits Triangle 1 2) by (split; [lia|split; [exact I|vm_compute; reflexivity]]).
  assert (Hv : vec_for (N := fnum_R) Triangle 1 2 [1; 0; 0]) by (vm_compute; reflexivity).
  destruct (eval_values rexpr r_free r_eval r_cov_factor r_la_inv r_far 0 numpy_sample r_reads q [1] f [1] Hq (G _) eq_refl eq_refl (incl_nil_l _) Hf F1 Hv) as (values & E1 & _ & E2).
  specialize (H q [1] f [1] values Hq (G _) eq_refl eq_refl (incl_nil_l _) Hf F1 F2 Hv E1 0%nat [0]%nat (fun _ => 0) eq_refl).
  specialize (E2 0%nat [0]%nat (fun _ => 0) eq_refl).
  assert (A : at_point (p_dirs (q_pos q)) (grid_point q [1] [0]%nat) (fun _ => 0)).
  { intros [|[|i]] d Hd; cbn in Hd; try discriminate Hd. cbn -[sqrt]. f_equal. ring. }
  rewrite (E2 A) in H. specialize (H A). injection H as H. cbn [r_eval f_sym s_factor f] in H. rewrite !Rmult_1_r in H.
  unfold CalcSpec.series, coef in H. cbn [s_set s_degree s_coeffs s_pos p_types f q q_pos kinds map length String.eqb Ascii.eqb Bool.eqb] in H. change (points Triangle 1 2) with [[0]; [1]; [2]]%nat in H.
  unfold rsum, phi, rprod, basis, fourier in H. cbn -[hermite sqrt Rmult Rplus PI] in H. rewrite !hermite_0 in H.
  assert (P := PI_RGT_0). assert (2 < PI) by (pose proof PI2_1; unfold PI2 in *; lra). assert (S : 1 < sqrt (2 * PI)) by (rewrite <- sqrt_1; apply sqrt_lt_1; lra).
  assert (K : 1 / sqrt (2 * PI) < 1) by (apply (Rmult_lt_reg_r (sqrt (2 * PI))); [lra|]; unfold Rdiv; rewrite Rmult_assoc, Rinv_l; lra). lra.
Qed.
