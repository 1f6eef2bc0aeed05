(** Plots of basis functions, the stream function and its levels. *)
From Coq Require Import String List Bool Arith ZArith Reals Lia Lra.
From Verif Require Import Base Lists PyBase IndexModel Num Fnum LinSpec CalcSpec CalcReal CalcTensor LinModel LinBase MatBase Spec Degree Facts2 Facts7 PosModel PosSpec PosFacts SeriesModel SeriesSpec SeriesFacts SeriesFacts2 PartModel SplitModel PyQuadModel PyQuadSpec PyQuadFacts PyQuadFacts2 PlotModel PlotSpec PlotFacts.
Import ListNotations.
Local Open Scope R_scope.

(** The stream function *)
Lemma psi_first_length : forall x prev xp fy, length fy = length x -> length (psi_first prev xp x fy) = length x.
Proof. induction x as [|x0 x IH]; intros prev xp [|f fy] H; try discriminate H; [reflexivity|]. cbn [psi_first length]. f_equal. apply IH. cbn in H. lia. Qed.
Lemma psi_first_at : forall x prev xp fy f k, length fy = length x -> (k < length x)%nat ->
  nth (S k) (prev :: psi_first prev xp x fy) 0 = nth k (prev :: psi_first prev xp x fy) 0 - nth (S k) (f :: fy) 0 * (nth (S k) (xp :: x) 0 - nth k (xp :: x) 0).
Proof.
  induction x as [|x0 x IH]; intros prev xp [|f0 fy] f k H Hk; try discriminate H; [cbn in Hk; lia|]. cbn [psi_first]. destruct k as [|k]; [reflexivity|].
  set (v := prev - f0 * (x0 - xp)). cbn [nth]. pose proof (IH v x0 fy f0 k ltac:(cbn in H; lia) ltac:(cbn in Hk; lia)) as G. cbn [nth] in G. rewrite G. reflexivity.
Qed.
Lemma psi_rows_length : forall y prev yp fx, length fx = length y -> length (psi_rows prev yp y fx) = length y.
Proof. induction y as [|y0 y IH]; intros prev yp [|f fx] H; try discriminate H; [reflexivity|]. cbn [psi_rows length]. f_equal. apply IH. cbn in H. lia. Qed.
Lemma psi_rows_wide : forall n y prev yp fx, length fx = length y -> length prev = n -> Forall (fun r => length r = n) fx -> Forall (fun r => length r = n) (psi_rows prev yp y fx).
Proof.
  intros n. induction y as [|y0 y IH]; intros prev yp [|f fx] H Hp Hf; try discriminate H; [constructor|]. inversion Hf; subst. cbn [psi_rows].
  assert (L : length (map (fun '(p, u) => p + u * (y0 - yp)) (combine prev f)) = length prev) by (rewrite map_length, combine_length; lia).
  constructor; [exact L|]. apply IH; [cbn in H; lia|exact L|assumption].
Qed.
Lemma nth_combine_map : forall (c : R) (l r : list R) i, length l = length r -> (i < length r)%nat -> nth i (map (fun '(p, u) => p + u * c) (combine l r)) 0 = nth i l 0 + nth i r 0 * c.
Proof.
  intros c. induction l as [|a l IH]; intros [|b r] [|i] H Hi; try discriminate H; cbn in Hi; try lia; cbn [combine map nth]; [reflexivity|]. apply IH; cbn in H; lia.
Qed.
Lemma psi_rows_at : forall n y prev yp fx f j i, length fx = length y -> length prev = n -> Forall (fun r => length r = n) fx -> (j < length y)%nat -> (i < n)%nat ->
  at2 (prev :: psi_rows prev yp y fx) (S j) i = at2 (prev :: psi_rows prev yp y fx) j i + at2 (f :: fx) (S j) i * (nth (S j) (yp :: y) 0 - nth j (yp :: y) 0).
Proof.
  intros n. induction y as [|y0 y IH]; intros prev yp [|f0 fx] f j i H Hp Hf Hj Hi; try discriminate H; [cbn in Hj; lia|]. inversion Hf; subst. cbn [psi_rows].
  set (r := map (fun '(p, u) => p + u * (y0 - yp)) (combine prev f0)). assert (L : length r = length prev) by (unfold r; rewrite map_length, combine_length; lia). destruct j as [|j].
  - unfold at2. cbn [nth]. unfold r. apply nth_combine_map; congruence.
  - pose proof (IH r y0 fx f0 j i ltac:(cbn in H; lia) L ltac:(assumption) ltac:(cbn in Hj; lia) Hi) as G. unfold at2 in *. cbn [nth] in *. exact G.
Qed.

Lemma psi_ok : forall x y fx fy u v, x <> [] -> y <> [] -> length fx = length y -> length fy = length y -> Forall (fun r => length r = length x) fx -> Forall (fun r => length r = length x) fy ->
  (forall i j, (i < length x)%nat -> (j < length y)%nat -> at2 fx j i = u (nth i x 0) (nth j y 0)) -> (forall i j, (i < length x)%nat -> (j < length y)%nat -> at2 fy j i = v (nth i x 0) (nth j y 0)) ->
  stream_function x y u v (calc_psi2d x y fx fy).
Proof.
  intros [|x0 x] [|y0 y] [|f fx] [|[|g0 g] fy] u v Hx Hy H1 H2 H3 H4 H5 H6; try contradiction; try discriminate; [inversion H4; discriminate|].
  inversion H3 as [|? ? K1 K2]; subst. inversion H4 as [|? ? K3 K4]; subst. cbn [length] in *. injection H1 as H1. injection H2 as H2. injection K3 as K3.
  cbn [calc_psi2d]. set (r0 := 0 :: psi_first 0 x0 x g). assert (L0 : length r0 = S (length x)) by (unfold r0; cbn [length]; f_equal; apply psi_first_length; exact K3).
  split; [cbn [length]; f_equal; apply psi_rows_length; exact H1|]. split; [constructor; [exact L0|apply psi_rows_wide; assumption]|]. split; [reflexivity|]. split.
  - intros i Hi. assert (G : at2 (r0 :: psi_rows r0 y0 y fx) 0 (S i) = at2 (r0 :: psi_rows r0 y0 y fx) 0 i - at2 ((g0 :: g) :: fy) 0 (S i) * (nth (S i) (x0 :: x) 0 - nth i (x0 :: x) 0)).
    { unfold at2. change (nth 0 (r0 :: psi_rows r0 y0 y fx) []) with r0. change (nth 0 ((g0 :: g) :: fy) []) with (g0 :: g). unfold r0. apply psi_first_at; [exact K3|cbn [length] in Hi; lia]. }
    rewrite G, (H6 (S i) 0%nat); [|cbn [length] in Hi; lia|lia]. lra.
  - intros i j Hi Hj. rewrite (psi_rows_at (S (length x)) y r0 y0 fx f j i H1 L0 K2); [|cbn [length] in Hj; lia|exact Hi]. rewrite (H5 i (S j)); [|exact Hi|exact Hj]. lra.
Qed.

Lemma stream_all : forall x y u v psi, stream_function x y u v psi -> solenoidal x y u v ->
  forall i j, (S i < length x)%nat -> (j < length y)%nat -> at2 psi j (S i) - at2 psi j i = - v (nth (S i) x 0) (nth j y 0) * (nth (S i) x 0 - nth i x 0).
Proof.
  intros x y u v psi (_ & _ & _ & A & B) S i j Hi. induction j as [|j IH]; intros Hj; [apply A; exact Hi|].
  pose proof (IH ltac:(lia)) as G. pose proof (B i j ltac:(lia) Hj) as G1. pose proof (B (Datatypes.S i) j Hi Hj) as G2. pose proof (S i j Hi Hj) as G3. lra.
Qed.

Lemma stream_const : forall x y u v psi, stream_function x y (fun _ _ => u) (fun _ _ => v) psi ->
  forall i j, (i < length x)%nat -> (j < length y)%nat -> at2 psi j i = u * (nth j y 0 - nth 0 y 0) - v * (nth i x 0 - nth 0 x 0).
Proof.
  intros x y u v psi (_ & _ & Z & A & B) i j Hi Hj. induction j as [|j IH].
  - induction i as [|i IH]; [rewrite Z; lra|]. specialize (IH ltac:(lia)). pose proof (A i Hi) as G. lra.
  - pose proof (B i j Hi Hj) as G. specialize (IH ltac:(lia)). lra.
Qed.

(** The levels *)
Lemma minimum_ok : forall l a, (forall b, In b (a :: l) -> minimum a l <= b) /\ In (minimum a l) (a :: l).
Proof.
  unfold minimum. induction l as [|c l IH]; intros a; cbn [fold_left].
  - split; [intros b [->|[]]; lra|left; reflexivity].
  - destruct (IH (Rmin a c)) as [I1 I2]. split.
    + intros b [->|[->|Hb]]; [| |apply I1; right; exact Hb]; eapply Rle_trans; try (apply I1; left; reflexivity); [apply Rmin_l|apply Rmin_r].
    + destruct I2 as [I2|I2]; [|right; right; exact I2]. rewrite <- I2. unfold Rmin. destruct (Rle_dec a c); [left|right; left]; reflexivity.
Qed.
Lemma maximum_ok : forall l a, (forall b, In b (a :: l) -> b <= maximum a l) /\ In (maximum a l) (a :: l).
Proof.
  unfold maximum. induction l as [|c l IH]; intros a; cbn [fold_left].
  - split; [intros b [->|[]]; lra|left; reflexivity].
  - destruct (IH (Rmax a c)) as [I1 I2]. split.
    + intros b [->|[->|Hb]]; [| |apply I1; right; exact Hb]; eapply Rle_trans; try (apply I1; left; reflexivity); [apply Rmax_l|apply Rmax_r].
    + destruct I2 as [I2|I2]; [|right; right; exact I2]. rewrite <- I2. unfold Rmax. destruct (Rle_dec a c); [right; left|left]; reflexivity.
Qed.
Lemma range_ok : forall a b, a <= b -> let '(first, last) := stream_range a b in a <= first /\ last <= b /\ (a < b -> first < last) /\ (a = b -> first = last).
Proof.
  intros a b H. unfold stream_range. destruct (Rlt_dec (Rabs a) (/ 10 * (b - a))) as [A|A].
  - destruct (Rlt_dec (Rabs b) (/ 10 * (b - / 10 * (b - a)))) as [B|B]; unfold Rabs in *; destruct (Rcase_abs a); destruct (Rcase_abs b); repeat split; intros; lra.
  - destruct (Rlt_dec (Rabs b) (/ 10 * (b - a))) as [B|B]; unfold Rabs in *; destruct (Rcase_abs a); destruct (Rcase_abs b); repeat split; intros; lra.
Qed.
Lemma linspace_ok : forall a b, equidistant a b (linspace10 a b).
Proof. intros a b. split; [reflexivity|]. intros k Hk. do 10 (destruct k as [|k]; [cbn [linspace10 seq map nth]; unfold Rdiv; ring|]). lia. Qed.
Lemma in_at2 : forall psi nx ny b, length psi = ny -> Forall (fun row => length row = nx) psi -> (In b (concat psi) <-> exists i j, (i < nx)%nat /\ (j < ny)%nat /\ b = at2 psi j i).
Proof.
  intros psi nx ny b H1 H2. rewrite Forall_forall in H2. split.
  - intros H. apply in_concat in H as (row & Hr & Hb). destruct (In_nth _ _ [] Hr) as (j & Hj & <-). destruct (In_nth _ _ 0 Hb) as (i & Hi & <-).
    exists i, j. rewrite (H2 _ Hr) in Hi. split; [exact Hi|]. split; [rewrite <- H1; exact Hj|reflexivity].
  - intros (i & j & Hi & Hj & ->). apply in_concat. exists (nth j psi []). assert (Hr : In (nth j psi []) psi) by (apply nth_In; lia). split; [exact Hr|]. unfold at2. apply nth_In. rewrite (H2 _ Hr). exact Hi.
Qed.
Lemma levels_ok : forall psi nx ny, length psi = ny -> Forall (fun row => length row = nx) psi -> (0 < nx)%nat -> (0 < ny)%nat ->
  exists levels a b, stream_levels psi = Ok levels /\ equidistant a b levels /\
    (forall i j i' j', (i < nx)%nat -> (j < ny)%nat -> (i' < nx)%nat -> (j' < ny)%nat -> at2 psi j i < at2 psi j' i' -> a < b) /\
    ((forall i j i' j', (i < nx)%nat -> (j < ny)%nat -> (i' < nx)%nat -> (j' < ny)%nat -> at2 psi j i = at2 psi j' i') -> a = b) /\
    (exists i j, (i < nx)%nat /\ (j < ny)%nat /\ at2 psi j i <= a) /\ (exists i j, (i < nx)%nat /\ (j < ny)%nat /\ b <= at2 psi j i).
Proof.
  intros psi nx ny H1 H2 Hx Hy. pose proof (fun b => in_at2 psi nx ny b H1 H2) as G. unfold stream_levels. destruct (concat psi) as [|c l] eqn:Ec.
  - destruct (proj2 (G (at2 psi 0 0))). exists 0%nat, 0%nat. split; [exact Hx|]. split; [exact Hy|reflexivity].
  - destruct (minimum_ok l c) as [M1 M2]. destruct (maximum_ok l c) as [N1 N2]. pose proof (range_ok (minimum c l) (maximum c l) (M1 _ N2)) as K. destruct (stream_range (minimum c l) (maximum c l)) as [a b].
    destruct K as (K1 & K2 & K3 & K4). exists (linspace10 a b), a, b. split; [reflexivity|]. split; [apply linspace_ok|].
    apply G in M2 as (mi & mj & Hmi & Hmj & M2). apply G in N2 as (ni & nj & Hni & Hnj & N2). split; [|split; [|split]].
    + intros i j i' j' Hi Hj Hi' Hj' Hlt. apply K3. assert (A : minimum c l <= at2 psi j i) by (apply M1, G; exists i, j; auto). assert (B : at2 psi j' i' <= maximum c l) by (apply N1, G; exists i', j'; auto). lra.
    + intros H. apply K4. rewrite M2, N2. apply H; assumption.
    + exists mi, mj. split; [exact Hmi|]. split; [exact Hmj|]. lra.
    + exists ni, nj. split; [exact Hni|]. split; [exact Hnj|]. lra.
Qed.

Section Hf.
Variable E : Type.
Variable e_1 : E.
Lemma hf_ok : forall (q : quad fnum_R E) vars m, gaussian (q_pos q) vars -> length m = length vars -> usable Triangle (length vars) (list_sum m) ->
  exists f, hf_series E e_1 q m = Ok f /\ s_pos f = q_pos q /\ s_factor f = q_factor q /\ s_set f = Triangle /\ s_degree f = list_sum m /\ @vec_for num_R Triangle (length vars) (list_sum m) (s_coeffs f) /\
    forall flags x, length flags = length vars -> CalcSpec.series Triangle (list_sum m) flags (s_coeffs f) x = phi flags m x.
Proof.
  intros q vars m (P1 & P2 & P3 & P4 & P5 & P6) Hm Hu. unfold hf_series, p_dim. set (P := points Triangle (length vars) (list_sum m)).
  assert (Hin : In m P). { apply points_In; [exact Hu|]. split; [exact Hm|]. cbn. lia. }
  assert (Hi : (idx P m < length P)%nat) by (apply idx_lt; exact Hin).
  replace (length m =? @length (carrier fnum_R) (p_mean (q_pos q)))%nat with true by (symmetry; apply Nat.eqb_eq; exact (eq_trans Hm (eq_sym P4))). cbn [require bind].
  rewrite Hm, (py_size_ok Triangle (length vars) (list_sum m) Hu). cbn [bind]. rewrite (tri_index_points (length vars) (list_sum m) m Hu Hin). cbn [bind]. fold P. unfold unit_vec.
  rewrite py_set_ok by (rewrite repeat_length; exact Hi). cbn [bind]. unfold quad_series.
  assert (Hlen : length (upd (repeat 0 (length P)) (idx P m) 1) = length P) by (rewrite upd_length', repeat_length; reflexivity).
  exists (Ser (N := fnum_R) (upd (repeat 0 (length P)) (idx P m) 1) (q_pos q) Triangle (list_sum m) (q_factor q)).
  split; [|repeat split].
  - rewrite (series_init_ok fnum_R E e_1 _ (q_pos q) (Some (q_factor q)) Triangle (length vars) (list_sum m)); [reflexivity|split; [exact P3|split; [exact P4|exact Hu]]|exact Hlen|left; discriminate].
  - exact Hlen.
  - intros flags x Hf. cbn [s_coeffs]. unfold CalcSpec.series. rewrite Hf. fold P. assert (ND : NoDup P) by (apply points_NoDup; exact Hu).
    etransitivity; [apply (rsum_single _ _ P m ND Hin)|].
    + intros k Hk Hne. unfold coef. fold P. destruct (In_nth_error _ _ Hk) as [i Hki]. rewrite (value_nth _ _ P _ i k ND Hki Hlen).
      assert (Z : @nth R i (upd (repeat 0 (length P)) (idx P m) 1) 0 = 0).
      { apply nth_error_nth. etransitivity; [apply upd_other|].
        - intros ->. pose proof (idx_nth P m Hin) as G. congruence.
        - assert (L : (i < length P)%nat) by (apply nth_error_Some; congruence). pose proof (nth_error_repeat 0 L) as G. exact G. }
      exact (eq_trans (f_equal (fun t => t * phi flags k x) Z) (Rmult_0_l _)).
    + unfold coef. fold P. rewrite (value_nth _ _ P _ (idx P m) m ND (idx_nth P m Hin) Hlen).
      assert (Z : @nth R (idx P m) (upd (repeat 0 (length P)) (idx P m) 1) 0 = 1) by (apply nth_error_nth, upd_at; rewrite repeat_length; exact Hi).
      exact (eq_trans (f_equal (fun t => t * phi flags m x) Z) (Rmult_1_l _)).
Qed.
Lemma hf_bad : forall (q : quad fnum_R E) m, length m <> p_dim (q_pos q) -> hf_series E e_1 q m = Throw "ValueError"%string.
Proof. intros q m H. unfold hf_series. replace (length m =? p_dim (q_pos q))%nat with false by (symmetry; apply Nat.eqb_neq; exact H). reflexivity. Qed.
End Hf.

Section Stream.
Variable far : list (list R) -> bool.
Hypothesis Hfar : forall l, far (diag_mat num_R l) = false.
Variable E : Type.
Variable e_mul : E -> E -> E.
Variable e_1 : E.
Variable e_var : nat -> E.
Variable add_args mul_args : E -> list E.
Variable free_vars : E -> fset.
Variable eval : E -> (nat -> R) -> R.
Variable cov_factor : list (list R) -> list (list R).
Variable la_inv : list (list R) -> res (list (list R)).
Variable far8 : list (list R) -> bool.
Variable junk : R.
Hypothesis NP : numpy_ok cov_factor la_inv far8.
Hypothesis RF : reads_free eval free_vars.
Hypothesis Hvar : forall d env, eval (e_var d) env = env d.
Hypothesis Hfree : forall d, free_vars (e_var d) = [d].
Notation quad := (quad fnum_R E).
Notation fun_project := (fun_project E e_mul e_1 add_args mul_args free_vars).
Notation quad_discretize := (quad_discretize fnum_R E free_vars eval cov_factor junk).
Notation quad_eval := (quad_eval fnum_R E free_vars eval cov_factor la_inv far8 junk).
Notation quad_streamlines := (quad_streamlines far E e_mul e_1 e_var add_args mul_args free_vars eval cov_factor la_inv far8 junk).
Notation stream_axes := (stream_axes far E e_mul e_1 e_var add_args mul_args free_vars eval cov_factor junk).
Notation plot_axes := (plot_axes far E e_mul e_1 e_var add_args mul_args free_vars eval cov_factor junk).
Notation series_values := (series_values E free_vars eval cov_factor la_inv far8 junk).

Lemma combine_at : forall A B (l : list A) (r : list B) k a b, nth_error l k = Some a -> nth_error r k = Some b -> nth_error (combine l r) k = Some (a, b).
Proof using. induction l as [|x l IH]; intros [|y r] [|k] a b H1 H2; try discriminate; cbn in *; [congruence|apply IH; assumption]. Qed.
Lemma times_grid : forall (q : quad) vars v w g h, grid_values q vars v g -> grid_values q vars w h ->
  exists r, np_vec fnum_R (@nmul fnum_R) v w = Ok r /\ grid_values q vars r (fun env => g env * h env).
Proof using.
  intros q vars v w g h [V1 V2] [W1 W2]. exists (map (fun '(x, y) => x * y) (combine v w)). split; [exact (np_vec_ok fnum_R (@nmul fnum_R) v w (eq_trans V1 (eq_sym W1)))|].
  split; [rewrite map_length, combine_length; rewrite V1, W1; apply Nat.min_id|]. intros k p env Hk He.
  rewrite nth_error_map, (combine_at _ _ _ _ _ _ _ (V2 k p env Hk He) (W2 k p env Hk He)). reflexivity.
Qed.

Lemma grid_ext : forall (q : quad) vars v g h, grid_values q vars v g -> (forall env, g env = h env) -> grid_values q vars v h.
Proof using. intros q vars v g h [V1 V2] H. split; [exact V1|]. intros k p env Hk He. rewrite <- H. exact (V2 k p env Hk He). Qed.
Lemma drawn_values : forall (q : quad) vars f vs factor, quad_R q vars -> series_on free_vars q f vs -> factor_on free_vars q factor ->
  exists values, series_values q f factor = Ok values /\ grid_values q vars values (drawn eval q f vs factor).
Proof using NP RF.
  intros q vars f vs factor HR (H1 & H2 & H3 & H4 & H5 & H6 & H7) Hf. destruct (series_grid E free_vars eval cov_factor la_inv far8 junk NP RF q vars f vs HR H1 H2 H3 H4 H5 H6 H7) as (values & E1 & E2).
  unfold PlotModel.series_values. destruct factor as [[g|w]|]; [|destruct Hf|].
  - destruct Hf as [Hf1 Hf2]. destruct (discretize_values E free_vars eval cov_factor la_inv far8 junk NP RF q vars g HR Hf1 Hf2) as (fv & F1 & F2). rewrite F1. cbn [bind]. rewrite E1. cbn [bind].
    exact (times_grid q vars values fv _ _ E2 F2).
  - exists values. split; [exact E1|]. eapply grid_ext; [exact E2|]. intros env. unfold drawn. symmetry. apply Rmult_1_r.
Qed.

Lemma stream_axes_01 : forall q : quad, p_dirs (q_pos q) = [0; 1]%nat -> stream_axes q = plot_axes q.
Proof using. intros q H. unfold PlotModel.stream_axes, PlotModel.plot_axes. rewrite H. reflexivity. Qed.

Lemma transpose_at2 : forall n0 n1 (v : list R) i j x, length v = (n0 * n1)%nat -> (i < n0)%nat -> (j < n1)%nat -> nth_error v (i * n1 + j) = Some x -> at2 (transpose n1 (reshape2 n0 n1 v)) j i = x.
Proof using.
  intros n0 n1 v i j x Hv Hi Hj Hx. unfold at2. pose proof (transpose_rows n0 n1 v) as W. rewrite Forall_forall in W.
  destruct (nth_error (transpose n1 (reshape2 n0 n1 v)) j) as [row|] eqn:Er; [|apply nth_error_None in Er; rewrite transpose_length in Er; lia].
  pose proof (W row (nth_error_In _ _ Er)) as Lr. rewrite (nth_error_nth _ _ _ Er). destruct (nth_error row i) as [z|] eqn:Ez; [|apply nth_error_None in Ez; lia].
  destruct (transpose_at n0 n1 v i j row z Hv Er Ez) as (_ & _ & G). rewrite (nth_error_nth _ _ _ Ez). congruence.
Qed.

Theorem streamlines_ok : forall (q : quad) vars fx fy factor sx sy u v, quad_R q vars -> plottable fun_project q -> p_dirs (q_pos q) = [0; 1]%nat -> Forall (fun xs => xs <> []) (q_nodes q) ->
  series_values q fx factor = Ok sx -> series_values q fy factor = Ok sy -> grid_values q vars sx u -> grid_values q vars sy v ->
  exists x y psi levels, quad_streamlines q (FlowSeries E fx fy) factor = Ok (x, y, psi, levels) /\ coordinates q vars = [x; y] /\ x <> [] /\ y <> [] /\
    stream_levels psi = Ok levels /\ stream_function x y (fun s t => u (plane s t)) (fun s t => v (plane s t)) psi.
Proof using Hfar NP RF Hvar Hfree.
  intros q vars fx fy factor sx sy u v HR HP Hd Hne Hsx Hsy [U1 U2] [V1 V2]. pose proof HR as ((P1 & P2 & P3 & P4 & P5 & P6) & Q1 & Q2 & Q3). pose proof HP as (H1 & H2 & H3 & H4).
  pose proof (axes_ok far Hfar E e_mul e_1 e_var add_args mul_args free_vars eval cov_factor la_inv far8 junk NP RF Hvar Hfree q vars HR HP) as Hax. rewrite <- (stream_axes_01 q Hd) in Hax.
  unfold PlotModel.quad_streamlines. rewrite H1. cbn [require bind].
  assert (Hdim : p_dim (q_pos q) = 2%nat) by (unfold p_dim; rewrite Hd in P3; exact (eq_trans P4 (eq_sym P3))). rewrite Hdim. cbn [Nat.eqb require bind].
  set (M := match factor with None => _ | Some _ => _ end). assert (HM : M = Ok (Some sx, Some sy)).
  { unfold M. clear M Hax. unfold PlotModel.series_values in Hsx, Hsy. destruct factor as [[g|w]|]; [| |].
    - destruct (quad_discretize q g) as [fv| | | |]; try discriminate Hsx. cbn [bind] in *. destruct (quad_eval q fx) as [a| | | |]; try discriminate Hsx. cbn [bind] in *. rewrite Hsx. cbn [bind].
      destruct (quad_eval q fy) as [b| | | |]; try discriminate Hsy. cbn [bind] in *. rewrite Hsy. reflexivity.
    - discriminate Hsx.
    - rewrite Hsx. cbn [bind]. rewrite Hsy. reflexivity. }
  rewrite HM. clear HM M. cbn [bind]. rewrite Hax. cbn [bind]. unfold coordinates in *. unfold grid_point, located in U2, V2.
  clear HR HP P1 P5 Hsx Hsy H1 H2 H3 H4 Q3 Hax Hdim. destruct q as [nodes weights [dirs mean cov types diag] fct]. cbn [q_nodes q_pos p_mean p_dirs] in *. subst dirs.
  destruct vars as [|va [|vb [|]]]; try discriminate P3. destruct nodes as [|xs [|ys [|]]]; try discriminate Q1. destruct mean as [|m [|m' [|]]]; try discriminate P4.
  cbn [map combine]. rewrite grid_2_length in U1, V1. match goal with |- context [require (?a && ?b)%bool _] => replace (a && b)%bool with true by (symmetry; apply andb_true_intro; split; apply Nat.eqb_eq; [exact U1|exact V1]) end. cbn [require bind].
  set (x := map (fun t => m + sqrt va * t) xs). set (y := map (fun t => m' + sqrt vb * t) ys). set (psi := calc_psi2d _ _ _ _).
  assert (Lx : length x = length xs) by (unfold x; apply map_length). assert (Ly : length y = length ys) by (unfold y; apply map_length).
  inversion Hne as [|? ? N1 N2]; subst. inversion N2 as [|? ? N3 _]; subst.
  assert (Nx : x <> []) by (destruct xs; [contradiction|discriminate]). assert (Ny : y <> []) by (destruct ys; [contradiction|discriminate]).
  assert (Hgrid : forall i j, (i < length xs)%nat -> (j < length ys)%nat -> nth_error sx (i * length ys + j) = Some (u (plane (nth i x 0) (nth j y 0))) /\ nth_error sy (i * length ys + j) = Some (v (plane (nth i x 0) (nth j y 0)))).
  { intros i j Hi Hj. assert (Ha : at_point [0; 1]%nat (map (fun '(m, (v, t)) => m + sqrt v * t) (combine [m; m'] (combine [va; vb] (at_pos [xs; ys] [i; j])))) (plane (nth i x 0) (nth j y 0))).
    { intros [|[|k]] d Hd; [injection Hd as <-; cbn; f_equal; unfold x|injection Hd as <-; cbn; f_equal; unfold y|destruct k; discriminate Hd].
      - symmetry. rewrite nth_indep with (d' := m + sqrt va * 0) by (rewrite map_length; exact Hi). exact (map_nth (fun t => m + sqrt va * t) xs 0 i).
      - symmetry. rewrite nth_indep with (d' := m' + sqrt vb * 0) by (rewrite map_length; exact Hj). exact (map_nth (fun t => m' + sqrt vb * t) ys 0 j). }
    split; [exact (U2 _ [i; j] _ (grid_2 xs ys i j Hi Hj) Ha)|exact (V2 _ [i; j] _ (grid_2 xs ys i j Hi Hj) Ha)]. }
  assert (SF : stream_function x y (fun s t => u (plane s t)) (fun s t => v (plane s t)) psi).
  { unfold psi. apply psi_ok; try assumption; try (rewrite transpose_length; symmetry; exact Ly); try (rewrite Lx; apply transpose_rows).
    - intros i j Hi Hj. rewrite Lx in Hi. rewrite Ly in Hj. apply transpose_at2; [exact U1|exact Hi|exact Hj|apply Hgrid; assumption].
    - intros i j Hi Hj. rewrite Lx in Hi. rewrite Ly in Hj. apply transpose_at2; [exact V1|exact Hi|exact Hj|apply Hgrid; assumption]. }
  destruct (levels_ok psi (length x) (length y)) as (levels & a & b & L1 & _); [apply SF|apply SF|destruct x; [contradiction|cbn; lia]|destruct y; [contradiction|cbn; lia]|].
  rewrite L1. cbn [bind]. exists x, y, psi, levels. split; [reflexivity|]. split; [reflexivity|]. split; [exact Nx|]. split; [exact Ny|]. split; [exact L1|exact SF].
Qed.

(** Failures *)
Lemma streamlines_fun : forall q fx fy factor r, quad_streamlines q (FlowFun E fx fy) factor <> Ok r.
Proof using.
  intros q fx fy factor r H. unfold PlotModel.quad_streamlines in H. destruct (p_is_diag (q_pos q)); [|discriminate H]. cbn [require bind] in H. destruct (p_dim (q_pos q) =? 2)%nat; [|discriminate H]. cbn [require bind] in H.
  destruct factor; [discriminate H|]. cbn [require bind] in H. destruct (quad_discretize q fx); try discriminate H. cbn [bind] in H. destruct (quad_discretize q fy); try discriminate H. cbn [bind] in H.
  destruct (stream_axes q) as [[|[n0 x] [|[n1 y] [|]]]| | | |]; discriminate H.
Qed.
Lemma streamlines_array : forall q fl w r, quad_streamlines q fl (Some (FactorArray E w)) <> Ok r.
Proof using.
  intros q fl w r H. destruct fl as [fx fy|fx fy| |]; [exact (streamlines_fun q fx fy _ r H)| | |]; unfold PlotModel.quad_streamlines in H; destruct (p_is_diag (q_pos q)); try discriminate H; cbn [require bind] in H;
  destruct (p_dim (q_pos q) =? 2)%nat; try discriminate H. cbn [require bind] in H. destruct (stream_axes q) as [[|[n0 x] [|[n1 y] [|]]]| | | |]; discriminate H.
Qed.
Lemma pos_project_dirs : forall p ds r, pos_project fnum_R far p ds = Ok r -> p_dirs r = ds.
Proof using.
  intros p ds r H. unfold pos_project in H. destruct (p_is_diag p && nats_eqb ds (py_sorted ds))%bool; [|discriminate H]. cbn [require bind] in H.
  destruct (mapM (py_index (p_dirs p)) ds) as [rel| | | |]; try discriminate H. cbn [bind] in H. destruct (mapM (py_get (p_mean p)) rel) as [mean| | | |]; try discriminate H. cbn [bind] in H.
  destruct (mapM (variance fnum_R p) rel) as [cov| | | |]; try discriminate H. cbn [bind] in H. destruct (mapM (py_get (p_types p)) rel) as [types| | | |]; try discriminate H. cbn [bind] in H.
  unfold position_init in H. cbn [bind] in H. destruct (_ && _)%bool in H; [|discriminate H]. cbn [require bind] in H. destruct (square _ _) in H; [|discriminate H]. cbn [require bind] in H. injection H as <-. reflexivity.
Qed.
Lemma quad_project_dirs : forall q ds r, quad_project fnum_R far E e_mul e_1 add_args mul_args free_vars q ds = Ok r -> p_dirs (q_pos r) = ds.
Proof using.
  intros q ds r H. unfold quad_project in H. destruct (fun_project (q_factor q) ds) as [g| | | |]; try discriminate H. cbn [bind] in H. destruct (pos_project fnum_R far (q_pos q) ds) as [p| | | |] eqn:Ep; try discriminate H. cbn [bind] in H.
  destruct (mapM _ (p_dirs p)) as [ns| | | |] in H; try discriminate H. cbn [bind] in H. destruct (mapM _ (p_dirs p)) as [ws| | | |] in H; try discriminate H. cbn [bind] in H.
  unfold quad_init in H. destruct (_ && _)%bool in H; [|discriminate H]. cbn [require bind] in H. injection H as <-. cbn. exact (pos_project_dirs _ _ _ Ep).
Qed.
Lemma streamlines_dirs : forall (q : quad) fl factor r, length (p_dirs (q_pos q)) = 2%nat -> quad_streamlines q fl factor = Ok r -> p_dirs (q_pos q) = [0; 1]%nat.
Proof using.
  intros q fl factor r Hl H. unfold PlotModel.quad_streamlines in H. destruct (require (p_is_diag (q_pos q)) _); try discriminate H. cbn [bind] in H. destruct (require (match fl with FlowMixed _ => false | _ => true end) _); try discriminate H. cbn [bind] in H.
  destruct (require (p_dim (q_pos q) =? 2)%nat _); try discriminate H. cbn [bind] in H. destruct (match fl with FlowFun _ _ _ => _ | _ => _ end) as [[sx sy]| | | |] in H; try discriminate H. cbn [bind] in H.
  destruct (stream_axes q) as [axes| | | |] eqn:Ea; try discriminate H. clear H. unfold PlotModel.stream_axes in Ea. destruct (p_dirs (q_pos q)) as [|da [|db [|]]]; try discriminate Hl. cbn [length seq combine mapM] in Ea.
  destruct (py_get (q_nodes q) 0) as [n0'| | | |]; try discriminate Ea. cbn [bind] in Ea. destruct (quad_project fnum_R far E e_mul e_1 add_args mul_args free_vars q [0%nat]) as [qa| | | |] eqn:E0; try discriminate Ea. cbn [bind] in Ea.
  apply quad_project_dirs in E0. rewrite E0 in Ea. unfold coordinate at 1 in Ea. destruct (py_in da [0%nat]) eqn:Ia; [|discriminate Ea]. cbn [require bind] in Ea. destruct (quad_discretize qa _) as [ra| | | |]; try discriminate Ea. cbn [bind] in Ea.
  destruct (py_get (q_nodes q) 1) as [n1'| | | |]; try discriminate Ea. cbn [bind] in Ea. destruct (quad_project fnum_R far E e_mul e_1 add_args mul_args free_vars q [1%nat]) as [qb| | | |] eqn:E1; try discriminate Ea. cbn [bind] in Ea.
  apply quad_project_dirs in E1. rewrite E1 in Ea. unfold coordinate at 1 in Ea. destruct (py_in db [1%nat]) eqn:Ib; [|discriminate Ea].
  unfold py_in in Ia, Ib. cbn in Ia, Ib. rewrite orb_false_r in Ia, Ib. apply Nat.eqb_eq in Ia, Ib. congruence.
Qed.
End Stream.

Section Final.
Variable far : list (list R) -> bool.
Hypothesis Hfar : forall l, far (diag_mat num_R l) = false.
Variable E : Type.
Variable e_mul : E -> E -> E.
Variable e_1 : E.
Variable e_var : nat -> E.
Variable add_args mul_args : E -> list E.
Variable free_vars : E -> fset.
Variable eval : E -> (nat -> R) -> R.
Variable cov_factor : list (list R) -> list (list R).
Variable la_inv : list (list R) -> res (list (list R)).
Variable far8 : list (list R) -> bool.
Variable junk : R.
Hypothesis NP : numpy_ok cov_factor la_inv far8.
Hypothesis RF : reads_free eval free_vars.
Hypothesis Hvar : forall d env, eval (e_var d) env = env d.
Hypothesis Hfree : forall d, free_vars (e_var d) = [d].
Notation quad := (quad fnum_R E).
Notation plottable := (plottable (fun_project E e_mul e_1 add_args mul_args free_vars)).
Notation quad_plot := (quad_plot far E e_mul e_1 e_var add_args mul_args free_vars eval cov_factor la_inv far8 junk).
Notation quad_plot_hf := (quad_plot_hf far E e_mul e_1 e_var add_args mul_args free_vars eval cov_factor la_inv far8 junk).
Notation quad_streamlines := (quad_streamlines far E e_mul e_1 e_var add_args mul_args free_vars eval cov_factor la_inv far8 junk).
Notation plot_shows := (plot_shows far Hfar E e_mul e_1 e_var add_args mul_args free_vars eval cov_factor la_inv far8 junk NP RF Hvar Hfree).
Notation drawn_values := (drawn_values E free_vars eval cov_factor la_inv far8 junk NP RF).

Lemma plot_function : forall (q : quad) vars f, quad_R q vars -> plottable q -> (length vars <= 2)%nat -> f_dirs f = p_dirs (q_pos q) -> incl (free_vars (f_sym f)) (f_dirs f) ->
  exists pic, quad_plot q (ArgFun E f) None = Ok pic /\ shows (p_dirs (q_pos q)) (coordinates q vars) pic (eval (f_sym f)).
Proof using Hfar NP RF Hvar Hfree.
  intros q vars f HR HP Hd H1 H2. destruct (discretize_values E free_vars eval cov_factor la_inv far8 junk NP RF q vars f HR H1 H2) as (values & V1 & V2).
  exact (plot_shows q vars (ArgFun E f) None values _ HR HP Hd V1 V2).
Qed.
Lemma plot_array : forall (q : quad) vars values g factor, quad_R q vars -> plottable q -> (length vars <= 2)%nat -> grid_values q vars values g ->
  exists pic, quad_plot q (ArgArray E values) factor = Ok pic /\ shows (p_dirs (q_pos q)) (coordinates q vars) pic g.
Proof using Hfar NP RF Hvar Hfree. intros q vars values g factor HR HP Hd H. exact (plot_shows q vars (ArgArray E values) factor values g HR HP Hd eq_refl H). Qed.
Lemma plot_series : forall (q : quad) vars f vs factor, quad_R q vars -> plottable q -> (length vars <= 2)%nat -> series_on free_vars q f vs -> factor_on free_vars q factor ->
  exists pic, quad_plot q (ArgSeries E f) factor = Ok pic /\ shows (p_dirs (q_pos q)) (coordinates q vars) pic (drawn eval q f vs factor).
Proof using Hfar NP RF Hvar Hfree.
  intros q vars f vs factor HR HP Hd H1 H2. destruct (drawn_values q vars f vs factor HR H1 H2) as (values & V1 & V2). exact (plot_shows q vars (ArgSeries E f) factor values _ HR HP Hd V1 V2).
Qed.
Lemma plot_hf : forall (q : quad) vars m, quad_R q vars -> plottable q -> (length vars <= 2)%nat ->
  f_dirs (q_factor q) = p_dirs (q_pos q) -> incl (free_vars (f_sym (q_factor q))) (f_dirs (q_factor q)) ->
  length m = length vars -> usable Triangle (length vars) (list_sum m) -> flags_ok Triangle (list_sum m) (kinds (p_types (q_pos q))) ->
  exists pic, quad_plot_hf q m = Ok pic /\
    shows (p_dirs (q_pos q)) (coordinates q vars) pic (fun env => phi (kinds (p_types (q_pos q))) m (standardised (p_mean (q_pos q)) vars (map env (p_dirs (q_pos q)))) * eval (f_sym (q_factor q)) env).
Proof using Hfar NP RF Hvar Hfree.
  intros q vars m HR HP Hd H1 H2 H3 H4 H5. destruct (hf_ok E e_1 q vars m (proj1 HR) H3 H4) as (f & F1 & F2 & F3 & F4 & F5 & F6 & F7). unfold PlotModel.quad_plot_hf. rewrite F1. cbn [bind].
  assert (V : exists values, quad_eval fnum_R E free_vars eval cov_factor la_inv far8 junk q f = Ok values /\ grid_values q vars values (fun env => phi (kinds (p_types (q_pos q))) m (standardised (p_mean (q_pos q)) vars (map env (p_dirs (q_pos q)))) * eval (f_sym (q_factor q)) env)).
  { destruct (series_grid E free_vars eval cov_factor la_inv far8 junk NP RF q vars f vars HR) as (values & V1 & V2); rewrite ?F2, ?F3, ?F4, ?F5; try assumption; try reflexivity; [exact (proj1 HR)|apply usable_fits; exact H4|].
    exists values. split; [exact V1|]. eapply grid_ext; [exact V2|]. intros env. rewrite F2, F3, F4, F5. f_equal. apply F7. unfold kinds. rewrite map_length. apply (proj1 HR). }
  destruct V as (values & V1 & V2). exact (plot_shows q vars (ArgSeries E f) None values _ HR HP Hd V1 V2).
Qed.
Lemma plot_dim : forall (q : quad) vars values g, quad_R q vars -> plottable q -> (3 <= length vars)%nat -> grid_values q vars values g -> quad_plot q (ArgArray E values) None = Throw "UnboundLocalError"%string.
Proof using Hfar NP RF Hvar Hfree.
  intros q vars values g HR HP Hd [V1 V2]. exact (plot_high far Hfar E e_mul e_1 e_var add_args mul_args free_vars eval cov_factor la_inv far8 junk NP RF Hvar Hfree q vars (ArgArray E values) None values HR HP Hd eq_refl V1).
Qed.
Lemma stream_ok : forall (q : quad) vars fx fy vx vy factor, quad_R q vars -> plottable q -> p_dirs (q_pos q) = [0; 1]%nat -> Forall (fun xs => xs <> []) (q_nodes q) ->
  series_on free_vars q fx vx -> series_on free_vars q fy vy -> factor_on free_vars q factor ->
  exists x y psi levels, quad_streamlines q (FlowSeries E fx fy) factor = Ok (x, y, psi, levels) /\ coordinates q vars = [x; y] /\
    stream_function x y (fun s t => drawn eval q fx vx factor (plane s t)) (fun s t => drawn eval q fy vy factor (plane s t)) psi.
Proof using Hfar NP RF Hvar Hfree.
  intros q vars fx fy vx vy factor HR HP Hd Hne H1 H2 H3. destruct (drawn_values q vars fx vx factor HR H1 H3) as (sx & X1 & X2). destruct (drawn_values q vars fy vy factor HR H2 H3) as (sy & Y1 & Y2).
  destruct (streamlines_ok far Hfar E e_mul e_1 e_var add_args mul_args free_vars eval cov_factor la_inv far8 junk NP RF Hvar Hfree q vars fx fy factor sx sy _ _ HR HP Hd Hne X1 Y1 X2 Y2) as (x & y & psi & levels & A & B & _ & _ & _ & C).
  exists x, y, psi, levels. split; [exact A|]. split; [exact B|exact C].
Qed.
End Final.

Lemma plot_hf_bad : forall far E e_mul e_1 e_var add_args mul_args free_vars (eval : E -> (nat -> R) -> R) cov_factor la_inv far8 junk (q : quad fnum_R E) m, length m <> length (p_mean (q_pos q)) ->
  quad_plot_hf far E e_mul e_1 e_var add_args mul_args free_vars eval cov_factor la_inv far8 junk q m = Throw "ValueError"%string.
Proof. intros. unfold quad_plot_hf. rewrite hf_bad by assumption. reflexivity. Qed.
Lemma plot_factor_bad : forall far E e_mul e_1 e_var add_args mul_args free_vars (eval : E -> (nat -> R) -> R) cov_factor la_inv far8 junk (q : quad fnum_R E), p_is_diag (q_pos q) = true ->
  (forall f w, quad_plot far E e_mul e_1 e_var add_args mul_args free_vars eval cov_factor la_inv far8 junk q (ArgSeries E f) (Some (FactorArray E w)) = Throw "UnboundLocalError"%string) /\
  (forall f g, quad_plot far E e_mul e_1 e_var add_args mul_args free_vars eval cov_factor la_inv far8 junk q (ArgFun E f) (Some g) = Throw "ValueError"%string).
Proof. intros. unfold quad_plot. rewrite H. split; reflexivity. Qed.
Lemma stream_never : forall far E e_mul e_1 e_var add_args mul_args free_vars (eval : E -> (nat -> R) -> R) cov_factor la_inv far8 junk (q : quad fnum_R E) r,
  (forall fx fy factor, quad_streamlines far E e_mul e_1 e_var add_args mul_args free_vars eval cov_factor la_inv far8 junk q (FlowFun E fx fy) factor <> Ok r) /\
  (forall fl w, quad_streamlines far E e_mul e_1 e_var add_args mul_args free_vars eval cov_factor la_inv far8 junk q fl (Some (FactorArray E w)) <> Ok r).
Proof. intros. split; intros; [apply streamlines_fun|apply streamlines_array]. Qed.
Lemma stream_levels_ok : forall far E e_mul e_1 e_var add_args mul_args free_vars (eval : E -> (nat -> R) -> R) cov_factor la_inv far8 junk (q : quad fnum_R E) fl factor x y psi levels nx ny,
  quad_streamlines far E e_mul e_1 e_var add_args mul_args free_vars eval cov_factor la_inv far8 junk q fl factor = Ok (x, y, psi, levels) ->
  length psi = ny -> Forall (fun row => length row = nx) psi -> (0 < nx)%nat -> (0 < ny)%nat ->
  exists a b, equidistant a b levels /\
    (forall i j i' j', (i < nx)%nat -> (j < ny)%nat -> (i' < nx)%nat -> (j' < ny)%nat -> at2 psi j i < at2 psi j' i' -> a < b) /\
    ((forall i j i' j', (i < nx)%nat -> (j < ny)%nat -> (i' < nx)%nat -> (j' < ny)%nat -> at2 psi j i = at2 psi j' i') -> a = b) /\
    (exists i j, (i < nx)%nat /\ (j < ny)%nat /\ at2 psi j i <= a) /\ (exists i j, (i < nx)%nat /\ (j < ny)%nat /\ b <= at2 psi j i).
Proof.
  intros far E e_mul e_1 e_var add_args mul_args free_vars eval cov_factor la_inv far8 junk q fl factor x y psi levels nx ny H L1 L2 Hx Hy.
  assert (G : stream_levels psi = Ok levels).
  { unfold quad_streamlines in H. destruct (require (p_is_diag (q_pos q)) _); try discriminate H. cbn [bind] in H. destruct (require (match fl with FlowMixed _ => false | _ => true end) _); try discriminate H. cbn [bind] in H.
    destruct (require (p_dim (q_pos q) =? 2)%nat _); try discriminate H. cbn [bind] in H. destruct (match fl with FlowFun _ _ _ => _ | _ => _ end) as [[sx sy]| | | |] in H; try discriminate H. cbn [bind] in H.
    destruct (stream_axes far E e_mul e_1 e_var add_args mul_args free_vars eval cov_factor junk q) as [axes| | | |]; try discriminate H. cbn [bind] in H.
    destruct axes as [|[n0' x'] [|[n1' y'] [|]]]; try discriminate H. destruct sx as [sx|], sy as [sy|]; try discriminate H. destruct (require _ _) in H; try discriminate H. cbn [bind] in H.
    destruct (stream_levels _) as [l| | | |] eqn:El in H; try discriminate H. cbn [bind] in H. injection H as _ _ <- <-. exact El. }
  destruct (levels_ok psi nx ny L1 L2 Hx Hy) as (levels' & a & b & G1 & G2). rewrite G in G1. injection G1 as <-. exists a, b. exact G2.
Qed.
