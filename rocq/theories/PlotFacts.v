(** Proofs about pictures. *)
From Coq Require Import String List Bool Arith ZArith Reals Lia Lra.
From Verif Require Import Base Lists PyBase IndexModel Num Fnum CalcSpec CalcTensor LinModel LinSpec LinBase PosModel PosSpec PosFacts SeriesModel SeriesSpec PartModel SplitModel PyQuadModel PyQuadSpec PyQuadFacts PyQuadFacts2 ProjFacts WeightFacts PlotModel PlotSpec.
Import ListNotations.
Local Open Scope R_scope.

(** grids in one and two dimensions *)
Lemma nth_error_blocks : forall A (f : nat -> list A) n m i j x, (forall k, length (f k) = m) -> (i < n)%nat -> nth_error (f i) j = Some x -> nth_error (flat_map f (seq 0 n)) (i * m + j) = Some x.
Proof.
  intros A f n m i j x Hm Hi Hj. assert (G : forall n s i, (i < n)%nat -> nth_error (f (s + i)%nat) j = Some x -> nth_error (flat_map f (seq s n)) (i * m + j) = Some x); [|exact (G n 0%nat i Hi Hj)].
  clear n i Hi Hj. induction n as [|n IH]; intros s i Hi Hj; [lia|]. cbn [seq flat_map]. destruct i as [|i].
  - rewrite Nat.add_0_r in Hj. cbn [Nat.mul plus]. rewrite nth_error_app1; [exact Hj|]. apply nth_error_Some. congruence.
  - rewrite nth_error_app2 by (rewrite Hm; cbn; lia). rewrite Hm. replace (S i * m + j - m)%nat with (i * m + j)%nat by (cbn; lia). apply IH; [lia|]. replace (S s + i)%nat with (s + S i)%nat by lia. exact Hj.
Qed.
Lemma grid_1 : forall xs k, (k < length xs)%nat -> nth_error (grid [xs]) k = Some [k].
Proof. intros xs k Hk. replace k with (k * 1 + 0)%nat at 1 by lia. unfold grid. cbn [map row_major]. apply (nth_error_blocks _ (fun i => map (cons i) [[]])); [reflexivity|exact Hk|reflexivity]. Qed.
Lemma grid_2 : forall xs ys i j, (i < length xs)%nat -> (j < length ys)%nat -> nth_error (grid [xs; ys]) (i * length ys + j) = Some [i; j].
Proof.
  intros xs ys i j Hi Hj. unfold grid. cbn [map]. change (row_major [length xs; length ys]) with (flat_map (fun i => map (cons i) (row_major [length ys])) (seq 0 (length xs))).
  apply nth_error_blocks; [intros k; rewrite map_length, row_major_length; cbn; lia|exact Hi|]. apply map_nth_error. exact (grid_1 ys j Hj).
Qed.
Lemma grid_1_length : forall xs, length (grid [xs]) = length xs.
Proof. intros xs. unfold grid. rewrite row_major_length. cbn. lia. Qed.
Lemma grid_2_length : forall xs ys, length (grid [xs; ys]) = (length xs * length ys)%nat.
Proof. intros xs ys. unfold grid. rewrite row_major_length. cbn. lia. Qed.

(** reshape and transpose *)
Lemma nth_error_skip : forall A (l : list A) n k, nth_error (skipn n l) k = nth_error l (n + k).
Proof. induction l as [|a l IH]; intros [|n] k; try reflexivity; [destruct k; reflexivity|]. cbn. apply IH. Qed.
Lemma nth_error_first : forall A (l : list A) n k, (k < n)%nat -> nth_error (firstn n l) k = nth_error l k.
Proof. induction l as [|a l IH]; intros [|n] [|k] H; try reflexivity; try lia. cbn. apply IH. lia. Qed.
Lemma transpose_length : forall n m, length (transpose n m) = n.
Proof. intros n m. unfold transpose. rewrite map_length, seq_length. reflexivity. Qed.
Lemma transpose_rows : forall n0 n1 v, Forall (fun row => length row = n0) (transpose n1 (reshape2 n0 n1 v)).
Proof. intros n0 n1 v. apply Forall_forall. intros row H. apply in_map_iff in H as (j & <- & _). rewrite map_length. unfold reshape2. rewrite map_length, seq_length. reflexivity. Qed.
Lemma transpose_at : forall n0 n1 (v : list R) i j row x, length v = (n0 * n1)%nat -> nth_error (transpose n1 (reshape2 n0 n1 v)) j = Some row -> nth_error row i = Some x -> (i < n0)%nat /\ (j < n1)%nat /\ nth_error v (i * n1 + j) = Some x.
Proof.
  intros n0 n1 v i j row x Hv Hr Hx. assert (Hj : (j < n1)%nat) by (rewrite <- (transpose_length n1 (reshape2 n0 n1 v)); apply nth_error_Some; congruence).
  assert (Hi : (i < n0)%nat). { pose proof (transpose_rows n0 n1 v) as G. rewrite Forall_forall in G. rewrite <- (G row (nth_error_In _ _ Hr)). apply nth_error_Some. congruence. }
  split; [exact Hi|]. split; [exact Hj|]. unfold transpose in Hr. rewrite nth_error_map, (seq_nth_error _ _ Hj) in Hr. cbn [option_map] in Hr. injection Hr as <-.
  unfold reshape2 in Hx. rewrite map_map, nth_error_map, (seq_nth_error _ _ Hi) in Hx. cbn [option_map] in Hx. injection Hx as <-.
  assert (Hl : (i * n1 + j < length v)%nat) by (rewrite Hv; nia). apply nth_error_nth' with (d := 0) in Hl as Hs. rewrite Hs. f_equal. symmetry. apply nth_error_nth. rewrite nth_error_first by exact Hj. rewrite nth_error_skip. exact Hs.
Qed.

Section Plot.
Variable far : list (list R) -> bool.
Hypothesis Hfar : forall l, far (diag_mat num_R l) = false.
Lemma project_one : forall (p : position num_R) vars i d, p_is_diag p = true -> p_cov p = diag_mat num_R vars -> length (p_dirs p) = length vars -> length (p_mean p) = length vars -> length (p_types p) = length vars -> NoDup (p_dirs p) ->
  nth_error (p_dirs p) i = Some d -> pos_project num_R far p [d] = Ok (Pos (N := num_R) [d] [nth i (p_mean p) 0] (diag_mat num_R [nth i vars 0]) [nth i (p_types p) EmptyString] true).
Proof using Hfar.
  intros p vars i d P7 P1 P3 P4 P5 P6 Hin. assert (Hi : (i < length vars)%nat) by (rewrite <- P3; apply nth_error_Some; congruence).
  unfold pos_project. rewrite P7. replace (nats_eqb [d] (py_sorted [d])) with true by (cbn; rewrite Nat.eqb_refl; reflexivity). cbn [andb require bind mapM length].
  destruct (py_index_in (p_dirs p) d (nth_error_In _ _ Hin)) as (j & J1 & J2). assert (j = i) by (apply (NoDup_nth_error_eq _ (p_dirs p) j i d); assumption). subst j. rewrite J1. cbn [bind mapM].
  rewrite (get_ok _ (p_mean p) 0) by lia. cbn [bind]. unfold variance. rewrite P1, diag_nth_row. unfold py_get at 1. rewrite (map_nth_error _ i (seq 0 (length vars)) (d := i)) by (apply seq_nth_error; lia). cbn [bind]. unfold py_get at 1. rewrite (map_nth_error _ i (seq 0 (length vars)) (d := i)) by (apply seq_nth_error; lia). rewrite Nat.eqb_refl. cbn [bind].
  rewrite (get_ok _ (p_types p) EmptyString) by lia. cbn [bind].
  exact (position_init_full num_R far Hfar (Some 1%nat) [nth i (p_mean p) 0] [nth i vars 0] [nth i (p_types p) EmptyString] [d] eq_refl eq_refl eq_refl (or_intror eq_refl)).
Qed.

Variable E : Type.
Variable e_mul : E -> E -> E.
Variable e_1 : E.
Variable e_var : nat -> E.
Variable add_args mul_args : E -> list E.
Variable free_vars : E -> fset.
Variable eval : E -> (nat -> R) -> R.
Variable cov_factor : list (list R) -> list (list R).
Variable la_inv : list (list R) -> res (list (list R)).
Variable far8 : list (list R) -> bool.
Variable junk : R.
Hypothesis NP : numpy_ok cov_factor la_inv far8.
Hypothesis RF : reads_free eval free_vars.
Hypothesis Hvar : forall d env, eval (e_var d) env = env d.
Hypothesis Hfree : forall d, free_vars (e_var d) = [d].
Notation quad := (quad fnum_R E).
Notation fun_project := (fun_project E e_mul e_1 add_args mul_args free_vars).
Notation quad_project := (quad_project fnum_R far E e_mul e_1 add_args mul_args free_vars).
Notation quad_discretize := (quad_discretize fnum_R E free_vars eval cov_factor junk).
Notation quad_eval := (quad_eval fnum_R E free_vars eval cov_factor la_inv far8 junk).
Notation plot_axes := (plot_axes far E e_mul e_1 e_var add_args mul_args free_vars eval cov_factor junk).
Notation plottable := (plottable fun_project).

Lemma project_quad : forall (q : quad) vars i d xs, quad_R q vars -> plottable q -> nth_error (p_dirs (q_pos q)) i = Some d -> nth_error (q_nodes q) i = Some xs ->
  exists w g, quad_project q [d] = Ok (Qd (F := fnum_R) [xs] [w] (Pos (N := fnum_R) [d] [nth i (p_mean (q_pos q)) 0] (diag_mat fnum_R [nth i vars 0]) [nth i (p_types (q_pos q)) EmptyString] true) g).
Proof using Hfar.
  intros q vars i d xs ((P1 & P2 & P3 & P4 & P5 & P6) & Q1 & Q2 & Q3) (H1 & H2 & H3 & H4) Hd Hx. destruct (H3 d (nth_error_In _ _ Hd)) as [g Hg]. unfold PyQuadModel.quad_project. rewrite Hg. cbn [bind].
  pose proof (project_one (q_pos q) vars i d H1 P1 P3 P4 P5 P6 Hd) as Hp. change (pos_project num_R far (q_pos q) [d]) with (pos_project fnum_R far (q_pos q) [d]) in Hp. rewrite Hp. cbn [bind p_dirs mapM].
  destruct (py_index_in (p_dirs (q_pos q)) d (nth_error_In _ _ Hd)) as (j & J1 & J2). assert (j = i) by (apply (NoDup_nth_error_eq _ (p_dirs (q_pos q)) j i d); assumption). subst j. rewrite J1. cbn [bind].
  destruct (nth_error (q_weights q) i) as [w|] eqn:Hw; [|apply nth_error_None in Hw; assert (i < length (p_dirs (q_pos q)))%nat by (apply nth_error_Some; congruence); lia].
  unfold py_get at 1. rewrite Hx. cbn [bind]. unfold py_get at 1. rewrite Hw. cbn [bind]. exists w, g. unfold quad_init, same_lengths. cbn [forallb hd]. rewrite !Nat.eqb_refl. reflexivity.
Qed.

Lemma axis : forall xs w d m v t g, 0 < v -> (Z.of_nat (length xs) < 2 ^ 32)%Z ->
  quad_discretize (Qd (F := fnum_R) [xs] w (Pos (N := fnum_R) [d] [m] (diag_mat fnum_R [v]) [t] true) g) (Fn (e_var d) [d]) = Ok (map (fun s => m + sqrt v * s) xs).
Proof using NP RF Hvar Hfree.
  intros xs w d m v t g Hv Hn. set (q := Qd _ _ _ _).
  assert (HR : quad_R q [v]). { split; [|split; [reflexivity|split; [discriminate|unfold grid_fits; cbn [q q_nodes]; rewrite grid_1_length; exact Hn]]]. split; [reflexivity|]. split; [constructor; [exact Hv|constructor]|]. do 3 (split; [reflexivity|]). constructor; [intros []|constructor]. }
  destruct (discretize_values E free_vars eval cov_factor la_inv far8 junk NP RF q [v] (Fn (e_var d) [d]) HR eq_refl) as (values & V1 & V2 & V3); [cbn [f_sym f_dirs]; rewrite Hfree; apply incl_refl|].
  rewrite V1. apply f_equal. cbn [q q_nodes] in V2, V3. rewrite grid_1_length in V2. apply (nth_error_ext R). intros k. destruct (lt_dec k (length xs)) as [Hk|Hk].
  - specialize (V3 k [k] (fun _ => m + sqrt v * nth k xs 0) (grid_1 xs k Hk)). etransitivity; [apply V3|].
    + intros [|i] x Hx; [|destruct i; discriminate Hx]. reflexivity.
    + cbn [f_sym]. rewrite Hvar. symmetry. apply (map_nth_error (fun s => m + sqrt v * s) k xs). apply nth_error_nth'. exact Hk.
  - etransitivity; [apply nth_error_None; exact (eq_ind_r (fun n => (n <= k)%nat) (proj1 (Nat.nlt_ge _ _) Hk) V2)|]. symmetry. apply nth_error_None. exact (eq_ind_r (fun n => (n <= k)%nat) (proj1 (Nat.nlt_ge _ _) Hk) (map_length _ xs)).
Qed.

Lemma axes_ok : forall (q : quad) vars, quad_R q vars -> plottable q -> plot_axes q = Ok (combine (map (@length R) (q_nodes q)) (coordinates q vars)).
Proof using Hfar NP RF Hvar Hfree.
  intros q vars HR HP. pose proof HR as ((P1 & P2 & P3 & P4 & P5 & P6) & Q1 & Q2 & Q3). pose proof HP as (H1 & H2 & H3 & H4). unfold PlotModel.plot_axes.
  assert (G : forall i d xs, nth_error (p_dirs (q_pos q)) i = Some d -> nth_error (q_nodes q) i = Some xs -> (nodes <- py_get (q_nodes q) i ;; part <- quad_project q [d] ;; x <- coordinate E e_var (p_dirs (q_pos part)) d ;; r <- quad_discretize part x ;; Ok (length nodes, r)) = Ok (length xs, map (fun s => nth i (p_mean (q_pos q)) 0 + sqrt (nth i vars 0) * s) xs)).
  { intros i d xs Hd Hx. unfold py_get at 1. rewrite Hx. cbn [bind]. destruct (project_quad q vars i d xs HR HP Hd Hx) as (w & g & Hq). rewrite Hq. cbn [bind q_pos p_dirs]. unfold coordinate. replace (py_in d [d]) with true by (unfold py_in; cbn; rewrite Nat.eqb_refl; reflexivity). cbn [require bind].
    rewrite Forall_forall in P2, H4. rewrite axis; [reflexivity| |apply H4; eapply nth_error_In; exact Hx]. apply P2, nth_In. rewrite <- P3. apply nth_error_Some. congruence. }
  assert (K : forall ns ds ms vs s, length ds = length ns -> length ms = length ns -> length vs = length ns -> (forall k d xs m v, nth_error ds k = Some d -> nth_error ns k = Some xs -> nth_error ms k = Some m -> nth_error vs k = Some v ->
      (nodes <- py_get (q_nodes q) (s + k) ;; part <- quad_project q [d] ;; x <- coordinate E e_var (p_dirs (q_pos part)) d ;; r <- quad_discretize part x ;; Ok (length nodes, r)) = Ok (length xs, map (fun t => m + sqrt v * t) xs)) ->
    mapM (fun '(i, d) => nodes <- py_get (q_nodes q) i ;; part <- quad_project q [d] ;; x <- coordinate E e_var (p_dirs (q_pos part)) d ;; r <- quad_discretize part x ;; Ok (length nodes, r)) (combine (seq s (length ds)) ds) =
    Ok (combine (map (@length R) ns) (map (fun '(m, (v, xs)) => map (fun t => m + sqrt v * t) xs) (combine ms (combine vs ns))))).
  { induction ns as [|xs ns IH]; intros [|d ds] [|m ms] [|v vs] s L1 L2 L3 HK; try discriminate; [reflexivity|]. cbn [length seq combine mapM map].
    pose proof (HK 0%nat d xs m v eq_refl eq_refl eq_refl eq_refl) as H0. rewrite Nat.add_0_r in H0. rewrite H0. cbn [bind].
    rewrite (IH ds ms vs (S s)); [reflexivity|cbn in L1; lia|cbn in L2; lia|cbn in L3; lia|]. intros k d' xs' m' v' K1 K2 K3 K4. replace (S s + k)%nat with (s + S k)%nat by lia. apply HK; assumption. }
  apply K; [exact (eq_trans P3 (eq_sym Q1))|exact (eq_trans P4 (eq_sym Q1))|exact (eq_sym Q1)|]. intros k d xs m v K1 K2 K3 K4. cbn [plus]. rewrite (G k d xs K1 K2). rewrite (nth_error_nth _ _ _ K3), (nth_error_nth _ _ _ K4). reflexivity.
Qed.

Lemma picture_1 : forall (xs : list R) m v a values (g : (nat -> R) -> R), length values = length xs -> (forall k env, (k < length xs)%nat -> env a = m + sqrt v * nth k xs 0 -> nth_error values k = Some (g env)) ->
  shows [a] [map (fun t => m + sqrt v * t) xs] (Line (map (fun t => m + sqrt v * t) xs) values) g.
Proof using.
  intros xs m v a values g Hl H. split; [reflexivity|]. split; [rewrite map_length; exact Hl|]. intros i y env Hy Hx. assert (Hi : (i < length xs)%nat) by (rewrite <- Hl; apply nth_error_Some; congruence).
  rewrite (map_nth_error _ _ _ (nth_error_nth' xs 0 Hi)) in Hx. injection Hx as Hx. rewrite (H i env Hi (eq_sym Hx)) in Hy. congruence.
Qed.
Lemma picture_2 : forall (xs ys : list R) m v m' v' a b values (g : (nat -> R) -> R), length values = (length xs * length ys)%nat ->
  (forall i j env, (i < length xs)%nat -> (j < length ys)%nat -> env a = m + sqrt v * nth i xs 0 -> env b = m' + sqrt v' * nth j ys 0 -> nth_error values (i * length ys + j) = Some (g env)) ->
  shows [a; b] [map (fun t => m + sqrt v * t) xs; map (fun t => m' + sqrt v' * t) ys] (Contour (map (fun t => m + sqrt v * t) xs) (map (fun t => m' + sqrt v' * t) ys) (transpose (length ys) (reshape2 (length xs) (length ys) values))) g.
Proof using.
  intros xs ys m v m' v' a b values g Hl H. split; [reflexivity|]. split; [reflexivity|]. split; [rewrite transpose_length, map_length; reflexivity|]. split; [rewrite map_length; apply transpose_rows|].
  intros i j row y env Hr Hy Hx Hy'. destruct (transpose_at _ _ _ _ _ _ _ Hl Hr Hy) as (Hi & Hj & Hn). rewrite (map_nth_error _ _ _ (nth_error_nth' xs 0 Hi)) in Hx. rewrite (map_nth_error _ _ _ (nth_error_nth' ys 0 Hj)) in Hy'. injection Hx as Hx. injection Hy' as Hy'.
  rewrite (H i j env Hi Hj (eq_sym Hx) (eq_sym Hy')) in Hn. congruence.
Qed.

Notation quad_plot := (quad_plot far E e_mul e_1 e_var add_args mul_args free_vars eval cov_factor la_inv far8 junk).
Notation plot_values := (plot_values E free_vars eval cov_factor la_inv far8 junk).
Theorem plot_shows : forall (q : quad) vars arg factor values g, quad_R q vars -> plottable q -> (length vars <= 2)%nat -> plot_values q arg factor = Ok values -> grid_values q vars values g ->
  exists pic, quad_plot q arg factor = Ok pic /\ shows (p_dirs (q_pos q)) (coordinates q vars) pic g.
Proof using Hfar NP RF Hvar Hfree.
  intros q vars arg factor values g HR HP Hdim Hv [V1 V2]. pose proof HR as ((P1 & P2 & P3 & P4 & P5 & P6) & Q1 & Q2 & Q3). pose proof HP as (H1 & H2 & H3 & H4).
  unfold PlotModel.quad_plot. rewrite H1. cbn [require bind]. rewrite Hv. cbn [bind]. rewrite (axes_ok q vars HR HP). cbn [bind]. unfold coordinates.
  unfold grid_point, located in V2. clear HR HP P1 P5 Hv H1 H2 H3 H4 Q3. destruct q as [nodes weights [dirs mean cov types diag] fct]. cbn [q_nodes q_pos p_mean p_dirs] in *.
  destruct vars as [|v [|v' [|v'' vars]]]; [destruct nodes; [contradiction|discriminate Q1]| | |cbn in Hdim; lia].
  - destruct nodes as [|xs [|]]; try discriminate Q1. destruct mean as [|m [|]]; try discriminate P4. destruct dirs as [|a [|]]; try discriminate P3. cbn [map combine]. rewrite grid_1_length in V1. rewrite (proj2 (Nat.eqb_eq _ _) V1). cbn [require bind].
    eexists. split; [reflexivity|]. apply picture_1; [exact V1|]. intros k env Hk He. apply (V2 k [k] env (grid_1 xs k Hk)). intros [|i] d Hd; [|destruct i; discriminate Hd]. injection Hd as <-. cbn. f_equal. symmetry. exact He.
  - destruct nodes as [|xs [|ys [|]]]; try discriminate Q1. destruct mean as [|m [|m' [|]]]; try discriminate P4. destruct dirs as [|a [|b [|]]]; try discriminate P3. cbn [map combine]. rewrite grid_2_length in V1. rewrite (proj2 (Nat.eqb_eq _ _) V1). cbn [require bind].
    eexists. split; [reflexivity|]. apply picture_2; [exact V1|]. intros i j env Hi Hj Ha Hb. apply (V2 _ [i; j] env (grid_2 xs ys i j Hi Hj)). intros [|[|k]] d Hd; [injection Hd as <-; cbn; f_equal; symmetry; exact Ha|injection Hd as <-; cbn; f_equal; symmetry; exact Hb|destruct k; discriminate Hd].
Qed.
Theorem plot_high : forall (q : quad) vars arg factor values, quad_R q vars -> plottable q -> (3 <= length vars)%nat -> plot_values q arg factor = Ok values -> length values = length (grid (q_nodes q)) ->
  quad_plot q arg factor = Throw "UnboundLocalError"%string.
Proof using Hfar NP RF Hvar Hfree.
  intros q vars arg factor values HR HP Hdim Hv V1. pose proof HR as ((P1 & P2 & P3 & P4 & P5 & P6) & Q1 & Q2 & Q3). pose proof HP as (H1 & H2 & H3 & H4).
  unfold PlotModel.quad_plot. rewrite H1. cbn [require bind]. rewrite Hv. cbn [bind]. rewrite (axes_ok q vars HR HP). cbn [bind]. unfold coordinates.
  assert (Hf : forall (ns : list (list R)) (cs : list (list R)), length cs = length ns -> fold_right (fun '(n, _) => Nat.mul n) 1%nat (combine (map (@length R) ns) cs) = length (grid ns)).
  { intros ns. unfold grid. rewrite <- (map_length (@length R) ns). rewrite row_major_length. generalize (map (@length R) ns) as l. clear. induction l as [|n l IH]; intros [|c cs] H; try discriminate H; [reflexivity|]. cbn [combine fold_right]. rewrite IH; [reflexivity|]. cbn in H. lia. }
  clear HR HP P1 P5 Hv H1 H2 H3 H4 Q3. destruct q as [nodes weights [dirs mean cov types diag] fct]. cbn [q_nodes q_pos p_mean p_dirs] in *.
  destruct vars as [|v [|v' [|v'' vars]]]; try (cbn in Hdim; lia). destruct nodes as [|xs [|ys [|zs nodes]]]; try discriminate Q1. destruct mean as [|m [|m' [|m'' mean]]]; try discriminate P4.
  specialize (Hf (xs :: ys :: zs :: nodes) (map (fun '(m, (v, xs)) => map (fun t => m + sqrt v * t) xs) (combine (m :: m' :: m'' :: mean) (combine (v :: v' :: v'' :: vars) (xs :: ys :: zs :: nodes))))).
  cbn [map combine] in Hf |- *. rewrite Hf; [rewrite (proj2 (Nat.eqb_eq _ _) V1); reflexivity|]. cbn [length]. do 3 f_equal. rewrite map_length, !combine_length. assert (A1 : @length (list R) nodes = @length R vars) by (injection Q1; intros A; exact A). assert (A2 : @length R mean = @length R vars) by (injection P4; intros A; exact A). exact (eq_trans (f_equal2 Nat.min A2 (eq_trans (f_equal (Nat.min (length vars)) A1) (Nat.min_id _))) (eq_trans (Nat.min_id _) (eq_sym A1))).
Qed.

Lemma at_map : forall dirs (x : list R) env, length x = length dirs -> at_point dirs x env -> x = map env dirs.
Proof using.
  induction dirs as [|d dirs IH]; intros [|a x] env Hl H; try discriminate Hl; [reflexivity|]. cbn [map]. pose proof (H 0%nat d eq_refl) as H0. injection H0 as ->. f_equal. apply IH; [cbn in Hl; lia|]. intros i e He. exact (H (S i) e He).
Qed.
Lemma located_length : forall (m v y : list R), length m = length v -> length y = length v -> length (located m v y) = length v.
Proof using. intros m v y H1 H2. unfold located. rewrite map_length, !combine_length. lia. Qed.

Lemma series_grid : forall (q : quad) vars (f : SeriesModel.series fnum_R E) vs, quad_R q vars -> gaussian (s_pos f) vs -> p_dirs (s_pos f) = p_dirs (q_pos q) ->
  f_dirs (s_factor f) = p_dirs (q_pos q) -> incl (free_vars (f_sym (s_factor f))) (f_dirs (s_factor f)) ->
  fits (s_set f) (length vs) (s_degree f) -> flags_ok (s_set f) (s_degree f) (kinds (p_types (q_pos q))) -> @vec_for num_R (s_set f) (length vs) (s_degree f) (s_coeffs f) ->
  exists values, quad_eval q f = Ok values /\
    grid_values q vars values (fun env => CalcSpec.series (s_set f) (s_degree f) (kinds (p_types (q_pos q))) (s_coeffs f) (standardised (p_mean (s_pos f)) vs (map env (p_dirs (q_pos q)))) * eval (f_sym (s_factor f)) env).
Proof using NP RF.
  intros q vars f vs HR H1 H2 H3 H4 H5 H6 H7. destruct (eval_values E free_vars eval cov_factor la_inv far8 junk NP RF q vars f vs HR H1 H2 H3 H4 H5 H6 H7) as (values & E1 & E2 & E3).
  exists values. split; [exact E1|]. split; [exact E2|]. intros k p env Hk He. etransitivity; [exact (E3 k p env Hk He)|]. pose proof HR as ((P1 & P2 & P3 & P4 & P5 & P6) & Q1 & Q2 & Q3).
  rewrite <- (at_map (p_dirs (q_pos q)) (grid_point q vars p) env); [reflexivity| |exact He]. unfold grid_point. rewrite located_length; [symmetry; exact P3|exact P4|]. rewrite at_pos_length; [exact Q1|]. apply grid_length_in. eapply nth_error_In. exact Hk.
Qed.
End Plot.
