(** The linear system of the noise. *)
From Coq Require Import String List Bool Arith ZArith Lia Reals Lra.
From Verif Require Import Base Lists IndexModel Spec IndexSet Grid Num LinModel LinSpec LinBase Facts7 PyBase PosModel PosSpec PosFacts PartModel PartSpec SplitSpec MulSpec SeriesModel SeriesSpec SplitModel MulModel Fnum CalcModel CalcSpec CalcReal CalcHermite CalcQuad CalcOps PyQuadModel PyQuadSpec PyQuadFacts2
  SolveSpec OpModel OpSpec OpQuadModel OpQuadSpec OpQuadFacts QuadIntModel QuadMakeModel QuadMakeSpec QuadMakeFacts EqnModel SteadySpec NoiseModel NoiseSpec NoiseFacts NoiseFacts2.
Import ListNotations.
Local Open Scope string_scope. Local Open Scope list_scope. Local Open Scope R_scope.

Lemma grid_1d : forall xs : list R, grid [xs] = map (fun i => [i]) (seq 0 (length xs)).
Proof. intros xs. unfold grid. cbn [map row_major]. generalize (seq 0 (length xs)). intros l. induction l as [|a l IH]; [reflexivity|]. cbn. rewrite IH. reflexivity. Qed.

Lemma quadrature_1d : forall xs ws (h : R -> R) g, length xs = length ws -> quadrature [xs] [ws] (map h xs) g = rsum (map (fun '(x, w) => w * (h x * g [x])) (combine xs ws)).
Proof.
  intros xs ws h g H. replace (map h xs) with (map (fun p => h (nth (nth 0 p 0%nat) xs 0)) (grid [xs])).
  - rewrite quadrature_map, grid_1d, map_map. unfold at_pos. cbn [combine map nth]. revert ws H. induction xs as [|x xs IH]; intros [|w ws] H; try discriminate H; [reflexivity|]. cbn [length seq map combine]. rewrite <- seq_shift, map_map, !rsum_cons. cbn [nth]. f_equal.
    + unfold rprod. cbn [fold_right]. ring.
    + apply (IH ws). injection H; auto.
  - rewrite grid_1d, map_map. cbn [nth]. clear ws H. induction xs as [|x xs IH]; [reflexivity|]. cbn [length seq map nth]. rewrite <- seq_shift, map_map. cbn [nth]. rewrite IH. reflexivity.
Qed.

Lemma seq_at : forall n k, (k < n)%nat -> nth_error (seq 0 n) k = Some k.
Proof. intros n k H. rewrite nth_error_nth' with (d := 0%nat) by (rewrite seq_length; exact H). rewrite seq_nth by exact H. reflexivity. Qed.

Lemma values_1d : forall E (q : quad fnum_R E) d m v xs values g, p_dirs (q_pos q) = [d] -> p_mean (q_pos q) = [m] -> q_nodes q = [xs] -> grid_values q [v] values g -> values = map (fun x => g (fun _ => m + sqrt v * x)) xs.
Proof.
  intros E q d m v xs values g Hd Hm Hn (L & H). rewrite Hn in *. rewrite grid_1d in *. rewrite map_length, seq_length in L.
  apply nth_error_same. intros k. destruct (le_lt_dec (length xs) k) as [Hk|Hk].
  - transitivity (@None R); [apply nth_error_None; exact (eq_ind_r (fun n => (n <= k)%nat) Hk L)|]. symmetry. apply nth_error_None. rewrite map_length. exact Hk.
  - destruct (nth_error xs k) as [x|] eqn:Ex; [|apply nth_error_None in Ex; lia]. rewrite (map_nth_error _ k xs Ex). apply (H k [k]).
    + exact (map_nth_error (fun i => [i]) k (seq 0 (length xs)) (seq_at _ _ Hk)).
    + unfold grid_point, at_point, located, at_pos. rewrite Hd, Hm, Hn. cbn [combine map]. intros [|i] d' Hi; cbn in Hi; [exact (f_equal (fun t => Some (m + sqrt v * t)) (nth_error_nth xs k 0 Ex))|destruct i; discriminate Hi].
Qed.

Lemma combine_both : forall A B C (g : A -> B) (h : A -> C) l, combine (map g l) (map h l) = map (fun a => (g a, h a)) l.
Proof. intros A B C g h l. induction l as [|a l IH]; [reflexivity|]. cbn. rewrite IH. reflexivity. Qed.

Section System.
Variable far : list (list R) -> bool.
Hypothesis far_ok : forall l, far (diag_mat fnum_R l) = false.
Variable E : Type.
Variable e_add e_mul e_div : E -> E -> E.
Variable e_opp : E -> E.
Variable e_0 e_1 : E.
Variable e_var : nat -> E.
Variable e_sqrt e_exp : E -> E.
Variable e_subs : nat -> E -> E -> E.
Variable e_diff : nat -> E -> E.
Variable e_num : R -> E.
Variable e_pi : E.
Variable e_mono : list nat -> E.
Variable simplify : E -> E.
Variable is0 : E -> bool.
Variable free_vars : E -> list nat.
Variable eval : E -> (nat -> R) -> R.
Hypothesis RF : reads_free eval free_vars.
Variable sym_eqb : E -> E -> bool.
Variable pos_eqb : position fnum_R -> position fnum_R -> bool.
Variable cov_factor : list (list R) -> list (list R).
Variable la_inv : list (list R) -> res (list (list R)).
Variable far8 : list (list R) -> bool.
Variable junk tiny : R.
Hypothesis NP : numpy_ok cov_factor la_inv far8.
Variable la_eig : list (list R) -> list R.
Hypothesis HE : eig_ok la_eig.
Variable op_map : oper E -> func E -> oper E.
Variable hermegauss : nat -> list R * list R.
Hypothesis SV : sympy_values eval e_add e_mul e_div e_opp e_1 e_pi e_var e_sqrt e_exp e_subs.
Hypothesis HN : forall c env, eval (e_num c) env = c.
Hypothesis LIN : sympy_lin (N := num_R) eval e_add e_mul e_0 e_mono simplify is0.
Hypothesis LV : sympy_lin_vars e_add e_mul e_0 e_1 e_mono simplify free_vars [1]%nat.
Hypothesis PE : forall p, pos_eqb p p = true.
Hypothesis SE : forall e, sym_eqb e e = true.
Hypothesis SS : forall a b, sym_eqb a b = true -> forall env, eval a env = eval b env.
Notation system := (noise_system_of fnum_R far E e_add e_mul e_div e_opp e_0 e_1 e_var e_sqrt e_exp e_diff e_num e_pi e_mono simplify is0 free_vars eval sym_eqb pos_eqb cov_factor junk tiny la_eig op_map hermegauss).
Notation whole := (noise_with_of fnum_R far E e_add e_mul e_div e_opp e_0 e_1 e_var e_sqrt e_exp e_diff e_num e_pi e_mono simplify is0 free_vars eval sym_eqb pos_eqb cov_factor junk tiny la_eig op_map hermegauss).
Notation factor := (noise_factor fnum_R E e_mul e_div e_opp e_var e_sqrt e_exp e_num e_pi).

Theorem noise_system_ok : forall n degree Vy I (V V1 V2 : R -> R) (D : list nat -> list nat -> list R -> R), (0 < n)%nat -> (Z.of_nat n < 2 ^ 32)%Z -> (1 <= degree <= 125)%nat -> 0 < I ->
  let xs := fst (hermegauss n) in let ws := map (fun w => w / sqrt (2 * PI)) (snd (hermegauss n)) in
  length xs = n -> length ws = n -> exact_rule degree 0 xs ws ->
  incl (free_vars (factor Vy I)) [1]%nat -> incl (free_vars (e_diff 1%nat Vy)) [1]%nat -> incl (free_vars (e_opp e_1)) [1]%nat -> incl (free_vars (e_var 1%nat)) [1]%nat ->
  (forall y, eval Vy (fun _ => y) = V y) -> (forall y, eval (e_diff 1%nat Vy) (fun _ => y) = V1 y) -> (forall y, derivable_pt_lim V y (V1 y)) -> (forall y, derivable_pt_lim V1 y (V2 y)) ->
  let W := fun y => sqrt (exp (- (y * y / (2 / 5))) / sqrt (2 * PI / 5) / (exp (- V y) / I)) in
  let gen := [(e_diff 1%nat Vy, [1]%nat); (e_opp e_1, [2]%nat)] in
  let q := Qd (F := fnum_R) [xs] [ws] (Pos (N := fnum_R) [1]%nat [0] (diag_mat fnum_R [1 / 5]) ["hermite"] true) (Fn (factor Vy I) [1]%nat) in
  maps eval free_vars [1]%nat (fun x _ => nth 0 x 0) gen (q_factor q) (op_map gen (q_factor q)) ->
  (forall op' k values, (sym_eqb (factor Vy I) e_1 = true /\ op' = gen) \/ (sym_eqb (factor Vy I) e_1 = false /\ op' = op_map gen (q_factor q)) -> length k = 1%nat ->
    grid_values q [1 / 5] values (coefficient (N := num_R) eval op' k) -> nothing_dropped Triangle degree [xs] [ws] [0]%nat values) ->
  (forall c, (c <= degree)%nat -> derivatives 1 (fun x => W (nth 0 x 0) * psi [0] [1 / 5] [0]%nat [c] x) (D [c])) ->
  exists A b, system n degree Vy I = Ok (A, b) /\ length A = S degree /\ length b = S degree /\ symmetric A /\
    (forall i j, (i <= degree)%nat -> (j <= degree)%nat ->
      nth j (nth i A []) 0 = (if (i =? j)%nat then 5 * INR j else 0) + rsum (map (fun '(x, w) => w * (hermite i x * hermite j x * schroedinger 0 (1 / 5) V1 V2 (sqrt (1 / 5) * x))) (combine xs ws))) /\
    (forall i, (i <= degree)%nat -> nth i b 0 = rsum (map (fun '(x, w) => w * (sqrt (1 / 5) * x / W (sqrt (1 / 5) * x) * hermite i x)) (combine xs ws))).
Proof using far_ok RF NP HE SV HN LIN LV PE SE SS.
  intros n degree Vy I V V1 V2 D Hn Hz Hdeg HI xs ws L1 L2 Hex Hff Hfv Hf1 Hfy EV EV1 DV DV1 W gen q Hmaps Hdrop HD.
  destruct (noise_balances E eval e_add e_mul e_div e_opp e_1 e_pi e_var e_sqrt e_exp e_subs e_num SV HN Vy I V V1 EV DV HI) as (EW & HB).
  assert (HB' : balances 0 (1 / 5) V1 W).
  { intros x. destruct (HB x) as (B1 & B2). rewrite EW in B1. split; [exact B1|]. eapply derivable_pt_lim_ext; [exact EW|]. rewrite EW in B2. exact B2. }
  assert (HP : gauss_position (F := fnum_R) None (Some (diag_mat fnum_R [1 / 5])) [0] [1 / 5] (length [1%nat])) by (split; [right; split; reflexivity|left; split; reflexivity]).
  destruct (position_init_default far far_ok [1]%nat None (Some (diag_mat fnum_R [1 / 5])) [0] [1 / 5] (Some [1]%nat) HP (or_introl eq_refl)) as (P1 & P2 & P3).
  destruct (new_ok far E free_vars [1]%nat [0] [1 / 5] ["hermite"] xs ws n (factor Vy I)) as (N1 & N2 & N3 & N4 & N5 & N6); try assumption; try reflexivity.
  { repeat constructor. } { discriminate. } { constructor; [lra|constructor]. } { cbn [length Nat.pow]. rewrite Nat.mul_1_r. exact Hz. }
  assert (MK : gauss_hermite fnum_R far E free_vars hermegauss (One n) None (Some [1]%nat) None (factor Vy I) None (Some [[sigma_y fnum_R]]) None = Ok q).
  { unfold gauss_hermite. cbn [length np_full bind]. rewrite (rules_nd hermegauss n 1 Hn). cbn [bind]. unfold quad_new in N2 |- *. cbn [length] in N2. rewrite !same_lengths_repeat in *. cbn [require andb bind] in *.
    match goal with |- bind ?x _ = _ => replace x with (Ok (Pos (N := fnum_R) [1]%nat [0] (diag_mat fnum_R [1 / 5]) (repeat "hermite" (length [1%nat])) true)) by (symmetry; exact P1) end. exact N2. }
  assert (US : usable Triangle (length [1 / 5]) degree) by (apply usable_dim4; cbn; lia).
  assert (FL : flags_ok Triangle degree (kinds (p_types (q_pos q)))) by (change (kinds (p_types (q_pos q))) with [0]%nat; split; [constructor; [left; split; [reflexivity|lia]|constructor]|intros [H|H]; discriminate H]).
  assert (ST : setting q [1 / 5] Triangle degree).
  { split; [exact N4|]. split; [exact N5|]. split; [exact US|]. split; [apply usable_fits, usable_dim4; cbn; lia|]. split; [exact FL|left; reflexivity]. }
  destruct (noise_matrix E free_vars eval cov_factor la_inv far8 junk e_1 la_eig NP RF HE e_add e_mul e_0 e_mono simplify is0 sym_eqb pos_eqb op_map LIN PE SE SS q 1%nat 0 (1 / 5) degree xs ws V1 V2 W (e_diff 1%nat Vy) (e_opp e_1) D)
    as (v & M1 & M2 & M3 & M4); try reflexivity; try assumption; try lra.
  { intros x. apply (v_1 _ _ _ _ _ _ _ _ _ _ _ SV). }
  { intros x. rewrite (v_opp _ _ _ _ _ _ _ _ _ _ _ SV), (v_1 _ _ _ _ _ _ _ _ _ _ _ SV). reflexivity. }
  assert (FI : function_init E free_vars (e_var 1%nat) [1]%nat = Ok (Fn (e_var 1%nat) [1]%nat)) by (apply function_init_ok; [repeat constructor|exact Hfy]).
  destruct (discretize_values E free_vars eval cov_factor la_inv far8 junk NP RF q [1 / 5] (Fn (e_var 1%nat) [1]%nat) N4 eq_refl Hfy) as (values & T1 & T2).
  destruct (transform_coefficients E free_vars eval cov_factor la_inv far8 junk tiny e_1 NP RF q [1 / 5] values degree Triangle N4 eq_refl Hff (proj1 T2) N5 US FL) as (r & fv & R1 & R2 & R3 & R4 & R5 & R6 & R7 & R8).
  assert (V_ : values = map (fun x => 0 + sqrt (1 / 5) * x) xs).
  { rewrite (values_1d E q 1%nat 0 (1 / 5) xs values _ eq_refl eq_refl eq_refl T2). apply map_ext. intros x. cbn [f_sym]. apply (v_var _ _ _ _ _ _ _ _ _ _ _ SV). }
  assert (F_ : fv = map (fun x => W (0 + sqrt (1 / 5) * x)) xs).
  { rewrite (values_1d E q 1%nat 0 (1 / 5) xs fv _ eq_refl eq_refl eq_refl R2). apply map_ext. intros x. cbn [f_sym q_factor q]. apply EW. }
  assert (DG : s_degree r = degree).
  { unfold series_index in R7. rewrite R3, R4 in R7. cbn [q_pos q p_dirs length] in R7. unfold index_of in R7. cbn [in_set] in R7.
    pose proof (proj1 (R7 [s_degree r])) as Q1. pose proof (proj2 (R7 [degree])) as Q2. cbn [length list_sum fold_right] in Q1, Q2. assert (X : (s_degree r <= degree)%nat) by (destruct Q1 as [_ Q1]; [split; [reflexivity|lia]|lia]). assert (Y : (degree <= s_degree r)%nat) by (destruct Q2 as [_ Q2]; [split; [reflexivity|lia]|lia]). lia. }
  assert (PT : points Triangle 1 degree = map (fun i => [i]) (seq 0 (S degree))) by (rewrite points_spec_ok by exact Logic.I; cbn [spec_list]; apply tri_1).
  assert (LB : length (s_coeffs r) = S degree).
  { destruct R6 as (_ & R6). rewrite R4, DG in R6. unfold vec_for in R6. cbn [length] in R6. rewrite PT, map_length, seq_length in R6. exact R6. }
  exists (v_mat v), (s_coeffs r). split.
  { unfold noise_system_of. rewrite MK. cbn [bind]. match goal with |- bind ?x _ = _ => replace x with (Ok v) by (symmetry; exact M1) end. cbn [bind q_pos q p_dirs]. rewrite FI. cbn [bind]. unfold quad_transform_fun.
    match goal with |- bind (bind ?x _) _ = _ => replace x with (Ok values) by (symmetry; exact T1) end. cbn [bind]. match goal with |- bind ?x _ = _ => replace x with (Ok r) by (symmetry; exact R1) end. reflexivity. }
  split; [exact M2|]. split; [exact LB|]. split; [exact M3|]. split.
  - intros i j Hi Hj. destruct (M4 i j Hi Hj) as (A1 & A2). refine (eq_trans (eq_sym A2) (eq_trans A1 _)). f_equal.
    + destruct (i =? j)%nat; [field|reflexivity].
    + apply rsum_map_ext. intros (x, w) _. rewrite Rplus_0_l. reflexivity.
  - intros i Hi. assert (IX : series_index r [i]) by (apply R7; split; [reflexivity|cbn; lia]).
    pose proof (R8 [i] IX) as Q. unfold series_at, coef in Q. rewrite R3, R4, DG in Q. cbn [q_pos q p_dirs length] in Q. rewrite PT in Q. rewrite value_1 in Q; [|lia|exact LB]. refine (eq_trans Q _).
    rewrite V_, F_. unfold divided. rewrite combine_both, map_map. cbn [q_nodes q_weights q]. rewrite quadrature_1d by congruence. apply rsum_map_ext. intros (x, w) _. rewrite !Rplus_0_l. destruct (Req_EM_T _ _) as [Z|_]; [exfalso; exact (proj1 (HB' _) Z)|]. unfold phi, basis, rprod. cbn [kinds map combine fold_right String.eqb p_types q_pos q Ascii.eqb Bool.eqb Nat.eqb]. ring.
Qed.
Theorem noise_repaired : forall integrate la_solve limit n degree Vy I (V V1 V2 : R -> R) (D : list nat -> list nat -> list R -> R), (0 < n)%nat -> (Z.of_nat n < 2 ^ 32)%Z -> (1 <= degree <= 125)%nat -> 0 < I ->
  let xs := fst (hermegauss n) in let ws := map (fun w => w / sqrt (2 * PI)) (snd (hermegauss n)) in
  length xs = n -> length ws = n -> exact_rule degree 0 xs ws ->
  incl (free_vars (factor Vy I)) [1]%nat -> incl (free_vars (e_diff 1%nat Vy)) [1]%nat -> incl (free_vars (e_opp e_1)) [1]%nat -> incl (free_vars (e_var 1%nat)) [1]%nat ->
  (forall y, eval Vy (fun _ => y) = V y) -> (forall y, eval (e_diff 1%nat Vy) (fun _ => y) = V1 y) -> (forall y, derivable_pt_lim V y (V1 y)) -> (forall y, derivable_pt_lim V1 y (V2 y)) ->
  let W := fun y => sqrt (exp (- (y * y / (2 / 5))) / sqrt (2 * PI / 5) / (exp (- V y) / I)) in
  let gen := [(e_diff 1%nat Vy, [1]%nat); (e_opp e_1, [2]%nat)] in
  let q := Qd (F := fnum_R) [xs] [ws] (Pos (N := fnum_R) [1]%nat [0] (diag_mat fnum_R [1 / 5]) ["hermite"] true) (Fn (factor Vy I) [1]%nat) in
  maps eval free_vars [1]%nat (fun x _ => nth 0 x 0) gen (q_factor q) (op_map gen (q_factor q)) ->
  (forall op' k values, (sym_eqb (factor Vy I) e_1 = true /\ op' = gen) \/ (sym_eqb (factor Vy I) e_1 = false /\ op' = op_map gen (q_factor q)) -> length k = 1%nat ->
    grid_values q [1 / 5] values (coefficient (N := num_R) eval op' k) -> nothing_dropped Triangle degree [xs] [ws] [0]%nat values) ->
  (forall c, (c <= degree)%nat -> derivatives 1 (fun x => W (nth 0 x 0) * psi [0] [1 / 5] [0]%nat [c] x) (D [c])) ->
  solves (N := num_R) la_solve -> incl (free_vars (e_exp (e_opp Vy))) [1]%nat -> (forall q0, integrate q0 (Fn (e_exp (e_opp Vy)) [1]%nat) = Ok I) ->
  exists A b, system n degree Vy I = Ok (A, b) /\ length A = S degree /\ length b = S degree /\ symmetric A /\
    (forall i j, (i <= degree)%nat -> (j <= degree)%nat ->
      nth j (nth i A []) 0 = (if (i =? j)%nat then 5 * INR j else 0) + rsum (map (fun '(x, w) => w * (hermite i x * hermite j x * schroedinger 0 (1 / 5) V1 V2 (sqrt (1 / 5) * x))) (combine xs ws))) /\
    (forall i, (i <= degree)%nat -> nth i b 0 = rsum (map (fun '(x, w) => w * (sqrt (1 / 5) * x / W (sqrt (1 / 5) * x) * hermite i x)) (combine xs ws))) /\
    (forall y, la_solve A b = Ok y -> forall x, length x = S degree -> matvec (N := num_R) A x = b -> whole la_solve limit n degree integrate Vy = Ok (e_num (limit (dot (N := num_R) x b)))) /\
    (forall e, la_solve A b = Throw e -> whole la_solve limit n degree integrate Vy = Throw e).
Proof using far_ok RF NP HE SV HN LIN LV PE SE SS.
  intros integrate la_solve limit n degree Vy I V V1 V2 D Hn Hz Hdeg HI xs ws L1 L2 Hex Hff Hfv Hf1 Hfy EV EV1 DV DV1 W gen q Hmaps Hdrop HD HS Hfd Hint.
  destruct (noise_system_ok n degree Vy I V V1 V2 D Hn Hz Hdeg HI L1 L2 Hex Hff Hfv Hf1 Hfy EV EV1 DV DV1 Hmaps Hdrop HD) as (A & b & A1 & A2 & A3 & A4 & A5 & A6).
  exists A, b. split; [exact A1|]. split; [exact A2|]. split; [exact A3|]. split; [exact A4|]. split; [exact A5|]. split; [exact A6|].
  assert (H1 : incl (free_vars e_1) [1]%nat) by (rewrite (lin_vars_1 _ _ _ _ _ _ _ _ LV); intros x []).
  destruct (made far far_ok E free_vars hermegauss n e_1 Hn Hz L1) as (q0 & Q1 & Q2 & Q3 & Q4 & Q5); [exact (eq_trans (eq_sym (map_length (fun w => (w / sqrt (2 * PI))%R) (snd (hermegauss n)))) L2)|exact H1|].
  assert (R : whole la_solve limit n degree integrate Vy = (c <- noise_product fnum_R la_solve A b ;; Ok (e_num (limit c)))).
  { unfold noise_with_of. rewrite Q1. cbn [bind]. rewrite Q3. rewrite (function_init_ok E free_vars _ [1]%nat); [|repeat constructor|exact Hfd]. cbn [bind]. unfold noise_density. rewrite Hint. cbn [bind].
    match goal with |- bind ?x _ = _ => replace x with (Ok (A, b)) by (symmetry; exact A1) end. reflexivity. }
  split.
  - intros y Hy x Lx Hx. rewrite R. destruct (product_value la_solve A b y HS Hy) as (P & _). rewrite P. cbn [bind]. do 3 f_equal.
    destruct (product_symmetric la_solve A b _ HS A4 P) as (U & _). symmetry. apply U; [exact (eq_trans Lx (eq_sym A2))|exact Hx].
  - intros e He. rewrite R. unfold noise_product. rewrite He. reflexivity.
Qed.
End System.
