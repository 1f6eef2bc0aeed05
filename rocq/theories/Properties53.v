(** Property C117, continued: the matrix of the generator of the noise, and the factor. *)
From Coq Require Import String List Bool Arith ZArith Reals Lia Lra.
From Verif Require Import Base IndexModel Num Fnum LinSpec LinBase Facts2 Facts6 Facts7 Facts9 CalcSpec CalcHermite PyBase PosModel PosSpec PosFacts SeriesModel SeriesSpec OpModel OpSpec
  PyQuadModel PyQuadSpec PyQuadFacts2 OpQuadModel OpQuadSpec OpQuadFacts SteadyModel SteadySpec SteadyFacts2 SolveSpec NoiseModel NoiseSpec NoiseFacts2 NoiseFacts3 Properties16.
Import ListNotations.
Local Open Scope R_scope.

(** C117: the operator V' f' - f'' of McKean_Vlasov.equation, discretized by a Gauss-Hermite quadrature whose factor is a multiple of sqrt(gaussian / exp(-V)), is a symmetric matrix, as C117_product supposes.  Its
    entry (i, j) is that of the operator of Ornstein and Uhlenbeck, j / sigma on the diagonal, plus the quadrature of phi_i phi_j times the function
    (V'^2 - ((x - mu) / sigma)^2) / 4 - V'' / 2 + 1 / (2 sigma).  The rule is exact on the products of two polynomials of degree at most [degree]. *)
Theorem C117_matrix : forall E (free_vars : E -> list nat) (eval : E -> (nat -> R) -> R) cov_factor la_inv far8 junk e_1 la_eig, numpy_ok cov_factor la_inv far8 -> reads_free eval free_vars -> eig_ok la_eig ->
  forall e_add e_mul e_0 e_mono simplify is0 sym_eqb pos_eqb op_map, sympy_lin (N := num_R) eval e_add e_mul e_0 e_mono simplify is0 -> (forall p : position fnum_R, pos_eqb p p = true) -> (forall e, sym_eqb e e = true) ->
    (forall a b, sym_eqb a b = true -> forall env, eval a env = eval b env) ->
  forall (q : quad fnum_R E) d mu sigma degree xs ws (V1 V2 W : R -> R) (v1 minus1 : E) (D : list nat -> list nat -> list R -> R),
  let op := [(v1, [1]%nat); (minus1, [2]%nat)] in let env := fun (x : list R) (_ : nat) => nth 0 x 0 in
  setting q [sigma] Triangle degree -> p_dirs (q_pos q) = [d] -> p_mean (q_pos q) = [mu] -> p_types (q_pos q) = ["hermite"]%string -> q_nodes q = [xs] -> q_weights q = [ws] -> 0 < sigma -> exact_rule degree 0 xs ws ->
  sympy_lin_vars e_add e_mul e_0 e_1 e_mono simplify free_vars [d] -> (forall x, eval e_1 x = 1) -> f_dirs (q_factor q) = [d] -> incl (free_vars (f_sym (q_factor q))) [d] -> incl (free_vars v1) [d] -> incl (free_vars minus1) [d] ->
  (forall x, eval v1 (fun _ => x) = V1 x) -> (forall x, eval minus1 (fun _ => x) = - 1) -> (forall x, eval (f_sym (q_factor q)) (fun _ => x) = W x) -> balances mu sigma V1 W -> (forall x, derivable_pt_lim V1 x (V2 x)) ->
  maps eval free_vars [d] env op (q_factor q) (op_map op (q_factor q)) ->
  (forall op' n values, (sym_eqb (f_sym (q_factor q)) e_1 = true /\ op' = op) \/ (sym_eqb (f_sym (q_factor q)) e_1 = false /\ op' = op_map op (q_factor q)) -> length n = 1%nat ->
    grid_values q [sigma] values (coefficient (N := num_R) eval op' n) -> nothing_dropped Triangle degree [xs] [ws] [0]%nat values) ->
  (forall c, (c <= degree)%nat -> derivatives 1 (fun x => W (nth 0 x 0) * psi [mu] [sigma] [0]%nat [c] x) (D [c])) ->
  exists v, quad_discretize_op fnum_R E e_add e_mul e_0 e_1 e_mono simplify is0 free_vars eval sym_eqb pos_eqb cov_factor junk la_eig op_map q op degree Triangle = Ok v /\ length (v_mat v) = S degree /\ symmetric (v_mat v) /\
    forall i j, (i <= degree)%nat -> (j <= degree)%nat ->
      varf_at v [i] [j] = (if (i =? j)%nat then INR j / sigma else 0) + rsum (map (fun '(x, w) => w * (hermite i x * hermite j x * schroedinger mu sigma V1 V2 (mu + sqrt sigma * x))) (combine xs ws)) /\ varf_at v [i] [j] = nth j (nth i (v_mat v) []) 0.
Proof.
  intros E free_vars eval cov_factor la_inv far8 junk e_1 la_eig NP RF HE e_add e_mul e_0 e_mono simplify is0 sym_eqb pos_eqb op_map LIN PE SE SS.
  exact (noise_matrix E free_vars eval cov_factor la_inv far8 junk e_1 la_eig NP RF HE e_add e_mul e_0 e_mono simplify is0 sym_eqb pos_eqb op_map LIN PE SE SS).
Qed.
Print Assumptions C117_matrix.
Lemma dropped_fair : forall a b, let fair x := x = 0 \/ 1 / 4 <= Rabs x <= 6 in fair ((a + b) / 2) -> fair ((b - a) / 2) -> nothing_dropped Triangle 1 [[-1; 1]] [[1/2; 1/2]] [0]%nat [a; b].
Proof.
  intros a b fair H1 H2. destruct (gauss2_1d a b) as [G0 [G1 G2]].
  assert (Hp : points Triangle 1 2 = [[0]; [1]; [2]]%nat) by reflexivity.
  assert (Sq : forall x, 1 / 4 <= Rabs x <= 6 -> 1 / 16 <= x * x <= 36) by (intros x Hx; destruct (Rcase_abs x) as [N|N]; [rewrite Rabs_left in Hx by exact N|rewrite Rabs_right in Hx by exact N]; nra).
  assert (Ff : forall x, fair x -> x = 0 \/ / 100 <= x * x) by (intros x [Hx|Hx]; [left; exact Hx|right; apply Sq in Hx; lra]).
  apply nothing_dropped_crit.
  - cbn [length]. change (2 * 1)%nat with 2%nat. rewrite Hp. intros m [<-|[<-|[<-|[]]]]; [rewrite G0; auto|rewrite G1; auto|left; exact G2].
  - cbn; lia.
  - exact I.
  - cbn [length]. change (2 * 1)%nat with 2%nat. rewrite Hp. cbn [map]. rewrite G0, G1, G2. unfold rsum. cbn [fold_right]. destruct H1 as [-> | H1], H2 as [-> | H2]; try (apply Sq in H1); try (apply Sq in H2); lra.
Qed.
(** The potential (y - 3)^2 / 8: its density is the Gaussian with the mean 3 and the variance 4, and the factor is 1.  The matrix of degree 1 is diag(0, 1/4). *)
Notation v1_sample := (RMul (RNum (1/4)) (RAdd (RVar 0) (RNum (-3)))).
Notation gen_sample := [(v1_sample, [1]%nat); (RNum (-1), [2]%nat)].
Example C117_matrix_example : exists v, quad_discretize_op fnum_R rexpr RAdd RMul (RNum 0) (RNum 1) (r_mono [0]%nat) (fun e => e) r_is0 r_free r_eval r_eqb (fun _ _ => true) r_cov_factor 0 r_la_eig
    (fun op _ => op) (quad1 (RNum 1)) gen_sample 1 Triangle = Ok v /\ length (v_mat v) = 2%nat /\ symmetric (v_mat v) /\ varf_at v [0]%nat [0]%nat = 0 /\ varf_at v [0]%nat [1]%nat = 0 /\ varf_at v [1]%nat [1]%nat = 1 / 4.
Proof.
  assert (HD : forall c, derivatives 1 (fun x => 1 * psi [3] [4] [0]%nat [c] x) (fun n => g1 c (nth 0 n 0%nat))).
  { intros c [|k [|? ?]] Hn _; try discriminate Hn. unfold coordinates. cbn [length seq combine map concat nth]. rewrite app_nil_r. clear Hn. induction k as [|k IH].
    - intros x Hx. rewrite (proj1 (g1_along c 0%nat) x Hx). ring.
    - cbn [repeat deriv_along]. exists (g1 c k). split; [exact IH|exact (proj2 (g1_along c k))]. }
  destruct (C117_matrix rexpr r_free r_eval r_cov_factor r_la_inv r_far 0 (RNum 1) r_la_eig numpy_sample r_reads diag_eig RAdd RMul (RNum 0) (r_mono [0]%nat) (fun e => e) r_is0 r_eqb (fun _ _ => true)
    (fun op _ => op) (r_lin [0]%nat) (fun _ => eq_refl) r_eqb_refl r_eqb_sound (quad1 (RNum 1)) 0%nat 3 4 1%nat [-1; 1] [1/2; 1/2] (fun x => 1 / 4 * (x + -3)) (fun _ => 1 / 4) (fun _ => 1) v1_sample (RNum (-1)) (fun c n => g1 (nth 0 c 0%nat) (nth 0 n 0%nat)))
    as (v & V1 & V2 & V3 & V4); try reflexivity; try apply incl_refl.
  - apply quad1_setting.
  - lra.
  - exact gauss2.
  - apply r_lin_vars.
  - intros x [].
  - intros x [].
  - intros x. split; [lra|]. replace (1 * ((1 / 4 * (x + -3) - (x - 3) / 4) / 2)) with 0 by field. apply derivable_pt_lim_const.
  - intros x. pose proof (derivable_pt_lim_scal (fun x => x + -3) (1 / 4) x (1 + 0) (derivable_pt_lim_plus _ _ x 1 0 (derivable_pt_lim_id x) (derivable_pt_lim_const (-3) x))) as H. replace (1 / 4 * (1 + 0)) with (1 / 4) in H by ring. exact H.
  - split.
    + intros c n [H|[H|[]]]; injection H as <- <-; cbn; (split; [reflexivity|]); (split; [lia|]); intros x Hx; cbn in Hx |- *; tauto.
    + intros f D D' x H H' Hx _. cbn [f_sym r_eval length] in *.
      assert (S : forall n, length n = 1%nat -> (order n <= 5)%nat -> D n x = D' n x).
      { intros n Ln On. eapply (deriv_unique [0%R]); [| |exact (H n Ln On)|exact (H' n Ln On)|exact Hx].
        - destruct n as [|k [|? ?]]; try discriminate Ln. unfold coordinates. cbn [length seq combine map concat]. rewrite app_nil_r. apply Forall_forall. intros y Hy. apply repeat_spec in Hy. subst. cbn. lia.
        - intros y _. symmetry. exact (Rmult_1_l (f y)). }
      unfold op_value, nsum. cbn [map]. rewrite !S by (try reflexivity; cbn; lia). match goal with |- @eq _ ?a ?b => change (@eq R a b) end. cbn -[Rdiv]. field.
  - intros op' n values [[_ ->]|[H _]] Hn Hv; [|exfalso; cbn in H; destruct (Req_EM_T 1 1); congruence]. apply quad1_values in Hv. subst values. destruct n as [|[|[|[|n]]] [|? ?]]; try discriminate Hn; unfold coefficient; cbn -[nothing_dropped].
    + apply dropped_fair; left; lra.
    + apply dropped_fair; [left; lra|right]. match goal with |- _ <= Rabs ?a <= _ => replace a with (1 / 2) by field end. rewrite Rabs_right; lra.
    + apply dropped_fair; [right|left; lra]. match goal with |- _ <= Rabs ?a <= _ => replace a with (-1) by field end. rewrite Rabs_left; lra.
    + apply dropped_fair; left; lra.
  - intros c _. exact (HD c).
  - exists v. split; [exact V1|]. split; [exact V2|]. split; [exact V3|].
    repeat split; rewrite (fun i j Hi Hj => proj1 (V4 i j Hi Hj)) by lia; unfold schroedinger, rsum; cbn -[hermite sqrt INR]; rewrite ?hermite_0, ?hermite_1, ?sqrt_4; cbn [INR]; field.
Qed.

(** C117: the factor of the code, from the potential Vy and the number that the first integral should be, is sqrt(gaussian / (exp(-V) / integral)) where the Gaussian has the variance 1/5, and it meets the condition
    of C117_matrix with the mean 0 and the variance 1/5, for any differentiable potential and any positive number. *)
Theorem C117_factor : forall E (eval : E -> (nat -> R) -> R) e_add e_mul e_div e_opp e_1 e_pi e_var e_sqrt e_exp e_subs e_num, sympy_values eval e_add e_mul e_div e_opp e_1 e_pi e_var e_sqrt e_exp e_subs ->
  (forall c env, eval (e_num c) env = c) -> forall Vy integral (V V1 : R -> R), (forall y, eval Vy (fun _ => y) = V y) -> (forall y, derivable_pt_lim V y (V1 y)) -> 0 < integral ->
  let W := fun y => eval (noise_factor fnum_R E e_mul e_div e_opp e_var e_sqrt e_exp e_num e_pi Vy integral) (fun _ => y) in
  (forall y, W y = sqrt (exp (- (y * y / (2 / 5))) / sqrt (2 * PI / 5) / (exp (- V y) / integral))) /\ balances 0 (1 / 5) V1 W.
Proof. exact noise_balances. Qed.
Print Assumptions C117_factor.
(** The potential y^2. *)
Example C117_factor_example : let W := fun y => g_eval (noise_factor fnum_R gexpr GMul GDiv GOpp GVar GSqrt GExp GNum (GNum PI) (GMul (GVar 1) (GVar 1)) 3) (fun _ => y) in balances 0 (1 / 5) (fun y => 1 * y + y * 1) W.
Proof.
  apply (C117_factor gexpr g_eval GAdd GMul GDiv GOpp (GNum 1) (GNum PI) GVar GSqrt GExp g_subs GNum g_values (fun _ _ => eq_refl) (GMul (GVar 1) (GVar 1)) 3 (fun y => y * y)).
  - reflexivity.
  - intros y. apply derivable_pt_lim_mult; apply derivable_pt_lim_id.
  - lra.
Qed.

(** C117: the linear system of the code for n points, the degree and a positive number I for the integral (the code has 201 points and the degree 100, noise_system) is A c = b, where A is symmetric and is the matrix of
    C117_matrix for the mean 0 and the variance 1/5, and b are the coefficients of y / W for the factor W = sqrt(gaussian / (exp(-V) / I)). *)
Theorem C117_system : forall far, (forall l, far (diag_mat fnum_R l) = false) -> forall E e_add e_mul e_div e_opp e_0 e_1 e_var e_sqrt e_exp e_subs e_diff e_num e_pi e_mono simplify is0 free_vars (eval : E -> (nat -> R) -> R),
  reads_free eval free_vars -> forall sym_eqb pos_eqb cov_factor la_inv far8 junk tiny, numpy_ok cov_factor la_inv far8 -> forall la_eig, eig_ok la_eig -> forall op_map hermegauss,
  sympy_values eval e_add e_mul e_div e_opp e_1 e_pi e_var e_sqrt e_exp e_subs -> (forall c env, eval (e_num c) env = c) -> sympy_lin (N := num_R) eval e_add e_mul e_0 e_mono simplify is0 ->
  sympy_lin_vars e_add e_mul e_0 e_1 e_mono simplify free_vars [1]%nat -> (forall p : position fnum_R, pos_eqb p p = true) -> (forall e, sym_eqb e e = true) -> (forall a b, sym_eqb a b = true -> forall env, eval a env = eval b env) ->
  forall n degree Vy I (V V1 V2 : R -> R) (D : list nat -> list nat -> list R -> R), (0 < n)%nat -> (Z.of_nat n < 2 ^ 32)%Z -> (1 <= degree <= 125)%nat -> 0 < I ->
  let xs := fst (hermegauss n) in let ws := map (fun w => w / sqrt (2 * PI)) (snd (hermegauss n)) in
  length xs = n -> length ws = n -> exact_rule degree 0 xs ws ->
  incl (free_vars (noise_factor fnum_R E e_mul e_div e_opp e_var e_sqrt e_exp e_num e_pi Vy I)) [1]%nat -> incl (free_vars (e_diff 1%nat Vy)) [1]%nat -> incl (free_vars (e_opp e_1)) [1]%nat -> incl (free_vars (e_var 1%nat)) [1]%nat ->
  (forall y, eval Vy (fun _ => y) = V y) -> (forall y, eval (e_diff 1%nat Vy) (fun _ => y) = V1 y) -> (forall y, derivable_pt_lim V y (V1 y)) -> (forall y, derivable_pt_lim V1 y (V2 y)) ->
  let W := fun y => sqrt (exp (- (y * y / (2 / 5))) / sqrt (2 * PI / 5) / (exp (- V y) / I)) in
  let gen := [(e_diff 1%nat Vy, [1]%nat); (e_opp e_1, [2]%nat)] in
  let q := Qd (F := fnum_R) [xs] [ws] (Pos (N := fnum_R) [1]%nat [0] (diag_mat fnum_R [1 / 5]) ["hermite"]%string true) (Fn (noise_factor fnum_R E e_mul e_div e_opp e_var e_sqrt e_exp e_num e_pi Vy I) [1]%nat) in
  maps eval free_vars [1]%nat (fun x _ => nth 0 x 0) gen (q_factor q) (op_map gen (q_factor q)) ->
  (forall op' k values, (sym_eqb (noise_factor fnum_R E e_mul e_div e_opp e_var e_sqrt e_exp e_num e_pi Vy I) e_1 = true /\ op' = gen) \/ (sym_eqb (noise_factor fnum_R E e_mul e_div e_opp e_var e_sqrt e_exp e_num e_pi Vy I) e_1 = false /\ op' = op_map gen (q_factor q)) -> length k = 1%nat ->
    grid_values q [1 / 5] values (coefficient (N := num_R) eval op' k) -> nothing_dropped Triangle degree [xs] [ws] [0]%nat values) ->
  (forall c, (c <= degree)%nat -> derivatives 1 (fun x => W (nth 0 x 0) * psi [0] [1 / 5] [0]%nat [c] x) (D [c])) ->
  exists A b, noise_system_of fnum_R far E e_add e_mul e_div e_opp e_0 e_1 e_var e_sqrt e_exp e_diff e_num e_pi e_mono simplify is0 free_vars eval sym_eqb pos_eqb cov_factor junk tiny la_eig op_map hermegauss n degree Vy I = Ok (A, b) /\ length A = S degree /\ length b = S degree /\ symmetric A /\
    (forall i j, (i <= degree)%nat -> (j <= degree)%nat ->
      nth j (nth i A []) 0 = (if (i =? j)%nat then 5 * INR j else 0) + rsum (map (fun '(x, w) => w * (hermite i x * hermite j x * schroedinger 0 (1 / 5) V1 V2 (sqrt (1 / 5) * x))) (combine xs ws))) /\
    (forall i, (i <= degree)%nat -> nth i b 0 = rsum (map (fun '(x, w) => w * (sqrt (1 / 5) * x / W (sqrt (1 / 5) * x) * hermite i x)) (combine xs ws))).
Proof.
  intros far far_ok E e_add e_mul e_div e_opp e_0 e_1 e_var e_sqrt e_exp e_subs e_diff e_num e_pi e_mono simplify is0 free_vars eval RF sym_eqb pos_eqb cov_factor la_inv far8 junk tiny NP la_eig HE op_map hermegauss SV HN LIN LV PE SE SS.
  exact (noise_system_ok far far_ok E e_add e_mul e_div e_opp e_0 e_1 e_var e_sqrt e_exp e_subs e_diff e_num e_pi e_mono simplify is0 free_vars eval RF sym_eqb pos_eqb cov_factor la_inv far8 junk tiny NP la_eig HE op_map hermegauss SV HN LIN LV PE SE SS).
Qed.
Print Assumptions C117_system.
(** The potential 5 y^2 / 2, two points and the degree 1: the matrix is diag(0, 5) and the right-hand side is (0, sqrt(1/5)). *)
Notation v_sample := (GMul (GNum (5/2)) (GMul (GVar 1) (GVar 1))).
Definition g_eqb (a b : gexpr) : bool := if g_dec a b then true else false.
Notation two_points := (fun _ : nat => ([-1; 1], [sqrt (2 * PI) / 2; sqrt (2 * PI) / 2])).
Example C117_system_example : exists A b, noise_system_of fnum_R (fun _ => false) gexpr GAdd GMul GDiv GOpp (GNum 0) (GNum 1) GVar GSqrt GExp (fun _ _ => GMul (GNum 5) (GVar 1)) GNum (GNum PI) (fun _ => GNum 1) (fun e => e) (fun _ => false) g_vars g_eval
    g_eqb (fun _ _ => true) r_cov_factor 0 0 r_la_eig (fun op _ => op) two_points 2 1 v_sample (sqrt (2 * PI / 5)) = Ok (A, b) /\ symmetric A /\ nth 0 (nth 0 A []) 0 = 0 /\ nth 1 (nth 1 A []) 0 = 5 /\ nth 0 b 0 = 0 /\ nth 1 b 0 = sqrt (1 / 5).
Proof.
  assert (P0 : 0 < sqrt (2 * PI / 5)) by (apply sqrt_lt_R0; pose proof PI_RGT_0; lra). assert (P1 : 0 < sqrt (2 * PI)) by (apply sqrt_lt_R0; pose proof PI_RGT_0; lra).
  assert (WS : map (fun w => w / sqrt (2 * PI)) (snd (two_points 2%nat)) = [1 / 2; 1 / 2]) by (cbn [snd map]; replace (sqrt (2 * PI) / 2 / sqrt (2 * PI)) with (1 / 2) by (field; lra); reflexivity).
  assert (W1 : forall y, sqrt (exp (- (y * y / (2 / 5))) / sqrt (2 * PI / 5) / (exp (- (5 / 2 * (y * y))) / sqrt (2 * PI / 5))) = 1).
  { intros y. replace (y * y / (2 / 5)) with (5 / 2 * (y * y)) by field. pose proof (exp_pos (- (5 / 2 * (y * y)))) as X. replace (exp (- (5 / 2 * (y * y))) / sqrt (2 * PI / 5) / (exp (- (5 / 2 * (y * y))) / sqrt (2 * PI / 5))) with 1 by (field; lra). apply sqrt_1. }
  assert (S5 : 0 < sqrt (1 / 5)) by (apply sqrt_lt_R0; lra). assert (Q5 : sqrt (1 / 5) * sqrt (1 / 5) = 1 / 5) by (apply sqrt_sqrt; lra).
  assert (FA : forall env, g_eval (noise_factor fnum_R gexpr GMul GDiv GOpp GVar GSqrt GExp GNum (GNum PI) v_sample (sqrt (2 * PI / 5))) env = 1).
  { intros env. pose proof (proj1 (C117_factor gexpr g_eval GAdd GMul GDiv GOpp (GNum 1) (GNum PI) GVar GSqrt GExp g_subs GNum g_values (fun _ _ => eq_refl) v_sample (sqrt (2 * PI / 5)) (fun y => 5 / 2 * (y * y)) (fun y => 5 / 2 * (1 * y + y * 1)) (fun _ => eq_refl)
      ltac:(intros y; apply derivable_pt_lim_scal; apply derivable_pt_lim_mult; apply derivable_pt_lim_id) P0) (env 1%nat)) as H. rewrite W1 in H. exact H. }
  destruct (C117_system (fun _ => false) (fun _ => eq_refl) gexpr GAdd GMul GDiv GOpp (GNum 0) (GNum 1) GVar GSqrt GExp g_subs (fun _ _ => GMul (GNum 5) (GVar 1)) GNum (GNum PI) (fun _ => GNum 1) (fun e => e) (fun _ => false) g_vars g_eval g_reads
    g_eqb (fun _ _ => true) r_cov_factor r_la_inv r_far 0 0 numpy_sample r_la_eig diag_eig (fun op _ => op) two_points g_values (fun _ _ => eq_refl)) with (n := 2%nat) (degree := 1%nat) (Vy := v_sample) (I := sqrt (2 * PI / 5)) (V := fun y => 5 / 2 * (y * y)) (V1 := fun y => 5 * y) (V2 := fun _ : R => 5)
    (D := fun (c k : list nat) x => let z := dpsi [1 / 5] [0]%nat (repeat 0%nat (nth 0 k 0%nat)) c in fst z * psi [0] [1 / 5] [0]%nat (snd z) x) as (A & b & A1 & A2 & A3 & A4 & A5 & A6); try reflexivity; try apply incl_refl; try assumption; try (rewrite WS).
  - split; intros; try reflexivity. discriminate.
  - split; intros; try reflexivity; try apply incl_refl. intros x [].
  - intros e. unfold g_eqb. destruct (g_dec e e); congruence.
  - intros a b H env. unfold g_eqb in H. destruct (g_dec a b) as [->|]; [reflexivity|discriminate H].
  - lia.
  - lia.
  - exact gauss2.
  - intros x Hx. cbn in Hx |- *. tauto.
  - intros x [].
  - intros y. replace (5 * y) with (5 / 2 * (1 * y + y * 1)) by field. apply derivable_pt_lim_scal. apply derivable_pt_lim_mult; apply derivable_pt_lim_id.
  - intros y. pose proof (derivable_pt_lim_scal (fun y => y) 5 y 1 (derivable_pt_lim_id y)) as H. replace (5 * 1) with 5 in H by ring. exact H.
  - split.
    + intros c n [H|[H|[]]]; injection H as <- <-; cbn; (split; [reflexivity|]); (split; [lia|]); intros x Hx; cbn in Hx |- *; tauto.
    + intros f D D' x H H' Hx _. cbn [f_sym q_factor length] in *.
      assert (S : forall n, length n = 1%nat -> (order n <= 5)%nat -> D n x = D' n x).
      { intros n Ln On. eapply (deriv_unique [0%R]); [| |exact (H n Ln On)|exact (H' n Ln On)|exact Hx].
        - destruct n as [|k [|? ?]]; try discriminate Ln. unfold coordinates. cbn [length seq combine map concat]. rewrite app_nil_r. apply Forall_forall. intros y Hy. apply repeat_spec in Hy. subst. cbn. lia.
        - intros y _. symmetry. exact (eq_trans (f_equal (fun t => t * f y) (FA _)) (Rmult_1_l (f y))). }
      match goal with |- _ = _ / ?w => replace w with 1 by (symmetry; exact (FA _)) end. unfold op_value, nsum. cbn [map]. rewrite !S by (try reflexivity; cbn; lia). match goal with |- @eq _ ?a ?b => change (@eq R a b) end. cbn -[Rdiv]. field.
  - intros op' n values Ho Hn Hv. assert (op' = [(GMul (GNum 5) (GVar 1), [1]%nat); (GOpp (GNum 1), [2]%nat)]) as -> by (destruct Ho as [[_ H]|[_ H]]; exact H).
    match type of Hv with grid_values ?q _ _ _ => apply (values_1d gexpr q 1%nat 0 (1 / 5) [-1; 1] values _ eq_refl eq_refl eq_refl) in Hv end. subst values. destruct n as [|[|[|[|n]]] [|? ?]]; try discriminate Hn; unfold coefficient; cbn -[nothing_dropped sqrt Rdiv].
    + apply dropped_fair; left; field.
    + apply dropped_fair; [left; field|right]. match goal with |- _ <= Rabs ?a <= _ => replace a with (5 * sqrt (1 / 5)) by field end. rewrite Rabs_right by lra. nra.
    + apply dropped_fair; [right|left; field]. match goal with |- _ <= Rabs ?a <= _ => replace a with (-1) by field end. rewrite Rabs_left; lra.
    + apply dropped_fair; left; field.
  - intros c _ [|k [|? ?]] Hn _; try discriminate Hn.
    assert (AL : forall f ks g, deriv_along 1 ks f g -> deriv_along 1 ks (fun x => sqrt (exp (- (nth 0 x 0 * nth 0 x 0 / (2 / 5))) / sqrt (2 * PI / 5) / (exp (- (5 / 2 * (nth 0 x 0 * nth 0 x 0))) / sqrt (2 * PI / 5))) * f x) g).
    { intros f ks. induction ks as [|a ks IH]; intros g; cbn [deriv_along]; [intros H x Hx; rewrite W1, Rmult_1_l; apply H; exact Hx|]. intros (h & H1 & H2). exists h. split; [apply IH; exact H1|exact H2]. }
    unfold coordinates. cbn [length seq combine map concat nth]. rewrite app_nil_r. clear Hn.
    assert (Hv : Forall (fun v => 0 < v) [1 / 5]) by (constructor; [lra|constructor]).
    assert (G : deriv_along 1 (repeat 0%nat k) (psi [0] [1 / 5] [0]%nat [c]) (fun x => let z := dpsi [1 / 5] [0]%nat (repeat 0%nat k) [c] in fst z * psi [0] [1 / 5] [0]%nat (snd z) x)).
    { apply (deriv_psi [0] [1 / 5] [0]%nat eq_refl eq_refl Hv (repeat 0%nat k) [c]); [|reflexivity]. apply Forall_forall. intros x Hx. apply repeat_spec in Hx. subst. cbn. lia. }
    refine (AL _ _ _ G).
  - exists A, b. split; [exact A1|]. split; [exact A4|]. rewrite WS in *. rewrite (A5 0%nat 0%nat), (A5 1%nat 1%nat), (A6 0%nat), (A6 1%nat) by lia. cbn [fst combine map Nat.eqb]. rewrite !W1. unfold schroedinger, rsum. cbn [fold_right]. rewrite !hermite_0, !hermite_1. cbn [INR].
    generalize (sqrt (1 / 5)). intros t. split; [|split; [|split]]; match goal with |- @eq _ ?a ?b => change (@eq R a b) end; field.
Qed.
(** C117: if the integral of exp(-V), which the code computes with undefined behaviour (C117_undefined), were computed and gave the positive number I, then lines 209-223 would return the number of the system of
    C117_system, for n points and the degree (the code has 201 and 100): whenever the solver returns, the answer is limit(x . b) for every solution x of A x = b, even if A is singular.  An exception of the solver comes out. *)
Theorem C117_repaired : forall far, (forall l, far (diag_mat fnum_R l) = false) -> forall E e_add e_mul e_div e_opp e_0 e_1 e_var e_sqrt e_exp e_subs e_diff e_num e_pi e_mono simplify is0 free_vars (eval : E -> (nat -> R) -> R),
  reads_free eval free_vars -> forall sym_eqb pos_eqb cov_factor la_inv far8 junk tiny, numpy_ok cov_factor la_inv far8 -> forall la_eig, eig_ok la_eig -> forall op_map hermegauss,
  sympy_values eval e_add e_mul e_div e_opp e_1 e_pi e_var e_sqrt e_exp e_subs -> (forall c env, eval (e_num c) env = c) -> sympy_lin (N := num_R) eval e_add e_mul e_0 e_mono simplify is0 ->
  sympy_lin_vars e_add e_mul e_0 e_1 e_mono simplify free_vars [1]%nat -> (forall p : position fnum_R, pos_eqb p p = true) -> (forall e, sym_eqb e e = true) -> (forall a b, sym_eqb a b = true -> forall env, eval a env = eval b env) ->
  forall integrate la_solve limit n degree Vy I (V V1 V2 : R -> R) (D : list nat -> list nat -> list R -> R), (0 < n)%nat -> (Z.of_nat n < 2 ^ 32)%Z -> (1 <= degree <= 125)%nat -> 0 < I ->
  let xs := fst (hermegauss n) in let ws := map (fun w => w / sqrt (2 * PI)) (snd (hermegauss n)) in
  length xs = n -> length ws = n -> exact_rule degree 0 xs ws ->
  incl (free_vars (noise_factor fnum_R E e_mul e_div e_opp e_var e_sqrt e_exp e_num e_pi Vy I)) [1]%nat -> incl (free_vars (e_diff 1%nat Vy)) [1]%nat -> incl (free_vars (e_opp e_1)) [1]%nat -> incl (free_vars (e_var 1%nat)) [1]%nat ->
  (forall y, eval Vy (fun _ => y) = V y) -> (forall y, eval (e_diff 1%nat Vy) (fun _ => y) = V1 y) -> (forall y, derivable_pt_lim V y (V1 y)) -> (forall y, derivable_pt_lim V1 y (V2 y)) ->
  let W := fun y => sqrt (exp (- (y * y / (2 / 5))) / sqrt (2 * PI / 5) / (exp (- V y) / I)) in
  let gen := [(e_diff 1%nat Vy, [1]%nat); (e_opp e_1, [2]%nat)] in
  let q := Qd (F := fnum_R) [xs] [ws] (Pos (N := fnum_R) [1]%nat [0] (diag_mat fnum_R [1 / 5]) ["hermite"]%string true) (Fn (noise_factor fnum_R E e_mul e_div e_opp e_var e_sqrt e_exp e_num e_pi Vy I) [1]%nat) in
  maps eval free_vars [1]%nat (fun x _ => nth 0 x 0) gen (q_factor q) (op_map gen (q_factor q)) ->
  (forall op' k values, (sym_eqb (noise_factor fnum_R E e_mul e_div e_opp e_var e_sqrt e_exp e_num e_pi Vy I) e_1 = true /\ op' = gen) \/ (sym_eqb (noise_factor fnum_R E e_mul e_div e_opp e_var e_sqrt e_exp e_num e_pi Vy I) e_1 = false /\ op' = op_map gen (q_factor q)) -> length k = 1%nat ->
    grid_values q [1 / 5] values (coefficient (N := num_R) eval op' k) -> nothing_dropped Triangle degree [xs] [ws] [0]%nat values) ->
  (forall c, (c <= degree)%nat -> derivatives 1 (fun x => W (nth 0 x 0) * psi [0] [1 / 5] [0]%nat [c] x) (D [c])) ->
  solves (N := num_R) la_solve -> incl (free_vars (e_exp (e_opp Vy))) [1]%nat -> (forall q0, integrate q0 (Fn (e_exp (e_opp Vy)) [1]%nat) = Ok I) ->
  exists A b, noise_system_of fnum_R far E e_add e_mul e_div e_opp e_0 e_1 e_var e_sqrt e_exp e_diff e_num e_pi e_mono simplify is0 free_vars eval sym_eqb pos_eqb cov_factor junk tiny la_eig op_map hermegauss n degree Vy I = Ok (A, b) /\ length A = S degree /\ length b = S degree /\ symmetric A /\
    (forall i j, (i <= degree)%nat -> (j <= degree)%nat ->
      nth j (nth i A []) 0 = (if (i =? j)%nat then 5 * INR j else 0) + rsum (map (fun '(x, w) => w * (hermite i x * hermite j x * schroedinger 0 (1 / 5) V1 V2 (sqrt (1 / 5) * x))) (combine xs ws))) /\
    (forall i, (i <= degree)%nat -> nth i b 0 = rsum (map (fun '(x, w) => w * (sqrt (1 / 5) * x / W (sqrt (1 / 5) * x) * hermite i x)) (combine xs ws))) /\
    (forall y, la_solve A b = Ok y -> forall x, length x = S degree -> matvec (N := num_R) A x = b -> noise_with_of fnum_R far E e_add e_mul e_div e_opp e_0 e_1 e_var e_sqrt e_exp e_diff e_num e_pi e_mono simplify is0 free_vars eval sym_eqb pos_eqb cov_factor junk tiny la_eig op_map hermegauss la_solve limit n degree integrate Vy = Ok (e_num (limit (dot (N := num_R) x b)))) /\
    (forall e, la_solve A b = Throw e -> noise_with_of fnum_R far E e_add e_mul e_div e_opp e_0 e_1 e_var e_sqrt e_exp e_diff e_num e_pi e_mono simplify is0 free_vars eval sym_eqb pos_eqb cov_factor junk tiny la_eig op_map hermegauss la_solve limit n degree integrate Vy = Throw e).
Proof.
  intros far far_ok E e_add e_mul e_div e_opp e_0 e_1 e_var e_sqrt e_exp e_subs e_diff e_num e_pi e_mono simplify is0 free_vars eval RF sym_eqb pos_eqb cov_factor la_inv far8 junk tiny NP la_eig HE op_map hermegauss SV HN LIN LV PE SE SS.
  exact (noise_repaired far far_ok E e_add e_mul e_div e_opp e_0 e_1 e_var e_sqrt e_exp e_subs e_diff e_num e_pi e_mono simplify is0 free_vars eval RF sym_eqb pos_eqb cov_factor la_inv far8 junk tiny NP la_eig HE op_map hermegauss SV HN LIN LV PE SE SS).
Qed.
Print Assumptions C117_repaired.
(** For that potential the solver may return any (t, sqrt(1/5) / 5): the answer is limit(1/25) for all t. *)
Definition checked (u : list R) (A : list (list R)) (b : list R) : res (list R) := if list_eq_dec Req_EM_T (matvec (N := num_R) A u) b then if Nat.eq_dec (length u) (length A) then Ok u else Throw "LinAlgError"%string else Throw "LinAlgError"%string.
Lemma checked_solves : forall u, solves (N := num_R) (checked u).
Proof.
  intros u A b x. unfold checked.
  destruct (list_eq_dec Req_EM_T (matvec (N := num_R) A u) b) as [M|]; [|intros H; discriminate H]. destruct (Nat.eq_dec _ _) as [L|]; [|intros H; discriminate H].
  intros H. injection H as <-. split; [exact L|exact M].
Qed.
Example C117_repaired_example : forall t limit, noise_with_of fnum_R (fun _ => false) gexpr GAdd GMul GDiv GOpp (GNum 0) (GNum 1) GVar GSqrt GExp (fun _ _ => GMul (GNum 5) (GVar 1)) GNum (GNum PI) (fun _ => GNum 1) (fun e => e) (fun _ => false) g_vars g_eval
    g_eqb (fun _ _ => true) r_cov_factor 0 0 r_la_eig (fun op _ => op) two_points (checked [t; sqrt (1 / 5) / 5]) limit 2 1 (fun _ _ => Ok (sqrt (2 * PI / 5))) v_sample = Ok (GNum (limit (1 / 25))).
Proof.
  intros t limit.
  assert (P0 : 0 < sqrt (2 * PI / 5)) by (apply sqrt_lt_R0; pose proof PI_RGT_0; lra). assert (P1 : 0 < sqrt (2 * PI)) by (apply sqrt_lt_R0; pose proof PI_RGT_0; lra).
  assert (WS : map (fun w => w / sqrt (2 * PI)) (snd (two_points 2%nat)) = [1 / 2; 1 / 2]) by (cbn [snd map]; replace (sqrt (2 * PI) / 2 / sqrt (2 * PI)) with (1 / 2) by (field; lra); reflexivity).
  assert (W1 : forall y, sqrt (exp (- (y * y / (2 / 5))) / sqrt (2 * PI / 5) / (exp (- (5 / 2 * (y * y))) / sqrt (2 * PI / 5))) = 1).
  { intros y. replace (y * y / (2 / 5)) with (5 / 2 * (y * y)) by field. pose proof (exp_pos (- (5 / 2 * (y * y)))) as X. replace (exp (- (5 / 2 * (y * y))) / sqrt (2 * PI / 5) / (exp (- (5 / 2 * (y * y))) / sqrt (2 * PI / 5))) with 1 by (field; lra). apply sqrt_1. }
  assert (S5 : 0 < sqrt (1 / 5)) by (apply sqrt_lt_R0; lra). assert (Q5 : sqrt (1 / 5) * sqrt (1 / 5) = 1 / 5) by (apply sqrt_sqrt; lra).
  assert (FA : forall env, g_eval (noise_factor fnum_R gexpr GMul GDiv GOpp GVar GSqrt GExp GNum (GNum PI) v_sample (sqrt (2 * PI / 5))) env = 1).
  { intros env. pose proof (proj1 (C117_factor gexpr g_eval GAdd GMul GDiv GOpp (GNum 1) (GNum PI) GVar GSqrt GExp g_subs GNum g_values (fun _ _ => eq_refl) v_sample (sqrt (2 * PI / 5)) (fun y => 5 / 2 * (y * y)) (fun y => 5 / 2 * (1 * y + y * 1)) (fun _ => eq_refl)
      ltac:(intros y; apply derivable_pt_lim_scal; apply derivable_pt_lim_mult; apply derivable_pt_lim_id) P0) (env 1%nat)) as H. rewrite W1 in H. exact H. }
  destruct (C117_repaired (fun _ => false) (fun _ => eq_refl) gexpr GAdd GMul GDiv GOpp (GNum 0) (GNum 1) GVar GSqrt GExp g_subs (fun _ _ => GMul (GNum 5) (GVar 1)) GNum (GNum PI) (fun _ => GNum 1) (fun e => e) (fun _ => false) g_vars g_eval g_reads
    g_eqb (fun _ _ => true) r_cov_factor r_la_inv r_far 0 0 numpy_sample r_la_eig diag_eig (fun op _ => op) two_points g_values (fun _ _ => eq_refl)) with (integrate := fun (_ : quad fnum_R gexpr) (_ : func gexpr) => Ok (sqrt (2 * PI / 5))) (la_solve := checked [t; sqrt (1 / 5) / 5]) (limit := limit) (n := 2%nat) (degree := 1%nat) (Vy := v_sample) (I := sqrt (2 * PI / 5)) (V := fun y => 5 / 2 * (y * y)) (V1 := fun y => 5 * y) (V2 := fun _ : R => 5)
    (D := fun (c k : list nat) x => let z := dpsi [1 / 5] [0]%nat (repeat 0%nat (nth 0 k 0%nat)) c in fst z * psi [0] [1 / 5] [0]%nat (snd z) x) as (A & b & A1 & A2 & A3 & A4 & A5 & A6 & A7 & _); try reflexivity; try apply incl_refl; try assumption; try (rewrite WS).
  - split; intros; try reflexivity. discriminate.
  - split; intros; try reflexivity; try apply incl_refl. intros x [].
  - intros e. unfold g_eqb. destruct (g_dec e e); congruence.
  - intros a b H env. unfold g_eqb in H. destruct (g_dec a b) as [->|]; [reflexivity|discriminate H].
  - lia.
  - lia.
  - exact gauss2.
  - intros x Hx. cbn in Hx |- *. tauto.
  - intros x [].
  - intros y. replace (5 * y) with (5 / 2 * (1 * y + y * 1)) by field. apply derivable_pt_lim_scal. apply derivable_pt_lim_mult; apply derivable_pt_lim_id.
  - intros y. pose proof (derivable_pt_lim_scal (fun y => y) 5 y 1 (derivable_pt_lim_id y)) as H. replace (5 * 1) with 5 in H by ring. exact H.
  - split.
    + intros c n [H|[H|[]]]; injection H as <- <-; cbn; (split; [reflexivity|]); (split; [lia|]); intros x Hx; cbn in Hx |- *; tauto.
    + intros f D D' x H H' Hx _. cbn [f_sym q_factor length] in *.
      assert (S : forall n, length n = 1%nat -> (order n <= 5)%nat -> D n x = D' n x).
      { intros n Ln On. eapply (deriv_unique [0%R]); [| |exact (H n Ln On)|exact (H' n Ln On)|exact Hx].
        - destruct n as [|k [|? ?]]; try discriminate Ln. unfold coordinates. cbn [length seq combine map concat]. rewrite app_nil_r. apply Forall_forall. intros y Hy. apply repeat_spec in Hy. subst. cbn. lia.
        - intros y _. symmetry. exact (eq_trans (f_equal (fun t => t * f y) (FA _)) (Rmult_1_l (f y))). }
      match goal with |- _ = _ / ?w => replace w with 1 by (symmetry; exact (FA _)) end. unfold op_value, nsum. cbn [map]. rewrite !S by (try reflexivity; cbn; lia). match goal with |- @eq _ ?a ?b => change (@eq R a b) end. cbn -[Rdiv]. field.
  - intros op' n values Ho Hn Hv. assert (op' = [(GMul (GNum 5) (GVar 1), [1]%nat); (GOpp (GNum 1), [2]%nat)]) as -> by (destruct Ho as [[_ H]|[_ H]]; exact H).
    match type of Hv with grid_values ?q _ _ _ => apply (values_1d gexpr q 1%nat 0 (1 / 5) [-1; 1] values _ eq_refl eq_refl eq_refl) in Hv end. subst values. destruct n as [|[|[|[|n]]] [|? ?]]; try discriminate Hn; unfold coefficient; cbn -[nothing_dropped sqrt Rdiv].
    + apply dropped_fair; left; field.
    + apply dropped_fair; [left; field|right]. match goal with |- _ <= Rabs ?a <= _ => replace a with (5 * sqrt (1 / 5)) by field end. rewrite Rabs_right by lra. nra.
    + apply dropped_fair; [right|left; field]. match goal with |- _ <= Rabs ?a <= _ => replace a with (-1) by field end. rewrite Rabs_left; lra.
    + apply dropped_fair; left; field.
  - intros c _ [|k [|? ?]] Hn _; try discriminate Hn.
    assert (AL : forall f ks g, deriv_along 1 ks f g -> deriv_along 1 ks (fun x => sqrt (exp (- (nth 0 x 0 * nth 0 x 0 / (2 / 5))) / sqrt (2 * PI / 5) / (exp (- (5 / 2 * (nth 0 x 0 * nth 0 x 0))) / sqrt (2 * PI / 5))) * f x) g).
    { intros f ks. induction ks as [|a ks IH]; intros g; cbn [deriv_along]; [intros H x Hx; rewrite W1, Rmult_1_l; apply H; exact Hx|]. intros (h & H1 & H2). exists h. split; [apply IH; exact H1|exact H2]. }
    unfold coordinates. cbn [length seq combine map concat nth]. rewrite app_nil_r. clear Hn.
    assert (Hv : Forall (fun v => 0 < v) [1 / 5]) by (constructor; [lra|constructor]).
    assert (G : deriv_along 1 (repeat 0%nat k) (psi [0] [1 / 5] [0]%nat [c]) (fun x => let z := dpsi [1 / 5] [0]%nat (repeat 0%nat k) [c] in fst z * psi [0] [1 / 5] [0]%nat (snd z) x)).
    { apply (deriv_psi [0] [1 / 5] [0]%nat eq_refl eq_refl Hv (repeat 0%nat k) [c]); [|reflexivity]. apply Forall_forall. intros x Hx. apply repeat_spec in Hx. subst. cbn. lia. }
    refine (AL _ _ _ G).
  - apply checked_solves.
  - intros x Hx. cbn in Hx |- *. tauto.
  - rewrite WS in *. pose proof (A5 0%nat 0%nat ltac:(lia) ltac:(lia)) as B00. pose proof (A5 0%nat 1%nat ltac:(lia) ltac:(lia)) as B01. pose proof (A5 1%nat 0%nat ltac:(lia) ltac:(lia)) as B10. pose proof (A5 1%nat 1%nat ltac:(lia) ltac:(lia)) as B11.
    pose proof (A6 0%nat ltac:(lia)) as C0. pose proof (A6 1%nat ltac:(lia)) as C1. clear A5 A6.
    cbn [fst combine map Nat.eqb] in B00, B01, B10, B11, C0, C1. rewrite !W1 in C0, C1. unfold schroedinger, rsum in *. cbn [fold_right] in B00, B01, B10, B11, C0, C1. rewrite ?hermite_0, ?hermite_1 in B00, B01, B10, B11, C0, C1. cbn [INR] in B00, B01, B10, B11.
    destruct A4 as [SQ _]. destruct A as [|r0 [|r1 [|? ?]]]; try discriminate A2. destruct b as [|b0 [|b1 [|? ?]]]; try discriminate A3. inversion SQ as [|? ? L0 SQ' X0]; subst. inversion SQ' as [|? ? L1 _ X1]; subst.
    destruct r0 as [|a [|a' [|? ?]]]; try discriminate L0. destruct r1 as [|c [|c' [|? ?]]]; try discriminate L1. cbn [nth] in B00, B01, B10, B11, C0, C1.
    assert (Z : a = 0 /\ a' = 0 /\ c = 0 /\ c' = 5 /\ b0 = 0 /\ b1 = sqrt (1 / 5)).
    { clear - B00 B01 B10 B11 C0 C1. revert B00 B01 B10 B11 C0 C1. generalize (sqrt (1 / 5)). intros s -> -> -> -> -> ->. repeat split; match goal with |- @eq _ ?a ?b => change (@eq R a b) end; rewrite ?hermite_0, ?hermite_1; field. }
    destruct Z as (-> & -> & -> & -> & -> & ->). clear B00 B01 B10 B11 C0 C1.
    assert (MV : matvec (N := num_R) [[0; 0]; [0; 5]] [t; sqrt (1 / 5) / 5] = [0; sqrt (1 / 5)]) by (unfold matvec, dot; cbn -[Rdiv sqrt]; f_equal; [|f_equal]; match goal with |- @eq _ ?a ?b => change (@eq R a b) end; field).
    assert (CH : checked [t; sqrt (1 / 5) / 5] [[0; 0]; [0; 5]] [0; sqrt (1 / 5)] = Ok [t; sqrt (1 / 5) / 5]).
    { unfold checked. destruct (list_eq_dec _ _ _) as [_|N]; [reflexivity|exfalso; exact (N MV)]. }
    refine (eq_trans (A7 _ CH [t; sqrt (1 / 5) / 5] eq_refl MV) _). do 3 f_equal. unfold dot. cbn -[Rdiv sqrt]. match goal with |- @eq _ ?a ?b => change (@eq R a b) end. transitivity (sqrt (1 / 5) * sqrt (1 / 5) / 5); [field|rewrite Q5; field].
Qed.
