(** Properties C79, C80, C81 and C82: integrals and norms with a quadrature, and the constructors of quadratures. *)
From Coq Require Import String List Bool Arith ZArith Reals Lia Lra Permutation.
From Verif Require Import Base IndexModel Spec Num Fnum LinModel LinSpec LinBase MatBase Facts2 Facts6 CalcModel CalcSpec CalcReal CalcHermite PyBase PosModel PosSpec PosFacts SeriesModel SeriesSpec SplitModel SplitSpec
  PartModel PartSpec QuadModel PyQuadModel PyQuadSpec PyQuadFacts PyQuadFacts2 TensQuadModel TensQuadSpec TensQuadFacts TensQuadFacts2 TensQuadFacts3 TensQuadFacts4 QuadIntModel QuadIntSpec QuadIntFacts
  QuadMakeModel QuadMakeSpec GaussFacts QuadMakeFacts QuadMakeFacts2 NewtonFacts NewtonFacts2 NormFacts.
Import ListNotations.
Local Open Scope R_scope.

(** C79: the integral of a function with a quadrature with only "fourier" directions is the sum over its grid of the products of the weights and the values of the function; the flag flat changes nothing. *)
Theorem C79_integrate : forall E (eval : E -> (nat -> R) -> R) e_mul e_1 add_args mul_args free_vars cov_factor la_inv far8 junk tiny (density : position fnum_R -> E),
  sympy_ok (N := fnum_R) eval e_mul e_1 add_args mul_args free_vars -> sympy_vars e_mul e_1 add_args mul_args free_vars -> numpy_ok cov_factor la_inv far8 ->
  forall (q : quad fnum_R E) vars (f : func E) flat, quad_R q vars -> increasing (p_dirs (q_pos q)) -> all_fourier q -> rules_match (q_nodes q) (q_weights q) -> f_dirs f = p_dirs (q_pos q) -> incl (free_vars (f_sym f)) (p_dirs (q_pos q)) ->
  exists values, grid_values q vars values (eval (f_sym f)) /\ quad_integrate_fun fnum_R E e_1 free_vars eval cov_factor junk tiny density q f flat = Ok (weighted_sum q values).
Proof. exact (fun E eval e_mul e_1 add_args mul_args free_vars cov_factor la_inv far8 junk tiny density HS HV HN => integrate_function E eval e_mul e_1 add_args mul_args free_vars HS HV cov_factor la_inv far8 junk tiny HN density). Qed.
Print Assumptions C79_integrate.

(** Hypotheses met: the quadrature with 2 points in each of the directions 0 and 2, on [0, 1] x [1, 3]. *)
Notation make n B D := (quad_fourier fnum_R r_far mono m_vars (One n) (Some B) None m_1 (Some D)).
Lemma arguments : forall n (B : list (R * R)) D, length B = length D -> fourier_arguments (F := fnum_R) (One n) (Some B) (Some D) n B D.
Proof. intros n B D H. split; [left; reflexivity|]. split; [left; reflexivity|]. split; [exact H|]. right. split; [reflexivity|]. left. discriminate. Qed.
Lemma box_increasing : increasing [0; 2]%nat.
Proof. repeat constructor. Qed.
Lemma box_bounds : Forall (fun b : R * R => fst b < snd b) [(0, 1); (1, 3)].
Proof. repeat constructor; cbn; lra. Qed.
Lemma box_quad : exists q vars, make 2 [(0, 1); (1, 3)] [0; 2]%nat = Ok q /\ quad_ok q /\ quad_R q vars /\ all_fourier q /\ rules_match (q_nodes q) (q_weights q) /\ p_dirs (q_pos q) = [0; 2]%nat /\ q_factor q = Fn m_1 [0; 2]%nat.
Proof.
  destruct (fourier_made r_far (fun l => eq_refl) mono m_vars (One 2) (Some [(0, 1); (1, 3)]) (Some [0; 2]%nat) 2 [(0, 1); (1, 3)] [0; 2]%nat m_1) as (q & vars & Q);
    [apply arguments; reflexivity|discriminate|exact box_increasing|exact box_bounds|lia|cbn; lia|intros x []|]. exists q, vars. tauto.
Qed.
Definition f_xy : func mono := Fn (Mono false 1 [0; 2]%nat) [0; 2]%nat.
Example C79_integrate_example : exists q values, make 2 [(0, 1); (1, 3)] [0; 2]%nat = Ok q /\
  quad_integrate_fun fnum_R mono m_1 m_vars m_eval r_cov_factor 0 (1 / 10) (fun _ => m_1) q f_xy true = Ok (weighted_sum q values) /\ length values = length (grid (q_nodes q)).
Proof.
  destruct box_quad as (q & vars & Q1 & Q2 & Q3 & Q4 & Q5 & Q6 & Q7).
  destruct (C79_integrate mono m_eval m_mul m_1 m_add_args m_mul_args m_vars r_cov_factor r_la_inv r_far 0 (1 / 10) (fun _ => m_1) m_ok m_vars_ok numpy_sample q vars f_xy true Q3) as (values & V1 & V2);
    rewrite ?Q6; try assumption; [exact box_increasing|reflexivity|apply incl_refl|]. exists q, values. split; [exact Q1|]. split; [exact V2|apply V1].
Qed.

(** The same with the setting tensorize, whatever the orders in which Python enumerates sets, if the factor of the quadrature is not a sum; with a factor that is a sum it raises ValueError. *)
Theorem C79_tensorize : forall far E (eval : E -> (nat -> R) -> R) e_mul e_1 add_args mul_args free_vars cov_factor la_inv far8 junk tiny (density : position fnum_R -> E) order enum,
  (forall l, far (diag_mat fnum_R l) = false) -> (forall i k l, Permutation (order i k l) l) -> (forall i l, Permutation (enum i l) l) -> sympy_ok (N := fnum_R) eval e_mul e_1 add_args mul_args free_vars -> sympy_vars e_mul e_1 add_args mul_args free_vars -> numpy_ok cov_factor la_inv far8 ->
  forall (q : quad fnum_R E) vars (f : func E) flat, quad_ok q -> quad_R q vars -> all_fourier q -> rules_match (q_nodes q) (q_weights q) ->
  incl (free_vars (f_sym (q_factor q))) (p_dirs (q_pos q)) -> f_dirs f = p_dirs (q_pos q) -> incl (free_vars (f_sym f)) (p_dirs (q_pos q)) -> add_args (f_sym f) <> [] ->
  (one_term add_args (f_sym (q_factor q)) -> integrate_tensorized fnum_R far E e_mul e_1 add_args mul_args free_vars eval order enum cov_factor junk tiny density true q f flat = quad_integrate_fun fnum_R E e_1 free_vars eval cov_factor junk tiny density q f flat) /\ (~ one_term add_args (f_sym (q_factor q)) -> integrate_tensorized fnum_R far E e_mul e_1 add_args mul_args free_vars eval order enum cov_factor junk tiny density true q f flat = Throw "ValueError"%string) /\ integrate_tensorized fnum_R far E e_mul e_1 add_args mul_args free_vars eval order enum cov_factor junk tiny density false q f flat = quad_integrate_fun fnum_R E e_1 free_vars eval cov_factor junk tiny density q f flat.
Proof. exact (fun far E eval e_mul e_1 add_args mul_args free_vars cov_factor la_inv far8 junk tiny density order enum HF HO HE HS HV HN => integrate_same far HF E eval e_mul e_1 add_args mul_args free_vars HS HV cov_factor la_inv far8 junk tiny HN density order HO enum HE). Qed.
Print Assumptions C79_tensorize.

Example C79_tensorize_example : forall (order : nat -> nat -> list fset -> list fset) enum, (forall i k l, Permutation (order i k l) l) -> (forall i l, Permutation (enum i l) l) ->
  exists q, make 2 [(0, 1); (1, 3)] [0; 2]%nat = Ok q /\ let integrate tensorize := integrate_tensorized fnum_R r_far mono m_mul m_1 m_add_args m_mul_args m_vars m_eval order enum r_cov_factor 0 (1 / 10) (fun _ => m_1) tensorize q f_xy false in
    integrate true = integrate false /\ exists x, integrate true = Ok x.
Proof.
  intros order enum Ho He. destruct box_quad as (q & vars & Q1 & Q2 & Q3 & Q4 & Q5 & Q6 & Q7). exists q. split; [exact Q1|]. intros integrate.
  destruct (C79_tensorize r_far mono m_eval m_mul m_1 m_add_args m_mul_args m_vars r_cov_factor r_la_inv r_far 0 (1 / 10) (fun _ => m_1) order enum (fun l => eq_refl) Ho He m_ok m_vars_ok numpy_sample q vars f_xy false Q2 Q3 Q4 Q5) as (T1 & _ & T2);
    rewrite ?Q7, ?Q6; try (intros x []; fail); try reflexivity; [apply incl_refl|discriminate|].
  assert (G : one_term m_add_args (f_sym (q_factor q))) by (rewrite Q7; reflexivity).
  destruct (C79_integrate mono m_eval m_mul m_1 m_add_args m_mul_args m_vars r_cov_factor r_la_inv r_far 0 (1 / 10) (fun _ => m_1) m_ok m_vars_ok numpy_sample q vars f_xy false Q3) as (values & V1 & V2);
    rewrite ?Q6; try assumption; [exact box_increasing|reflexivity|apply incl_refl|].
  split; [exact (eq_trans (T1 G) (eq_sym T2))|]. exists (weighted_sum q values). exact (eq_trans (T1 G) V2).
Qed.

(** Quad.norm of an array of values on the grid: the square root of the sum of the weights times the squares for n = 2 and the sum of the weights times the absolute values for n = 1; it returns None for other n. *)
Theorem C79_norm : forall E (eval : E -> (nat -> R) -> R) e_mul e_1 add_args mul_args free_vars cov_factor la_inv far8 junk tiny (density : position fnum_R -> E),
  sympy_ok (N := fnum_R) eval e_mul e_1 add_args mul_args free_vars -> sympy_vars e_mul e_1 add_args mul_args free_vars -> numpy_ok cov_factor la_inv far8 ->
  forall (q : quad fnum_R E) vars values flat, quad_R q vars -> increasing (p_dirs (q_pos q)) -> all_fourier q -> rules_match (q_nodes q) (q_weights q) -> length values = length (grid (q_nodes q)) ->
  quad_norm fnum_R E e_1 free_vars eval cov_factor junk tiny density q values 2 flat = Ok (Some (sqrt (weighted_sum q (map (fun y => y * y)%R values)))) /\ quad_norm fnum_R E e_1 free_vars eval cov_factor junk tiny density q values 1 flat = Ok (Some (weighted_sum q (map Rabs values))) /\
  forall n, n <> 1%nat -> n <> 2%nat -> quad_norm fnum_R E e_1 free_vars eval cov_factor junk tiny density q values n flat = Ok None.
Proof. exact (fun E eval e_mul e_1 add_args mul_args free_vars cov_factor la_inv far8 junk tiny density HS HV HN => norm_array E eval e_mul e_1 add_args mul_args free_vars HS HV cov_factor la_inv far8 junk tiny HN density). Qed.
Print Assumptions C79_norm.

(** The integral of 1 with the weights (pi, pi) in one direction is 2 pi. *)
Lemma line_quad : exists q vars, make 2 [(0, 1)] [0]%nat = Ok q /\ quad_ok q /\ quad_R q vars /\ all_fourier q /\ rules_match (q_nodes q) (q_weights q) /\ p_dirs (q_pos q) = [0]%nat /\
  (forall p, In p (grid (q_nodes q)) <-> length p = 1%nat /\ Forall (fun k => k < 2)%nat p) /\ (forall p, In p (grid (q_nodes q)) -> rprod (at_pos (q_weights q) p) = PI).
Proof.
  destruct (fourier_made r_far (fun l => eq_refl) mono m_vars (One 2) (Some [(0, 1)]) (Some [0]%nat) 2 [(0, 1)] [0]%nat m_1) as (q & vars & Q1 & Q2 & Q3 & Q4 & Q5 & Q6 & Q7 & Q8 & Q9 & _);
    [apply arguments; reflexivity|discriminate|repeat constructor|repeat constructor; cbn; lra|lia|cbn; lia|intros x []|]. exists q, vars. repeat (split; [first [exact Q1|exact Q2|exact Q3|exact Q4|exact Q5|exact Q6|exact Q8]|]).
  intros p Hp. rewrite (proj2 (Q9 p Hp)). cbn. field.
Qed.
Example C79_norm_example : exists q, make 2 [(0, 1)] [0]%nat = Ok q /\ forall values : list R, length values = length (grid (q_nodes q)) ->
  quad_norm fnum_R mono m_1 m_vars m_eval r_cov_factor 0 (1 / 10) (fun _ => m_1) q values 2 false = Ok (Some (sqrt (PI * rsum (map (fun y => y * y) values)))).
Proof.
  destruct line_quad as (q & vars & Q1 & Q2 & Q3 & Q4 & Q5 & Q6 & Q7 & Q8). exists q. split; [exact Q1|]. intros values Hv.
  destruct (C79_norm mono m_eval m_mul m_1 m_add_args m_mul_args m_vars r_cov_factor r_la_inv r_far 0 (1 / 10) (fun _ => m_1) m_ok m_vars_ok numpy_sample q vars values false Q3) as (N & _); rewrite ?Q6; try assumption; [repeat constructor|].
  rewrite N. apply (f_equal (fun x => Ok (Some (sqrt x)))). unfold weighted_sum. rewrite <- rsum_map_mult. clear N. revert Hv Q8. generalize (grid (q_nodes q)). clear. intros l. revert values.
  induction l as [|p l IH]; intros [|y values] H Q8; try discriminate H; [reflexivity|]. cbn [map combine]. unfold rsum in *. cbn [fold_right]. rewrite (Q8 p (or_introl eq_refl)). f_equal. apply IH; [injection H as H; exact H|]. intros p' Hp'. apply Q8. right. exact Hp'.
Qed.

(** Quad.norm of a series with the position of the quadrature and the factor 1, whose rules are exact up to the degree of the series, is the square root of the sum of the squares of the coefficients. *)
Theorem C79_parseval : forall E (eval : E -> (nat -> R) -> R) e_mul e_1 add_args mul_args free_vars cov_factor la_inv far8 junk tiny (density : position fnum_R -> E),
  sympy_ok (N := fnum_R) eval e_mul e_1 add_args mul_args free_vars -> sympy_vars e_mul e_1 add_args mul_args free_vars -> numpy_ok cov_factor la_inv far8 ->
  forall (q : quad fnum_R E) vars (f : SeriesModel.series fnum_R E) flat, quad_R q vars -> increasing (p_dirs (q_pos q)) -> all_fourier q -> s_pos f = q_pos q ->
  f_dirs (s_factor f) = p_dirs (q_pos q) -> incl (free_vars (f_sym (s_factor f))) (f_dirs (s_factor f)) -> (forall env, eval (f_sym (s_factor f)) env = 1) ->
  series_ok f (length vars) -> flags_ok (s_set f) (s_degree f) (kinds (p_types (q_pos q))) -> exact_rules (s_degree f) (kinds (p_types (q_pos q))) (q_nodes q) (q_weights q) ->
  quad_norm_series fnum_R E e_1 free_vars eval cov_factor la_inv far8 junk tiny density q f 2 flat = Ok (Some (sqrt (rsum (map (fun x => x * x) (s_coeffs f))))).
Proof. exact (fun E eval e_mul e_1 add_args mul_args free_vars cov_factor la_inv far8 junk tiny density HS HV HN => norm_of_series E eval e_mul e_1 add_args mul_args free_vars HS HV cov_factor la_inv far8 junk tiny HN density). Qed.
Print Assumptions C79_parseval.

(** Quad.integrate with a direction of type "hermite" is undefined behaviour: the transform of degree 0 that computes it writes past its buffers. *)
Theorem C79_hermite : forall E (eval : E -> (nat -> R) -> R) e_mul e_1 add_args mul_args free_vars cov_factor la_inv far8 junk tiny (density : position fnum_R -> E),
  sympy_ok (N := fnum_R) eval e_mul e_1 add_args mul_args free_vars -> sympy_vars e_mul e_1 add_args mul_args free_vars -> numpy_ok cov_factor la_inv far8 ->
  forall (q : quad fnum_R E) vars (f : func E) k xs, quad_R q vars -> f_dirs f = p_dirs (q_pos q) -> incl (free_vars (f_sym f)) (p_dirs (q_pos q)) ->
  nth_error (p_types (q_pos q)) k = Some "hermite"%string -> nth_error (q_nodes q) k = Some xs -> xs <> [] -> quad_integrate_fun fnum_R E e_1 free_vars eval cov_factor junk tiny density q f false = Ub.
Proof. exact (fun E eval e_mul e_1 add_args mul_args free_vars cov_factor la_inv far8 junk tiny density HS HV HN => integrate_hermite E eval e_mul e_1 add_args mul_args free_vars HS cov_factor la_inv far8 junk tiny HN density). Qed.
Print Assumptions C79_hermite.

Example C79_hermite_example : quad_integrate_fun fnum_R mono m_1 m_vars m_eval r_cov_factor 0 (1 / 10) (fun _ => m_1)
  (Qd (F := fnum_R) [[-1; 1]] [[1 / 2; 1 / 2]] (Pos (N := fnum_R) [0]%nat [3] [[1]] ["hermite"]%string true) (Fn m_1 [0]%nat)) (Fn m_1 [0]%nat) false = Ub.
Proof.
  eapply (C79_hermite mono m_eval m_mul m_1 m_add_args m_mul_args m_vars r_cov_factor r_la_inv r_far 0 (1 / 10) (fun _ => m_1) m_ok m_vars_ok numpy_sample _ [1] _ 0%nat [-1; 1]); try reflexivity; [|intros x []|discriminate].
  split; [|split; [reflexivity|split; [discriminate|unfold grid_fits; cbn; lia]]].
  split; [reflexivity|]. split; [repeat constructor; lra|]. repeat split; repeat constructor; cbn; intuition discriminate.
Qed.

(** C80: Quad.fourier gives n equispaced points in each direction of a box, the first at its lower end, each with the weight 2 pi / n, and the rule is exact for all pairs of Fourier modes up to every even degree below n. *)
Theorem C80_made : forall far E (free_vars : E -> list nat), (forall l, far (diag_mat fnum_R l) = false) ->
  forall n_points bounds dirs n B D factor, fourier_arguments (F := fnum_R) n_points bounds dirs n B D -> D <> [] -> increasing D -> Forall (fun b => fst b < snd b)%R B -> (0 < n)%nat -> (Z.of_nat (n ^ length D) < 2 ^ 32)%Z -> incl (free_vars factor) D ->
  exists q vars, quad_fourier fnum_R far E free_vars n_points bounds None factor dirs = Ok q /\ quad_ok q /\ quad_R q vars /\ all_fourier q /\ rules_match (q_nodes q) (q_weights q) /\ p_dirs (q_pos q) = D /\ q_factor q = Fn factor D /\
    (forall p, In p (grid (q_nodes q)) <-> length p = length D /\ Forall (fun k => k < n)%nat p) /\
    (forall p, In p (grid (q_nodes q)) -> grid_point q vars p = box_point n B p /\ rprod (at_pos (q_weights q) p) = ((2 * PI / INR n) ^ length D)%R) /\
    (forall degree, Nat.even degree = true -> (degree < n)%nat -> exact_rules degree (kinds (p_types (q_pos q))) (q_nodes q) (q_weights q)).
Proof. exact (fun far E free_vars HF => fourier_made far HF E free_vars). Qed.
Print Assumptions C80_made.

Example C80_made_example : exists q vars, make 3 [(0, 1); (1, 3)] [0; 2]%nat = Ok q /\ grid_point q vars [1; 2]%nat = [1 / 3; 7 / 3] /\ exact_rules 2 (kinds (p_types (q_pos q))) (q_nodes q) (q_weights q).
Proof.
  destruct (C80_made r_far mono m_vars (fun l => eq_refl) (One 3) (Some [(0, 1); (1, 3)]) (Some [0; 2]%nat) 3 [(0, 1); (1, 3)] [0; 2]%nat m_1) as (q & vars & Q1 & Q2 & Q3 & Q4 & Q5 & Q6 & Q7 & Q8 & Q9 & Q10);
    [apply arguments; reflexivity|discriminate|exact box_increasing|exact box_bounds|lia|cbn; lia|intros x []|]. exists q, vars. split; [exact Q1|]. split; [|apply Q10; [reflexivity|lia]].
  assert (H : In [1; 2]%nat (grid (q_nodes q))) by (apply Q8; split; [reflexivity|repeat constructor]). rewrite (proj1 (Q9 _ H)). unfold box_point. cbn [combine map]. apply f_equal2; [cbn; field|apply f_equal2; [cbn; field|reflexivity]].
Qed.

Example C79_parseval_example : exists q, make 3 [(0, 1); (1, 3)] [0; 2]%nat = Ok q /\
  quad_norm_series fnum_R mono m_1 m_vars m_eval r_cov_factor r_la_inv r_far 0 (1 / 10) (fun _ => m_1) q (Ser (N := fnum_R) [2; 0; 0; 1; 0; 2] (q_pos q) Triangle 2 (q_factor q)) 2 true = Ok (Some 3).
Proof.
  destruct (C80_made r_far mono m_vars (fun l => eq_refl) (One 3) (Some [(0, 1); (1, 3)]) (Some [0; 2]%nat) 3 [(0, 1); (1, 3)] [0; 2]%nat m_1) as (q & vars & Q1 & Q2 & Q3 & Q4 & Q5 & Q6 & Q7 & Q8 & Q9 & Q10);
    [apply arguments; reflexivity|discriminate|exact box_increasing|exact box_bounds|lia|cbn; lia|intros x []|]. exists q. split; [exact Q1|]. pose proof Q3 as ((_ & _ & P3 & P4 & P5 & _) & _).
  assert (Lv : length vars = 2%nat) by (rewrite <- P3, Q6; reflexivity).
  rewrite (C79_parseval mono m_eval m_mul m_1 m_add_args m_mul_args m_vars r_cov_factor r_la_inv r_far 0 (1 / 10) (fun _ => m_1) m_ok m_vars_ok numpy_sample q vars _ true Q3); cbn [s_pos s_factor s_degree s_set s_coeffs]; rewrite ?Q7, ?Q6; try assumption; try reflexivity.
  - apply (f_equal (fun x => Ok (Some x))). unfold rsum. cbn [map fold_right]. replace (2 * 2 + (0 * 0 + (0 * 0 + (1 * 1 + (0 * 0 + (2 * 2 + 0)))))) with (3 * 3) by ring. apply sqrt_square. lra.
  - exact box_increasing.
  - intros x [].
  - intros env. unfold m_eval. cbn. lra.
  - rewrite Lv. split; cbn [s_pos s_set s_degree s_coeffs]; [split; [rewrite Q6; reflexivity|split; [exact (eq_trans P4 Lv)|apply usable_dim4; cbn; lia]]|vm_compute; reflexivity].
  - split; [|intros [H|H]; discriminate H]. apply Forall_forall. intros k Hk. unfold kinds in Hk. apply in_map_iff in Hk as (t & <- & Ht). unfold all_fourier in Q4. rewrite Forall_forall in Q4. rewrite (Q4 t Ht). right. split; reflexivity.
  - apply Q10; [reflexivity|lia].
Qed.

(** With it, Quad.integrate of a function g is (2 pi / n)^dim times the sum of the values of g at the points of the box. *)
Theorem C80_integrate : forall far E (eval : E -> (nat -> R) -> R) e_mul e_1 add_args mul_args free_vars cov_factor la_inv far8 junk tiny (density : position fnum_R -> E),
  (forall l, far (diag_mat fnum_R l) = false) -> sympy_ok (N := fnum_R) eval e_mul e_1 add_args mul_args free_vars -> sympy_vars e_mul e_1 add_args mul_args free_vars -> numpy_ok cov_factor la_inv far8 ->
  forall n_points bounds dirs n B D factor (f : func E) g flat, fourier_arguments (F := fnum_R) n_points bounds dirs n B D -> D <> [] -> increasing D -> Forall (fun b => fst b < snd b)%R B -> (0 < n)%nat -> (Z.of_nat (n ^ length D) < 2 ^ 32)%Z -> incl (free_vars factor) D ->
  f_dirs f = D -> incl (free_vars (f_sym f)) D -> (forall x env, at_point D x env -> eval (f_sym f) env = g x) ->
  exists q, quad_fourier fnum_R far E free_vars n_points bounds None factor dirs = Ok q /\
    quad_integrate_fun fnum_R E e_1 free_vars eval cov_factor junk tiny density q f flat = Ok ((2 * PI / INR n) ^ length D * rsum (map (fun p => g (box_point n B p)) (row_major (repeat n (length D)))))%R.
Proof. exact (fun far E eval e_mul e_1 add_args mul_args free_vars cov_factor la_inv far8 junk tiny density HF HS HV HN => fourier_integral far HF E eval e_mul e_1 add_args mul_args free_vars HS HV cov_factor la_inv far8 junk tiny HN density). Qed.
Print Assumptions C80_integrate.

Example C80_integrate_example : exists q, make 2 [(0, 1); (1, 3)] [0; 2]%nat = Ok q /\
  quad_integrate_fun fnum_R mono m_1 m_vars m_eval r_cov_factor 0 (1 / 10) (fun _ => m_1) q f_xy false = Ok (3 / 2 * PI ^ 2).
Proof.
  destruct (C80_integrate r_far mono m_eval m_mul m_1 m_add_args m_mul_args m_vars r_cov_factor r_la_inv r_far 0 (1 / 10) (fun _ => m_1) (fun l => eq_refl) m_ok m_vars_ok numpy_sample
    (One 2) (Some [(0, 1); (1, 3)]) (Some [0; 2]%nat) 2 [(0, 1); (1, 3)] [0; 2]%nat m_1 f_xy (fun x => nth 0 x 0 * nth 1 x 0) false) as (q & Q1 & Q2);
    [apply arguments; reflexivity|discriminate|exact box_increasing|exact box_bounds|lia|cbn; lia|intros x []|reflexivity|apply incl_refl| |].
  - intros x env H. unfold m_eval. cbn. pose proof (H 0%nat 0%nat eq_refl) as H0. pose proof (H 1%nat 2%nat eq_refl) as H1. rewrite (nth_error_nth _ _ _ H0), (nth_error_nth _ _ _ H1). ring.
  - exists q. split; [exact Q1|]. rewrite Q2. apply f_equal. unfold box_point. cbn. field.
Qed.

(** With the factor 1, Quad.norm of a series of even degree below n on the position of this quadrature is the norm of its coefficients. *)
Theorem C80_norm : forall far E (eval : E -> (nat -> R) -> R) e_mul e_1 add_args mul_args free_vars cov_factor la_inv far8 junk tiny (density : position fnum_R -> E),
  (forall l, far (diag_mat fnum_R l) = false) -> sympy_ok (N := fnum_R) eval e_mul e_1 add_args mul_args free_vars -> sympy_vars e_mul e_1 add_args mul_args free_vars -> numpy_ok cov_factor la_inv far8 ->
  forall n_points bounds dirs n B D factor flat, fourier_arguments (F := fnum_R) n_points bounds dirs n B D -> D <> [] -> increasing D -> Forall (fun b => fst b < snd b)%R B -> (0 < n)%nat -> (Z.of_nat (n ^ length D) < 2 ^ 32)%Z -> incl (free_vars factor) D ->
  (forall env, eval factor env = 1) ->
  exists q, quad_fourier fnum_R far E free_vars n_points bounds None factor dirs = Ok q /\
    forall f : SeriesModel.series fnum_R E, s_pos f = q_pos q -> s_factor f = q_factor q -> series_ok f (length D) -> Nat.even (s_degree f) = true -> (s_set f = Cross \/ s_set f = CrossNc -> 1 <= s_degree f)%nat -> (s_degree f < n)%nat ->
    quad_norm_series fnum_R E e_1 free_vars eval cov_factor la_inv far8 junk tiny density q f 2 flat = Ok (Some (sqrt (rsum (map (fun x => x * x) (s_coeffs f))))).
Proof. exact (fun far E eval e_mul e_1 add_args mul_args free_vars cov_factor la_inv far8 junk tiny density HF HS HV HN => fourier_norm far HF E eval e_mul e_1 add_args mul_args free_vars HS HV cov_factor la_inv far8 junk tiny HN density). Qed.
Print Assumptions C80_norm.

Example C80_norm_example : exists q, make 3 [(0, 1); (1, 3)] [0; 2]%nat = Ok q /\
  quad_norm_series fnum_R mono m_1 m_vars m_eval r_cov_factor r_la_inv r_far 0 (1 / 10) (fun _ => m_1) q (Ser (N := fnum_R) [1; 2; 0; 0; 0; 2] (q_pos q) Triangle 2 (q_factor q)) 2 false = Ok (Some 3).
Proof.
  destruct (C80_norm r_far mono m_eval m_mul m_1 m_add_args m_mul_args m_vars r_cov_factor r_la_inv r_far 0 (1 / 10) (fun _ => m_1) (fun l => eq_refl) m_ok m_vars_ok numpy_sample
    (One 3) (Some [(0, 1); (1, 3)]) (Some [0; 2]%nat) 3 [(0, 1); (1, 3)] [0; 2]%nat m_1 false) as (q & Q1 & Q2);
    [apply arguments; reflexivity|discriminate|exact box_increasing|exact box_bounds|lia|cbn; lia|intros x []|intros env; unfold m_eval; cbn; lra|].
  exists q. split; [exact Q1|]. rewrite Q2; cbn [s_pos s_factor s_degree s_set s_coeffs]; try reflexivity.
  - apply (f_equal (fun x => Ok (Some x))). unfold rsum. cbn [map fold_right]. replace (1 * 1 + (2 * 2 + (0 * 0 + (0 * 0 + (0 * 0 + (2 * 2 + 0)))))) with (3 * 3) by ring. apply sqrt_square. lra.
  - destruct (C80_made r_far mono m_vars (fun l => eq_refl) (One 3) (Some [(0, 1); (1, 3)]) (Some [0; 2]%nat) 3 [(0, 1); (1, 3)] [0; 2]%nat m_1) as (q' & vars & Q1' & R2 & R3 & R4 & R5 & R6 & R7 & R8 & R9 & R10);
      [apply arguments; reflexivity|discriminate|exact box_increasing|exact box_bounds|lia|cbn; lia|intros x []|]. rewrite Q1 in Q1'. injection Q1' as <-.
    destruct R3 as ((_ & _ & P3 & P4 & _) & _). split; cbn [s_pos s_set s_degree s_coeffs]; [split; [rewrite R6; reflexivity|split; [|apply usable_dim4; cbn; lia]]|vm_compute; reflexivity].
    transitivity (length vars); [exact P4|]. rewrite <- P3, R6. reflexivity.
  - intros [H|H]; discriminate H.
  - lia.
Qed.

(** Quad.transform of Quad.eval of a series with the position and the factor of this quadrature, of even degree below n, gives the series back. *)
Theorem C80_inverts : forall far E (eval : E -> (nat -> R) -> R) e_1 free_vars cov_factor la_inv far8 junk tiny, (forall l, far (diag_mat fnum_R l) = false) -> reads_free eval free_vars -> numpy_ok cov_factor la_inv far8 ->
  forall n_points bounds dirs n B D factor, fourier_arguments (F := fnum_R) n_points bounds dirs n B D -> D <> [] -> increasing D -> Forall (fun b => fst b < snd b)%R B -> (0 < n)%nat -> (Z.of_nat (n ^ length D) < 2 ^ 32)%Z -> incl (free_vars factor) D -> (forall env, eval factor env <> 0%R) ->
  exists q, quad_fourier fnum_R far E free_vars n_points bounds None factor dirs = Ok q /\
    forall f : SeriesModel.series fnum_R E, s_pos f = q_pos q -> s_factor f = q_factor q -> series_ok f (length D) -> Nat.even (s_degree f) = true -> (s_set f = Cross \/ s_set f = CrossNc -> 1 <= s_degree f)%nat -> (s_degree f < n)%nat ->
    exists values g, quad_eval fnum_R E free_vars eval cov_factor la_inv far8 junk q f = Ok values /\ quad_transform fnum_R E e_1 free_vars eval cov_factor junk tiny q values (s_degree f) (s_set f) = Ok g /\
      s_coeffs g = s_coeffs f /\ s_pos g = s_pos f /\ s_set g = s_set f /\ s_factor g = s_factor f /\ (s_set f <> CrossNc -> g = f).
Proof. exact (fun far E eval e_1 free_vars cov_factor la_inv far8 junk tiny HF HR HN => fourier_inverts far HF E eval e_1 free_vars HR cov_factor la_inv far8 junk tiny HN). Qed.
Print Assumptions C80_inverts.

Example C80_inverts_example : exists q values, make 3 [(0, 1); (1, 3)] [0; 2]%nat = Ok q /\ let f := Ser (N := fnum_R) [1; 2; 0; 0; 0; 2] (q_pos q) Triangle 2 (q_factor q) in
  quad_eval fnum_R mono m_vars m_eval r_cov_factor r_la_inv r_far 0 q f = Ok values /\ quad_transform fnum_R mono m_1 m_vars m_eval r_cov_factor 0 (1 / 10) q values 2 Triangle = Ok f.
Proof.
  destruct (C80_inverts r_far mono m_eval m_1 m_vars r_cov_factor r_la_inv r_far 0 (1 / 10) (fun l => eq_refl) (ok_free _ _ _ _ _ _ _ _ m_ok) numpy_sample
    (One 3) (Some [(0, 1); (1, 3)]) (Some [0; 2]%nat) 3 [(0, 1); (1, 3)] [0; 2]%nat m_1) as (q & Q1 & Q2);
    [apply arguments; reflexivity|discriminate|exact box_increasing|exact box_bounds|lia|cbn; lia|intros x []|intros env; unfold m_eval; cbn; lra|].
  destruct (Q2 (Ser (N := fnum_R) [1; 2; 0; 0; 0; 2] (q_pos q) Triangle 2 (q_factor q))) as (values & g & V1 & V2 & _ & _ & _ & _ & V3); cbn [s_pos s_factor s_degree s_set s_coeffs]; try reflexivity.
  - destruct (C80_made r_far mono m_vars (fun l => eq_refl) (One 3) (Some [(0, 1); (1, 3)]) (Some [0; 2]%nat) 3 [(0, 1); (1, 3)] [0; 2]%nat m_1) as (q' & vars & Q1' & R2 & R3 & R4 & R5 & R6 & R7 & R8 & R9 & R10);
      [apply arguments; reflexivity|discriminate|exact box_increasing|exact box_bounds|lia|cbn; lia|intros x []|]. rewrite Q1 in Q1'. injection Q1' as <-.
    destruct R3 as ((_ & _ & P3 & P4 & _) & _). split; cbn [s_pos s_set s_degree s_coeffs]; [split; [rewrite R6; reflexivity|split; [|apply usable_dim4; cbn; lia]]|vm_compute; reflexivity].
    transitivity (length vars); [exact P4|]. rewrite <- P3, R6. reflexivity.
  - intros [H|H]; discriminate H.
  - lia.
  - exists q, values. split; [exact Q1|]. cbn zeta. rewrite V3 in V2 by discriminate. split; [exact V1|exact V2].
Qed.

(** With a position and a single number of points, but no directions, Quad.fourier makes one list of nodes, whatever the dimension of the position. *)
Theorem C80_position_refuted : ~ forall n (p : position fnum_R) q, (0 < n)%nat -> increasing (p_dirs p) -> p_dirs p <> [] -> quad_fourier fnum_R r_far mono m_vars (One n) None (Some p) m_1 None = Ok q ->
  q_pos q = p /\ length (q_nodes q) = length (p_dirs p).
Proof.
  intros H. set (p := Pos (N := fnum_R) [0; 1]%nat [0; 0] [[1; 0]; [0; 1]] ["fourier"; "fourier"]%string true).
  destruct (fourier_position r_far mono m_vars 4 p m_1) as (q & Q1 & Q2 & Q3); [lia|repeat constructor|intros x []|].
  destruct (H 4%nat p q) as [_ L]; [lia|repeat constructor|discriminate|exact Q1|]. rewrite Q3 in L. discriminate L.
Qed.
Print Assumptions C80_position_refuted.

(** Different numbers of points raise ValueError. *)
Theorem C80_ragged : forall far E (free_vars : E -> list nat), (forall l, far (diag_mat fnum_R l) = false) ->
  forall ns factor a b, Forall (fun n => 0 < n)%nat ns -> In a ns -> In b ns -> a <> b -> quad_fourier fnum_R far E free_vars (Each ns) None None factor None = Throw "ValueError"%string.
Proof. exact (fun far E free_vars HF => fourier_ragged far HF E free_vars). Qed.
Print Assumptions C80_ragged.

Example C80_ragged_example : quad_fourier fnum_R r_far mono m_vars (Each [4; 6]%nat) None None m_1 None = Throw "ValueError".
Proof. apply (C80_ragged r_far mono m_vars (fun l => eq_refl) [4; 6]%nat m_1 4 6); [repeat constructor; lia|left; reflexivity|right; left; reflexivity|discriminate]. Qed.

(** So does a number of bounds different from the number of directions. *)
Theorem C80_lengths : forall far E (free_vars : E -> list nat), forall n_points B D factor, length B <> length D -> quad_fourier fnum_R far E free_vars n_points (Some B) None factor (Some D) = Throw "ValueError"%string.
Proof. exact (fun far E free_vars => fourier_lengths far E free_vars). Qed.
Print Assumptions C80_lengths.

Example C80_lengths_example : make 4 [(0, 1)] [0; 1]%nat = Throw "ValueError".
Proof. apply C80_lengths. discriminate. Qed.

(** A number of counts different from the number of directions raises AssertionError. *)
Theorem C80_counts : forall far E (free_vars : E -> list nat), forall ns p factor D, length ns <> length D -> quad_fourier fnum_R far E free_vars (Each ns) None (Some p) factor (Some D) = Throw "AssertionError"%string.
Proof. exact (fun far E free_vars => fourier_counts far E free_vars). Qed.
Print Assumptions C80_counts.

Example C80_counts_example : quad_fourier fnum_R r_far mono m_vars (Each [4; 4]%nat) None (Some (Pos (N := fnum_R) [0]%nat [0] [[1]] ["fourier"]%string true)) m_1 (Some [0]%nat) = Throw "AssertionError".
Proof. apply C80_counts. discriminate. Qed.

(** C81: Quad.gauss_hermite(n) gives, in every direction, a rule that is exact for all pairs of Hermite polynomials of degree below n, with the given mean and variances, if numpy gives the nodes and weights of the Gauss rule. *)
Theorem C81_made : forall far E (free_vars : E -> list nat) hermegauss, (forall l, far (diag_mat fnum_R l) = false) ->
  forall n_points dim dirs mean cov n D (ms vs : list R) factor, gauss_arguments n_points dim dirs n D -> gauss_position (F := fnum_R) mean cov ms vs (length D) -> D <> [] -> increasing D ->
  Forall (fun v => 0 < v)%R vs -> (0 < n)%nat -> gauss_rule n (hermegauss n) -> (Z.of_nat (n ^ length D) < 2 ^ 32)%Z -> incl (free_vars factor) D ->
  exists q, gauss_hermite fnum_R far E free_vars hermegauss n_points dim dirs None factor mean cov None = Ok q /\ quad_ok q /\ quad_R q vs /\ Forall (fun t => t = "hermite"%string) (p_types (q_pos q)) /\ rules_match (q_nodes q) (q_weights q) /\ p_dirs (q_pos q) = D /\ p_mean (q_pos q) = ms /\ q_factor q = Fn factor D /\
    (forall degree, (degree < n)%nat -> exact_rules degree (kinds (p_types (q_pos q))) (q_nodes q) (q_weights q)).
Proof. exact (fun far E free_vars hermegauss HF => gauss_made far HF E free_vars hermegauss). Qed.
Print Assumptions C81_made.

(** Hypotheses met: the two-point rule, with nodes -1 and 1, in the directions 0 and 2 with means 1 and 3 and variances 4 and 9. *)
Definition two_points (n : nat) : list R * list R := ([-1; 1], [sqrt (2 * PI) / 2; sqrt (2 * PI) / 2]).
Lemma two_points_rule : gauss_rule 2 (two_points 2).
Proof.
  split; [reflexivity|]. split; [reflexivity|]. intros k Hk. unfold rsum. cbn [two_points fst snd combine map fold_right].
  destruct k as [|[|[|[|k]]]]; [| | | |lia]; cbn; field.
Qed.
Lemma herm_arguments : gauss_arguments (One 2) None (Some [0; 2]%nat) 2 [0; 2]%nat.
Proof. split; [left; reflexivity|left; reflexivity]. Qed.
Lemma herm_position : gauss_position (F := fnum_R) (Some [1; 3]) (Some [[4; 0]; [0; 9]]) [1; 3] [4; 9] 2.
Proof. split; left; split; reflexivity. Qed.
Notation make_herm := (gauss_hermite fnum_R r_far mono m_vars two_points (One 2) None (Some [0; 2]%nat) None m_1 (Some [1; 3]) (Some [[4; 0]; [0; 9]]) None).
Example C81_made_example : exists q, make_herm = Ok q /\ quad_R q [4; 9] /\ p_mean (q_pos q) = [1; 3] /\ exact_rules 1 (kinds (p_types (q_pos q))) (q_nodes q) (q_weights q).
Proof.
  destruct (C81_made r_far mono m_vars two_points (fun l => eq_refl) (One 2) None (Some [0; 2]%nat) (Some [1; 3]) (Some [[4; 0]; [0; 9]]) 2 [0; 2]%nat [1; 3] [4; 9] m_1) as (q & Q1 & Q2 & Q3 & Q4 & Q5 & Q6 & Q7 & Q8 & Q9);
    [exact herm_arguments|exact herm_position|discriminate|exact box_increasing|repeat constructor; lra|lia|exact two_points_rule|cbn; lia|intros x []|]. exists q. split; [exact Q1|]. split; [exact Q3|]. split; [exact Q7|]. apply Q9. lia.
Qed.

(** With it, Quad.transform of Quad.eval of a series with the position and the factor of the quadrature, of degree between 1 and n - 1, gives the series back. *)
Theorem C81_inverts : forall far E (eval : E -> (nat -> R) -> R) e_1 free_vars cov_factor la_inv far8 junk tiny hermegauss, (forall l, far (diag_mat fnum_R l) = false) -> reads_free eval free_vars -> numpy_ok cov_factor la_inv far8 ->
  forall n_points dim dirs mean cov n D (ms vs : list R) factor, gauss_arguments n_points dim dirs n D -> gauss_position (F := fnum_R) mean cov ms vs (length D) -> D <> [] -> increasing D ->
  Forall (fun v => 0 < v)%R vs -> (0 < n)%nat -> gauss_rule n (hermegauss n) -> (Z.of_nat (n ^ length D) < 2 ^ 32)%Z -> incl (free_vars factor) D -> (forall env, eval factor env <> 0%R) ->
  exists q, gauss_hermite fnum_R far E free_vars hermegauss n_points dim dirs None factor mean cov None = Ok q /\
    forall f : SeriesModel.series fnum_R E, s_pos f = q_pos q -> s_factor f = q_factor q -> series_ok f (length D) -> (1 <= s_degree f)%nat -> (s_degree f < n)%nat ->
    exists values g, quad_eval fnum_R E free_vars eval cov_factor la_inv far8 junk q f = Ok values /\ quad_transform fnum_R E e_1 free_vars eval cov_factor junk tiny q values (s_degree f) (s_set f) = Ok g /\
      s_coeffs g = s_coeffs f /\ s_pos g = s_pos f /\ s_set g = s_set f /\ s_factor g = s_factor f /\ (s_set f <> CrossNc -> g = f).
Proof. exact (fun far E eval e_1 free_vars cov_factor la_inv far8 junk tiny hermegauss HF HR HN => gauss_inverts far HF E eval e_1 free_vars HR cov_factor la_inv far8 junk tiny HN hermegauss). Qed.
Print Assumptions C81_inverts.

Example C81_inverts_example : exists q values, make_herm = Ok q /\ let f := Ser (N := fnum_R) [1; 5; 7] (q_pos q) Triangle 1 (q_factor q) in
  quad_eval fnum_R mono m_vars m_eval r_cov_factor r_la_inv r_far 0 q f = Ok values /\ quad_transform fnum_R mono m_1 m_vars m_eval r_cov_factor 0 (1 / 10) q values 1 Triangle = Ok f.
Proof.
  destruct (C81_inverts r_far mono m_eval m_1 m_vars r_cov_factor r_la_inv r_far 0 (1 / 10) two_points (fun l => eq_refl) (ok_free _ _ _ _ _ _ _ _ m_ok) numpy_sample
    (One 2) None (Some [0; 2]%nat) (Some [1; 3]) (Some [[4; 0]; [0; 9]]) 2 [0; 2]%nat [1; 3] [4; 9] m_1) as (q & Q1 & Q2);
    [exact herm_arguments|exact herm_position|discriminate|exact box_increasing|repeat constructor; lra|lia|exact two_points_rule|cbn; lia|intros x []|intros env; unfold m_eval; cbn; lra|].
  destruct (Q2 (Ser (N := fnum_R) [1; 5; 7] (q_pos q) Triangle 1 (q_factor q))) as (values & g & V1 & V2 & _ & _ & _ & _ & V3); cbn [s_pos s_factor s_degree s_set s_coeffs]; try reflexivity.
  - destruct (C81_made r_far mono m_vars two_points (fun l => eq_refl) (One 2) None (Some [0; 2]%nat) (Some [1; 3]) (Some [[4; 0]; [0; 9]]) 2 [0; 2]%nat [1; 3] [4; 9] m_1) as (q' & Q1' & R2 & R3 & R4 & R5 & R6 & R7 & R8 & R9);
      [exact herm_arguments|exact herm_position|discriminate|exact box_increasing|repeat constructor; lra|lia|exact two_points_rule|cbn; lia|intros x []|]. rewrite Q1 in Q1'. injection Q1' as <-.
    split; cbn [s_pos s_set s_degree s_coeffs]; [split; [rewrite R6; reflexivity|split; [rewrite R7; reflexivity|apply usable_dim4; cbn; lia]]|vm_compute; reflexivity].
  - lia.
  - exists q, values. split; [exact Q1|]. cbn zeta. rewrite V3 in V2 by discriminate. split; [exact V1|exact V2].
Qed.

(** Different numbers of points raise ValueError. *)
Theorem C81_ragged : forall far E (free_vars : E -> list nat) hermegauss, forall ns factor mean cov dirs types a b, Forall (fun n => (0 < n)%nat /\ length (fst (hermegauss n)) = n) ns -> In a ns -> In b ns -> a <> b -> match dirs with Some d => length d = length ns | None => True end ->
  gauss_hermite fnum_R far E free_vars hermegauss (Each ns) None dirs None factor mean cov types = Throw "ValueError"%string.
Proof. exact (fun far E free_vars hermegauss => gauss_ragged far E free_vars hermegauss). Qed.
Print Assumptions C81_ragged.

Example C81_ragged_example : gauss_hermite fnum_R r_far mono m_vars (fun n => (repeat 0 n, repeat 0 n)) (Each [4; 6]%nat) None None None m_1 None None None = Throw "ValueError".
Proof. apply (C81_ragged r_far mono m_vars _ [4; 6]%nat m_1 None None None None 4 6); [repeat constructor; cbn; lia|left; reflexivity|right; left; reflexivity|discriminate|exact I]. Qed.

(** So does 0 points. *)
Theorem C81_zero : forall far E (free_vars : E -> list nat) hermegauss, forall dim dirs factor mean cov types, match dirs with Some d => length d <> 0%nat | None => match dim with Some n => n <> 0%nat | None => True end end -> gauss_hermite fnum_R far E free_vars hermegauss (One 0%nat) dim dirs None factor mean cov types = Throw "ValueError"%string.
Proof. exact (fun far E free_vars hermegauss => gauss_zero far E free_vars hermegauss). Qed.
Print Assumptions C81_zero.

Example C81_zero_example : gauss_hermite fnum_R r_far mono m_vars two_points (One 0) (Some 2%nat) None None m_1 None None None = Throw "ValueError".
Proof. apply C81_zero. discriminate. Qed.

(** C82: Quad.newton_cotes gives, in each direction, equispaced nodes from -e to e, and the sum of the weights times the values of g at the nodes is the trapezoidal rule on [-e, e] for g times the standard Gaussian density. *)
Theorem C82_newton : forall far E (free_vars : E -> list nat), (forall l, far (diag_mat fnum_R l) = false) ->
  forall n extrema D dirs mean cov (ms vs : list R) factor, (2 <= n)%nat -> length extrema = length D -> increasing D -> dirs = Some D \/ dirs = None /\ D = seq 0 (length D) -> gauss_position (F := fnum_R) mean cov ms vs (length D) -> incl (free_vars factor) D ->
  exists q, newton_cotes fnum_R far E free_vars exp (repeat n (length D)) extrema None factor mean cov dirs None = Ok q /\
    p_dirs (q_pos q) = D /\ p_mean (q_pos q) = ms /\ p_cov (q_pos q) = diag_mat fnum_R vs /\ Forall (fun t => t = "hermite"%string) (p_types (q_pos q)) /\ q_factor q = Fn factor D /\ length (q_nodes q) = length D /\
    forall i e, nth_error extrema i = Some e -> exists xs ws, nth_error (q_nodes q) i = Some xs /\ nth_error (q_weights q) i = Some ws /\ length xs = n /\ length ws = n /\
      (forall k, (k < n)%nat -> nth k xs 0 = - e + 2 * e / INR (n - 1) * INR k) /\
      forall g, rsum (map (fun '(x, w) => w * g x) (combine xs ws)) = trapezoidal (n - 1) (- e) e (fun x => g x * gaussian_density x).
Proof. exact (fun far E free_vars HF => newton_made far HF E free_vars). Qed.
Print Assumptions C82_newton.

Example C82_newton_example : exists q xs ws, newton_cotes fnum_R r_far mono m_vars exp [3; 3]%nat [2; 5] None m_1 (Some [1; 3]) (Some [[4; 0]; [0; 9]]) (Some [0; 2]%nat) None = Ok q /\
  nth_error (q_nodes q) 1 = Some xs /\ nth_error (q_weights q) 1 = Some ws /\ nth 2 xs 0 = 5 /\ forall g, rsum (map (fun '(x, w) => w * g x) (combine xs ws)) = trapezoidal 2 (-5) 5 (fun x => g x * gaussian_density x).
Proof.
  destruct (C82_newton r_far mono m_vars (fun l => eq_refl) 3 [2; 5] [0; 2]%nat (Some [0; 2]%nat) (Some [1; 3]) (Some [[4; 0]; [0; 9]]) [1; 3] [4; 9] m_1) as (q & Q1 & _ & _ & _ & _ & _ & _ & Q2);
    [lia|reflexivity|exact box_increasing|left; reflexivity|exact herm_position|intros x []|]. destruct (Q2 1%nat 5 eq_refl) as (xs & ws & X1 & X2 & _ & _ & X3 & X4).
  exists q, xs, ws. split; [exact Q1|]. split; [exact X1|]. split; [exact X2|]. split; [|exact X4]. rewrite X3 by lia. cbn. field.
Qed.

(** With one point it raises ZeroDivisionError and with none IndexError. *)
Theorem C82_small : forall e, newton_rule fnum_R exp e 1 = Throw "ZeroDivisionError" /\ newton_rule fnum_R exp e 0 = Throw "IndexError".
Proof. exact newton_one. Qed.
Print Assumptions C82_small.
