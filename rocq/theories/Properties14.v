(** Property C59: Series.to_function. *)
From Coq Require Import String List Bool Arith ZArith Reals Lia Lra.
From Verif Require Import Base IndexModel Num Fnum LinSpec LinBase CalcSpec CalcHermite PyBase PosModel SeriesModel SplitModel PyQuadModel PyQuadSpec PyQuadFacts2 ToFunModel ToFunSpec ToFunFacts.
Import ListNotations.
Local Open Scope string_scope. Local Open Scope list_scope. Local Open Scope nat_scope. Local Open Scope R_scope.

(** C59 is false: with a variance other than 1 the function is not the one that Quad.eval evaluates, even with Hermite directions only and factor 1. *)
Theorem C59_refuted : ~ forall (q : quad fnum_R rexpr) vars (f : SeriesModel.series fnum_R rexpr) values g, quad_R q vars -> s_pos f = q_pos q -> s_factor f = Fn (RNum 1) (p_dirs (q_pos q)) ->
  p_is_diag (s_pos f) = true -> increasing (p_dirs (s_pos f)) -> Forall (fun d => d < 5)%nat (p_dirs (s_pos f)) ->
  usable (s_set f) (length vars) (s_degree f) -> (1 <= s_degree f)%nat -> vec_for (N := fnum_R) (s_set f) (length vars) (s_degree f) (s_coeffs f) -> Forall (fun t => t = "hermite") (p_types (q_pos q)) ->
  quad_eval fnum_R rexpr r_free r_eval r_cov_factor r_la_inv r_far 0 q f = Ok values -> to_function fnum_R rexpr RMul RAdd RNum RVar r_free f = Ok g -> grid_values q vars values (r_eval (f_sym g)).
Proof. exact to_function_wrong. Qed.
Print Assumptions C59_refuted.
(** It is the Hermite series in the variables sqrt(variance) (x - mean), where they should be (x - mean) / sqrt(variance); types and factor are ignored. *)
Theorem C59_values : forall E (eval : E -> (nat -> R) -> R) e_mul e_add e_num e_var free_vars, sympy_arith eval e_mul e_add e_num e_var free_vars ->
  forall (f : SeriesModel.series fnum_R E) vs, gaussian (s_pos f) vs -> p_is_diag (s_pos f) = true -> increasing (p_dirs (s_pos f)) -> Forall (fun d => d < 5)%nat (p_dirs (s_pos f)) ->
  usable (s_set f) (length vs) (s_degree f) -> ((s_set f = Cross \/ s_set f = CrossNc) -> (1 <= s_degree f)%nat) -> vec_for (N := fnum_R) (s_set f) (length vs) (s_degree f) (s_coeffs f) ->
  exists g, to_function fnum_R E e_mul e_add e_num e_var free_vars f = Ok g /\ f_dirs g = p_dirs (s_pos f) /\
    forall x env, length x = length vs -> at_point (p_dirs (s_pos f)) x env ->
      eval (f_sym g) env = CalcSpec.series (s_set f) (s_degree f) (repeat 0%nat (length vs)) (s_coeffs f) (multiplied (p_mean (s_pos f)) vs x).
Proof. exact to_function_values. Qed.
Print Assumptions C59_values.
(** With unit variances, Hermite directions and factor 1 it is the function that Quad.eval evaluates. *)
Theorem C59_unit_variances : forall E (free_vars : E -> list nat) (eval : E -> (nat -> R) -> R) cov_factor la_inv far8 junk e_mul e_add e_num e_var, numpy_ok cov_factor la_inv far8 -> reads_free eval free_vars ->
  sympy_arith eval e_mul e_add e_num e_var free_vars ->
  forall (q : quad fnum_R E) vars (f : SeriesModel.series fnum_R E) vs, quad_R q vars -> gaussian (s_pos f) vs -> p_dirs (s_pos f) = p_dirs (q_pos q) ->
  f_dirs (s_factor f) = p_dirs (q_pos q) -> incl (free_vars (f_sym (s_factor f))) (f_dirs (s_factor f)) ->
  p_is_diag (s_pos f) = true -> increasing (p_dirs (s_pos f)) -> Forall (fun d => d < 5)%nat (p_dirs (s_pos f)) ->
  usable (s_set f) (length vs) (s_degree f) -> (1 <= s_degree f)%nat -> vec_for (N := fnum_R) (s_set f) (length vs) (s_degree f) (s_coeffs f) ->
  Forall (fun t => t <> "fourier") (p_types (q_pos q)) -> Forall (fun v => v = 1) vs -> (forall env, eval (f_sym (s_factor f)) env = 1) ->
  exists values g, quad_eval fnum_R E free_vars eval cov_factor la_inv far8 junk q f = Ok values /\ to_function fnum_R E e_mul e_add e_num e_var free_vars f = Ok g /\ grid_values q vars values (eval (f_sym g)).
Proof. exact to_function_eval. Qed.
Print Assumptions C59_unit_variances.
(** 2 + 5 (x_3 - 1) + 7 (x_0 - 4), evaluated on a quadrature with other means and variances. *)
Notation pos03 mean vars := (Pos (N := fnum_R) [0; 3]%nat mean (diag_mat fnum_R vars) ["hermite"; "hermite"]%string true).
Notation ser03 := (Ser (N := fnum_R) [2; 5; 7] (pos03 [4; 1] [1; 1]) Triangle 1 (Fn (RNum 1) [0; 3]%nat)).
Notation quad03 := (Qd (F := fnum_R) (E := rexpr) [[-1; 1]; [-1; 1]] [[1/2; 1/2]; [1/2; 1/2]] (pos03 [1; 3] [4; 9]) (Fn (RNum 1) [0; 3]%nat)).
Lemma pos03_ok : forall m1 m2 v1 v2, 0 < v1 -> 0 < v2 -> gaussian (pos03 [m1; m2] [v1; v2]) [v1; v2].
Proof. intros m1 m2 v1 v2 H1 H2. split; [reflexivity|]. split; [repeat constructor; lra|]. repeat split; repeat constructor; cbn; intuition discriminate. Qed.
Example C59_unit_variances_example : exists values g, quad_eval fnum_R rexpr r_free r_eval r_cov_factor r_la_inv r_far 0 quad03 ser03 = Ok values /\
  to_function fnum_R rexpr RMul RAdd RNum RVar r_free ser03 = Ok g /\ grid_values quad03 [4; 9] values (r_eval (f_sym g)).
Proof.
  apply (C59_unit_variances rexpr r_free r_eval r_cov_factor r_la_inv r_far 0 RMul RAdd RNum RVar numpy_sample r_reads r_arith quad03 [4; 9] ser03 [1; 1]).
  - split; [apply pos03_ok; lra|]. split; [reflexivity|]. split; [discriminate|]. unfold grid_fits; cbn; lia.
  - apply pos03_ok; lra.
  - reflexivity.
  - reflexivity.
  - intros x [].
  - reflexivity.
  - repeat constructor.
  - repeat constructor.
  - apply usable_dim4; cbn; lia.
  - cbn; lia.
  - vm_compute. reflexivity.
  - repeat constructor; discriminate.
  - repeat constructor.
  - reflexivity.
Qed.
Example C59_values_example : exists g, to_function fnum_R rexpr RMul RAdd RNum RVar r_free ser03 = Ok g /\ forall env, r_eval (f_sym g) env = 2 + 5 * (env 3%nat - 1) + 7 * (env 0%nat - 4).
Proof.
  destruct (C59_values rexpr r_eval RMul RAdd RNum RVar r_free r_arith ser03 [1; 1]) as (g & G1 & G2 & G3).
  - apply pos03_ok; lra.
  - reflexivity.
  - repeat constructor.
  - repeat constructor.
  - apply usable_dim4; cbn; lia.
  - intros [H|H]; discriminate H.
  - vm_compute. reflexivity.
  - exists g. split; [exact G1|]. intros env. rewrite (G3 [env 0%nat; env 3%nat] env eq_refl).
    + cbn [s_set s_degree s_coeffs s_pos p_mean length repeat]. unfold CalcSpec.series, coef. cbn [length]. change (points Triangle 2 1) with [[0; 0]; [0; 1]; [1; 0]]%nat. unfold rsum, phi, rprod, basis, multiplied. cbn -[sqrt hermite Rplus Rmult Rdiv Rminus].
      rewrite !hermite_0, !hermite_1, sqrt_1. ring.
    + intros [|[|i]] d Hd; cbn in Hd; try (destruct i; discriminate Hd); injection Hd as <-; reflexivity.
Qed.
