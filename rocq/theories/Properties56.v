(** Property C120: the coefficients of a series are determined by its values.  Model: CalcModel.  Specification: CalcSpec ([series s degree flags c x] is the sum over the index set of the coefficients times the products of
    Hermite polynomials and Fourier functions). *)
From Coq Require Import String List Bool Arith ZArith Reals Lia Lra.
From Verif Require Import Base IndexModel Spec Num Fnum LinModel LinSpec CalcModel CalcSpec PyBase PosModel PosSpec SeriesModel SeriesSpec PyQuadModel PyQuadSpec PyQuadFacts2 IndepFacts IndepFacts2.
Import ListNotations.
Local Open Scope R_scope.

(** C120: two vectors of coefficients over the same index set for which the backward transform returns the same value on every grid of one point are the same, in every dimension and for every choice of Hermite and Fourier
    directions. *)
Theorem C120_values : forall s degree flags (c c' : list R), fits s (length flags) degree -> flags_ok s degree flags -> @vec_for num_R s (length flags) degree c -> @vec_for num_R s (length flags) degree c' ->
  (forall x weights, length x = length flags -> transform fnum_R s degree c (map (fun t => [t]) x) weights flags false = transform fnum_R s degree c' (map (fun t => [t]) x) weights flags false) -> c = c'.
Proof. exact backward_injective. Qed.
Print Assumptions C120_values.
(** Two vectors that differ in one coefficient have different values somewhere. *)
Example C120_values_example : fits Triangle 2 2 /\ flags_ok Triangle 2 [0; 1]%nat /\ @vec_for num_R Triangle 2 2 [1; 2; 3; 4; 5; 6] /\
  ~ (forall x weights, length x = 2%nat -> transform fnum_R Triangle 2 [1; 2; 3; 4; 5; 6] (map (fun t => [t]) x) weights [0; 1]%nat false = transform fnum_R Triangle 2 [1; 2; 3; 4; 5; 7] (map (fun t => [t]) x) weights [0; 1]%nat false).
Proof.
  assert (F : fits Triangle 2 2) by (split; [lia|split; [exact I|vm_compute; reflexivity]]).
  assert (G : flags_ok Triangle 2 [0; 1]%nat) by (split; [constructor; [left; lia|constructor; [right; split; reflexivity|constructor]]|intros; lia]).
  split; [exact F|]. split; [exact G|]. split; [vm_compute; reflexivity|]. intros H.
  assert (E : [1; 2; 3; 4; 5; 6] = [1; 2; 3; 4; 5; 7]) by (apply (C120_values Triangle 2 [0; 1]%nat); [exact F|exact G|vm_compute; reflexivity|vm_compute; reflexivity|exact H]).
  injection E as E. lra.
Qed.

(** C120: the same for the functions, of which the flags may be any list. *)
Theorem C120_function : forall s degree flags (c c' : list R), fits s (length flags) degree -> @vec_for num_R s (length flags) degree c -> @vec_for num_R s (length flags) degree c' ->
  (forall x, length x = length flags -> CalcSpec.series s degree flags c x = CalcSpec.series s degree flags c' x) -> c = c'.
Proof. exact series_unique. Qed.
Print Assumptions C120_function.
(** The sum of the 27 functions of a cube is not the function 0. *)
Example C120_function_example : fits Cube 3 2 /\ @vec_for num_R Cube 3 2 (repeat 1 27) /\ ~ (forall x, length x = 3%nat -> CalcSpec.series Cube 2 [1; 0; 1]%nat (repeat 1 27) x = CalcSpec.series Cube 2 [1; 0; 1]%nat (repeat 0 27) x).
Proof.
  assert (F : fits Cube 3 2) by (split; [lia|split; [exact I|vm_compute; reflexivity]]).
  split; [exact F|]. split; [vm_compute; reflexivity|]. intros H.
  assert (E : repeat 1 27 = repeat 0 27) by (apply (C120_function Cube 2 [1; 0; 1]%nat); [exact F|vm_compute; reflexivity|vm_compute; reflexivity|exact H]).
  cbn [repeat] in E. injection E as E. lra.
Qed.

(** C120: two Series with the same position, index set, degree and factor, which vanishes nowhere, for which Quad.eval returns the same value on every quadrature of one point on their position are the same. *)
Theorem C120_eval : forall E (free_vars : E -> list nat) (eval : E -> (nat -> R) -> R) cov_factor la_inv far8 junk, numpy_ok cov_factor la_inv far8 -> reads_free eval free_vars ->
  forall (f g : SeriesModel.series fnum_R E) vs, gaussian (s_pos f) vs -> s_pos g = s_pos f -> s_set g = s_set f -> s_degree g = s_degree f -> s_factor g = s_factor f ->
  f_dirs (s_factor f) = p_dirs (s_pos f) -> incl (free_vars (f_sym (s_factor f))) (f_dirs (s_factor f)) -> (forall env, eval (f_sym (s_factor f)) env <> 0) ->
  fits (s_set f) (length vs) (s_degree f) -> flags_ok (s_set f) (s_degree f) (kinds (p_types (s_pos f))) ->
  vec_for (N := fnum_R) (s_set f) (length vs) (s_degree f) (s_coeffs f) -> vec_for (N := fnum_R) (s_set f) (length vs) (s_degree f) (s_coeffs g) ->
  (forall q : quad fnum_R E, quad_R q vs -> q_pos q = s_pos f -> length (grid (q_nodes q)) = 1%nat -> quad_eval fnum_R E free_vars eval cov_factor la_inv far8 junk q f = quad_eval fnum_R E free_vars eval cov_factor la_inv far8 junk q g) -> f = g.
Proof. exact eval_injective. Qed.
Print Assumptions C120_eval.
(** The series 2 + 5 y_2 + 7 y_0 and 2 + 5 y_2 + 8 y_0 with variances 9 and 4. *)
Notation ser2 c := (Ser (N := fnum_R) [2; 5; c] (Pos (N := fnum_R) [0; 2]%nat [0; 0] (diag_mat fnum_R [9; 4]) ["hermite"; "hermite"]%string true) Triangle 1 (Fn (RNum 1) [0; 2]%nat)).
Example C120_eval_example : ~ (forall q : quad fnum_R rexpr, quad_R q [9; 4] -> q_pos q = s_pos (ser2 7) -> length (grid (q_nodes q)) = 1%nat ->
  quad_eval fnum_R rexpr r_free r_eval r_cov_factor r_la_inv r_far 0 q (ser2 7) = quad_eval fnum_R rexpr r_free r_eval r_cov_factor r_la_inv r_far 0 q (ser2 8)).
Proof.
  intros H. assert (E : ser2 7 = ser2 8).
  { apply (C120_eval rexpr r_free r_eval r_cov_factor r_la_inv r_far 0 numpy_sample r_reads (ser2 7) (ser2 8) [9; 4]); try reflexivity.
    - split; [reflexivity|]. split; [repeat constructor; lra|]. repeat split; repeat constructor; cbn; intuition discriminate.
    - intros x [].
    - intros env. cbn. lra.
    - split; [cbn; lia|split; [exact I|vm_compute; reflexivity]].
    - split; [repeat constructor|intros [X|X]; discriminate X].
    - exact H. }
  injection E as E. lra.
Qed.
