(** C109: rounding errors of the transforms, of integrate and of products of series. *)
From Coq Require Import List Bool Arith ZArith Lia Reals Lra.
From Verif Require Import Base IndexModel Spec Num Fnum LinModel LinSpec CalcModel CalcSpec VecModel VecSpec RndModel RndSpec RndFacts4 RndFacts5 RndFacts6 LinBase Properties3.
Import ListNotations.
Local Open Scope R_scope.

(** Binary floating point with 53 digits, to nearest, is accurate to 2^-53; arithmetic without rounding is accurate to 0. *)
Theorem C109_double : accurate (/ 2 ^ 53) double.
Proof. exact double_accurate. Qed.
Print Assumptions C109_double.
Theorem C109_no_rounding : accurate 0 {| rnd := fun x => x; r_sqrt := sqrt; r_cos := cos; r_sin := sin; r_pi := PI |} /\ forall n, gamma 0 n = 0.
Proof. split; [constructor; cbn; intros; rewrite ?Rminus_eq_0, ?Rabs_R0; lra|]. intros n. unfold gamma. rewrite Rmult_0_r. unfold Rdiv. apply Rmult_0_l. Qed.
Print Assumptions C109_no_rounding.
(** Up to 2^52 roundings the factor is at most twice the number of roundings times 2^-53. *)
Theorem C109_gamma : forall u n, 0 <= u -> INR n * u <= / 2 -> INR n * u < 1 /\ INR n * u <= gamma u n <= 2 * (INR n * u).
Proof.
  intros u n H0 H. assert (0 <= INR n * u) by (apply Rmult_le_pos; [apply pos_INR|exact H0]). split; [lra|]. unfold gamma. set (a := INR n * u) in *. split.
  - apply (Rmult_le_reg_r (1 - a)); [lra|]. replace (a / (1 - a) * (1 - a)) with a by (field; lra). nra.
  - apply (Rmult_le_reg_r (1 - a)); [lra|]. replace (a / (1 - a) * (1 - a)) with a by (field; lra). nra.
Qed.
Print Assumptions C109_gamma.
Example C109_gamma_example : INR 1000 * / 2 ^ 53 <= / 2.
Proof. rewrite INR_IZR_INZ. change (Z.of_nat 1000) with 1000%Z. lra. Qed.

(** Values of the Hermite polynomials. *)
Theorem C109_hermite : forall u r, accurate u r -> forall x degree (values : list R), (1 <= degree)%nat -> (degree < length values)%nat ->
  exists out, hermite_eval (fnum_rnd r) x degree values = Ok out /\ length out = length values /\
    forall n, (n <= degree)%nat -> INR (6 * n) * u < 1 -> Rabs (nth n out 0 - hermite n x) <= gamma u (6 * n) * hermite_abs n x.
Proof. exact hermite_bound. Qed.
Print Assumptions C109_hermite.
Example C109_hermite_example : accurate (/ 2 ^ 53) double /\ (1 <= 3)%nat /\ (3 < length [7; 7; 7; 7; 7])%nat /\ INR (6 * 3) * / 2 ^ 53 < 1 /\ hermite_abs 2 3 = 10 / sqrt (INR (fact 2)) /\ hermite 2 3 = 8 / sqrt (INR (fact 2)).
Proof. split; [exact C109_double|]. split; [lia|]. split; [cbn; lia|]. split; [cbn; lra|]. unfold hermite_abs, hermite. cbn [He_abs He]. rewrite (Rabs_pos_eq 3) by lra. split; f_equal; cbn; lra. Qed.

(** The transform from values to coefficients. *)
Theorem C109_forward : forall u r, accurate u r -> forall s degree nodes weights flags input, fits s (length nodes) degree -> grid_fits nodes -> flags_ok s degree flags -> length flags = length nodes -> rules_match nodes weights -> length input = length (grid nodes) ->
  exists out, transform (fnum_rnd r) s degree input nodes weights flags true = Ok out /\ @vec_for num_R s (length nodes) degree out /\
    forall m, index_of s (length nodes) degree m -> let n := (length (grid nodes) + 6 * list_sum m + 7 * length nodes + 2)%nat in INR n * u < 1 ->
      Rabs (@coef num_R s (length nodes) degree out m - quadrature nodes weights input (phi flags m)) <= gamma u n * quadrature_abs nodes weights input (phi_abs flags m).
Proof. exact forward_bound. Qed.
Print Assumptions C109_forward.
(** The transform from coefficients to values. *)
Theorem C109_backward : forall u r, accurate u r -> forall s degree nodes weights flags c, fits s (length nodes) degree -> grid_fits nodes -> flags_ok s degree flags -> length flags = length nodes -> @vec_for num_R s (length nodes) degree c ->
  exists out, transform (fnum_rnd r) s degree c nodes weights flags false = Ok out /\ length out = length (grid nodes) /\
    forall k p, nth_error (grid nodes) k = Some p -> let n := (length (points s (length nodes) degree) + 6 * (length nodes * degree) + 6 * length nodes + 2)%nat in INR n * u < 1 ->
      Rabs (nth k out 0 - series s degree flags c (at_pos nodes p)) <= gamma u n * series_abs s degree flags c (at_pos nodes p).
Proof. exact backward_bound. Qed.
Print Assumptions C109_backward.
Example C109_transforms_example : let nodes := [[-1; 1]; [-1; 0; 1]] in let weights := [[1/2; 1/2]; [1/4; 1/2; 1/4]] in let flags := [0; 1]%nat in
  accurate (/ 2 ^ 53) double /\ fits Cross (length nodes) 2 /\ fits Triangle (length nodes) 2 /\ grid_fits nodes /\ flags_ok Cross 2 flags /\ flags_ok Triangle 2 flags /\ length flags = length nodes /\ rules_match nodes weights /\
  length [1; 2; 3; 4; 5; 6] = length (grid nodes) /\ @vec_for num_R Triangle (length nodes) 2 [1; 2; 3; 4; 5; 6] /\ nth_error (grid nodes) 4 = Some [1; 1]%nat /\
  index_of Cross (length nodes) 2 [0; 2]%nat /\ INR (length (grid nodes) + 6 * list_sum [0; 2]%nat + 7 * length nodes + 2) * / 2 ^ 53 < 1 /\ INR (length (points Triangle (length nodes) 2) + 6 * (length nodes * 2) + 6 * length nodes + 2) * / 2 ^ 53 < 1.
Proof.
  destruct C32_example as (H1 & H2 & H3 & H4 & H5 & H6 & H7 & H8 & _). cbn zeta. split; [exact C109_double|]. split; [exact H1|]. split; [exact H2|]. split; [exact H3|]. split; [exact H4|].
  split; [split; [exact (proj1 H4)|intros [K|K]; discriminate]|]. split; [exact H5|]. split; [exact H6|]. split; [exact H7|]. split; [exact H8|]. split; [reflexivity|].
  split; [split; [reflexivity|vm_compute; repeat constructor]|]. change (length (points Triangle (length [[-1; 1]; [-1; 0; 1]]) 2)) with 6%nat. split; rewrite INR_IZR_INZ; vm_compute Z.of_nat; lra.
Qed.
(** Evaluating a series on a grid and transforming the values back, with exact rules. *)
Theorem C109_round_trip : forall u r, accurate u r -> forall s degree nodes weights flags c, fits s (length nodes) degree -> grid_fits nodes -> flags_ok s degree flags -> exact_rules degree flags nodes weights -> @vec_for num_R s (length nodes) degree c ->
  exists values out, transform (fnum_rnd r) s degree c nodes weights flags false = Ok values /\ transform (fnum_rnd r) s degree values nodes weights flags true = Ok out /\ @vec_for num_R s (length nodes) degree out /\
    forall m, index_of s (length nodes) degree m -> let n := (length (grid nodes) + length (points s (length nodes) degree) + 6 * (length nodes * degree + list_sum m) + 13 * length nodes + 4)%nat in INR n * u < 1 ->
      Rabs (@coef num_R s (length nodes) degree out m - @coef num_R s (length nodes) degree c m)
      <= gamma u n * quadrature nodes (map (map Rabs) weights) (map (fun p => series_abs s degree flags c (at_pos nodes p)) (grid nodes)) (phi_abs flags m).
Proof. exact trip_bound. Qed.
Print Assumptions C109_round_trip.
Example C109_round_trip_example : let nodes := [[-1; 1]; [-1; 1]] in let weights := [[1/2; 1/2]; [1/2; 1/2]] in let flags := [0; 0]%nat in
  accurate (/ 2 ^ 53) double /\ fits Triangle (length nodes) 1 /\ grid_fits nodes /\ flags_ok Triangle 1 flags /\ exact_rules 1 flags nodes weights /\ @vec_for num_R Triangle (length nodes) 1 [1; 2; 3].
Proof. split; [exact C109_double|exact C33_transform_inverts_eval_example]. Qed.

(** integrate, all directions Fourier. *)
Theorem C109_integrate : forall u r, accurate u r -> forall f_grid nodes weights flags, (1 <= length nodes)%nat -> flags = repeat 1%nat (length nodes) -> grid_fits nodes -> rules_match nodes weights -> length f_grid = length (grid nodes) ->
  let n := (length (grid nodes) + 12 * length nodes + 3)%nat in INR n * u < 1 ->
  exists I, integrate (fnum_rnd r) f_grid nodes weights flags = Ok I /\ Rabs (I - quadrature nodes weights f_grid (fun _ => 1)) <= gamma u n * quadrature_abs nodes weights f_grid (fun _ => 1).
Proof. exact integrate_bound. Qed.
Print Assumptions C109_integrate.
Example C109_integrate_example : let nodes := [[0; 1; 2]; [5; 6]] in let weights := [[1; 1; 1]; [2; 3]] in
  (1 <= length nodes)%nat /\ grid_fits nodes /\ rules_match nodes weights /\ length [1; -2; 3; 4; 5; 6] = length (grid nodes) /\ INR (length (grid nodes) + 12 * length nodes + 3) * / 2 ^ 53 < 1 /\
  quadrature nodes weights [1; -2; 3; 4; 5; 6] (fun _ => 1) = 42 /\ quadrature_abs nodes weights [1; -2; 3; 4; 5; 6] (fun _ => 1) = 54.
Proof.
  cbn zeta. split; [cbn; lia|]. split; [unfold grid_fits; cbn; lia|]. split; [repeat constructor|]. split; [reflexivity|]. split; [rewrite INR_IZR_INZ; vm_compute Z.of_nat; lra|].
  unfold quadrature_abs, quadrature, rsum, rprod. cbn. rewrite (Rabs_left (-2)) by lra. rewrite !Rabs_pos_eq by lra. split; lra.
Qed.

(** Products of series of different variables: a relative error in every coefficient. *)
Theorem C109_tensorize : forall u r, accurate u r -> forall s degree dirs (inputs : list (list R)) dim, dim = length (concat dirs) -> usable s dim degree -> dirs_ok dim dirs -> Forall2 (fun dj v => @vec_for num_R s (length dj) degree v) dirs inputs ->
  INR (length inputs) * u < 1 -> exists out, tensorize_vec (fnum_rnd r) s inputs dirs = Ok out /\ @vec_for num_R s dim degree out /\
    forall m, index_of s dim degree m -> Rabs (@coef num_R s dim degree out m - @vproduct num_R s dim degree dirs inputs m) <= gamma u (length inputs) * Rabs (@vproduct num_R s dim degree dirs inputs m).
Proof. exact tensorize_bound. Qed.
Print Assumptions C109_tensorize.
Example C109_tensorize_example : let dirs := [[1]; [0; 2]]%nat in let inputs := [[1; 2]; [1; 2; 3]] in
  3%nat = length (concat dirs) /\ usable Triangle 3 1 /\ dirs_ok 3 dirs /\ Forall2 (fun dj v => @vec_for num_R Triangle (length dj) 1 v) dirs inputs /\ INR (length inputs) * / 2 ^ 53 < 1.
Proof.
  cbn zeta. split; [reflexivity|]. split; [apply usable_dim4; lia|]. split; [repeat constructor; try discriminate; lia|]. split; [repeat constructor|cbn; lra].
Qed.

(** Numbers of double precision are not rounded again. *)
Theorem C109_double_idempotent : forall x, rnd double (rnd double x) = rnd double x.
Proof. exact double_idem. Qed.
Print Assumptions C109_double_idempotent.

(** Inner products over the common variables, for a rounding that leaves rounded numbers as they are. *)
Theorem C109_inner : forall u r, accurate u r -> (forall x, rnd r (rnd r x) = rnd r x) -> forall s degree d1 d2 dres dinn (v1 v2 : list R), increasing d1 -> increasing d2 -> d1 <> [] -> d2 <> [] ->
  inner_dirs d1 d2 dres dinn -> usable s (length d1) degree -> usable s (length d2) degree -> (dres <> [] -> usable s (length dres) degree) -> @vec_for num_R s (length d1) degree v1 -> @vec_for num_R s (length d2) degree v2 ->
  let n := (length (points s (length dinn) degree) + 1)%nat in INR n * u < 1 ->
  exists out, inner (fnum_rnd r) s v1 v2 d1 d2 = Ok out /\ @vec_for num_R s (length dres) degree out /\
    forall m, index_of s (length dres) degree m -> Rabs (@coef num_R s (length dres) degree out m - @contraction num_R s degree d1 d2 dres dinn v1 v2 m)
      <= gamma u n * @contraction num_R s degree d1 d2 dres dinn (map Rabs v1) (map Rabs v2) m.
Proof. exact inner_bound. Qed.
Print Assumptions C109_inner.
Example C109_inner_example : let d1 := [0; 1]%nat in let d2 := [1; 2]%nat in let dres := [0; 2]%nat in let dinn := [1]%nat in
  accurate (/ 2 ^ 53) double /\ increasing d1 /\ increasing d2 /\ d1 <> [] /\ d2 <> [] /\ inner_dirs d1 d2 dres dinn /\ usable Triangle (length d1) 1 /\ usable Triangle (length dres) 1 /\
  @vec_for num_R Triangle (length d1) 1 [1; -2; 3] /\ @vec_for num_R Triangle (length d2) 1 [4; 5; -6] /\ INR (length (points Triangle (length dinn) 1) + 1) * / 2 ^ 53 < 1 /\
  @contraction num_R Triangle 1 d1 d2 dres dinn [1; -2; 3] [4; 5; -6] [0; 0]%nat <> 0.
Proof.
  cbn zeta. split; [exact C109_double|]. split; [repeat constructor|]. split; [repeat constructor|]. split; [discriminate|]. split; [discriminate|].
  split; [split; [repeat constructor|]; split; [repeat constructor|]; split; intros x; cbn [In]; lia|]. split; [apply usable_dim4; cbn [length]; lia|]. split; [apply usable_dim4; cbn [length]; lia|]. split; [reflexivity|]. split; [reflexivity|].
  split; [rewrite INR_IZR_INZ; vm_compute Z.of_nat; lra|]. unfold contraction, nsum. cbn. lra.
Qed.

(** Products of vectors and of matrices, and the norm. *)
Theorem C109_dot : forall u r, accurate u r -> forall v w : list R, (length v <= length w)%nat -> INR (length v + 1) * u < 1 ->
  exists x, vec_dot (fnum_rnd r) v w = Ok x /\ Rabs (x - @dot num_R (length v) v w) <= gamma u (length v + 1) * @dot num_R (length v) (map Rabs v) (map Rabs w).
Proof. exact dot_bound. Qed.
Print Assumptions C109_dot.
Theorem C109_apply : forall u r, accurate u r -> forall n m (A : list (list R)) (v : list R), @mat_wf num_R n m A -> (n <= m)%nat -> (n <= length v)%nat -> INR (n + 1) * u < 1 ->
  exists w, mat_vec (fnum_rnd r) A v = Ok w /\ length w = n /\ forall i, (i < n)%nat -> Rabs (nth i w 0 - @dot num_R n (nth i A []) v) <= gamma u (n + 1) * @dot num_R n (map Rabs (nth i A [])) (map Rabs v).
Proof. exact mat_vec_bound. Qed.
Print Assumptions C109_apply.
Theorem C109_product : forall u r, accurate u r -> forall n (A B : list (list R)), @mat_wf num_R n n A -> @mat_wf num_R n n B -> INR (n + 1) * u < 1 ->
  exists C, mat_mul (fnum_rnd r) A B = Ok C /\ @mat_wf num_R n n C /\ forall i j, (i < n)%nat -> (j < n)%nat ->
    Rabs (@entry num_R C i j - @row_col num_R n A B i j) <= gamma u (n + 1) * @row_col num_R n (map (map Rabs) A) (map (map Rabs) B) i j.
Proof. exact mat_mul_bound. Qed.
Print Assumptions C109_product.
Theorem C109_norm : forall u r, accurate u r -> forall v : list R, INR (length v + 2) * u < 1 ->
  exists x, vec_norm (fnum_rnd r) v = Ok x /\ Rabs (x - sqrt (squares v)) <= gamma u (length v + 2) * sqrt (squares v).
Proof. exact norm_bound. Qed.
Print Assumptions C109_norm.
Example C109_vectors_example : accurate (/ 2 ^ 53) double /\ @mat_wf num_R 2 2 [[1; -2]; [3; 4]] /\ (2 <= length [5; -6]%R)%nat /\ INR (length [5; -6]%R + 2) * / 2 ^ 53 < 1 /\
  @dot num_R 2 [1; -2] [5; -6] = 17 /\ @row_col num_R 2 [[1; -2]; [3; 4]] [[1; -2]; [3; 4]] 1 0 = 15 /\ squares [3; -4] = 25.
Proof.
  split; [exact C109_double|]. split; [repeat constructor|]. split; [cbn; lia|]. split; [rewrite INR_IZR_INZ; vm_compute Z.of_nat; lra|].
  unfold dot, row_col, nsum, entry, squares. cbn. split; [lra|]. split; lra.
Qed.
