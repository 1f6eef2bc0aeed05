(** Properties C28-C34: basis functions, transforms, quadratures.
    Model: CalcModel, QuadModel.  Specification vocabulary: CalcSpec (Hermite polynomials by their recurrence, Fourier basis,
    tensor grids, quadrature sums).  [double] is idealised by the real numbers ([fnum_R]) except where F is arbitrary. *)
From Coq Require Import List Bool Arith ZArith Reals Lra Lia.
From Verif Require Import Base IndexModel Spec Num Fnum LinModel LinSpec CalcModel QuadModel CalcSpec CalcHermite CalcReal CalcQuad CalcInt CalcFourierQuad Facts6.
Import ListNotations.
Local Open Scope R_scope.

(** C28: entries 0 .. degree of the vector are He_n(x)/sqrt(n!), the others are unchanged. *)
Theorem C28_hermite_eval : forall x degree (values : list R), (1 <= degree)%nat -> (degree < length values)%nat ->
  exists out, hermite_eval fnum_R x degree values = Ok out /\ length out = length values /\
    (forall n, (n <= degree)%nat -> nth n out 0 = hermite n x) /\
    (forall n, (degree < n)%nat -> nth n out 0 = nth n values 0).
Proof. exact hermite_eval_R. Qed.
Print Assumptions C28_hermite_eval.
Example C28_hermite_eval_example : (1 <= 2)%nat /\ (2 < length [0; 0; 0; 5])%nat /\ hermite 2 3 = (3 * 3 - 1) / sqrt 2.
Proof. split; [lia|]. split; [cbn; lia|]. unfold hermite. cbn [He fact Nat.mul Nat.add]. change (INR 1) with 1. replace (INR 2) with 2 by (cbn; lra). f_equal. lra. Qed.

(** C29 is false: every call with a node in a Hermite direction writes outside a vector, whatever the arithmetic. *)
Theorem C29_integrate_refuted : forall (F : fnum) (f_grid : list F) nodes weights flags k xs,
  nth_error nodes k = Some xs -> xs <> [] -> nth_error flags k = Some 0%nat -> integrate F f_grid nodes weights flags = Ub.
Proof. exact integrate_ub. Qed.
Print Assumptions C29_integrate_refuted.
Example C29_integrate_refuted_example : nth_error [[-1; 1]] 0 = Some [-1; 1] /\ [-1; 1] <> [] /\ nth_error [0%nat] 0 = Some 0%nat /\
  integrate fnum_Z [1; 1]%Z [[-1; 1]]%Z [[1; 1]]%Z [0%nat] = Ub.
Proof. split; [reflexivity|]. split; [discriminate|]. split; reflexivity. Qed.

(** C29, the calls that are safe: with only Fourier directions the result is the quadrature sum of the values. *)
Theorem C29_integrate_fourier : forall f_grid nodes weights flags, (1 <= length nodes)%nat -> flags = repeat 1%nat (length nodes) ->
  grid_fits nodes -> rules_match nodes weights -> length f_grid = length (grid nodes) ->
  integrate fnum_R f_grid nodes weights flags = Ok (quadrature nodes weights f_grid (fun _ => 1)).
Proof. exact integrate_fourier. Qed.
Print Assumptions C29_integrate_fourier.
Example C29_integrate_fourier_example : let nodes := [[0; 1; 2]; [5; 6]] in let weights := [[1; 1; 1]; [2; 3]] in
  (1 <= length nodes)%nat /\ grid_fits nodes /\ rules_match nodes weights /\ length [1; 2; 3; 4; 5; 6] = length (grid nodes) /\
  quadrature nodes weights [1; 2; 3; 4; 5; 6] (fun _ => 1) = 54.
Proof.
  cbn zeta. split; [cbn; lia|]. split; [unfold grid_fits; cbn; lia|]. split; [repeat constructor|]. split; [reflexivity|].
  unfold quadrature, rsum, rprod. cbn. lra.
Qed.

(** C30: the table linearises products of Hermite polynomials; it is symmetric and zero outside |i-j| <= k <= i+j. *)
Theorem C30_triple_products : forall degree, exists T, triple_products_1d fnum_R degree = Ok T /\ cube_for (2 * degree + 1) (degree + 1) T /\
  (forall k i j, (i <= degree)%nat -> (j <= degree)%nat -> cell T k i j = cell T k j i) /\
  (forall k i j, (i <= degree)%nat -> (j <= degree)%nat -> (i + j < k \/ k + i < j \/ k + j < i)%nat -> cell T k i j = 0) /\
  (forall i j x, (i <= degree)%nat -> (j <= degree)%nat ->
     hermite i x * hermite j x = rsum (map (fun k => cell T k i j * hermite k x) (seq 0 (2 * degree + 1)))).
Proof. exact triple_hermite. Qed.
Print Assumptions C30_triple_products.
Example C30_triple_products_example : hermite 1 3 * hermite 1 3 = 1 * hermite 0 3 + 0 * hermite 1 3 + sqrt 2 * hermite 2 3.
Proof.
  unfold hermite. cbn [He fact Nat.mul Nat.add]. change (INR 1) with 1. replace (INR 2) with 2 by (cbn; lra). rewrite sqrt_1.
  assert (0 < sqrt 2) by (apply sqrt_lt_R0; lra). field. lra.
Qed.

(** C31: the same for the Fourier basis; an odd degree ends the process. *)
Theorem C31_triple_fourier : forall degree, Nat.even degree = true -> exists T, triple_products_fourier fnum_R degree = Ok T /\ cube_for (2 * degree + 1) (degree + 1) T /\
  (forall k i j, (i <= degree)%nat -> (j <= degree)%nat -> cell T k i j = cell T k j i) /\
  (forall i j x, (i <= degree)%nat -> (j <= degree)%nat ->
     fourier i x * fourier j x = rsum (map (fun k => cell T k i j * fourier k x) (seq 0 (2 * degree + 1)))).
Proof. exact triple_fourier. Qed.
Print Assumptions C31_triple_fourier.
Theorem C31_odd : forall (F : fnum) degree, Nat.even degree = false -> triple_products_fourier F degree = Exit 1.
Proof. exact triple_fourier_odd. Qed.
Print Assumptions C31_odd.
Example C31_example : Nat.even 4 = true /\ Nat.even 3 = false /\ forall x, fourier 3 x = sin (INR 2 * x) / sqrt PI.
Proof. split; [reflexivity|]. split; [reflexivity|]. intros. reflexivity. Qed.

(** C32: forward, the coefficient of m is the sum over the grid of value * weight * phi_m; backward, the values of the
    series at the grid points in row-major order. *)
Theorem C32_forward : forall s degree nodes weights flags input, fits s (length nodes) degree -> grid_fits nodes -> flags_ok s degree flags ->
  length flags = length nodes -> rules_match nodes weights -> length input = length (grid nodes) ->
  exists out, transform fnum_R s degree input nodes weights flags true = Ok out /\ @vec_for num_R s (length nodes) degree out /\
    forall m, index_of s (length nodes) degree m -> @coef num_R s (length nodes) degree out m = quadrature nodes weights input (phi flags m).
Proof. exact forward_coef. Qed.
Print Assumptions C32_forward.
Theorem C32_backward : forall s degree nodes weights flags c, fits s (length nodes) degree -> grid_fits nodes -> flags_ok s degree flags ->
  length flags = length nodes -> @vec_for num_R s (length nodes) degree c ->
  transform fnum_R s degree c nodes weights flags false = Ok (map (fun p => series s degree flags c (at_pos nodes p)) (grid nodes)).
Proof. exact backward_values. Qed.
Print Assumptions C32_backward.
Example C32_example : let nodes := [[-1; 1]; [-1; 0; 1]] in let weights := [[1/2; 1/2]; [1/4; 1/2; 1/4]] in let flags := [0; 1]%nat in
  fits Cross (length nodes) 2 /\ fits Triangle (length nodes) 2 /\ grid_fits nodes /\ flags_ok Cross 2 flags /\ length flags = length nodes /\ rules_match nodes weights /\
  length [1; 2; 3; 4; 5; 6] = length (grid nodes) /\ @vec_for num_R Triangle (length nodes) 2 [1; 2; 3; 4; 5; 6] /\
  grid nodes = [[0;0]; [0;1]; [0;2]; [1;0]; [1;1]; [1;2]]%nat /\ at_pos nodes [1; 2]%nat = [1; 1].
Proof.
  cbn zeta. split; [split; [cbn; lia|split; [exact I|vm_compute; reflexivity]]|]. split; [split; [cbn; lia|split; [exact I|vm_compute; reflexivity]]|].
  split; [unfold grid_fits; cbn; lia|]. split; [split; [|intros; lia]; constructor; [left; lia|constructor; [right; split; reflexivity|constructor]]|].
  split; [reflexivity|]. split; [repeat constructor|]. repeat split; vm_compute; reflexivity.
Qed.

(** C33: with rules that are exact for products of two basis functions, evaluating a series on the grid and
    transforming the values gives back the coefficients. *)
Theorem C33_transform_inverts_eval : forall s degree nodes weights flags, fits s (length nodes) degree -> grid_fits nodes -> flags_ok s degree flags ->
  exact_rules degree flags nodes weights -> forall c, @vec_for num_R s (length nodes) degree c ->
  exists values, transform fnum_R s degree c nodes weights flags false = Ok values /\ transform fnum_R s degree values nodes weights flags true = Ok c.
Proof. exact transform_eval. Qed.
Print Assumptions C33_transform_inverts_eval.
(** The two-point Gauss-Hermite rule in each of two directions, degree 1. *)
Example C33_transform_inverts_eval_example : let nodes := [[-1; 1]; [-1; 1]] in let weights := [[1/2; 1/2]; [1/2; 1/2]] in let flags := [0; 0]%nat in
  fits Triangle (length nodes) 1 /\ grid_fits nodes /\ flags_ok Triangle 1 flags /\ exact_rules 1 flags nodes weights /\ @vec_for num_R Triangle (length nodes) 1 [1; 2; 3].
Proof.
  cbn zeta. split; [split; [cbn; lia|split; [exact I|vm_compute; reflexivity]]|]. split; [unfold grid_fits; cbn; lia|].
  split; [split; [repeat constructor|intros [H|H]; discriminate]|]. split; [|vm_compute; reflexivity].
  split; [reflexivity|]. split; [reflexivity|]. intros [|[|k]] Hk; [exact gauss2|exact gauss2|cbn in Hk; lia].
Qed.

(** C34: the equispaced rule of Quad.fourier with n > degree points is exact, hence the inversion in any dimension. *)
Theorem C34_fourier_exact : forall degree n, Nat.even degree = true -> (degree < n)%nat ->
  exact_rule degree 1 (fourier_nodes fnum_R n) (fourier_weights fnum_R n).
Proof. exact fourier_exact. Qed.
Print Assumptions C34_fourier_exact.
Theorem C34_fourier_inverts : forall s degree dim ns c, fits s dim degree -> (s = Cross \/ s = CrossNc -> (1 <= degree)%nat) ->
  Nat.even degree = true -> length ns = dim -> Forall (fun n => degree < n)%nat ns -> grid_fits (map (fourier_nodes fnum_R) ns) ->
  @vec_for num_R s dim degree c ->
  exists values, transform fnum_R s degree c (map (fourier_nodes fnum_R) ns) (map (fourier_weights fnum_R) ns) (repeat 1%nat dim) false = Ok values /\
    transform fnum_R s degree values (map (fourier_nodes fnum_R) ns) (map (fourier_weights fnum_R) ns) (repeat 1%nat dim) true = Ok c.
Proof. exact fourier_transform_eval. Qed.
Print Assumptions C34_fourier_inverts.
Example C34_fourier_inverts_example : fits Cube 2 2 /\ Nat.even 2 = true /\ Forall (fun n => 2 < n)%nat [3; 4]%nat /\ grid_fits (map (fourier_nodes fnum_R) [3; 4]%nat) /\
  @vec_for num_R Cube 2 2 [1; 2; 3; 4; 5; 6; 7; 8; 9] /\ nth 1 (fourier_nodes fnum_R 4) 0 = - PI + 2 * PI * 1 / 4.
Proof.
  split; [split; [lia|split; [exact I|vm_compute; reflexivity]]|]. split; [reflexivity|]. split; [repeat constructor|]. split; [unfold grid_fits; vm_compute; reflexivity|].
  split; [vm_compute; reflexivity|]. reflexivity.
Qed.
