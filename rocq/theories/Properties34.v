(** Property C100: the matrix of a multiplication operator. *)
From Coq Require Import List Bool Arith ZArith Reals Lra Lia.
From Verif Require Import Base IndexModel Spec Num Fnum LinModel LinSpec LinBase CalcModel CalcSpec CalcReal CalcQuad Facts2 Facts6 Facts7 Facts8 Facts9 FormSpec FormFacts.
Import ListNotations.
Local Open Scope R_scope.

(** C100: the matrix of a function is symmetric, on every index set and whatever the threshold drops. *)
Theorem C100_symmetric : forall s degree nodes weights flags input, usable s (length nodes) degree -> fits s (length nodes) (2 * degree) -> grid_fits nodes ->
  flags_ok s degree flags -> length flags = length nodes -> rules_match nodes weights -> length input = length (grid nodes) ->
  forall A, varf_gives s degree nodes weights flags input A -> forall r c, index_of s (length nodes) degree r -> index_of s (length nodes) degree c ->
  @entry num_R s (length nodes) degree A r c = @entry num_R s (length nodes) degree A c r.
Proof. exact symmetric_form. Qed.
Print Assumptions C100_symmetric.

(** u . A v is the discrete integral of f times the functions with coefficients u and v. *)
Theorem C100_form : forall s degree nodes weights flags input, usable s (length nodes) degree -> fits s (length nodes) (2 * degree) -> grid_fits nodes ->
  flags_ok s degree flags -> length flags = length nodes -> rules_match nodes weights -> length input = length (grid nodes) ->
  closed_products s degree flags -> nothing_dropped s degree nodes weights flags input -> forall A u v, varf_gives s degree nodes weights flags input A ->
  form_value s (length nodes) degree A u v = quadrature nodes weights input (fun x => CalcSpec.series s degree flags u x * CalcSpec.series s degree flags v x).
Proof. exact form_is_integral. Qed.
Print Assumptions C100_form.

(** The matrix of a function that is nowhere negative on the grid is positive semidefinite. *)
Theorem C100_positive : forall s degree nodes weights flags input, usable s (length nodes) degree -> fits s (length nodes) (2 * degree) -> grid_fits nodes ->
  flags_ok s degree flags -> length flags = length nodes -> rules_match nodes weights -> length input = length (grid nodes) ->
  closed_products s degree flags -> nothing_dropped s degree nodes weights flags input -> forall A u, varf_gives s degree nodes weights flags input A ->
  Forall (Forall (fun w => 0 <= w)) weights -> Forall (fun y => 0 <= y) input -> 0 <= form_value s (length nodes) degree A u u.
Proof. exact form_positive. Qed.
Print Assumptions C100_positive.

(** With exact rules the quadratic form, and so every eigenvalue, lies between the bounds of f on the grid ... *)
Theorem C100_range : forall s degree nodes weights flags input, usable s (length nodes) degree -> fits s (length nodes) (2 * degree) -> grid_fits nodes ->
  flags_ok s degree flags -> length flags = length nodes -> rules_match nodes weights -> length input = length (grid nodes) ->
  closed_products s degree flags -> nothing_dropped s degree nodes weights flags input -> exact_rules degree flags nodes weights -> forall A u lo hi, varf_gives s degree nodes weights flags input A ->
  Forall (Forall (fun w => 0 <= w)) weights -> Forall (fun y => lo <= y <= hi) input ->
  lo * square_length s (length nodes) degree u <= form_value s (length nodes) degree A u u <= hi * square_length s (length nodes) degree u.
Proof. exact form_range. Qed.
Print Assumptions C100_range.
Theorem C100_eigenvalue : forall s degree nodes weights flags input, usable s (length nodes) degree -> fits s (length nodes) (2 * degree) -> grid_fits nodes ->
  flags_ok s degree flags -> length flags = length nodes -> rules_match nodes weights -> length input = length (grid nodes) ->
  closed_products s degree flags -> nothing_dropped s degree nodes weights flags input -> exact_rules degree flags nodes weights -> forall A u lambda lo hi, varf_gives s degree nodes weights flags input A ->
  Forall (Forall (fun w => 0 <= w)) weights -> Forall (fun y => lo <= y <= hi) input ->
  (forall r, index_of s (length nodes) degree r -> apply_at s (length nodes) degree A u r = lambda * @coef num_R s (length nodes) degree u r) ->
  (exists r, index_of s (length nodes) degree r /\ @coef num_R s (length nodes) degree u r <> 0) -> lo <= lambda <= hi.
Proof. exact form_eigenvalue. Qed.
Print Assumptions C100_eigenvalue.

(** ... and the matrix of the function 1 is the identity. *)
Theorem C100_identity : forall s degree nodes weights flags, usable s (length nodes) degree -> fits s (length nodes) (2 * degree) -> grid_fits nodes -> flags_ok s degree flags -> exact_rules degree flags nodes weights ->
  closed_products s degree flags -> forall input, input = map (fun _ => 1) (grid nodes) -> nothing_dropped s degree nodes weights flags input -> forall A, varf_gives s degree nodes weights flags input A ->
  forall r c, index_of s (length nodes) degree r -> index_of s (length nodes) degree c -> @entry num_R s (length nodes) degree A r c = if mi_eqb r c then 1 else 0.
Proof. exact form_identity. Qed.
Print Assumptions C100_identity.

(** The matrix of a combination of functions is the combination of their matrices. *)
Theorem C100_linear : forall s degree nodes weights flags f g a b, usable s (length nodes) degree -> fits s (length nodes) (2 * degree) -> grid_fits nodes -> flags_ok s degree flags -> length flags = length nodes -> rules_match nodes weights ->
  closed_products s degree flags -> length f = length (grid nodes) -> length g = length (grid nodes) ->
  let h := map (fun '(x, y) => a * x + b * y) (combine f g) in
  nothing_dropped s degree nodes weights flags f -> nothing_dropped s degree nodes weights flags g -> nothing_dropped s degree nodes weights flags h ->
  forall A B C, varf_gives s degree nodes weights flags f A -> varf_gives s degree nodes weights flags g B -> varf_gives s degree nodes weights flags h C ->
  forall r c, index_of s (length nodes) degree r -> index_of s (length nodes) degree c ->
  @entry num_R s (length nodes) degree C r c = a * @entry num_R s (length nodes) degree A r c + b * @entry num_R s (length nodes) degree B r c.
Proof. exact form_sum. Qed.
Print Assumptions C100_linear.

(** On the hyperbolic cross the matrix of a positive function need not be positive. *)
Theorem C100_cross_refuted : ~ forall degree nodes weights flags input, usable Cross (length nodes) degree -> fits Cross (length nodes) (2 * degree) -> grid_fits nodes -> flags_ok Cross degree flags -> length flags = length nodes -> rules_match nodes weights ->
  length input = length (grid nodes) -> nothing_dropped Cross degree nodes weights flags input -> Forall (Forall (fun w => 0 <= w)) weights -> Forall (fun y => 0 <= y) input ->
  forall A u, varf_gives Cross degree nodes weights flags input A -> 0 <= form_value Cross (length nodes) degree A u u.
Proof. exact cross_negative. Qed.
Print Assumptions C100_cross_refuted.

(** Hypotheses met: the two-point Gauss-Hermite rule, degree 1.  In one direction, for the values 2 and 4, the matrix is (3 1; 1 3), whose eigenvalues are 2 and 4. *)
Lemma line_rules : exact_rules 1 [0]%nat [[-1; 1]] [[1/2; 1/2]].
Proof. split; [reflexivity|]. split; [reflexivity|]. intros [|k] Hk; [exact gauss2|cbn in Hk; lia]. Qed.
Lemma line_kept : forall a b, 1 <= a <= 4 -> b = a \/ a + 1 <= b <= 4 -> nothing_dropped Triangle 1 [[-1; 1]] [[1/2; 1/2]] [0]%nat [a; b].
Proof.
  intros a b H1 H2. destruct (gauss2_1d a b) as [G0 [G1 G2]]. assert (Hp : points Triangle 1 2 = [[0]; [1]; [2]]%nat) by reflexivity. apply nothing_dropped_crit.
  - cbn [length]. change (2 * 1)%nat with 2%nat. rewrite Hp. intros m [<-|[<-|[<-|[]]]]; [right; rewrite G0; nra| |left; exact G2]. destruct H2 as [->|H2]; [left; rewrite G1; field|right; rewrite G1; nra].
  - cbn; lia.
  - exact I.
  - cbn [length]. change (2 * 1)%nat with 2%nat. rewrite Hp. cbn [map]. rewrite G0, G1, G2. unfold rsum. cbn [fold_right]. nra.
Qed.
Lemma line_setting : usable Triangle 1 1 /\ fits Triangle 1 (2 * 1) /\ grid_fits [[-1; 1]] /\ flags_ok Triangle 1 [0]%nat /\ rules_match [[-1; 1]] [[1/2; 1/2]] /\ closed_products Triangle 1 [0]%nat.
Proof.
  split; [apply usable_dim4; lia|]. split; [apply usable_fits, usable_dim4; lia|]. split; [unfold grid_fits; cbn; lia|]. split; [split; [repeat constructor|intros [H|H]; discriminate H]|]. split; [repeat constructor|left; reflexivity].
Qed.
Lemma line_matrix : forall a b, 1 <= a <= 4 -> b = a \/ a + 1 <= b <= 4 -> exists A, varf_gives Triangle 1 [[-1; 1]] [[1/2; 1/2]] [0]%nat [a; b] A /\
  @entry num_R Triangle 1 1 A [0]%nat [0]%nat = (a + b) / 2 /\ @entry num_R Triangle 1 1 A [0]%nat [1]%nat = (b - a) / 2 /\ @entry num_R Triangle 1 1 A [1]%nat [0]%nat = (b - a) / 2 /\ @entry num_R Triangle 1 1 A [1]%nat [1]%nat = (a + b) / 2.
Proof.
  intros a b H1 H2. destruct line_setting as (S1 & S2 & S3 & S4 & S5 & S6). pose proof (line_kept a b H1 H2) as K.
  destruct (varf_galerkin Triangle 1 [[-1; 1]] [[1/2; 1/2]] [0]%nat [a; b] S1 S2 S3 S4 eq_refl S5 eq_refl S6 K) as (A & B & V1 & _ & _ & _ & V). exists A. split; [left; exact V1|].
  assert (I : forall i, (i <= 1)%nat -> index_of Triangle 1 1 [i]) by (intros i Hi; split; [reflexivity|cbn; lia]).
  assert (G : forall i j, galerkin [[-1; 1]] [[1/2; 1/2]] [0]%nat [a; b] [i] [j] = (a * (hermite i (-1) * hermite j (-1)) + b * (hermite i 1 * hermite j 1)) / 2) by (intros; unfold galerkin, quadrature, grid, at_pos, rsum, rprod, phi, basis, rprod; cbn -[hermite]; field).
  pose proof (fun i j Hi Hj => proj1 (V [i] [j] (I i Hi) (I j Hj))) as W. cbn [length] in W.
  split; [refine (eq_trans (W 0%nat 0%nat ltac:(lia) ltac:(lia)) _)|]. { rewrite G, !(proj1 (hermite_small _)). match goal with |- ?a = ?b => change (@eq R a b) end. field. }
  split; [refine (eq_trans (W 0%nat 1%nat ltac:(lia) ltac:(lia)) _)|]. { rewrite G, !(proj1 (hermite_small _)), !(proj1 (proj2 (hermite_small _))). match goal with |- ?a = ?b => change (@eq R a b) end. field. }
  split; [refine (eq_trans (W 1%nat 0%nat ltac:(lia) ltac:(lia)) _)|refine (eq_trans (W 1%nat 1%nat ltac:(lia) ltac:(lia)) _)].
  - rewrite G, (proj1 (hermite_small 1)), (proj1 (hermite_small (-1))), (proj1 (proj2 (hermite_small 1))), (proj1 (proj2 (hermite_small (-1)))). match goal with |- ?a = ?b => change (@eq R a b) end. field.
  - rewrite G, (proj1 (proj2 (hermite_small 1))), (proj1 (proj2 (hermite_small (-1)))). match goal with |- ?a = ?b => change (@eq R a b) end. field.
Qed.
Lemma line_apply : forall A x y r, apply_at Triangle 1 1 A [x; y] r = @entry num_R Triangle 1 1 A r [0]%nat * x + @entry num_R Triangle 1 1 A r [1]%nat * y.
Proof. intros. unfold apply_at, coef. change (points Triangle 1 1) with [[0]; [1]]%nat. unfold rsum. cbn [map fold_right value mi_eqb Nat.eqb andb]. match goal with |- ?a = ?b => change (@eq R a b) end. ring. Qed.
Example C100_eigenvalue_example : exists A, varf_gives Triangle 1 [[-1; 1]] [[1/2; 1/2]] [0]%nat [2; 4] A /\
  (forall r, index_of Triangle 1 1 r -> apply_at Triangle 1 1 A [1; 1] r = 4 * @coef num_R Triangle 1 1 [1; 1] r) /\ (forall r, index_of Triangle 1 1 r -> apply_at Triangle 1 1 A [1; -1] r = 2 * @coef num_R Triangle 1 1 [1; -1] r) /\
  forall u lambda, (forall r, index_of Triangle 1 1 r -> apply_at Triangle 1 1 A u r = lambda * @coef num_R Triangle 1 1 u r) -> (exists r, index_of Triangle 1 1 r /\ @coef num_R Triangle 1 1 u r <> 0) -> 2 <= lambda <= 4.
Proof.
  destruct (line_matrix 2 4 ltac:(lra) ltac:(lra)) as (A & HA & E1 & E2 & E3 & E4). exists A. split; [exact HA|].
  assert (I : forall r, index_of Triangle 1 1 r -> r = [0]%nat \/ r = [1]%nat) by (intros r [Hl Hi]; destruct r as [|i [|j r]]; try discriminate Hl; cbn in Hi; destruct i as [|[|i]]; [left; reflexivity|right; reflexivity|lia]).
  split; [|split].
  - intros r Hr. rewrite line_apply. destruct (I r Hr) as [-> | ->]; [rewrite E1, E2|rewrite E3, E4]; unfold coef; cbn; lra.
  - intros r Hr. rewrite line_apply. destruct (I r Hr) as [-> | ->]; [rewrite E1, E2|rewrite E3, E4]; unfold coef; cbn; lra.
  - intros u lambda. destruct line_setting as (S1 & S2 & S3 & S4 & S5 & S6).
    apply (C100_eigenvalue Triangle 1 [[-1; 1]] [[1/2; 1/2]] [0]%nat [2; 4] S1 S2 S3 S4 eq_refl S5 eq_refl S6 (line_kept 2 4 ltac:(lra) ltac:(lra)) line_rules A u lambda 2 4 HA); repeat constructor; lra.
Qed.
Example C100_identity_example : exists A, varf_gives Triangle 1 [[-1; 1]] [[1/2; 1/2]] [0]%nat (map (fun _ => 1) (grid [[-1; 1]])) A /\ @entry num_R Triangle 1 1 A [1]%nat [0]%nat = 0.
Proof.
  destruct (line_matrix 1 1 ltac:(lra) ltac:(lra)) as (A & HA & _). exists A. split; [exact HA|]. destruct line_setting as (S1 & S2 & S3 & S4 & S5 & S6).
  apply (C100_identity Triangle 1 [[-1; 1]] [[1/2; 1/2]] [0]%nat S1 S2 S3 S4 line_rules S6 (map (fun _ => 1) (grid [[-1; 1]])) eq_refl (line_kept 1 1 ltac:(lra) ltac:(lra)) A HA [1]%nat [0]%nat); (split; [reflexivity|cbn; lia]).
Qed.
Example C100_linear_example : let h := map (fun '(x, y) => 1/2 * x + 1 * y) (combine [2; 4] [1; 1]) in
  nothing_dropped Triangle 1 [[-1; 1]] [[1/2; 1/2]] [0]%nat [2; 4] /\ nothing_dropped Triangle 1 [[-1; 1]] [[1/2; 1/2]] [0]%nat [1; 1] /\ nothing_dropped Triangle 1 [[-1; 1]] [[1/2; 1/2]] [0]%nat h /\ exists A, varf_gives Triangle 1 [[-1; 1]] [[1/2; 1/2]] [0]%nat h A.
Proof.
  cbn [combine map]. split; [apply line_kept; lra|]. split; [apply line_kept; lra|]. split; [apply line_kept; lra|]. destruct (line_matrix (1/2 * 2 + 1 * 1) (1/2 * 4 + 1 * 1) ltac:(lra) ltac:(lra)) as (A & HA & _). exists A. exact HA.
Qed.
(** The premises of the symmetry hold on the cross too. *)
Example C100_symmetric_example : exists A, varf_gives Cross 1 [[0]; [0]] [[1]; [1]] [0; 0]%nat [1] A /\ usable Cross 2 1 /\ fits Cross 2 (2 * 1) /\ @entry num_R Cross 2 1 A [1; 1]%nat [0; 1]%nat = @entry num_R Cross 2 1 A [0; 1]%nat [1; 1]%nat.
Proof.
  destruct varf_cross as (A & HA & _). exists A. assert (V : varf_gives Cross 1 [[0]; [0]] [[1]; [1]] [0; 0]%nat [1] A) by (left; exact HA). split; [exact V|].
  assert (S1 : usable Cross 2 1) by (apply usable_dim4; lia). assert (S2 : fits Cross 2 (2 * 1)) by (apply usable_fits, usable_dim4; lia). split; [exact S1|]. split; [exact S2|].
  apply (C100_symmetric Cross 1 [[0]; [0]] [[1]; [1]] [0; 0]%nat [1] S1 S2); [unfold grid_fits; cbn; lia|split; [repeat constructor|intros; lia]|reflexivity|repeat constructor|reflexivity|exact V|split; [reflexivity|cbn; lia]|split; [reflexivity|cbn; lia]].
Qed.
