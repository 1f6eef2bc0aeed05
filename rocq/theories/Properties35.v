(** C101: the matrices made by varf and varfd obey the rules of the calculus with Gaussian weight: integration by parts, and the basis functions are the eigenfunctions of the Ornstein-Uhlenbeck operator and of the Laplacian. *)
From Coq Require Import List Bool Arith ZArith Reals Lra Lia.
From Verif Require Import Base IndexModel Spec Num Fnum LinModel LinSpec LinBase CalcModel QuadModel CalcSpec CalcReal CalcQuad CalcFourierQuad Facts2 Facts6 Facts7 Facts9 Facts10 Facts3 FormSpec OuSpec FormFacts OuFacts Properties34.
Import ListNotations.
Local Open Scope R_scope.

(** The matrix of a coordinate: x h_n = sqrt(n + 1) h_(n+1) + sqrt(n) h_(n-1). *)
Theorem C101_coordinate : forall s degree nodes weights flags k, usable s (length nodes) degree -> fits s (length nodes) (2 * degree) -> grid_fits nodes -> flags_ok s degree flags -> exact_rules degree flags nodes weights -> closed_products s degree flags ->
  (k < length nodes)%nat -> nth k flags 0%nat = 0%nat -> nothing_dropped s degree nodes weights flags (coordinate nodes k) ->
  forall A, varf_gives s degree nodes weights flags (coordinate nodes k) A -> forall r c, index_of s (length nodes) degree r -> index_of s (length nodes) degree c -> (nth k c 0 < degree)%nat \/ one_more degree k nodes weights ->
  @entry num_R s (length nodes) degree A r c = sqrt (INR (S (nth k c 0%nat))) * same r (raised c k) + sqrt (INR (nth k c 0%nat)) * same r (lowered c k).
Proof. exact coordinate_entry. Qed.
Print Assumptions C101_coordinate.

(** Integration by parts: with B the matrix of d/dx_k, B plus its transpose is the matrix of x_k. *)
Theorem C101_by_parts : forall s degree nodes weights flags k, usable s (length nodes) degree -> fits s (length nodes) (2 * degree) -> grid_fits nodes -> flags_ok s degree flags -> exact_rules degree flags nodes weights -> closed_products s degree flags ->
  (k < length nodes)%nat -> nothing_dropped s degree nodes weights flags (ones nodes) -> nth k flags 0%nat = 0%nat -> nothing_dropped s degree nodes weights flags (coordinate nodes k) ->
  forall A1 AX B, varf_gives s degree nodes weights flags (ones nodes) A1 -> varf_gives s degree nodes weights flags (coordinate nodes k) AX -> varfd_gives s (length nodes) degree k 0 A1 B ->
  one_more degree k nodes weights -> forall r c, index_of s (length nodes) degree r -> index_of s (length nodes) degree c ->
  @entry num_R s (length nodes) degree B r c + @entry num_R s (length nodes) degree B c r = @entry num_R s (length nodes) degree AX r c.
Proof. exact parts_entry. Qed.
Print Assumptions C101_by_parts.

(** The Ornstein-Uhlenbeck operator d^2/dx_k^2 - x_k d/dx_k has a diagonal matrix: minus the degree in direction k ... *)
Theorem C101_ornstein_uhlenbeck : forall s degree nodes weights flags k, usable s (length nodes) degree -> fits s (length nodes) (2 * degree) -> grid_fits nodes -> flags_ok s degree flags -> exact_rules degree flags nodes weights -> closed_products s degree flags ->
  (k < length nodes)%nat -> nothing_dropped s degree nodes weights flags (ones nodes) -> nth k flags 0%nat = 0%nat -> nothing_dropped s degree nodes weights flags (coordinate nodes k) ->
  forall A1 AX B BB BX, varf_gives s degree nodes weights flags (ones nodes) A1 -> varf_gives s degree nodes weights flags (coordinate nodes k) AX ->
  varfd_gives s (length nodes) degree k 0 A1 B -> varfd_gives s (length nodes) degree k 0 B BB -> varfd_gives s (length nodes) degree k 0 AX BX ->
  forall r c, index_of s (length nodes) degree r -> index_of s (length nodes) degree c ->
  @entry num_R s (length nodes) degree BB r c - @entry num_R s (length nodes) degree BX r c = if mi_eqb r c then - INR (nth k c 0%nat) else 0.
Proof. exact ou_entry. Qed.
Print Assumptions C101_ornstein_uhlenbeck.

(** ... so, summed over all the directions, minus the total degree ... *)
Theorem C101_ornstein_uhlenbeck_total : forall s degree nodes weights flags, usable s (length nodes) degree -> fits s (length nodes) (2 * degree) -> grid_fits nodes -> flags_ok s degree flags -> exact_rules degree flags nodes weights -> closed_products s degree flags ->
  Forall (fun f => f = 0%nat) flags -> nothing_dropped s degree nodes weights flags (ones nodes) -> (forall k, (k < length nodes)%nat -> nothing_dropped s degree nodes weights flags (coordinate nodes k)) ->
  forall A1 (AX B BB BX : nat -> list (list R)), varf_gives s degree nodes weights flags (ones nodes) A1 ->
  (forall k, (k < length nodes)%nat -> varf_gives s degree nodes weights flags (coordinate nodes k) (AX k) /\ varfd_gives s (length nodes) degree k 0 A1 (B k) /\ varfd_gives s (length nodes) degree k 0 (B k) (BB k) /\ varfd_gives s (length nodes) degree k 0 (AX k) (BX k)) ->
  forall r c, index_of s (length nodes) degree r -> index_of s (length nodes) degree c ->
  rsum (map (fun k => @entry num_R s (length nodes) degree (BB k) r c - @entry num_R s (length nodes) degree (BX k) r c) (seq 0 (length nodes))) = if mi_eqb r c then - INR (list_sum r) else 0.
Proof. exact ou_total. Qed.
Print Assumptions C101_ornstein_uhlenbeck_total.

(** ... and it is minus the transpose of the matrix B of d/dx_k times B: its quadratic form is minus the square of the length of B u. *)
Theorem C101_number : forall s degree nodes weights flags k, usable s (length nodes) degree -> fits s (length nodes) (2 * degree) -> grid_fits nodes -> flags_ok s degree flags -> exact_rules degree flags nodes weights -> closed_products s degree flags ->
  (k < length nodes)%nat -> nothing_dropped s degree nodes weights flags (ones nodes) -> forall A1 B, varf_gives s degree nodes weights flags (ones nodes) A1 -> varfd_gives s (length nodes) degree k 0 A1 B ->
  forall r c, index_of s (length nodes) degree r -> index_of s (length nodes) degree c ->
  rsum (map (fun j => @entry num_R s (length nodes) degree B j r * @entry num_R s (length nodes) degree B j c) (points s (length nodes) degree)) = if mi_eqb r c then INR (nth k c 0%nat) else 0.
Proof. exact number_entry. Qed.
Print Assumptions C101_number.

(** In a periodic direction the matrix of the derivative is antisymmetric ... *)
Theorem C101_antisymmetric : forall s degree nodes weights flags k, usable s (length nodes) degree -> fits s (length nodes) (2 * degree) -> grid_fits nodes -> flags_ok s degree flags -> exact_rules degree flags nodes weights -> closed_products s degree flags ->
  (k < length nodes)%nat -> nothing_dropped s degree nodes weights flags (ones nodes) -> paired s (length nodes) degree k -> forall A1 B, varf_gives s degree nodes weights flags (ones nodes) A1 -> varfd_gives s (length nodes) degree k 1 A1 B ->
  forall r c, index_of s (length nodes) degree r -> index_of s (length nodes) degree c -> @entry num_R s (length nodes) degree B r c = - @entry num_R s (length nodes) degree B c r.
Proof. exact antisymmetric_entry. Qed.
Print Assumptions C101_antisymmetric.

(** ... and that of the second derivative is diagonal: minus the square of the frequency. *)
Theorem C101_laplacian : forall s degree nodes weights flags k, usable s (length nodes) degree -> fits s (length nodes) (2 * degree) -> grid_fits nodes -> flags_ok s degree flags -> exact_rules degree flags nodes weights -> closed_products s degree flags ->
  (k < length nodes)%nat -> nothing_dropped s degree nodes weights flags (ones nodes) -> paired s (length nodes) degree k -> forall A1 B BB, varf_gives s degree nodes weights flags (ones nodes) A1 -> varfd_gives s (length nodes) degree k 1 A1 B -> varfd_gives s (length nodes) degree k 1 B BB ->
  forall r c, index_of s (length nodes) degree r -> index_of s (length nodes) degree c ->
  @entry num_R s (length nodes) degree BB r c = if mi_eqb r c then - (INR ((nth k c 0%nat + 1) / 2) * INR ((nth k c 0%nat + 1) / 2)) else 0.
Proof. exact laplacian_entry. Qed.
Print Assumptions C101_laplacian.

(** The calls succeed, with the dense and with the sparse overloads, and rules exact up to twice the degree leave no coefficient of these functions under the threshold of varf. *)
Theorem C101_computed : forall s degree nodes weights flags k, usable s (length nodes) degree -> fits s (length nodes) (2 * degree) -> grid_fits nodes -> flags_ok s degree flags -> exact_rules degree flags nodes weights -> closed_products s degree flags -> (k < length nodes)%nat ->
  (nth k flags 0%nat = 1%nat -> paired s (length nodes) degree k) -> forall input, length input = length (grid nodes) -> nothing_dropped s degree nodes weights flags input ->
  (exists A B BB, varf fnum_R (calc_mat fnum_R) s degree input nodes weights flags = Ok A /\ @mat_for num_R s (length nodes) degree A /\
    varfd fnum_R (calc_mat fnum_R) s (length nodes) degree k A (nth k flags 0%nat) = Ok B /\ @mat_for num_R s (length nodes) degree B /\ varfd fnum_R (calc_mat fnum_R) s (length nodes) degree k B (nth k flags 0%nat) = Ok BB) /\
  (exists A B BB, varf fnum_R (calc_spmat fnum_R) s degree input nodes weights flags = Ok A /\ @sp_for num_R s (length nodes) degree A /\
    varfd fnum_R (calc_spmat fnum_R) s (length nodes) degree k A (nth k flags 0%nat) = Ok B /\ @sp_for num_R s (length nodes) degree B /\ varfd fnum_R (calc_spmat fnum_R) s (length nodes) degree k B (nth k flags 0%nat) = Ok BB).
Proof. exact all_computed. Qed.
Print Assumptions C101_computed.
Theorem C101_kept : forall s degree nodes weights flags, fits s (length nodes) (2 * degree) -> flags_ok s degree flags -> exact_rules (2 * degree) flags nodes weights ->
  nothing_dropped s degree nodes weights flags (ones nodes) /\ forall k, (k < length nodes)%nat -> nth k flags 0%nat = 0%nat -> nothing_dropped s degree nodes weights flags (coordinate nodes k).
Proof. intros s degree nodes weights flags Hf Hfl He. exact (conj (ones_kept s degree nodes weights flags Hf Hfl He) (fun k => coordinate_kept s degree nodes weights flags k Hf Hfl He)). Qed.
Print Assumptions C101_kept.

(** Hypotheses met: the two-point Gauss-Hermite rule and degree 1 ... *)
Lemma line_ones : ones [[-1; 1]] = [1; 1]. Proof. reflexivity. Qed.
Lemma line_coordinate : coordinate [[-1; 1]] 0 = [-1; 1]. Proof. reflexivity. Qed.
Lemma line_x_kept : nothing_dropped Triangle 1 [[-1; 1]] [[1/2; 1/2]] [0]%nat [-1; 1].
Proof.
  destruct (gauss2_1d (-1) 1) as [G0 [G1 G2]]. assert (Hp : points Triangle 1 2 = [[0]; [1]; [2]]%nat) by reflexivity. apply nothing_dropped_crit.
  - cbn [length]. change (2 * 1)%nat with 2%nat. rewrite Hp. intros m [<-|[<-|[<-|[]]]]; [left; rewrite G0; field|right; rewrite G1; lra|left; exact G2].
  - cbn; lia.
  - exact I.
  - cbn [length]. change (2 * 1)%nat with 2%nat. rewrite Hp. cbn [map]. rewrite G0, G1, G2. unfold rsum. cbn [fold_right]. lra.
Qed.
Lemma line_more : one_more 1 0 [[-1; 1]] [[1/2; 1/2]].
Proof. intros j _. cbn [nth combine map]. unfold rsum. cbn [fold_right]. rewrite !(proj2 (proj2 (hermite_small _))). replace (-1 * -1 - 1) with 0 by ring. replace (1 * 1 - 1) with 0 by ring. unfold Rdiv. ring. Qed.
Example C101_hermite_example : exists A1 AX B BB BX, varf_gives Triangle 1 [[-1; 1]] [[1/2; 1/2]] [0]%nat (ones [[-1; 1]]) A1 /\ varf_gives Triangle 1 [[-1; 1]] [[1/2; 1/2]] [0]%nat (coordinate [[-1; 1]] 0) AX /\
  varfd_gives Triangle 1 1 0 0 A1 B /\ varfd_gives Triangle 1 1 0 0 B BB /\ varfd_gives Triangle 1 1 0 0 AX BX /\
  @entry num_R Triangle 1 1 BB [1]%nat [1]%nat - @entry num_R Triangle 1 1 BX [1]%nat [1]%nat = -1 /\ @entry num_R Triangle 1 1 B [0]%nat [1]%nat + @entry num_R Triangle 1 1 B [1]%nat [0]%nat = @entry num_R Triangle 1 1 AX [0]%nat [1]%nat.
Proof.
  destruct line_setting as (S1 & S2 & S3 & S4 & S5 & S6). pose proof (line_kept 1 1 ltac:(lra) ltac:(lra)) as K1. pose proof line_x_kept as KX.
  destruct (C101_computed Triangle 1 [[-1; 1]] [[1/2; 1/2]] [0]%nat 0 S1 S2 S3 S4 line_rules S6 ltac:(cbn; lia) ltac:(intros X; discriminate X) (ones [[-1; 1]]) eq_refl K1) as [(A1 & B & BB & E1 & E2 & E3 & E4 & E5) _].
  destruct (C101_computed Triangle 1 [[-1; 1]] [[1/2; 1/2]] [0]%nat 0 S1 S2 S3 S4 line_rules S6 ltac:(cbn; lia) ltac:(intros X; discriminate X) (coordinate [[-1; 1]] 0) eq_refl KX) as [(AX & BX & _ & X1 & X2 & X3 & _) _].
  exists A1, AX, B, BB, BX. assert (V1 : varf_gives Triangle 1 [[-1; 1]] [[1/2; 1/2]] [0]%nat (ones [[-1; 1]]) A1) by (left; exact E1). assert (VX : varf_gives Triangle 1 [[-1; 1]] [[1/2; 1/2]] [0]%nat (coordinate [[-1; 1]] 0) AX) by (left; exact X1).
  assert (D1 : varfd_gives Triangle 1 1 0 0 A1 B) by (left; split; [exact E2|exact E3]). assert (D2 : varfd_gives Triangle 1 1 0 0 B BB) by (left; split; [exact E4|exact E5]). assert (D3 : varfd_gives Triangle 1 1 0 0 AX BX) by (left; split; [exact X2|exact X3]).
  assert (I : forall i, (i <= 1)%nat -> index_of Triangle 1 1 [i]) by (intros i Hi; split; [reflexivity|cbn; lia]).
  repeat (split; [assumption|]). split.
  - refine (eq_trans (C101_ornstein_uhlenbeck Triangle 1 [[-1; 1]] [[1/2; 1/2]] [0]%nat 0 S1 S2 S3 S4 line_rules S6 ltac:(cbn; lia) K1 eq_refl KX A1 AX B BB BX V1 VX D1 D2 D3 [1]%nat [1]%nat (I 1%nat ltac:(lia)) (I 1%nat ltac:(lia))) _). cbn. lra.
  - exact (C101_by_parts Triangle 1 [[-1; 1]] [[1/2; 1/2]] [0]%nat 0 S1 S2 S3 S4 line_rules S6 ltac:(cbn; lia) K1 eq_refl KX A1 AX B V1 VX D1 line_more [0]%nat [1]%nat (I 0%nat ltac:(lia)) (I 1%nat ltac:(lia))).
Qed.
(** ... and the periodic rule of five points, degree 2, in a direction beside a Hermite one or alone. *)
Example C101_fourier_example : let nodes := [fourier_nodes fnum_R 5] in let weights := [fourier_weights fnum_R 5] in exists A1 B BB, varf_gives Cube 2 nodes weights [1]%nat (ones nodes) A1 /\ varfd_gives Cube 1 2 0 1 A1 B /\ varfd_gives Cube 1 2 0 1 B BB /\
  paired Cube 1 2 0 /\ exact_rules (2 * 2) [1]%nat nodes weights /\ @entry num_R Cube 1 2 BB [2]%nat [2]%nat = -1 /\ @entry num_R Cube 1 2 BB [1]%nat [2]%nat = 0.
Proof.
  intros nodes weights. assert (S1 : usable Cube 1 2) by (apply usable_dim4; lia). assert (S2 : fits Cube 1 (2 * 2)) by (apply usable_fits, usable_dim4; lia).
  assert (L5 : length (fourier_nodes fnum_R 5) = 5%nat) by (unfold fourier_nodes; rewrite ?map_length, ?seq_length; reflexivity).
  assert (G5 : grid nodes = row_major [5]%nat) by (unfold grid, nodes; cbn [map]; f_equal; f_equal; exact L5).
  assert (S3 : grid_fits nodes) by (unfold grid_fits; rewrite G5; cbn; lia). assert (S4 : flags_ok Cube 2 [1]%nat) by (split; [constructor; [right; split; reflexivity|constructor]|intros [X|X]; discriminate X]).
  assert (R4 : exact_rules (2 * 2) [1]%nat nodes weights) by (split; [reflexivity|split; [reflexivity|intros [|k] Hk; [exact (fourier_exact 4 5 eq_refl ltac:(lia))|cbn in Hk; lia]]]).
  assert (R2 : exact_rules 2 [1]%nat nodes weights) by (split; [reflexivity|split; [reflexivity|intros [|k] Hk; [exact (fourier_exact 2 5 eq_refl ltac:(lia))|cbn in Hk; lia]]]).
  assert (P : paired Cube 1 2 0) by (apply paired_cube; [reflexivity|lia]). assert (S6 : closed_products Cube 2 [1]%nat) by (left; reflexivity).
  destruct (C101_kept Cube 2 nodes weights [1]%nat S2 S4 R4) as [K _].
  destruct (C101_computed Cube 2 nodes weights [1]%nat 0 S1 S2 S3 S4 R2 S6 ltac:(cbn; lia) (fun _ => P) (ones nodes) ltac:(unfold ones; apply map_length) K) as [_ (A1 & B & BB & E1 & E2 & E3 & E4 & E5)].
  assert (V1 : varf_gives Cube 2 nodes weights [1]%nat (ones nodes) (@dense num_R A1)) by (right; exists A1; split; [exact E1|reflexivity]).
  assert (D1 : varfd_gives Cube 1 2 0 1 (@dense num_R A1) (@dense num_R B)) by (right; exists A1, B; split; [exact E2|split; [reflexivity|split; [exact E3|reflexivity]]]).
  assert (D2 : varfd_gives Cube 1 2 0 1 (@dense num_R B) (@dense num_R BB)) by (right; exists B, BB; split; [exact E4|split; [reflexivity|split; [exact E5|reflexivity]]]).
  assert (I : forall i, (i <= 2)%nat -> index_of Cube 1 2 [i]) by (intros i Hi; split; [reflexivity|constructor; [exact Hi|constructor]]).
  exists (@dense num_R A1), (@dense num_R B), (@dense num_R BB). repeat (split; [assumption|]).
  pose proof (fun r c => C101_laplacian Cube 2 nodes weights [1]%nat 0 S1 S2 S3 S4 R2 S6 ltac:(cbn; lia) K P _ _ _ V1 D1 D2 r c) as L. split.
  - refine (eq_trans (L [2]%nat [2]%nat (I 2%nat ltac:(lia)) (I 2%nat ltac:(lia))) _). cbn. lra.
  - exact (L [1]%nat [2]%nat (I 1%nat ltac:(lia)) (I 2%nat ltac:(lia))).
Qed.
