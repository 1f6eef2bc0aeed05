(** Properties C35-C38 and C62: tensorization of transforms and the variational formulations. *)
From Coq Require Import List Bool Arith ZArith Reals Lra Lia Permutation.
From Verif Require Import Base IndexModel Spec Num Fnum LinModel LinSpec LinBase CalcModel CalcSpec Facts2 Facts7 Facts8 Facts9.
Import ListNotations.
Local Open Scope R_scope.

(** C35: transforming the factors of a product of functions of disjoint groups of directions and tensorizing the
    coefficients gives the transform of the product. *)
Theorem C35_transform : forall s degree nodes weights flags dirs factors, usable s (length nodes) degree -> flags_ok s degree flags ->
  length flags = length nodes -> rules_match nodes weights -> grid_fits nodes -> Permutation (seq 0 (length nodes)) (concat dirs) ->
  Forall (fun dj => increasing dj /\ dj <> [] /\ grid_fits (pick [] nodes dj)) dirs ->
  Forall2 (fun dj f => length f = length (grid (pick [] nodes dj))) dirs factors ->
  exists cs out,
  mapM (fun '(dj, f) => transform fnum_R s degree f (pick [] nodes dj) (pick [] weights dj) (pick 0%nat flags dj) true) (combine dirs factors) = Ok cs /\
  tensorize_vec fnum_R s cs dirs = Ok out /\
  transform fnum_R s degree (product_values nodes dirs factors) nodes weights flags true = Ok out.
Proof. exact transform_tensor. Qed.
Print Assumptions C35_transform.
(** The same for varf, when varf drops nothing (see C36). *)
Theorem C35_varf : forall s degree nodes weights flags dirs factors, usable s (length nodes) degree -> flags_ok s degree flags ->
  length flags = length nodes -> rules_match nodes weights -> grid_fits nodes -> Permutation (seq 0 (length nodes)) (concat dirs) ->
  Forall (fun dj => increasing dj /\ dj <> [] /\ grid_fits (pick [] nodes dj)) dirs ->
  Forall2 (fun dj f => length f = length (grid (pick [] nodes dj))) dirs factors ->
  usable s (length nodes) (2 * degree) -> closed_products s degree flags ->
  (forall dj f, In (dj, f) (combine dirs factors) -> nothing_dropped s degree (pick [] nodes dj) (pick [] weights dj) (pick 0%nat flags dj) f) ->
  nothing_dropped s degree nodes weights flags (product_values nodes dirs factors) ->
  exists As A,
  mapM (fun '(dj, f) => varf fnum_R (calc_mat fnum_R) s degree f (pick [] nodes dj) (pick [] weights dj) (pick 0%nat flags dj)) (combine dirs factors) = Ok As /\
  tensorize_mats fnum_R s As dirs = Ok A /\
  varf fnum_R (calc_mat fnum_R) s degree (product_values nodes dirs factors) nodes weights flags = Ok A.
Proof. exact varf_tensor. Qed.
Print Assumptions C35_varf.
(** Two directions with the two-point Gauss rule, values (1,3) and (2,4). *)
Example C35_example : let nodes := [[-1; 1]; [-1; 1]] in let weights := [[1/2; 1/2]; [1/2; 1/2]] in let flags := [0; 0]%nat in
  let dirs := [[0]; [1]]%nat in let factors := [[1; 3]; [2; 4]] in
  usable Triangle (length nodes) (2 * 1) /\ usable Triangle (length nodes) 1 /\ flags_ok Triangle 1 flags /\ length flags = length nodes /\ rules_match nodes weights /\ grid_fits nodes /\
  Permutation (seq 0 (length nodes)) (concat dirs) /\ Forall (fun dj => increasing dj /\ dj <> [] /\ grid_fits (pick [] nodes dj)) dirs /\
  Forall2 (fun dj f => length f = length (grid (pick [] nodes dj))) dirs factors /\ closed_products Triangle 1 flags /\
  product_values nodes dirs factors = [2; 4; 6; 12] /\
  (forall dj f, In (dj, f) (combine dirs factors) -> nothing_dropped Triangle 1 (pick [] nodes dj) (pick [] weights dj) (pick 0%nat flags dj) f) /\
  nothing_dropped Triangle 1 nodes weights flags [2; 4; 6; 12].
Proof.
  cbn zeta. split; [apply usable_dim4; cbn; lia|]. split; [apply usable_dim4; cbn; lia|]. split; [split; [repeat constructor|intros [H|H]; discriminate]|].
  split; [reflexivity|]. split; [repeat constructor|]. split; [unfold grid_fits; cbn; lia|]. split; [apply Permutation_refl|].
  split; [repeat constructor; try discriminate|]. split; [repeat constructor|]. split; [right; repeat constructor|]. split; [rewrite product_2d; repeat f_equal; ring|].
  split; [|exact dropped_2d]. intros dj f [E|[E|[]]]; injection E as <- <-; apply dropped_1d; try (left; reflexivity); lra.
Qed.

(** C36: entry (r,c) of varf, dense or sparse, is the sum over the grid of weight * f * phi_r * phi_c. *)
Theorem C36_varf_galerkin : forall s degree nodes weights flags input, usable s (length nodes) degree -> fits s (length nodes) (2 * degree) -> grid_fits nodes ->
  flags_ok s degree flags -> length flags = length nodes -> rules_match nodes weights -> length input = length (grid nodes) ->
  closed_products s degree flags -> nothing_dropped s degree nodes weights flags input ->
  exists A B, varf fnum_R (calc_mat fnum_R) s degree input nodes weights flags = Ok A /\ @mat_for num_R s (length nodes) degree A /\
    varf fnum_R (calc_spmat fnum_R) s degree input nodes weights flags = Ok B /\ @sp_for num_R s (length nodes) degree B /\
    forall r c, index_of s (length nodes) degree r -> index_of s (length nodes) degree c ->
      @entry num_R s (length nodes) degree A r c = galerkin nodes weights flags input r c /\ @entry num_R s (length nodes) degree (dense B) r c = galerkin nodes weights flags input r c.
Proof. exact varf_galerkin. Qed.
Print Assumptions C36_varf_galerkin.
(** C38: whatever is dropped, the distance to the discrete Galerkin matrix is at most the threshold times the sum of the
    absolute values of the products of table entries. *)
Theorem C38_varf_bound : forall s degree nodes weights flags input, usable s (length nodes) degree -> fits s (length nodes) (2 * degree) -> grid_fits nodes ->
  flags_ok s degree flags -> length flags = length nodes -> rules_match nodes weights -> length input = length (grid nodes) ->
  closed_products s degree flags -> forall TH TF, triple_products_1d fnum_R degree = Ok TH -> (In 1%nat flags -> triple_products_fourier fnum_R degree = Ok TF) ->
  exists A B, varf fnum_R (calc_mat fnum_R) s degree input nodes weights flags = Ok A /\ @mat_for num_R s (length nodes) degree A /\
    varf fnum_R (calc_spmat fnum_R) s degree input nodes weights flags = Ok B /\ @sp_for num_R s (length nodes) degree B /\
    forall r c, index_of s (length nodes) degree r -> index_of s (length nodes) degree c ->
      let bound := threshold (fun m => quadrature nodes weights input (phi flags m)) (points s (length nodes) (2 * degree)) *
                   rsum (map (fun m => Rabs (table_product TH TF flags m r c)) (points s (length nodes) (2 * degree))) in
      Rabs (@entry num_R s (length nodes) degree A r c - galerkin nodes weights flags input r c) <= bound /\
      Rabs (@entry num_R s (length nodes) degree (dense B) r c - galerkin nodes weights flags input r c) <= bound.
Proof. exact varf_bound. Qed.
Print Assumptions C38_varf_bound.
Example C36_C38_example : let nodes := [[-1; 1]; [-1; 1]] in let weights := [[1/2; 1/2]; [1/2; 1/2]] in let flags := [0; 0]%nat in let input := [2; 4; 6; 12] in
  usable Triangle (length nodes) 1 /\ fits Triangle (length nodes) (2 * 1) /\ grid_fits nodes /\ flags_ok Triangle 1 flags /\ length flags = length nodes /\ rules_match nodes weights /\
  length input = length (grid nodes) /\ closed_products Triangle 1 flags /\ nothing_dropped Triangle 1 nodes weights flags input /\
  (exists TH, triple_products_1d fnum_R 1 = Ok TH) /\ index_of Triangle 2 1 [1; 0]%nat /\ closed_products Rectangle 4 [1; 1]%nat /\ ~ closed_products Triangle 2 [1; 0]%nat.
Proof.
  cbn zeta. split; [apply usable_dim4; cbn; lia|]. split; [apply usable_fits, usable_dim4; cbn; lia|]. split; [unfold grid_fits; cbn; lia|].
  split; [split; [repeat constructor|intros [H|H]; discriminate]|]. split; [reflexivity|]. split; [repeat constructor|]. split; [reflexivity|].
  split; [right; repeat constructor|]. split; [exact dropped_2d|]. split; [|split; [split; [reflexivity|cbn; lia]|split; [right; right; reflexivity|]]].
  - destruct (tables_exist Triangle 1 [0; 0]%nat) as [TH [TF [E _]]]; [split; [repeat constructor|intros [H|H]; discriminate]|]. exists TH. exact E.
  - intros [H|H]; [discriminate|]. inversion H. discriminate.
Qed.

(** C37: the property fails on the hyperbolic cross, even when nothing is dropped: with one node at the origin, degree 1, the
    entry ((1,1),(1,1)) is -1 instead of 0. *)
Theorem C37_cross_refuted : ~ (forall degree nodes weights flags input, usable Cross (length nodes) degree -> fits Cross (length nodes) (2 * degree) -> grid_fits nodes ->
  flags_ok Cross degree flags -> length flags = length nodes -> rules_match nodes weights -> length input = length (grid nodes) -> nothing_dropped Cross degree nodes weights flags input ->
  exists A, varf fnum_R (calc_mat fnum_R) Cross degree input nodes weights flags = Ok A /\
    forall r c, index_of Cross (length nodes) degree r -> index_of Cross (length nodes) degree c -> @entry num_R Cross (length nodes) degree A r c = galerkin nodes weights flags input r c).
Proof. exact varf_cross_refuted. Qed.
Print Assumptions C37_cross_refuted.
Theorem C37_cross_witness : exists A, varf fnum_R (calc_mat fnum_R) Cross 1 [1] [[0]; [0]] [[1]; [1]] [0; 0]%nat = Ok A /\
  @entry num_R Cross 2 1 A [1; 1]%nat [1; 1]%nat = -1 /\ galerkin [[0]; [0]] [[1]; [1]] [0; 0]%nat [1] [1; 1]%nat [1; 1]%nat = 0.
Proof. exact varf_cross. Qed.
Print Assumptions C37_cross_witness.
(** What holds for every set: the entry is the sum over the set of degree 2d of the kept coefficients of the transform of
    f times the product of the triple-product tables of C30 and C31. *)
Theorem C37_varf_formula : forall s degree nodes weights flags input, usable s (length nodes) degree -> fits s (length nodes) (2 * degree) -> grid_fits nodes ->
  flags_ok s degree flags -> length flags = length nodes -> rules_match nodes weights -> length input = length (grid nodes) ->
  forall TH TF, triple_products_1d fnum_R degree = Ok TH -> (In 1%nat flags -> triple_products_fourier fnum_R degree = Ok TF) ->
  exists A B, varf fnum_R (calc_mat fnum_R) s degree input nodes weights flags = Ok A /\ @mat_for num_R s (length nodes) degree A /\
    varf fnum_R (calc_spmat fnum_R) s degree input nodes weights flags = Ok B /\ @sp_for num_R s (length nodes) degree B /\
    forall r c, index_of s (length nodes) degree r -> index_of s (length nodes) degree c ->
      let h := fun m => quadrature nodes weights input (phi flags m) in let pts := points s (length nodes) (2 * degree) in
      @entry num_R s (length nodes) degree A r c = rsum (map (fun m => (if Rlt_dec (Rabs (h m)) (threshold h pts) then 0 else h m) * table_product TH TF flags m r c) pts) /\
      @entry num_R s (length nodes) degree (dense B) r c = @entry num_R s (length nodes) degree A r c.
Proof. exact varf_formula. Qed.
Print Assumptions C37_varf_formula.
Example C37_varf_formula_example : let nodes := [[0]; [0]] in let weights := [[1]; [1]] in let flags := [0; 0]%nat in
  usable Cross (length nodes) 1 /\ fits Cross (length nodes) (2 * 1) /\ grid_fits nodes /\ flags_ok Cross 1 flags /\ length flags = length nodes /\ rules_match nodes weights /\
  length [1] = length (grid nodes) /\ (exists TH, triple_products_1d fnum_R 1 = Ok TH) /\ nothing_dropped Cross 1 nodes weights flags [1].
Proof.
  cbn zeta. split; [apply usable_dim4; cbn; lia|]. split; [apply usable_fits, usable_dim4; cbn; lia|]. split; [unfold grid_fits; cbn; lia|].
  split; [split; [repeat constructor|intros; lia]|]. split; [reflexivity|]. split; [repeat constructor|]. split; [reflexivity|]. split; [|exact dropped_cross].
  destruct (tables_exist Triangle 1 [0; 0]%nat) as [TH [TF [E _]]]; [split; [repeat constructor|intros [H|H]; discriminate]|]. exists TH. exact E.
Qed.

(** C62: the property also fails on the triangle as soon as one direction is a Fourier direction. *)
Theorem C62_triangle_fourier_refuted : ~ (forall degree nodes weights flags input, usable Triangle (length nodes) degree -> fits Triangle (length nodes) (2 * degree) -> grid_fits nodes ->
  flags_ok Triangle degree flags -> length flags = length nodes -> rules_match nodes weights -> length input = length (grid nodes) -> nothing_dropped Triangle degree nodes weights flags input ->
  exists A, varf fnum_R (calc_mat fnum_R) Triangle degree input nodes weights flags = Ok A /\
    forall r c, index_of Triangle (length nodes) degree r -> index_of Triangle (length nodes) degree c -> @entry num_R Triangle (length nodes) degree A r c = galerkin nodes weights flags input r c).
Proof. exact varf_triangle_refuted. Qed.
Print Assumptions C62_triangle_fourier_refuted.
Theorem C62_triangle_fourier_witness : exists A, varf fnum_R (calc_mat fnum_R) Triangle 2 [1] [[0]; [0]] [[1]; [1]] [1; 0]%nat = Ok A /\
  @entry num_R Triangle 2 2 A [1; 1]%nat [1; 1]%nat = - / (2 * PI) /\ galerkin [[0]; [0]] [[1]; [1]] [1; 0]%nat [1] [1; 1]%nat [1; 1]%nat = 0.
Proof. exact varf_triangle_fourier. Qed.
Print Assumptions C62_triangle_fourier_witness.
