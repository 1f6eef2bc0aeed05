(** C102: integrate, transform, varf and varfd of the Python interface, on arrays and sparse matrices. *)
From Coq Require Import String List Bool Arith ZArith Reals Lra Lia.
From Verif Require Import Base IndexModel Spec Num Fnum LinModel LinSpec LinBase CalcModel CalcSpec CalcReal NdModel NdSpec NdFacts PyBase CoreModel CoreSpec Core2Model Core2Spec FormSpec OuSpec FormFacts Core2Facts Properties34 Properties35.
Import ListNotations.
Local Open Scope string_scope. Local Open Scope list_scope. Local Open Scope nat_scope.

(** C102: varf gives an array, or a csr_matrix if that is asked for, of the shape of the index set; both hold the matrix computed by the C++ function, with the same entries ... *)
Theorem C102_varf : forall nodes weights (input : list R), nodes <> [] -> Forall (fun v => v <> []) nodes -> rules_match nodes weights -> length input = length (grid nodes) ->
  forall s degree do_fourier, usable s (length nodes) degree -> small s (length nodes) degree -> fits s (length nodes) (2 * degree) -> grid_fits nodes -> flags_ok s degree (flags_or do_fourier nodes) -> length (flags_or do_fourier nodes) = length nodes ->
  exists a c,
  core_varf fnum_R degree (@PVec num_R input) (arrays nodes) (arrays weights) false do_fourier (set_name s) = Ok (@WArr fnum_R a) /\ core_varf fnum_R degree (@PVec num_R input) (arrays nodes) (arrays weights) true do_fourier (set_name s) = Ok (@WCsr fnum_R c) /\
  pymat_for s (length nodes) degree (@WArr fnum_R a) /\ pymat_for s (length nodes) degree (@WCsr fnum_R c) /\
  varf_gives s degree nodes weights (flags_or do_fourier nodes) input (shown (@WArr fnum_R a)) /\ varf_gives s degree nodes weights (flags_or do_fourier nodes) input (shown (@WCsr fnum_R c)) /\
  forall r k, index_of s (length nodes) degree r -> index_of s (length nodes) degree k -> @entry num_R s (length nodes) degree (shown (@WArr fnum_R a)) r k = @entry num_R s (length nodes) degree (shown (@WCsr fnum_R c)) r k.
Proof. exact varf_python. Qed.
Print Assumptions C102_varf.

(** ... which are the integrals of the function times two basis functions. *)
Theorem C102_galerkin : forall nodes weights (input : list R), nodes <> [] -> Forall (fun v => v <> []) nodes -> rules_match nodes weights -> length input = length (grid nodes) ->
  forall s degree do_fourier, usable s (length nodes) degree -> small s (length nodes) degree -> fits s (length nodes) (2 * degree) -> grid_fits nodes -> flags_ok s degree (flags_or do_fourier nodes) -> length (flags_or do_fourier nodes) = length nodes ->
  forall sparse w, closed_products s degree (flags_or do_fourier nodes) -> nothing_dropped s degree nodes weights (flags_or do_fourier nodes) input ->
  core_varf fnum_R degree (@PVec num_R input) (arrays nodes) (arrays weights) sparse do_fourier (set_name s) = Ok w ->
  forall r c, index_of s (length nodes) degree r -> index_of s (length nodes) degree c -> @entry num_R s (length nodes) degree (shown w) r c = galerkin nodes weights (flags_or do_fourier nodes) input r c.
Proof. exact galerkin_python. Qed.
Print Assumptions C102_galerkin.

(** varfd of an array or of a csr_matrix is one of the same kind and shape, and column c of it is column c of the argument with entry k lowered (or with sine and cosine exchanged), times the factor of the derivative. *)
Theorem C102_varfd : forall s dim degree k flag w, usable s dim degree -> small s dim degree -> k < dim -> flag = 0 \/ flag = 1 -> (flag = 1 -> paired s dim degree k) -> pymat_for s dim degree w ->
  exists w', core_varfd fnum_R dim degree k w flag (set_name s) = Ok w' /\ sparse_kind w' = sparse_kind w /\ pymat_for s dim degree w' /\ varfd_gives s dim degree k flag (shown w) (shown w') /\
    forall r c, index_of s dim degree r -> index_of s dim degree c ->
      @entry num_R s dim degree (shown w') r c = (fst (dterm flag (nth k c 0%nat)) * @entry num_R s dim degree (shown w) r (with_entry c k (snd (dterm flag (nth k c 0%nat)))))%R.
Proof. exact varfd_python. Qed.
Print Assumptions C102_varfd.

(** The functions compose: the matrix of d^2/dx_k^2 - x_k d/dx_k, computed by calling varf and varfd, dense or sparse, is diagonal with the eigenvalues of the Ornstein-Uhlenbeck operator. *)
Theorem C102_composed : forall s degree nodes weights do_fourier k sparse, nodes <> [] -> Forall (fun v => v <> []) nodes ->
  usable s (length nodes) degree -> small s (length nodes) degree -> fits s (length nodes) (2 * degree) -> grid_fits nodes -> flags_ok s degree (flags_or do_fourier nodes) -> exact_rules degree (flags_or do_fourier nodes) nodes weights -> closed_products s degree (flags_or do_fourier nodes) ->
  k < length nodes -> nothing_dropped s degree nodes weights (flags_or do_fourier nodes) (ones nodes) -> nth k (flags_or do_fourier nodes) 0 = 0 -> nothing_dropped s degree nodes weights (flags_or do_fourier nodes) (coordinate nodes k) ->
  let varf_of values := core_varf fnum_R degree (@PVec num_R values) (arrays nodes) (arrays weights) sparse do_fourier (set_name s) in let d w := core_varfd fnum_R (length nodes) degree k w 0 (set_name s) in
  exists one x d1 d2 dx, varf_of (ones nodes) = Ok one /\ varf_of (coordinate nodes k) = Ok x /\ d one = Ok d1 /\ d d1 = Ok d2 /\ d x = Ok dx /\ sparse_kind d2 = sparse /\ sparse_kind dx = sparse /\
  forall r c, index_of s (length nodes) degree r -> index_of s (length nodes) degree c ->
    (@entry num_R s (length nodes) degree (shown d2) r c - @entry num_R s (length nodes) degree (shown dx) r c)%R = if mi_eqb r c then (- INR (nth k c 0%nat))%R else 0%R.
Proof. exact ou_python. Qed.
Print Assumptions C102_composed.

(** transform: the coefficients are the integrals against the basis functions; backward it evaluates the series; with exact rules the two are inverse to each other. *)
Theorem C102_transform : forall s degree nodes weights do_fourier input, nodes <> [] -> Forall (fun v => v <> []) nodes ->
  usable s (length nodes) degree -> grid_fits nodes -> flags_ok s degree (flags_or do_fourier nodes) -> length (flags_or do_fourier nodes) = length nodes -> rules_match nodes weights -> length input = length (grid nodes) ->
  exists out, core_transform fnum_R degree (@PVec num_R input) (arrays nodes) (arrays weights) true do_fourier (set_name s) = Ok (@PVec num_R out) /\ @vec_for num_R s (length nodes) degree out /\
    forall m, index_of s (length nodes) degree m -> @coef num_R s (length nodes) degree out m = quadrature nodes weights input (phi (flags_or do_fourier nodes) m).
Proof. exact forward_python. Qed.
Print Assumptions C102_transform.
Theorem C102_inverse : forall s degree nodes weights do_fourier (c : list R), nodes <> [] -> Forall (fun v => v <> []) nodes ->
  usable s (length nodes) degree -> grid_fits nodes -> flags_ok s degree (flags_or do_fourier nodes) -> exact_rules degree (flags_or do_fourier nodes) nodes weights -> @vec_for num_R s (length nodes) degree c ->
  exists values, core_transform fnum_R degree (@PVec num_R c) (arrays nodes) (arrays weights) false do_fourier (set_name s) = Ok (@PVec num_R values) /\
    values = map (fun p => CalcSpec.series s degree (flags_or do_fourier nodes) c (at_pos nodes p)) (grid nodes) /\
    core_transform fnum_R degree (@PVec num_R values) (arrays nodes) (arrays weights) true do_fourier (set_name s) = Ok (@PVec num_R c).
Proof. exact inverts_python. Qed.
Print Assumptions C102_inverse.

(** integrate: the default of do_fourier is a call that goes outside a vector, whatever the function and the rule (C29, here through the Python interface); the quadrature sum results where all the directions are Fourier ones. *)
Theorem C102_integrate_refuted : forall nodes weights (input : list R), nodes <> [] -> Forall (fun v => v <> []) nodes -> rules_match nodes weights -> length input = length (grid nodes) ->
  core_integrate fnum_R (@PVec num_R input) (arrays nodes) (arrays weights) None = Ub.
Proof. exact integrate_default_ub. Qed.
Print Assumptions C102_integrate_refuted.
Theorem C102_integrate : forall nodes weights (input : list R), nodes <> [] -> Forall (fun v => v <> []) nodes -> grid_fits nodes -> rules_match nodes weights -> length input = length (grid nodes) ->
  core_integrate fnum_R (@PVec num_R input) (arrays nodes) (arrays weights) (Some (repeat 1 (length nodes))) = Ok (quadrature nodes weights input (fun _ => 1%R)).
Proof. exact integrate_fourier_python. Qed.
Print Assumptions C102_integrate.

(** A name of no index set ends the Python process. *)
Theorem C102_unknown : forall name, named name = None ->
  (forall nodes weights (input : list R), nodes <> [] -> Forall (fun v => v <> []) nodes -> rules_match nodes weights -> length input = length (grid nodes) -> forall degree forward sparse do_fourier,
     core_transform fnum_R degree (@PVec num_R input) (arrays nodes) (arrays weights) forward do_fourier name = Exit 1 /\ core_varf fnum_R degree (@PVec num_R input) (arrays nodes) (arrays weights) sparse do_fourier name = Exit 1) /\
  forall s dim degree k flag w, usable s dim degree -> pymat_for s dim degree w -> core_varfd fnum_R dim degree k w flag name = Exit 1.
Proof. intros name H. split; [intros nodes weights input H1 H2 H3 H4; exact (unknown_python nodes weights input H1 H2 H3 H4 name H)|exact (unknown_varfd name H)]. Qed.
Print Assumptions C102_unknown.

(** C102 is false of varfd on arrays that are not contiguous, such as the first columns of a wider array: the call succeeds and the result belongs to another matrix. *)
Theorem C102_view_refuted : ~ forall s dim degree k (a : ndarray R) p w', usable s dim degree -> small s dim degree -> k < dim ->
  nd_array a (length (points s dim degree)) (length (points s dim degree)) p 1 -> (Z.of_nat (length (points s dim degree)) <= p)%Z ->
  core_varfd fnum_R dim degree k (@WArr fnum_R a) 0 (set_name s) = Ok w' -> forall r c, index_of s dim degree r -> index_of s dim degree c ->
  @entry num_R s dim degree (shown w') r c = (sqrt (INR (nth k c 0%nat)) * @entry num_R s dim degree (shown (@WArr fnum_R a)) r (lowered c k))%R.
Proof. exact view_refuted. Qed.
Print Assumptions C102_view_refuted.

(** Hypotheses met: the two-point Gauss-Hermite rule and degree 1 for the Hermite directions, by default and with do_fourier given ... *)
Local Open Scope R_scope.
Lemma line_python : [[-1; 1]] <> [] /\ Forall (fun v : list R => v <> []) [[-1; 1]] /\ small Triangle 1 1.
Proof. split; [discriminate|]. split; [constructor; [discriminate|constructor]|]. unfold small. assert (P : points Triangle 1 1 = [[0]; [1]]%nat) by reflexivity. rewrite P. reflexivity. Qed.
Example C102_varf_example : exists a c,
  core_varf fnum_R 1 (@PVec num_R [1; 2]) (arrays [[-1; 1]]) (arrays [[1/2; 1/2]]) false None "triangle" = Ok (@WArr fnum_R a) /\ core_varf fnum_R 1 (@PVec num_R [1; 2]) (arrays [[-1; 1]]) (arrays [[1/2; 1/2]]) true (Some [0]%nat) "triangle" = Ok (@WCsr fnum_R c) /\
  @entry num_R Triangle 1 1 (shown (@WArr fnum_R a)) [0]%nat [1]%nat = 1 / 2 /\ @entry num_R Triangle 1 1 (shown (@WCsr fnum_R c)) [0]%nat [1]%nat = 1 / 2.
Proof.
  destruct line_setting as (S1 & S2 & S3 & S4 & S5 & S6). destruct line_python as (L1 & L2 & L3). pose proof (line_kept 1 2 ltac:(lra) ltac:(lra)) as K.
  destruct (C102_varf [[-1; 1]] [[1/2; 1/2]] [1; 2] L1 L2 S5 eq_refl Triangle 1 None S1 L3 S2 S3 S4 eq_refl) as (a & c & E1 & E2 & _ & _ & E5 & E6 & E7). exists a, c.
  assert (I : forall i, (i <= 1)%nat -> index_of Triangle 1 1 [i]) by (intros i Hi; split; [reflexivity|cbn; lia]).
  assert (G : @entry num_R Triangle 1 1 (shown (@WArr fnum_R a)) [0]%nat [1]%nat = 1 / 2).
  { refine (eq_trans (C102_galerkin [[-1; 1]] [[1/2; 1/2]] [1; 2] L1 L2 S5 eq_refl Triangle 1 None S1 L3 S2 S3 S4 eq_refl false _ S6 K E1 [0]%nat [1]%nat (I 0%nat ltac:(lia)) (I 1%nat ltac:(lia))) _).
    destruct (line_matrix 1 2 ltac:(lra) ltac:(lra)) as (A & HA & _ & G & _). refine (eq_trans (eq_sym (gives_galerkin Triangle 1 [[-1; 1]] [[1/2; 1/2]] [0]%nat [1; 2] S1 S2 S3 S4 eq_refl S5 eq_refl S6 K A HA [0]%nat [1]%nat (I 0%nat ltac:(lia)) (I 1%nat ltac:(lia)))) _). refine (eq_trans G _). lra. }
  split; [exact E1|]. split; [exact E2|]. split; [exact G|]. rewrite <- G. symmetry. exact (E7 [0]%nat [1]%nat (I 0%nat ltac:(lia)) (I 1%nat ltac:(lia))).
Qed.
Example C102_composed_example : forall sparse, exists one d1 d2, core_varf fnum_R 1 (@PVec num_R (ones [[-1; 1]])) (arrays [[-1; 1]]) (arrays [[1/2; 1/2]]) sparse None "triangle" = Ok one /\
  core_varfd fnum_R 1 1 0 one 0 "triangle" = Ok d1 /\ core_varfd fnum_R 1 1 0 d1 0 "triangle" = Ok d2 /\ sparse_kind d2 = sparse /\ nothing_dropped Triangle 1 [[-1; 1]] [[1/2; 1/2]] [0]%nat (coordinate [[-1; 1]] 0) /\ exact_rules 1 [0]%nat [[-1; 1]] [[1/2; 1/2]].
Proof.
  intros sparse. destruct line_setting as (S1 & S2 & S3 & S4 & S5 & S6). destruct line_python as (L1 & L2 & L3). pose proof (line_kept 1 1 ltac:(lra) ltac:(lra)) as K1. pose proof line_x_kept as KX.
  destruct (C102_composed Triangle 1 [[-1; 1]] [[1/2; 1/2]] None 0 sparse L1 L2 S1 L3 S2 S3 S4 line_rules S6 ltac:(cbn; lia) K1 eq_refl KX) as (one & x & d1 & d2 & dx & E1 & _ & E2 & E3 & _ & E4 & _).
  exists one, d1, d2. repeat (split; [assumption|]). exact line_rules.
Qed.
Example C102_inverse_example : exists values, core_transform fnum_R 1 (@PVec num_R [3; 5]) (arrays [[-1; 1]]) (arrays [[1/2; 1/2]]) false None "triangle" = Ok (@PVec num_R values) /\ length values = 2%nat /\
  core_transform fnum_R 1 (@PVec num_R values) (arrays [[-1; 1]]) (arrays [[1/2; 1/2]]) true None "triangle" = Ok (@PVec num_R [3; 5]).
Proof.
  destruct line_setting as (S1 & S2 & S3 & S4 & S5 & S6). destruct line_python as (L1 & L2 & L3). destruct (C102_inverse Triangle 1 [[-1; 1]] [[1/2; 1/2]] None [3; 5] L1 L2 S1 S3 S4 line_rules eq_refl) as (values & E1 & E2 & E3).
  exists values. split; [exact E1|]. split; [rewrite E2; reflexivity|exact E3].
Qed.
(** ... the array and the csr_matrix of the matrix 1 2 / 0 3 for varfd, and the name of no index set. *)
Example C102_varfd_example : pymat_for Triangle 1 1 (@WArr fnum_R (nd_new R 2 2 [[1; 2]; [0; 3]])) /\ shown (@WArr fnum_R (nd_new R 2 2 [[1; 2]; [0; 3]])) = [[1; 2]; [0; 3]] /\
  pymat_for Triangle 1 1 (@WCsr fnum_R (Csr (N := num_R) [1; 2; 3] [0; 1; 1]%nat [0; 2; 3]%nat 2 2)) /\ named "square" = None.
Proof.
  destruct line_python as (_ & _ & L3). assert (P : points Triangle 1 1 = [[0]; [1]]%nat) by reflexivity. unfold pymat_for, small in *. rewrite P in *.
  destruct (new_rows 2 [[1; 2]; [0; 3]]) as [N1 N2]; [split; [reflexivity|repeat constructor]|lia|exact L3|]. split; [exact N1|]. split; [exact N2|]. split; [|reflexivity].
  split.
  - split; [|split; reflexivity]. split; [cbn; lia|]. split; [reflexivity|]. split; [intros [|[|i]] Hi; cbn in *; lia|repeat constructor].
  - intros [|[|i]] [|[|[|j]]] [|[|[|j']]] Hi H1 H2 E; cbn in *; first [reflexivity|discriminate E|lia].
Qed.
