(** Properties C61, C65 and C66: quadratures as Python objects. *)
From Coq Require Import String List Bool Arith ZArith Reals Lia Lra.
From Verif Require Import Base IndexModel Num Fnum LinSpec LinBase Facts2 Facts6 Facts7 CalcSpec CalcHermite PyBase PosModel PosSpec PosFacts SeriesModel SeriesSpec SplitModel SplitSpec SplitFacts PartSpec
  PyQuadModel PyQuadSpec PyQuadFacts PyQuadFacts2.
Import ListNotations.
Local Open Scope string_scope. Local Open Scope list_scope. Local Open Scope nat_scope.

(** C61: projecting a quadrature on the groups of a partition of its directions and tensorizing the projections gives back the nodes,
    the weights, the position and the factor, provided the factor is one product in which no factor has variables both inside and
    outside a group. *)
Theorem C61_tensorize_projections : forall (F : fnum) (L : num_laws F) far, (forall l, far (diag_mat F l) = false) -> forall E (eval : E -> (nat -> F) -> F) e_mul e_1 add_args mul_args free_vars,
  sympy_ok eval e_mul e_1 add_args mul_args free_vars -> sympy_vars e_mul e_1 add_args mul_args free_vars ->
  forall (q : quad F E) term groups, quad_ok q -> grouping (p_dirs (q_pos q)) groups -> groups <> [] -> incl (free_vars (f_sym (q_factor q))) (p_dirs (q_pos q)) ->
  add_args (f_sym (q_factor q)) = [term] -> (forall g a, In g groups -> In a (mul_args term) -> ~ straddles free_vars g a) ->
  exists parts r, mapM (quad_project F far E e_mul e_1 add_args mul_args free_vars q) groups = Ok parts /\ quad_tensorize F far E e_mul e_1 free_vars parts = Ok r /\
    q_nodes r = q_nodes q /\ q_weights r = q_weights q /\ p_dirs (q_pos r) = p_dirs (q_pos q) /\ p_mean (q_pos r) = p_mean (q_pos q) /\ p_types (q_pos r) = p_types (q_pos q) /\
    (forall d m v t, records (q_pos r) d m v t <-> records (q_pos q) d m v t) /\ f_dirs (q_factor r) = f_dirs (q_factor q) /\ forall env, eval (f_sym (q_factor r)) env = eval (f_sym (q_factor q)) env.
Proof. exact tensorize_projections. Qed.
Print Assumptions C61_tensorize_projections.
(** Without the last condition the factor can be lost silently: |x0 + x1| x2 x3 with the groups {0, 2} and {1, 3} becomes x2 x3. *)
Theorem C61_straddling_refuted : ~ forall (q : quad fnum_Z expr) term groups parts r, quad_ok q -> grouping (p_dirs (q_pos q)) groups -> groups <> [] -> incl (x_free (f_sym (q_factor q))) (p_dirs (q_pos q)) ->
  x_add_args (f_sym (q_factor q)) = [term] ->
  mapM (quad_project fnum_Z (fun _ => false) expr EMul (EInt 1) x_add_args x_mul_args x_free q) groups = Ok parts ->
  quad_tensorize fnum_Z (fun _ => false) expr EMul (EInt 1) x_free parts = Ok r ->
  forall env, x_eval (f_sym (q_factor r)) env = x_eval (f_sym (q_factor q)) env.
Proof. exact tensorize_straddling. Qed.
Print Assumptions C61_straddling_refuted.
(** Three directions 0, 2, 5, the factor 3 |x0 + x5| x2 and the groups {2} and {0, 5}. *)
Example C61_tensorize_projections_example :
  let q := Qd (F := fnum_Z) [[1; 2]; [3; 4]; [5; 6]]%Z [[1; 7]; [1; 8]; [1; 9]]%Z (Pos (N := fnum_Z) [0; 2; 5] [3; 4; 5]%Z (diag_mat fnum_Z [1; 2; 3]%Z) ["hermite"; "fourier"; "hermite"] true)
    (Fn (EMul (EInt 3) (EMul (EAbs (EAdd (EVar 0) (EVar 5))) (EVar 2))) [0; 2; 5]) in
  exists parts r, mapM (quad_project fnum_Z (fun _ => false) expr EMul (EInt 1) x_add_args x_mul_args x_free q) [[2]; [0; 5]] = Ok parts /\
    quad_tensorize fnum_Z (fun _ => false) expr EMul (EInt 1) x_free parts = Ok r /\ q_nodes r = q_nodes q /\ x_eval (f_sym (q_factor r)) (fun d => Z.of_nat d - 10)%Z = (3 * 15 * -8)%Z.
Proof.
  intros q. destruct (C61_tensorize_projections fnum_Z num_Z_laws (fun _ => false) (fun _ => eq_refl) expr x_eval EMul (EInt 1) x_add_args x_mul_args x_free x_ok x_vars q (f_sym (q_factor q)) [[2]; [0; 5]])
    as (parts & r & H1 & H2 & H3 & _ & _ & _ & _ & _ & _ & H4).
  - split; [apply (Pos_ok num_Z); try reflexivity; repeat constructor; cbn; intuition discriminate|].
    split; [repeat constructor|]. split; [reflexivity|]. split; [reflexivity|]. split; [exists 2; repeat constructor|]. split; [exists 2; repeat constructor|]. reflexivity.
  - split; [|repeat constructor; discriminate]. split; [|repeat constructor; intros x; cbn; lia]. intros x. cbn. split.
    + intros [<-|[<-|[<-|[]]]]; [exists [0; 5]|exists [2]|exists [0; 5]]; cbn; tauto.
    + intros (b & [<-|[<-|[]]] & Hx); cbn in *; tauto.
  - discriminate.
  - intros x Hx. cbn in *. tauto.
  - reflexivity.
  - intros g a [<-|[<-|[]]] [<-|[<-|[<-|[]]]] [(x & X1 & X2) (y & Y1 & Y2)]; cbn in *; intuition (subst; try discriminate; tauto).
  - exists parts, r. split; [exact H1|]. split; [exact H2|]. split; [exact H3|]. rewrite H4. reflexivity.
Qed.

Local Open Scope R_scope.

(** C65: Quad.discretize gives the values of the function, and Quad.eval the values of the factor times the series, at the points
    x = mean + sqrt(variance) y of the grid of the quadrature, in row-major order; the position of the series, which gives the
    coordinates of the basis functions, can be different from that of the quadrature. *)
Theorem C65_discretize : forall E (free_vars : E -> list nat) (eval : E -> (nat -> R) -> R) cov_factor la_inv far8 junk, numpy_ok cov_factor la_inv far8 -> reads_free eval free_vars ->
  forall (q : quad fnum_R E) vars f, quad_R q vars -> f_dirs f = p_dirs (q_pos q) -> incl (free_vars (f_sym f)) (f_dirs f) ->
  exists values, quad_discretize fnum_R E free_vars eval cov_factor junk q f = Ok values /\ grid_values q vars values (eval (f_sym f)).
Proof. exact discretize_values. Qed.
Print Assumptions C65_discretize.
Theorem C65_eval : forall E (free_vars : E -> list nat) (eval : E -> (nat -> R) -> R) cov_factor la_inv far8 junk, numpy_ok cov_factor la_inv far8 -> reads_free eval free_vars ->
  forall (q : quad fnum_R E) vars (f : SeriesModel.series fnum_R E) vs, quad_R q vars -> gaussian (s_pos f) vs -> p_dirs (s_pos f) = p_dirs (q_pos q) ->
  f_dirs (s_factor f) = p_dirs (q_pos q) -> incl (free_vars (f_sym (s_factor f))) (f_dirs (s_factor f)) ->
  fits (s_set f) (length vs) (s_degree f) -> flags_ok (s_set f) (s_degree f) (kinds (p_types (q_pos q))) -> vec_for (N := fnum_R) (s_set f) (length vs) (s_degree f) (s_coeffs f) ->
  exists values, quad_eval fnum_R E free_vars eval cov_factor la_inv far8 junk q f = Ok values /\ length values = length (grid (q_nodes q)) /\
    forall k p env, nth_error (grid (q_nodes q)) k = Some p -> at_point (p_dirs (q_pos q)) (grid_point q vars p) env ->
      nth_error values k = Some (CalcSpec.series (s_set f) (s_degree f) (kinds (p_types (q_pos q))) (s_coeffs f) (standardised (p_mean (s_pos f)) vs (grid_point q vars p)) * eval (f_sym (s_factor f)) env).
Proof. exact eval_values. Qed.
Print Assumptions C65_eval.

(** C66: Quad.transform of an array divides the values by those of the quadrature's factor (1e-300 where it is zero) and gives the
    series, on the quadrature's position and with its factor, whose coefficients are the quadratures of the result times the basis functions. *)
Theorem C66_transform : forall E (free_vars : E -> list nat) (eval : E -> (nat -> R) -> R) cov_factor la_inv far8 junk tiny e_1, numpy_ok cov_factor la_inv far8 -> reads_free eval free_vars ->
  forall (q : quad fnum_R E) vars values degree s, quad_R q vars -> f_dirs (q_factor q) = p_dirs (q_pos q) -> incl (free_vars (f_sym (q_factor q))) (f_dirs (q_factor q)) ->
  length values = length (grid (q_nodes q)) -> rules_match (q_nodes q) (q_weights q) -> usable s (length vars) degree -> flags_ok s degree (kinds (p_types (q_pos q))) ->
  exists r fv, quad_transform fnum_R E e_1 free_vars eval cov_factor junk tiny q values degree s = Ok r /\ grid_values q vars fv (eval (f_sym (q_factor q))) /\
    s_pos r = q_pos q /\ s_set r = s /\ s_factor r = q_factor q /\ series_ok r (length vars) /\
    (forall m, series_index r m <-> index_of s (length vars) degree m) /\
    forall m, series_index r m -> series_at r m = quadrature (q_nodes q) (q_weights q) (divided tiny values fv) (phi (kinds (p_types (q_pos q))) m).
Proof. exact transform_coefficients. Qed.
Print Assumptions C66_transform.
(** With exact rules, and a factor that vanishes nowhere on the grid, Quad.transform of Quad.eval of a series on the quadrature's
    position and with its factor is the same series (for cross_nc, up to the recorded degree). *)
Theorem C66_transform_eval : forall E (free_vars : E -> list nat) (eval : E -> (nat -> R) -> R) cov_factor la_inv far8 junk tiny e_1, numpy_ok cov_factor la_inv far8 -> reads_free eval free_vars ->
  forall (q : quad fnum_R E) vars (f : SeriesModel.series fnum_R E), quad_R q vars -> s_pos f = q_pos q -> s_factor f = q_factor q ->
  f_dirs (q_factor q) = p_dirs (q_pos q) -> incl (free_vars (f_sym (q_factor q))) (f_dirs (q_factor q)) ->
  (forall p env, In p (grid (q_nodes q)) -> at_point (p_dirs (q_pos q)) (grid_point q vars p) env -> eval (f_sym (q_factor q)) env <> 0) ->
  series_ok f (length vars) -> flags_ok (s_set f) (s_degree f) (kinds (p_types (q_pos q))) -> exact_rules (s_degree f) (kinds (p_types (q_pos q))) (q_nodes q) (q_weights q) ->
  exists values g, quad_eval fnum_R E free_vars eval cov_factor la_inv far8 junk q f = Ok values /\
    quad_transform fnum_R E e_1 free_vars eval cov_factor junk tiny q values (s_degree f) (s_set f) = Ok g /\
    s_coeffs g = s_coeffs f /\ s_pos g = s_pos f /\ s_set g = s_set f /\ s_factor g = s_factor f /\ (s_set f <> CrossNc -> g = f).
Proof. exact transform_eval_same. Qed.
Print Assumptions C66_transform_eval.

(** The two-point Gauss rule in the directions 0 and 2, with means 1 and 3 and variances 4 and 9. *)
Notation nodes2 := [[-1; 1]; [-1; 1]].
Notation weights2 := [[1/2; 1/2]; [1/2; 1/2]].
Notation pos2 mean vars := (Pos (N := fnum_R) [0; 2]%nat mean (diag_mat fnum_R vars) ["hermite"; "hermite"]%string true).
Notation quad2 factor := (Qd (F := fnum_R) (E := rexpr) nodes2 weights2 (pos2 [1; 3] [4; 9]) (Fn factor [0; 2]%nat)).
Lemma quad2_ok : forall factor, quad_R (quad2 factor) [4; 9].
Proof.
  intros factor. split; [|split; [reflexivity|split; [discriminate|unfold grid_fits; cbn; lia]]].
  split; [reflexivity|]. split; [repeat constructor; lra|]. repeat split; repeat constructor; cbn; intuition discriminate.
Qed.
Lemma sqrt_4_9 : sqrt 4 = 2 /\ sqrt 9 = 3.
Proof. split; [replace 4 with (2 * 2) by lra|replace 9 with (3 * 3) by lra]; apply sqrt_square; lra. Qed.
(** The series 2 + 5 y_2 + 7 y_0 with means 0, variances 9 and 4 and factor x_2: its factor is 0 at the point (3, 0) and 6 at (-1, 6). *)
Example C65_eval_example : exists values,
  quad_eval fnum_R rexpr r_free r_eval r_cov_factor r_la_inv r_far 0 (quad2 (RNum 1)) (Ser (N := fnum_R) [2; 5; 7] (pos2 [0; 0] [9; 4]) Triangle 1 (Fn (RVar 2) [0; 2]%nat)) = Ok values /\
  nth_error values 2 = Some 0 /\ nth_error values 1 = Some ((2 + 7 * (-1 / 3) + 5 * 3) * 6).
Proof.
  destruct (C65_eval rexpr r_free r_eval r_cov_factor r_la_inv r_far 0 numpy_sample r_reads (quad2 (RNum 1)) [4; 9] (Ser (N := fnum_R) [2; 5; 7] (pos2 [0; 0] [9; 4]) Triangle 1 (Fn (RVar 2) [0; 2]%nat)) [9; 4])
    as (values & H1 & _ & H2).
  - apply quad2_ok.
  - split; [reflexivity|]. split; [repeat constructor; lra|]. repeat split; repeat constructor; cbn; intuition discriminate.
  - reflexivity.
  - reflexivity.
  - intros x [<-|[]]. right. left. reflexivity.
  - apply usable_fits, usable_dim4; cbn; lia.
  - split; [repeat constructor|intros [H|H]; discriminate H].
  - vm_compute. reflexivity.
  - destruct sqrt_4_9 as [S4 S9]. exists values. split; [exact H1|]. clear H1. split.
    + rewrite (H2 2%nat [1; 0]%nat (fun d => if (d =? 0)%nat then 3 else 0)); [cbn [s_factor f_sym r_eval Nat.eqb]; f_equal; ring|reflexivity|].
      intros [|[|i]] d Hd; cbn in Hd; try (destruct i; discriminate Hd); injection Hd as <-; cbn -[sqrt]; f_equal; rewrite ?S4, ?S9; lra.
    + rewrite (H2 1%nat [0; 1]%nat (fun d => if (d =? 0)%nat then -1 else 6)); [|reflexivity|].
      * cbn [s_factor f_sym r_eval Nat.eqb s_set s_degree s_coeffs q_pos p_types s_pos p_mean]. f_equal. f_equal. unfold CalcSpec.series. cbn [kinds map length String.eqb Ascii.eqb Bool.eqb].
        unfold coef. change (points Triangle 2 1) with [[0; 0]; [0; 1]; [1; 0]]%nat. unfold rsum, phi, rprod, grid_point, located, standardised. cbn -[sqrt hermite Rplus Rmult Rdiv]. unfold basis. cbn -[sqrt hermite Rplus Rmult Rdiv].
        rewrite !hermite_0, !hermite_1, S4, S9. field.
      * intros [|[|i]] d Hd; cbn in Hd; try (destruct i; discriminate Hd); injection Hd as <-; cbn -[sqrt]; f_equal; rewrite ?S4, ?S9; lra.
Qed.
(** Quad.eval takes the types of the directions from the quadrature, not from the series: a Fourier series is evaluated with Hermite polynomials. *)
Theorem C65_types_refuted : ~ forall (q : quad fnum_R rexpr) vars (f : SeriesModel.series fnum_R rexpr) vs values, quad_R q vars -> gaussian (s_pos f) vs -> p_dirs (s_pos f) = p_dirs (q_pos q) ->
  f_dirs (s_factor f) = p_dirs (q_pos q) -> incl (r_free (f_sym (s_factor f))) (f_dirs (s_factor f)) -> fits (s_set f) (length vs) (s_degree f) ->
  flags_ok (s_set f) (s_degree f) (kinds (p_types (q_pos q))) -> flags_ok (s_set f) (s_degree f) (kinds (p_types (s_pos f))) -> vec_for (N := fnum_R) (s_set f) (length vs) (s_degree f) (s_coeffs f) ->
  quad_eval fnum_R rexpr r_free r_eval r_cov_factor r_la_inv r_far 0 q f = Ok values ->
  forall k p env, nth_error (grid (q_nodes q)) k = Some p -> at_point (p_dirs (q_pos q)) (grid_point q vars p) env ->
    nth_error values k = Some (CalcSpec.series (s_set f) (s_degree f) (kinds (p_types (s_pos f))) (s_coeffs f) (standardised (p_mean (s_pos f)) vs (grid_point q vars p)) * r_eval (f_sym (s_factor f)) env).
Proof. exact eval_types. Qed.
Print Assumptions C65_types_refuted.
(** The same series on the quadrature's own position, with the factor 2 + x_0 x_0. *)
Example C66_transform_eval_example : let q := quad2 (RAdd (RNum 2) (RMul (RVar 0) (RVar 0))) in let f := Ser (N := fnum_R) [2; 5; 7] (q_pos q) Triangle 1 (q_factor q) in
  exists values, quad_eval fnum_R rexpr r_free r_eval r_cov_factor r_la_inv r_far 0 q f = Ok values /\ quad_transform fnum_R rexpr (RNum 1) r_free r_eval r_cov_factor 0 (1/10) q values 1 Triangle = Ok f.
Proof.
  intros q f. destruct (C66_transform_eval rexpr r_free r_eval r_cov_factor r_la_inv r_far 0 (1/10) (RNum 1) numpy_sample r_reads q [4; 9] f) as (values & g & H1 & H2 & _ & _ & _ & _ & H3).
  - apply quad2_ok.
  - reflexivity.
  - reflexivity.
  - reflexivity.
  - intros x [<-|[<-|[]]]; left; reflexivity.
  - intros p env _ _. cbn [q q_factor f_sym r_eval]. nra.
  - split; [split; [reflexivity|split; [reflexivity|apply usable_dim4; cbn; lia]]|vm_compute; reflexivity].
  - split; [repeat constructor|intros [H|H]; discriminate H].
  - split; [reflexivity|]. split; [reflexivity|]. intros [|[|k]] Hk; [exact gauss2|exact gauss2|cbn in Hk; lia].
  - exists values. split; [exact H1|]. rewrite <- (H3 ltac:(discriminate)). exact H2.
Qed.
(** The values 1, 2, 3, 4 divided by the factor x_0, which is -1, -1, 3, 3 on the grid. *)
Example C66_transform_example : exists r, quad_transform fnum_R rexpr (RNum 1) r_free r_eval r_cov_factor 0 (1/10) (quad2 (RVar 0)) [1; 2; 3; 4] 1 Triangle = Ok r /\
  s_factor r = Fn (RVar 0) [0; 2]%nat /\ series_at r [0; 1]%nat = -1 / 6.
Proof.
  destruct (C66_transform rexpr r_free r_eval r_cov_factor r_la_inv r_far 0 (1/10) (RNum 1) numpy_sample r_reads (quad2 (RVar 0)) [4; 9] [1; 2; 3; 4] 1 Triangle) as (r & fv & H1 & [H2 H3] & _ & _ & H4 & _ & H5 & H6).
  - apply quad2_ok.
  - reflexivity.
  - intros x [<-|[]]; left; reflexivity.
  - reflexivity.
  - repeat constructor.
  - apply usable_dim4; cbn; lia.
  - split; [repeat constructor|intros [H|H]; discriminate H].
  - exists r. split; [exact H1|]. split; [exact H4|]. rewrite H6 by (apply H5; split; [reflexivity|cbn; lia]). destruct sqrt_4_9 as [S4 S9].
    assert (P : forall i j (a b : R), (i < 2)%nat -> (j < 2)%nat -> 1 + 2 * nth i [-1; 1] 0 = a -> 3 + 3 * nth j [-1; 1] 0 = b -> at_point [0; 2]%nat (grid_point (quad2 (RVar 0)) [4; 9] [i; j]) (fun d => if (d =? 0)%nat then a else b)).
    { intros i j a b Hi Hj <- <-. destruct i as [|[|i]]; try lia; destruct j as [|[|j]]; try lia; intros [|[|k]] d Hd; cbn in Hd; try (destruct k; discriminate Hd); injection Hd as <-; cbn -[sqrt]; f_equal; rewrite ?S4, ?S9; lra. }
    assert (F0 := H3 0%nat [0; 0]%nat _ eq_refl (P 0%nat 0%nat (-1) 0 ltac:(lia) ltac:(lia) ltac:(cbn; lra) ltac:(cbn; lra))).
    assert (F1 := H3 1%nat [0; 1]%nat _ eq_refl (P 0%nat 1%nat (-1) 6 ltac:(lia) ltac:(lia) ltac:(cbn; lra) ltac:(cbn; lra))).
    assert (F2 := H3 2%nat [1; 0]%nat _ eq_refl (P 1%nat 0%nat 3 0 ltac:(lia) ltac:(lia) ltac:(cbn; lra) ltac:(cbn; lra))).
    assert (F3 := H3 3%nat [1; 1]%nat _ eq_refl (P 1%nat 1%nat 3 6 ltac:(lia) ltac:(lia) ltac:(cbn; lra) ltac:(cbn; lra))).
    destruct fv as [|a [|b [|c [|d [|? ?]]]]]; try discriminate H2. cbn in F0, F1, F2, F3. injection F0 as ->. injection F1 as ->. injection F2 as ->. injection F3 as ->.
    unfold quadrature, divided. cbn [combine map q_nodes q_weights q_pos p_types kinds String.eqb Ascii.eqb Bool.eqb].
    destruct (Req_EM_T (-1) 0) as [H|_]; [lra|]. destruct (Req_EM_T 3 0) as [H|_]; [lra|].
    unfold grid, at_pos, phi, basis, rsum, rprod. cbn -[hermite]. rewrite !hermite_0, !hermite_1. field.
Qed.
