(** Properties C93 and C94: what Quad.plot, Quad.plot_hf and Quad.streamlines draw. *)
From Coq Require Import String List Bool Arith ZArith Reals Lia Lra.
From Verif Require Import Base PyBase IndexModel Num Fnum LinSpec LinBase CalcSpec PosModel SeriesModel PartModel SplitModel PyQuadModel PyQuadSpec PyQuadFacts2 PlotModel PlotSpec PlotFacts PlotFacts2.
Import ListNotations.
Local Open Scope string_scope. Local Open Scope list_scope. Local Open Scope nat_scope. Local Open Scope R_scope.

(** C93: the picture shows the function at the mapped nodes: a Function, ... *)
Theorem C93_function : forall far, (forall l, far (diag_mat num_R l) = false) -> forall E e_mul e_1 e_var add_args mul_args free_vars (eval : E -> (nat -> R) -> R) cov_factor la_inv far8 junk,
  numpy_ok cov_factor la_inv far8 -> reads_free eval free_vars -> (forall d env, eval (e_var d) env = env d) -> (forall d, free_vars (e_var d) = [d]) ->
  forall (q : quad fnum_R E) vars f, quad_R q vars -> plottable (fun_project E e_mul e_1 add_args mul_args free_vars) q -> (length vars <= 2)%nat -> f_dirs f = p_dirs (q_pos q) -> incl (free_vars (f_sym f)) (f_dirs f) ->
  exists pic, quad_plot far E e_mul e_1 e_var add_args mul_args free_vars eval cov_factor la_inv far8 junk q (ArgFun E f) None = Ok pic /\ shows (p_dirs (q_pos q)) (coordinates q vars) pic (eval (f_sym f)).
Proof. exact plot_function. Qed.
Print Assumptions C93_function.
(** ... an array of values on the grid, ... *)
Theorem C93_array : forall far, (forall l, far (diag_mat num_R l) = false) -> forall E e_mul e_1 e_var add_args mul_args free_vars (eval : E -> (nat -> R) -> R) cov_factor la_inv far8 junk,
  numpy_ok cov_factor la_inv far8 -> reads_free eval free_vars -> (forall d env, eval (e_var d) env = env d) -> (forall d, free_vars (e_var d) = [d]) ->
  forall (q : quad fnum_R E) vars values g factor, quad_R q vars -> plottable (fun_project E e_mul e_1 add_args mul_args free_vars) q -> (length vars <= 2)%nat -> grid_values q vars values g ->
  exists pic, quad_plot far E e_mul e_1 e_var add_args mul_args free_vars eval cov_factor la_inv far8 junk q (ArgArray E values) factor = Ok pic /\ shows (p_dirs (q_pos q)) (coordinates q vars) pic g.
Proof. exact plot_array. Qed.
Print Assumptions C93_array.
(** ... a Series, times its factor and the factor that is given, ... *)
Theorem C93_series : forall far, (forall l, far (diag_mat num_R l) = false) -> forall E e_mul e_1 e_var add_args mul_args free_vars (eval : E -> (nat -> R) -> R) cov_factor la_inv far8 junk,
  numpy_ok cov_factor la_inv far8 -> reads_free eval free_vars -> (forall d env, eval (e_var d) env = env d) -> (forall d, free_vars (e_var d) = [d]) ->
  forall (q : quad fnum_R E) vars f vs factor, quad_R q vars -> plottable (fun_project E e_mul e_1 add_args mul_args free_vars) q -> (length vars <= 2)%nat -> series_on free_vars q f vs -> factor_on free_vars q factor ->
  exists pic, quad_plot far E e_mul e_1 e_var add_args mul_args free_vars eval cov_factor la_inv far8 junk q (ArgSeries E f) factor = Ok pic /\ shows (p_dirs (q_pos q)) (coordinates q vars) pic (drawn eval q f vs factor).
Proof. exact plot_series. Qed.
Print Assumptions C93_series.
(** ... and, for plot_hf, the basis function of the multi-index times the factor of the quadrature. *)
Theorem C93_hf : forall far, (forall l, far (diag_mat num_R l) = false) -> forall E e_mul e_1 e_var add_args mul_args free_vars (eval : E -> (nat -> R) -> R) cov_factor la_inv far8 junk,
  numpy_ok cov_factor la_inv far8 -> reads_free eval free_vars -> (forall d env, eval (e_var d) env = env d) -> (forall d, free_vars (e_var d) = [d]) ->
  forall (q : quad fnum_R E) vars m, quad_R q vars -> plottable (fun_project E e_mul e_1 add_args mul_args free_vars) q -> (length vars <= 2)%nat ->
  f_dirs (q_factor q) = p_dirs (q_pos q) -> incl (free_vars (f_sym (q_factor q))) (f_dirs (q_factor q)) ->
  length m = length vars -> usable Triangle (length vars) (list_sum m) -> flags_ok Triangle (list_sum m) (kinds (p_types (q_pos q))) ->
  exists pic, quad_plot_hf far E e_mul e_1 e_var add_args mul_args free_vars eval cov_factor la_inv far8 junk q m = Ok pic /\
    shows (p_dirs (q_pos q)) (coordinates q vars) pic (fun env => phi (kinds (p_types (q_pos q))) m (standardised (p_mean (q_pos q)) vars (map env (p_dirs (q_pos q)))) * eval (f_sym (q_factor q)) env).
Proof. exact plot_hf. Qed.
Print Assumptions C93_hf.
Theorem C93_hf_bad : forall far E e_mul e_1 e_var add_args mul_args free_vars (eval : E -> (nat -> R) -> R) cov_factor la_inv far8 junk (q : quad fnum_R E) m, length m <> length (p_mean (q_pos q)) ->
  quad_plot_hf far E e_mul e_1 e_var add_args mul_args free_vars eval cov_factor la_inv far8 junk q m = Throw "ValueError".
Proof. exact plot_hf_bad. Qed.
Print Assumptions C93_hf_bad.
(** In three or more dimensions, nothing can be plotted on given axes. *)
Theorem C93_dimension_refuted : forall far, (forall l, far (diag_mat num_R l) = false) -> forall E e_mul e_1 e_var add_args mul_args free_vars (eval : E -> (nat -> R) -> R) cov_factor la_inv far8 junk,
  numpy_ok cov_factor la_inv far8 -> reads_free eval free_vars -> (forall d env, eval (e_var d) env = env d) -> (forall d, free_vars (e_var d) = [d]) ->
  forall (q : quad fnum_R E) vars values g, quad_R q vars -> plottable (fun_project E e_mul e_1 add_args mul_args free_vars) q -> (3 <= length vars)%nat -> grid_values q vars values g ->
  quad_plot far E e_mul e_1 e_var add_args mul_args free_vars eval cov_factor la_inv far8 junk q (ArgArray E values) None = Throw "UnboundLocalError".
Proof. exact plot_dim. Qed.
Print Assumptions C93_dimension_refuted.
(** A Series times an array is never plotted, and a Function times a factor neither. *)
Theorem C93_factor_refuted : forall far E e_mul e_1 e_var add_args mul_args free_vars (eval : E -> (nat -> R) -> R) cov_factor la_inv far8 junk (q : quad fnum_R E), p_is_diag (q_pos q) = true ->
  (forall f w, quad_plot far E e_mul e_1 e_var add_args mul_args free_vars eval cov_factor la_inv far8 junk q (ArgSeries E f) (Some (FactorArray E w)) = Throw "UnboundLocalError") /\
  (forall f g, quad_plot far E e_mul e_1 e_var add_args mul_args free_vars eval cov_factor la_inv far8 junk q (ArgFun E f) (Some g) = Throw "ValueError").
Proof. exact plot_factor_bad. Qed.
Print Assumptions C93_factor_refuted.

(** A quadrature in the directions a and b, with two nodes in one and three in the other. *)
Definition single (e : rexpr) : list rexpr := [e].
Definition quad_ab (a b : nat) : quad fnum_R rexpr :=
  Qd (F := fnum_R) [[-1; 1]; [-2; 0; 3]] [[1/2; 1/2]; [1/3; 1/3; 1/3]] (Pos (N := fnum_R) [a; b] [1; 3] (diag_mat fnum_R [4; 9]) ["hermite"; "hermite"]%string true) (Fn (RNum 1) [a; b]).
Notation one_project := (fun_project rexpr RMul (RNum 1) single single r_free).
Notation plot_ab := (quad_plot r_far rexpr RMul (RNum 1) RVar single single r_free r_eval r_cov_factor r_la_inv r_far 0).
Lemma quad_ab_ok : forall a b, (a < b)%nat -> quad_R (quad_ab a b) [4; 9].
Proof.
  intros a b H. split; [|split; [reflexivity|split; [discriminate|unfold grid_fits; cbn; lia]]]. split; [reflexivity|]. split; [repeat constructor; lra|]. repeat split. repeat constructor; cbn; lia.
Qed.
Lemma quad_ab_plottable : forall a b, (a < b)%nat -> (a = 0 \/ a = 1)%nat -> (b = 1 \/ b = 3)%nat -> plottable one_project (quad_ab a b).
Proof.
  intros a b H Ha Hb. split; [reflexivity|]. split; [reflexivity|]. split; [|repeat constructor; cbn; lia].
  intros d [<-|[<-|[]]]; destruct Ha as [->| ->], Hb as [->| ->]; try lia; eexists; reflexivity.
Qed.
(** x_0 x_3 at (-1, -3), ... *)
Example C93_function_example : exists x y z, plot_ab (quad_ab 0 3) (ArgFun rexpr (Fn (RMul (RVar 0) (RVar 3)) [0; 3]%nat)) None = Ok (Contour x y z) /\ length z = 3%nat /\
  forall v, nth_error (nth 0 z []) 0 = Some v -> v = 3.
Proof.
  destruct (C93_function r_far (fun _ => eq_refl) rexpr RMul (RNum 1) RVar single single r_free r_eval r_cov_factor r_la_inv r_far 0 numpy_sample r_reads (fun _ _ => eq_refl) (fun _ => eq_refl) (quad_ab 0 3) [4; 9] (Fn (RMul (RVar 0) (RVar 3)) [0; 3]%nat))
    as (pic & H & S); [apply quad_ab_ok; lia|apply quad_ab_plottable; lia|cbn; lia|reflexivity|intros x Hx; exact Hx|].
  destruct pic as [|x y z]; [destruct S|]. exists x, y, z. split; [exact H|]. destruct S as (Sx & Sy & L & F & G). split; [exact L|]. intros v Hv.
  destruct z as [|row z]; [discriminate L|]. specialize (G 0%nat 0%nat row v (fun d => if (d =? 0)%nat then 1 + sqrt 4 * -1 else 3 + sqrt 9 * -2) eq_refl Hv). cbn in Sx, Sy. rewrite Sx, Sy in *. specialize (G eq_refl eq_refl).
  rewrite G. cbn. replace 4 with (2 * 2) by lra. replace 9 with (3 * 3) by lra. rewrite !sqrt_square by lra. lra.
Qed.
Example C93_array_example : exists pic, plot_ab (quad_ab 0 3) (ArgArray rexpr [5; 5; 5; 5; 5; 5]) None = Ok pic /\ shows [0; 3]%nat (coordinates (quad_ab 0 3) [4; 9]) pic (fun _ => 5).
Proof.
  apply (C93_array r_far (fun _ => eq_refl) rexpr RMul (RNum 1) RVar single single r_free r_eval r_cov_factor r_la_inv r_far 0 numpy_sample r_reads (fun _ _ => eq_refl) (fun _ => eq_refl) (quad_ab 0 3) [4; 9] [5; 5; 5; 5; 5; 5] (fun _ => 5) None);
    [apply quad_ab_ok; lia|apply quad_ab_plottable; lia|cbn; lia|]. split; [reflexivity|]. intros k p env Hk _. assert (Hl : (k < 6)%nat) by (apply (proj1 (nth_error_Some (grid (q_nodes (quad_ab 0 3))) k)); rewrite Hk; discriminate).
  do 6 (destruct k as [|k]; [reflexivity|]). lia.
Qed.
Notation ser_ab c := (Ser (N := fnum_R) c (Pos (N := fnum_R) [0; 1]%nat [0; 0] (diag_mat fnum_R [1; 1]) ["hermite"; "hermite"]%string true) Triangle 1 (Fn (RNum 1) [0; 1]%nat)).
Lemma ser_ab_on : forall c1 c2 c3, series_on r_free (quad_ab 0 1) (ser_ab [c1; c2; c3]) [1; 1].
Proof.
  intros c1 c2 c3. split; [split; [reflexivity|split; [repeat constructor; lra|repeat split; repeat constructor; cbn; lia]]|]. split; [reflexivity|]. split; [reflexivity|]. split; [intros x []|].
  split; [apply Facts7.usable_fits, usable_dim4; cbn; lia|]. split; [split; [repeat constructor; left; cbn; lia|intros [Hx|Hx]; discriminate Hx]|]. vm_compute. reflexivity.
Qed.
(** The series 2 + 5 x_1 + 7 x_0, times x_1. *)
Example C93_series_example : exists pic, plot_ab (quad_ab 0 1) (ArgSeries rexpr (ser_ab [2; 5; 7])) (Some (FactorFun rexpr (Fn (RVar 1) [0; 1]%nat))) = Ok pic /\
  shows [0; 1]%nat (coordinates (quad_ab 0 1) [4; 9]) pic (drawn r_eval (quad_ab 0 1) (ser_ab [2; 5; 7]) [1; 1] (Some (FactorFun rexpr (Fn (RVar 1) [0; 1]%nat)))).
Proof.
  apply (C93_series r_far (fun _ => eq_refl) rexpr RMul (RNum 1) RVar single single r_free r_eval r_cov_factor r_la_inv r_far 0 numpy_sample r_reads (fun _ _ => eq_refl) (fun _ => eq_refl) (quad_ab 0 1) [4; 9] (ser_ab [2; 5; 7]) [1; 1]);
    [apply quad_ab_ok; lia|apply quad_ab_plottable; lia|cbn; lia|apply ser_ab_on|split; [reflexivity|intros x [<-|[]]; cbn; auto]].
Qed.
Example C93_hf_example : exists pic, quad_plot_hf r_far rexpr RMul (RNum 1) RVar single single r_free r_eval r_cov_factor r_la_inv r_far 0 (quad_ab 0 3) [1; 2]%nat = Ok pic /\
  shows [0; 3]%nat (coordinates (quad_ab 0 3) [4; 9]) pic (fun env => phi [0; 0]%nat [1; 2]%nat (standardised [1; 3] [4; 9] [env 0%nat; env 3%nat]) * 1).
Proof.
  apply (C93_hf r_far (fun _ => eq_refl) rexpr RMul (RNum 1) RVar single single r_free r_eval r_cov_factor r_la_inv r_far 0 numpy_sample r_reads (fun _ _ => eq_refl) (fun _ => eq_refl) (quad_ab 0 3) [4; 9] [1; 2]%nat);
    [apply quad_ab_ok; lia|apply quad_ab_plottable; lia|cbn; lia|reflexivity|intros x []|reflexivity|apply usable_dim4; cbn; lia|split; [repeat constructor; left; cbn; lia|intros [Hx|Hx]; discriminate Hx]].
Qed.
Example C93_hf_bad_example : length [1; 2; 3]%nat <> length (p_mean (q_pos (quad_ab 0 3))).
Proof. cbn. lia. Qed.
Definition quad_abc : quad fnum_R rexpr :=
  Qd (F := fnum_R) [[-1; 1]; [0]; [2]] [[1/2; 1/2]; [1]; [1]] (Pos (N := fnum_R) [0; 1; 2]%nat [1; 3; 0] (diag_mat fnum_R [4; 9; 1]) ["hermite"; "hermite"; "hermite"]%string true) (Fn (RNum 1) [0; 1; 2]%nat).
Example C93_dimension_refuted_example : quad_R quad_abc [4; 9; 1] /\ plottable one_project quad_abc /\ grid_values quad_abc [4; 9; 1] [5; 5] (fun _ => 5).
Proof.
  split; [|split].
  - split; [|split; [reflexivity|split; [discriminate|unfold grid_fits; cbn; lia]]]. split; [reflexivity|]. split; [repeat constructor; lra|]. repeat split. repeat constructor; cbn; lia.
  - split; [reflexivity|]. split; [reflexivity|]. split; [|repeat constructor; cbn; lia]. intros d [<-|[<-|[<-|[]]]]; eexists; reflexivity.
  - split; [reflexivity|]. intros k p env Hk _. assert (Hl : (k < 2)%nat) by (apply (proj1 (nth_error_Some (grid (q_nodes quad_abc)) k)); rewrite Hk; discriminate). destruct k as [|[|k]]; [reflexivity|reflexivity|lia].
Qed.
Example C93_factor_refuted_example : p_is_diag (q_pos (quad_ab 0 1)) = true /\ factor_on r_free (quad_ab 0 1) (Some (FactorFun rexpr (Fn (RVar 1) [0; 1]%nat))).
Proof. split; [reflexivity|]. split; [reflexivity|]. intros x [<-|[]]. cbn. auto. Qed.

(** C94: streamlines of two Series draws the level lines of a stream function of the flow. *)
Theorem C94_stream : forall far, (forall l, far (diag_mat num_R l) = false) -> forall E e_mul e_1 e_var add_args mul_args free_vars (eval : E -> (nat -> R) -> R) cov_factor la_inv far8 junk,
  numpy_ok cov_factor la_inv far8 -> reads_free eval free_vars -> (forall d env, eval (e_var d) env = env d) -> (forall d, free_vars (e_var d) = [d]) ->
  forall (q : quad fnum_R E) vars fx fy vx vy factor, quad_R q vars -> plottable (fun_project E e_mul e_1 add_args mul_args free_vars) q -> p_dirs (q_pos q) = [0; 1]%nat -> Forall (fun xs => xs <> []) (q_nodes q) ->
  series_on free_vars q fx vx -> series_on free_vars q fy vy -> factor_on free_vars q factor ->
  exists x y psi levels, quad_streamlines far E e_mul e_1 e_var add_args mul_args free_vars eval cov_factor la_inv far8 junk q (FlowSeries E fx fy) factor = Ok (x, y, psi, levels) /\ coordinates q vars = [x; y] /\
    stream_function x y (fun s t => drawn eval q fx vx factor (plane s t)) (fun s t => drawn eval q fy vy factor (plane s t)) psi.
Proof. exact stream_ok. Qed.
Print Assumptions C94_stream.
(** For a flow without discrete divergence, it integrates d psi = - v dx + u dy along every row too. *)
Theorem C94_solenoidal : forall x y u v psi, stream_function x y u v psi -> solenoidal x y u v ->
  forall i j, (S i < length x)%nat -> (j < length y)%nat -> at2 psi j (S i) - at2 psi j i = - v (nth (S i) x 0) (nth j y 0) * (nth (S i) x 0 - nth i x 0).
Proof. exact stream_all. Qed.
Print Assumptions C94_solenoidal.
(** For a constant flow it is exact. *)
Theorem C94_constant : forall x y u v psi, stream_function x y (fun _ _ => u) (fun _ _ => v) psi ->
  forall i j, (i < length x)%nat -> (j < length y)%nat -> at2 psi j i = u * (nth j y 0 - nth 0 y 0) - v * (nth i x 0 - nth 0 x 0).
Proof. exact stream_const. Qed.
Print Assumptions C94_constant.
(** The ten levels are equidistant, lie between the extreme values, and increase unless the stream function is constant. *)
Theorem C94_levels : forall far E e_mul e_1 e_var add_args mul_args free_vars (eval : E -> (nat -> R) -> R) cov_factor la_inv far8 junk (q : quad fnum_R E) fl factor x y psi levels nx ny,
  quad_streamlines far E e_mul e_1 e_var add_args mul_args free_vars eval cov_factor la_inv far8 junk q fl factor = Ok (x, y, psi, levels) ->
  length psi = ny -> Forall (fun row => length row = nx) psi -> (0 < nx)%nat -> (0 < ny)%nat ->
  exists a b, equidistant a b levels /\
    (forall i j i' j', (i < nx)%nat -> (j < ny)%nat -> (i' < nx)%nat -> (j' < ny)%nat -> at2 psi j i < at2 psi j' i' -> a < b) /\
    ((forall i j i' j', (i < nx)%nat -> (j < ny)%nat -> (i' < nx)%nat -> (j' < ny)%nat -> at2 psi j i = at2 psi j' i') -> a = b) /\
    (exists i j, (i < nx)%nat /\ (j < ny)%nat /\ at2 psi j i <= a) /\ (exists i j, (i < nx)%nat /\ (j < ny)%nat /\ b <= at2 psi j i).
Proof. exact stream_levels_ok. Qed.
Print Assumptions C94_levels.
(** A flow given by two Functions or expressions, or scaled by an array, is never drawn. *)
Theorem C94_functions_refuted : forall far E e_mul e_1 e_var add_args mul_args free_vars (eval : E -> (nat -> R) -> R) cov_factor la_inv far8 junk (q : quad fnum_R E) r,
  (forall fx fy factor, quad_streamlines far E e_mul e_1 e_var add_args mul_args free_vars eval cov_factor la_inv far8 junk q (FlowFun E fx fy) factor <> Ok r) /\
  (forall fl w, quad_streamlines far E e_mul e_1 e_var add_args mul_args free_vars eval cov_factor la_inv far8 junk q fl (Some (FactorArray E w)) <> Ok r).
Proof. exact stream_never. Qed.
Print Assumptions C94_functions_refuted.
(** Nor is a flow in directions other than 0 and 1. *)
Theorem C94_directions_refuted : forall far E e_mul e_1 e_var add_args mul_args free_vars (eval : E -> (nat -> R) -> R) cov_factor la_inv far8 junk (q : quad fnum_R E) fl factor r, length (p_dirs (q_pos q)) = 2%nat ->
  quad_streamlines far E e_mul e_1 e_var add_args mul_args free_vars eval cov_factor la_inv far8 junk q fl factor = Ok r -> p_dirs (q_pos q) = [0; 1]%nat.
Proof. exact streamlines_dirs. Qed.
Print Assumptions C94_directions_refuted.

Notation stream_ab := (quad_streamlines r_far rexpr RMul (RNum 1) RVar single single r_free r_eval r_cov_factor r_la_inv r_far 0).
(** The constant flow (2, 3). *)
Example C94_stream_example : exists x y psi levels, stream_ab (quad_ab 0 1) (FlowSeries rexpr (ser_ab [2; 0; 0]) (ser_ab [3; 0; 0])) None = Ok (x, y, psi, levels) /\ coordinates (quad_ab 0 1) [4; 9] = [x; y] /\
  stream_function x y (fun s t => drawn r_eval (quad_ab 0 1) (ser_ab [2; 0; 0]) [1; 1] None (plane s t)) (fun s t => drawn r_eval (quad_ab 0 1) (ser_ab [3; 0; 0]) [1; 1] None (plane s t)) psi.
Proof.
  apply (C94_stream r_far (fun _ => eq_refl) rexpr RMul (RNum 1) RVar single single r_free r_eval r_cov_factor r_la_inv r_far 0 numpy_sample r_reads (fun _ _ => eq_refl) (fun _ => eq_refl) (quad_ab 0 1) [4; 9]);
    [apply quad_ab_ok; lia|apply quad_ab_plottable; lia|reflexivity|repeat constructor; discriminate|apply ser_ab_on|apply ser_ab_on|exact I].
Qed.
(** The rotation (-y, x) on a 2 x 2 grid. *)
Example C94_solenoidal_example : stream_function [0; 1] [0; 1] (fun s t => - t) (fun s t => s) [[0; -1]; [-1; -2]] /\ solenoidal [0; 1] [0; 1] (fun s t => - t) (fun s t => s).
Proof.
  split.
  - split; [reflexivity|]. split; [repeat constructor|]. split; [reflexivity|]. split.
    + intros [|i] Hi; cbn in *; [lra|lia].
    + intros [|[|i]] [|j] Hi Hj; cbn in *; try lia; unfold at2; cbn; lra.
  - intros [|i] [|j] Hi Hj; cbn in *; try lia. lra.
Qed.
Example C94_constant_example : stream_function [0; 1] [0; 2] (fun _ _ => 3) (fun _ _ => 5) [[0; -5]; [6; 1]].
Proof.
  split; [reflexivity|]. split; [repeat constructor|]. split; [reflexivity|]. split.
  - intros [|i] Hi; cbn in *; [lra|lia].
  - intros [|[|i]] [|j] Hi Hj; cbn in *; try lia; unfold at2; cbn; lra.
Qed.
Example C94_levels_example : exists x y psi levels, stream_ab (quad_ab 0 1) (FlowSeries rexpr (ser_ab [2; 0; 0]) (ser_ab [3; 0; 0])) None = Ok (x, y, psi, levels) /\ length psi = 3%nat /\ Forall (fun row => length row = 2%nat) psi.
Proof. destruct C94_stream_example as (x & y & psi & levels & H & C & L & F & _). exists x, y, psi, levels. split; [exact H|]. cbn in C. injection C as <- <-. split; [exact L|exact F]. Qed.
Example C94_functions_refuted_example : quad_R (quad_ab 0 1) [4; 9] /\ plottable one_project (quad_ab 0 1).
Proof. split; [apply quad_ab_ok; lia|apply quad_ab_plottable; lia]. Qed.
Example C94_directions_refuted_example : quad_R (quad_ab 1 3) [4; 9] /\ plottable one_project (quad_ab 1 3) /\ length (p_dirs (q_pos (quad_ab 1 3))) = 2%nat /\
  stream_ab (quad_ab 1 3) (FlowFun rexpr (Fn (RVar 1) [1; 3]%nat) (Fn (RVar 3) [1; 3]%nat)) None = Throw "ValueError".
Proof. split; [apply quad_ab_ok; lia|]. split; [apply quad_ab_plottable; lia|]. split; reflexivity. Qed.
