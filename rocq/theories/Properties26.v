(** Property C89: projections of series. *)
From Coq Require Import String List Bool Arith Reals Lia Lra Sorted.
From Verif Require Import Base PyBase IndexModel Num LinModel LinSpec LinBase Facts2 CalcModel CalcSpec CalcReal PosModel PosSpec PosFacts SeriesModel SeriesSpec SplitModel SplitSpec PyQuadSpec OpQuadSpec MulSpec MulFacts ProjModel ProjSpec ProjFacts TensQuadFacts4.
Import ListNotations.
Local Open Scope R_scope.

(** C89: Series.project(directions) keeps the coefficients of the multi-indices that are zero outside the directions, over the same kind of index set, with the position of
    the directions and the projection of the factor. *)
Theorem C89_project : forall (N : num) far, (forall l, far (diag_mat N l) = false) -> forall E e_mul e_1 add_args mul_args free_vars (f : SeriesModel.series N E) directions w,
  series_ok f (length (p_dirs (s_pos f))) -> pos_ok (s_pos f) -> increasing (p_dirs (s_pos f)) -> increasing directions -> directions <> [] -> incl directions (p_dirs (s_pos f)) ->
  fun_project E e_mul e_1 add_args mul_args free_vars (s_factor f) directions = Ok w ->
  exists r, series_project N far E e_mul e_1 add_args mul_args free_vars f directions = Ok r /\ series_ok r (length directions) /\ pos_ok (s_pos r) /\ p_dirs (s_pos r) = directions /\
    (forall d m v t, In d directions -> records (s_pos f) d m v t -> records (s_pos r) d m v t) /\
    s_set r = s_set f /\ s_factor r = w /\ (forall m, series_index r m <-> index_of (s_set f) (length directions) (s_degree f) m) /\
    forall m, series_index r m -> series_at r m = series_at f (reindex directions (p_dirs (s_pos f)) m).
Proof. exact project_series. Qed.
Print Assumptions C89_project.

(** Hypotheses met: 3 + 5 h(x2) + 7 h(x0), times x0 x2, on the directions 0 and 2; its projection on 2. *)
Definition f02 : SeriesModel.series num_R expr := ser_x (N := num_R) [0; 2]%nat (EMul (EVar 0) (EVar 2)) [3; 5; 7].
Definition project02 (f : SeriesModel.series num_R expr) := series_project num_R r_far expr EMul (EInt 1) x_add_args x_mul_args x_free f.
Definition w2 : func expr := Fn (EMul (EInt 1) (EMul (EInt 1) (EVar 2))) [2]%nat.
Lemma f02_ok : series_ok f02 2 /\ pos_ok (s_pos f02) /\ increasing [0; 2]%nat /\ increasing [2]%nat /\ incl [2]%nat [0; 2]%nat /\ fun_project expr EMul (EInt 1) x_add_args x_mul_args x_free (s_factor f02) [2]%nat = Ok w2.
Proof.
  split; [apply (ser_x_ok num_R [0; 2]%nat); cbn; lia|]. split; [repeat (split || constructor); cbn; intuition congruence|]. split; [repeat constructor|]. split; [repeat constructor|]. split; [intros x [<-|[]]; right; left; reflexivity|]. vm_compute. reflexivity.
Qed.
Example C89_project_example : exists r, project02 f02 [2]%nat = Ok r /\ s_factor r = w2 /\ series_at r [0]%nat = series_at f02 [0; 0]%nat /\ series_at r [1]%nat = series_at f02 [0; 1]%nat.
Proof.
  destruct f02_ok as (O1 & O2 & O3 & O4 & O5 & O6).
  destruct (C89_project num_R r_far (fun _ => eq_refl) expr EMul (EInt 1) x_add_args x_mul_args x_free f02 [2]%nat w2 O1 O2 O3 O4 ltac:(discriminate) O5 O6) as (r & R1 & R2 & R3 & R4 & R5 & R6 & R7 & R8 & R9).
  exists r. split; [exact R1|]. split; [exact R7|]. split; apply R9; apply R8; split; cbn; lia.
Qed.

(** Series.project raises ValueError for a direction the series does not have, and whatever projecting the factor raises; directions out of order are refused. *)
Theorem C89_missing : forall (N : num) far E e_mul e_1 add_args mul_args free_vars (f : SeriesModel.series N E) directions, ~ incl directions (p_dirs (s_pos f)) ->
  series_project N far E e_mul e_1 add_args mul_args free_vars f directions = Throw "ValueError"%string.
Proof. exact project_missing. Qed.
Print Assumptions C89_missing.
Example C89_missing_example : ~ incl [1]%nat (p_dirs (s_pos f02)).
Proof. intros H. specialize (H 1%nat (or_introl eq_refl)). cbn in H. lia. Qed.
Theorem C89_factor : forall (N : num) far, (forall l, far (diag_mat N l) = false) -> forall E e_mul e_1 add_args mul_args free_vars (f : SeriesModel.series N E) directions e,
  series_ok f (length (p_dirs (s_pos f))) -> pos_ok (s_pos f) -> increasing (p_dirs (s_pos f)) -> increasing directions -> directions <> [] -> incl directions (p_dirs (s_pos f)) ->
  fun_project E e_mul e_1 add_args mul_args free_vars (s_factor f) directions = Throw e -> series_project N far E e_mul e_1 add_args mul_args free_vars f directions = Throw e.
Proof. exact project_factor. Qed.
Print Assumptions C89_factor.
(** Hypotheses met: the factor |x0 + x2|, which straddles. *)
Example C89_factor_example : project02 (ser_x (N := num_R) [0; 2]%nat (EAbs (EAdd (EVar 0) (EVar 2))) [3; 5; 7]) [2]%nat = Throw "ValueError"%string.
Proof.
  destruct f02_ok as (O1 & O2 & O3 & O4 & O5 & O6). apply (C89_factor num_R r_far (fun _ => eq_refl) expr EMul (EInt 1)); [apply (ser_x_ok num_R [0; 2]%nat); cbn; lia|exact O2|exact O3|exact O4|discriminate|exact O5|reflexivity].
Qed.
Theorem C89_order : forall (N : num) far E e_mul e_1 add_args mul_args free_vars (f : SeriesModel.series N E) directions r, pos_ok (s_pos f) ->
  series_project N far E e_mul e_1 add_args mul_args free_vars f directions = Ok r -> StronglySorted le directions.
Proof. exact project_order. Qed.
Print Assumptions C89_order.
Example C89_order_example : forall r, project02 f02 [2; 0]%nat <> Ok r.
Proof. intros r H. apply C89_order in H; [|apply f02_ok]. inversion H as [|? ? _ H2]; subst. inversion H2; lia. Qed.

(** Projecting a series averages it: the projection, evaluated at the point [x] of the directions kept, is the integral of the series with rules that take the value at [x]
    in these directions and the mean in the others. *)
Theorem C89_marginal : forall far, (forall l, far (diag_mat num_R l) = false) -> forall E e_mul e_1 add_args mul_args free_vars (f r : SeriesModel.series num_R E) directions w x nodes weights,
  series_ok f (length (p_dirs (s_pos f))) -> pos_ok (s_pos f) -> increasing (p_dirs (s_pos f)) -> increasing directions -> directions <> [] -> incl directions (p_dirs (s_pos f)) ->
  fun_project E e_mul e_1 add_args mul_args free_vars (s_factor f) directions = Ok w -> (s_set f = Cross \/ s_set f = CrossNc -> (1 <= s_degree f)%nat) -> length x = length directions ->
  average_but (p_dirs (s_pos f)) directions x (s_degree f) (kinds (p_types (s_pos f))) nodes weights ->
  series_project num_R far E e_mul e_1 add_args mul_args free_vars f directions = Ok r ->
  CalcSpec.series (s_set r) (s_degree r) (kinds (p_types (s_pos r))) (s_coeffs r) x = integral nodes weights (CalcSpec.series (s_set f) (s_degree f) (kinds (p_types (s_pos f))) (s_coeffs f)).
Proof. exact project_marginal. Qed.
Print Assumptions C89_marginal.

(** Such rules exist: the rules exact in the sense of C33 average, up to sqrt(2 pi) for Fourier. *)
Theorem C89_averages : forall degree xs ws, (exact_rule degree 0 xs ws -> averages degree 0 xs ws) /\ (exact_rule degree 1 xs ws -> averages degree 1 xs (map (fun w => w / sqrt (2 * PI)) ws)).
Proof. exact (fun degree xs ws => conj (hermite_averages degree xs ws) (fourier_averages degree xs ws)). Qed.
Print Assumptions C89_averages.
Lemma two_point : exact_rule 1 0 [-1; 1] [1 / 2; 1 / 2].
Proof.
  split; [reflexivity|]. intros [|[|i]] [|[|j]] Hi Hj; try lia; cbn; unfold basis, hermite; cbn; rewrite sqrt_1; lra.
Qed.
Example C89_averages_example : averages 1 0 [-1; 1] [1 / 2; 1 / 2].
Proof. apply C89_averages. exact two_point. Qed.
Example C89_marginal_example : exists r, project02 f02 [2]%nat = Ok r /\ forall t,
  CalcSpec.series (s_set r) (s_degree r) (kinds (p_types (s_pos r))) (s_coeffs r) [t] = integral [[-1; 1]; [t]] [[1 / 2; 1 / 2]; [1]] (CalcSpec.series Triangle 1 [0; 0]%nat [3; 5; 7]).
Proof.
  destruct f02_ok as (O1 & O2 & O3 & O4 & O5 & O6).
  destruct (C89_project num_R r_far (fun _ => eq_refl) expr EMul (EInt 1) x_add_args x_mul_args x_free f02 [2]%nat w2 O1 O2 O3 O4 ltac:(discriminate) O5 O6) as (r & R1 & _).
  exists r. split; [exact R1|]. intros t.
  apply (C89_marginal r_far (fun _ => eq_refl) expr EMul (EInt 1) x_add_args x_mul_args x_free f02 r [2]%nat w2 [t] [[-1; 1]; [t]] [[1 / 2; 1 / 2]; [1]] O1 O2 O3 O4 ltac:(discriminate) O5 O6); [intros [H|H]; discriminate H|reflexivity| |exact R1].
  split; [reflexivity|]. split; [reflexivity|]. intros [|[|k]] d Hd; cbn in Hd; [injection Hd as <-|injection Hd as <-|destruct k; discriminate Hd].
  - split; [intros [|[|j]] H; discriminate H|]. intros _. exact C89_averages_example.
  - split; [|intros H; exfalso; apply H; left; reflexivity]. intros [|[|j]] H; try discriminate H. split; reflexivity.
Qed.

(** Varf.project never projects: it reads an attribute that no variational form has. *)
Theorem C89_varf_refuted : forall (N : num) far E e_mul e_1 add_args mul_args free_vars (v : SeriesModel.varf N E) directions, directions <> [] ->
  varf_project N far E e_mul e_1 add_args mul_args free_vars v directions = Throw "AttributeError"%string.
Proof. exact varf_project_raises. Qed.
Print Assumptions C89_varf_refuted.
Example C89_varf_refuted_example : [2]%nat <> [].
Proof. discriminate. Qed.
