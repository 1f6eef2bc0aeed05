(** Property C91: the equalities of positions, series, variational forms and quadratures.  Property C92: the weight of a position. *)
From Coq Require Import String List Bool Arith ZArith Reals Lia Lra.
From Verif Require Import Base PyBase IndexModel Spec Num Fnum CalcSpec LinModel LinSpec LinBase Facts2 PosModel PosSpec SeriesModel SeriesSpec SplitModel SplitSpec SplitFacts PyQuadModel MulSpec MulFacts SolveSpec SolveFacts EqModel EqSpec EqFacts WeightModel WeightSpec WeightFacts.
Import ListNotations.
Local Open Scope R_scope.

(** C91: every position, series, variational form and quadrature equals itself, whatever the covariance; comparing them never fails. *)
Theorem C91_reflexive : forall E (sym_eqb : E -> E -> bool) spectral, (forall x y, sym_eqb x y = true <-> x = y) -> spectral_ok spectral ->
  (forall p, pos_shape p -> position_eq spectral p p = Ok true) /\
  (forall f : SeriesModel.series num_R E, pos_shape (s_pos f) -> series_eq E sym_eqb spectral f f = Ok true) /\
  (forall (v : SeriesModel.varf num_R E) n, pos_shape (v_pos v) -> mat_wf n n (v_mat v) -> varf_eq E spectral v v = Ok true) /\
  (forall (q : quad fnum_R E) n k, quad_shape q n k -> quad_eq E sym_eqb spectral q q = Ok true).
Proof. intros E sym_eqb spectral H1 H2. exact (conj (position_refl spectral H2) (conj (series_refl E sym_eqb H1 spectral H2) (conj (varf_refl E spectral H2) (quad_refl E sym_eqb H1 spectral H2)))). Qed.
Print Assumptions C91_reflexive.

(** C91: the order of the operands does not matter: the answer, or the exception, is the same.  No hypothesis on the shapes. *)
Theorem C91_symmetric : forall E (sym_eqb : E -> E -> bool) spectral, (forall x y, sym_eqb x y = true <-> x = y) -> spectral_ok spectral ->
  (forall p q, position_eq spectral p q = position_eq spectral q p) /\
  (forall f g : SeriesModel.series num_R E, series_eq E sym_eqb spectral f g = series_eq E sym_eqb spectral g f) /\
  (forall v w : SeriesModel.varf num_R E, varf_eq E spectral v w = varf_eq E spectral w v) /\
  (forall q r : quad fnum_R E, quad_eq E sym_eqb spectral q r = quad_eq E sym_eqb spectral r q).
Proof. intros E sym_eqb spectral H1 H2. exact (conj (position_sym spectral H2) (conj (series_sym E sym_eqb H1 spectral H2) (conj (varf_sym E spectral H2) (quad_sym E sym_eqb H1 spectral H2)))). Qed.
Print Assumptions C91_symmetric.

(** C91: equal positions have the same directions and types, and means and covariances that differ by less than 1e-10 in each entry; equal quadratures have in addition the
    same factor, and nodes and weights that differ by less than 1e-10. *)
Theorem C91_position : forall spectral, spectral_ok spectral -> forall p q, pos_shape p -> pos_shape q -> position_eq spectral p q = Ok true -> same_position p q.
Proof. exact position_meaning. Qed.
Print Assumptions C91_position.
Theorem C91_quad : forall E (sym_eqb : E -> E -> bool), (forall x y, sym_eqb x y = true <-> x = y) -> forall spectral, spectral_ok spectral -> forall q r n k, quad_shape q n k -> quad_shape r n k -> quad_eq E sym_eqb spectral q r = Ok true ->
  same_position (q_pos q) (q_pos r) /\ q_factor q = q_factor r /\ close_mat tol (q_nodes q) (q_nodes r) /\ close_mat tol (q_weights q) (q_weights r).
Proof. exact quad_meaning. Qed.
Print Assumptions C91_quad.

(** C91: if series with the same index set and degree are equal, each coefficient of the one differs by less than 1e-10 from that of the other; likewise for the entries of
    variational forms. *)
Theorem C91_series : forall E (sym_eqb : E -> E -> bool), (forall x y, sym_eqb x y = true <-> x = y) -> forall spectral, spectral_ok spectral -> forall (f g : SeriesModel.series num_R E) dim,
  series_ok f dim -> series_ok g dim -> pos_shape (s_pos f) -> pos_shape (s_pos g) -> s_set f = s_set g -> s_degree f = s_degree g -> series_eq E sym_eqb spectral f g = Ok true ->
  same_position (s_pos f) (s_pos g) /\ s_factor f = s_factor g /\ forall m, Rabs (series_at f m - series_at g m) < tol.
Proof. exact series_values. Qed.
Print Assumptions C91_series.
Theorem C91_varf : forall E spectral, spectral_ok spectral -> forall (v w : SeriesModel.varf num_R E) dim,
  varf_ok v dim -> varf_ok w dim -> pos_shape (v_pos v) -> pos_shape (v_pos w) -> v_set v = v_set w -> v_degree v = v_degree w -> varf_eq E spectral v w = Ok true ->
  same_position (v_pos v) (v_pos w) /\ forall r c, Rabs (varf_at v r c - varf_at w r c) < tol.
Proof. exact varf_values. Qed.
Print Assumptions C91_varf.

(* samples: series in one variable with two coefficients, and series in two variables *)
Definition half : R := 6 / 10 ^ 11.
Definition ser_half (k : R) : SeriesModel.series num_R expr := ser_x (N := num_R) [0]%nat (EInt 1) [k * half; 0].
Definition ones (s : iset) (degree n : nat) : SeriesModel.series num_R expr := Ser (repeat 1 n : list num_R) (std_pos [0; 1]%nat) s degree (Fn (EInt 1) [0; 1]%nat).
Definition form_x (k : R) (factor : expr) : SeriesModel.varf num_R expr := varf_x (N := num_R) [0]%nat factor [[k * half; 0]; [0; 1]].
Lemma std_shape : forall d, increasing d -> pos_shape (std_pos (N := num_R) d).
Proof. intros d H. apply pos_ok_shape. apply (std_pos_ok num_R). exact H. Qed.
Lemma half_ok : small (sqrt ((half + 0) * (half + 0))) = true /\ small (sqrt ((2 * half) * (2 * half))) = false.
Proof.
  assert (H0 : 0 <= half) by (unfold half; lra). split.
  - rewrite sqrt_square by lra. unfold small. destruct (Rlt_dec (half + 0) (/ 10 ^ 10)) as [_|H]; [reflexivity|]. exfalso. apply H. unfold half. lra.
  - rewrite sqrt_square by lra. unfold small. destruct (Rlt_dec (2 * half) (/ 10 ^ 10)) as [H|_]; [|reflexivity]. exfalso. unfold half in H. lra.
Qed.
Lemma ser_half_eq : forall spectral, spectral_ok spectral -> forall j k, series_eq expr x_eqb spectral (ser_half j) (ser_half k) = Ok (small (sqrt (((j - k) * half) * ((j - k) * half)))).
Proof.
  intros spectral Hs j k. rewrite (series_eq_same expr x_eqb spectral _ _ x_eqb_iff Hs); [|apply std_shape; repeat constructor|reflexivity|reflexivity].
  cbn [ser_half ser_x s_coeffs]. rewrite (sub_same [j * half; 0] [k * half; 0]) by reflexivity. cbn [bind]. unfold diff, vec_norm. cbn [map combine fold_right]. do 3 f_equal. ring.
Qed.
Lemma ser_half_ok : forall k, series_ok (ser_half k) 1.
Proof. intros k. apply (ser_x_ok num_R [0]%nat (EInt 1) [k * half; 0]); [cbn; lia|reflexivity]. Qed.

Example C91_series_example : series_ok (ser_half 1) 1 /\ series_ok (ser_half 2) 1 /\ pos_shape (s_pos (ser_half 1)) /\ series_eq expr x_eqb frobenius (ser_half 1) (ser_half 2) = Ok true /\ s_coeffs (ser_half 1) <> s_coeffs (ser_half 2).
Proof.
  split; [apply ser_half_ok|]. split; [apply ser_half_ok|]. split; [apply std_shape; repeat constructor|]. split.
  - rewrite (ser_half_eq _ frobenius_ok). f_equal. destruct half_ok as [H _]. rewrite <- H. f_equal. f_equal. ring.
  - intros H. injection H as H. unfold half in H. lra.
Qed.
Example C91_reflexive_example : pos_shape (s_pos (ones Cube 5 36)) /\ mat_wf 2 2 (v_mat (form_x 1 (EVar 0))) /\
  quad_shape (Qd (F := fnum_R) [[1; 2]; [3; 4]] [[1; 0]; [1; 1]] (Pos (N := fnum_R) [0; 1]%nat [0; 0] [[2; 1]; [1; 2]] ["hermite"; "hermite"]%string false) (Fn (EInt 1) [0; 1]%nat)) 2 2.
Proof. split; [apply std_shape; repeat constructor|]. split; [split; [reflexivity|repeat constructor]|]. split; [split; [reflexivity|split; [reflexivity|repeat constructor]]|]. split; [reflexivity|]. split; split; try reflexivity; repeat constructor. Qed.

(** C91: being equal is not transitive: changes below the tolerance add up. *)
Theorem C91_transitive_refuted : forall spectral, spectral_ok spectral -> ~ forall f g h : SeriesModel.series num_R expr, series_ok f 1 -> series_ok g 1 -> series_ok h 1 ->
  series_eq expr x_eqb spectral f g = Ok true -> series_eq expr x_eqb spectral g h = Ok true -> series_eq expr x_eqb spectral f h = Ok true.
Proof.
  intros spectral Hs H. destruct half_ok as [H1 H2]. specialize (H (ser_half 2) (ser_half 1) (ser_half 0) (ser_half_ok _) (ser_half_ok _) (ser_half_ok _)). rewrite !(ser_half_eq _ Hs) in H.
  replace (((2 - 1) * half) * ((2 - 1) * half)) with ((half + 0) * (half + 0)) in H by ring. replace (((1 - 0) * half) * ((1 - 0) * half)) with ((half + 0) * (half + 0)) in H by ring. replace (((2 - 0) * half) * ((2 - 0) * half)) with (2 * half * (2 * half)) in H by ring.
  rewrite H1, H2 in H. specialize (H eq_refl eq_refl). discriminate H.
Qed.
Print Assumptions C91_transitive_refuted.

(** C91: the index set is not compared: equal series with the same number of coefficients may have different coefficients at a multi-index (triangle of degree 7 and cube of
    degree 5 in two dimensions, 36 coefficients each). *)
Theorem C91_sets_refuted : forall spectral, spectral_ok spectral -> ~ forall (f g : SeriesModel.series num_R expr) dim, series_ok f dim -> series_ok g dim -> pos_shape (s_pos f) -> pos_shape (s_pos g) ->
  length (s_coeffs f) = length (s_coeffs g) -> series_eq expr x_eqb spectral f g = Ok true -> forall m, Rabs (series_at f m - series_at g m) < tol.
Proof.
  intros spectral Hs H. assert (Hp : pos_shape (std_pos (N := num_R) [0; 1]%nat)) by (apply std_shape; repeat constructor).
  assert (He : series_eq expr x_eqb spectral (ones Triangle 7 36) (ones Cube 5 36) = Ok true) by exact (series_refl expr x_eqb x_eqb_iff spectral Hs (ones Triangle 7 36) Hp).
  assert (H1 : series_ok (ones Triangle 7 36) 2) by (split; [split; [reflexivity|split; [reflexivity|apply (usable_dim4 Triangle 2 7); lia]]|vm_compute; reflexivity]).
  assert (H2 : series_ok (ones Cube 5 36) 2) by (split; [split; [reflexivity|split; [reflexivity|apply (usable_dim4 Cube 2 5); lia]]|vm_compute; reflexivity]).
  specialize (H _ _ 2%nat H1 H2 Hp Hp eq_refl He [7; 0]%nat).
  assert (E1 : series_at (ones Triangle 7 36) [7; 0]%nat = 1) by (unfold series_at, coef; replace (points (s_set (ones Triangle 7 36)) (length (p_dirs (s_pos (ones Triangle 7 36)))) (s_degree (ones Triangle 7 36))) with (points Triangle 2 7) by reflexivity; let l := eval vm_compute in (points Triangle 2 7) in change (points Triangle 2 7) with l; reflexivity).
  assert (E2 : series_at (ones Cube 5 36) [7; 0]%nat = 0) by (unfold series_at, coef; replace (points (s_set (ones Cube 5 36)) (length (p_dirs (s_pos (ones Cube 5 36)))) (s_degree (ones Cube 5 36))) with (points Cube 2 5) by reflexivity; let l := eval vm_compute in (points Cube 2 5) in change (points Cube 2 5) with l; reflexivity).
  rewrite E1, E2 in H. cbn [n0 num_R carrier] in H. rewrite Rminus_0_r, Rabs_R1 in H. unfold tol in H. lra.
Qed.
Print Assumptions C91_sets_refuted.

(** C91: nor is the degree: NumPy broadcasts a series with one coefficient. *)
Theorem C91_broadcast_refuted : forall spectral, spectral_ok spectral -> ~ forall (f g : SeriesModel.series num_R expr) dim, series_ok f dim -> series_ok g dim -> pos_shape (s_pos f) -> pos_shape (s_pos g) ->
  s_set f = s_set g -> series_eq expr x_eqb spectral f g = Ok true -> forall m, Rabs (series_at f m - series_at g m) < tol.
Proof.
  intros spectral Hs H. assert (Hp : pos_shape (std_pos (N := num_R) [0; 1]%nat)) by (apply std_shape; repeat constructor).
  assert (He : series_eq expr x_eqb spectral (ones Triangle 0 1) (ones Triangle 1 3) = Ok true).
  { rewrite (series_eq_same expr x_eqb spectral _ _ x_eqb_iff Hs); [|exact Hp|reflexivity|reflexivity]. change (np_sub (s_coeffs (ones Triangle 0 1)) (s_coeffs (ones Triangle 1 3))) with (Ok [1 + - 1; 1 + - 1; 1 + - 1]). cbn [bind]. rewrite norm_zero; [rewrite small_0; reflexivity|]. intros x [<-|[<-|[<-|[]]]]; lra. }
  assert (H1 : series_ok (ones Triangle 0 1) 2) by (split; [split; [reflexivity|split; [reflexivity|apply (usable_dim4 Triangle 2 0); lia]]|vm_compute; reflexivity]).
  assert (H2 : series_ok (ones Triangle 1 3) 2) by (split; [split; [reflexivity|split; [reflexivity|apply (usable_dim4 Triangle 2 1); lia]]|vm_compute; reflexivity]).
  specialize (H _ _ 2%nat H1 H2 Hp Hp eq_refl He [1; 0]%nat).
  assert (E1 : series_at (ones Triangle 0 1) [1; 0]%nat = 0) by (unfold series_at, coef; replace (points (s_set (ones Triangle 0 1)) (length (p_dirs (s_pos (ones Triangle 0 1)))) (s_degree (ones Triangle 0 1))) with (points Triangle 2 0) by reflexivity; let l := eval vm_compute in (points Triangle 2 0) in change (points Triangle 2 0) with l; reflexivity).
  assert (E2 : series_at (ones Triangle 1 3) [1; 0]%nat = 1) by (unfold series_at, coef; replace (points (s_set (ones Triangle 1 3)) (length (p_dirs (s_pos (ones Triangle 1 3)))) (s_degree (ones Triangle 1 3))) with (points Triangle 2 1) by reflexivity; let l := eval vm_compute in (points Triangle 2 1) in change (points Triangle 2 1) with l; reflexivity).
  rewrite E1, E2 in H. replace (0 - 1) with (- (1)) in H by ring. rewrite Rabs_Ropp, Rabs_R1 in H. unfold tol in H. lra.
Qed.
Print Assumptions C91_broadcast_refuted.

(** C91: the factor of variational forms is not compared. *)
Theorem C91_factor_refuted : forall spectral, spectral_ok spectral -> ~ forall (v w : SeriesModel.varf num_R expr) dim, varf_ok v dim -> varf_ok w dim -> pos_shape (v_pos v) -> pos_shape (v_pos w) ->
  varf_eq expr spectral v w = Ok true -> v_factor v = v_factor w.
Proof.
  intros spectral Hs H. assert (Hp : pos_shape (std_pos (N := num_R) [0]%nat)) by (apply std_shape; repeat constructor).
  assert (Hm : mat_wf 2 2 (v_mat (form_x 1 (EVar 0)))) by (split; [reflexivity|repeat constructor]).
  assert (He : varf_eq expr spectral (form_x 1 (EVar 0)) (form_x 1 (EInt 1)) = Ok true) by exact (varf_refl expr spectral Hs (form_x 1 (EVar 0)) 2 Hp Hm).
  assert (H1 : forall e, varf_ok (form_x 1 e) 1) by (intros e; split; [split; [reflexivity|split; [reflexivity|apply (usable_dim4 Triangle 1 1); lia]]|exact Hm]).
  specialize (H _ _ 1%nat (H1 _) (H1 _) Hp Hp He). discriminate H.
Qed.
Print Assumptions C91_factor_refuted.

(** C92: for a position with independent directions, [weights] returns for each direction the density of the normal distribution with its mean and variance (1 if it is not
    a Hermite direction). *)
Theorem C92_weights : forall far la_inv la_det, (forall l, far (diag_mat num_R l) = false) -> la_diag la_inv la_det -> forall p vars env, diag_position p vars ->
  pos_weights far la_inv la_det p env = Ok (weight_list p vars env).
Proof. intros far la_inv la_det H1 H2. exact (weights_value far H1 la_inv la_det H2). Qed.
Print Assumptions C92_weights.
(** C92: [weight] is the product of these densities if all directions are Hermite, 1 if none is. *)
Theorem C92_weight : forall la_inv la_det, la_diag la_inv la_det -> forall p vars env, diag_position p vars -> Forall (fun t => t = "hermite"%string) (p_types p) ->
  pos_weight la_inv la_det p env = Ok (rprod (weight_list p vars env)).
Proof. exact weight_hermite. Qed.
Print Assumptions C92_weight.
Theorem C92_none : forall la_inv la_det p env, ~ In "hermite"%string (p_types p) -> pos_weight la_inv la_det p env = Ok 1.
Proof. exact weight_none. Qed.
Print Assumptions C92_none.
(** C92: with both kinds it is too small by the factor sqrt(2 pi) for each direction that is not Hermite... *)
Theorem C92_mixed : forall la_inv la_det, la_diag la_inv la_det -> forall p vars env, diag_position p vars -> In "hermite"%string (p_types p) ->
  pos_weight la_inv la_det p env = Ok (rprod (weight_list p vars env) / sqrt ((2 * PI) ^ others p)).
Proof. exact weight_value. Qed.
Print Assumptions C92_mixed.
Definition mixed : position num_R := Pos (N := num_R) [0; 1]%nat [0; 0] (diag_mat num_R [1; 2]) ["hermite"; "fourier"]%string true.
Lemma mixed_diag : diag_position mixed [1; 2].
Proof. split; [reflexivity|]. split; [repeat constructor; lra|]. do 3 (split; [reflexivity|]). split; [|reflexivity]. repeat constructor; cbn; lia. Qed.
(** ... so that it is not the product of the [weights]. *)
Theorem C92_mixed_refuted : forall la_inv la_det, la_diag la_inv la_det -> ~ forall p vars env, diag_position p vars -> pos_weight la_inv la_det p env = Ok (rprod (weight_list p vars env)).
Proof.
  intros la_inv la_det Hla H. specialize (H mixed [1; 2] (fun _ => 0) mixed_diag). rewrite (weight_value la_inv la_det Hla mixed [1; 2] _ mixed_diag (or_introl eq_refl)) in H. apply (f_equal (fun o => match o with Ok x => x | _ => 0 end)) in H. cbn beta iota in H.
  assert (Hw : 0 < rprod (weight_list mixed [1; 2] (fun _ => 0))).
  { change (0 < normal_density 0 1 0 * (1 * 1)). unfold normal_density. pose proof PI_RGT_0. rewrite !Rmult_1_r. apply Rdiv_lt_0_compat; [apply exp_pos|apply sqrt_lt_R0; lra]. }
  replace ((2 * PI) ^ others mixed) with (2 * PI) in H by (change (others mixed) with 1%nat; ring).
  assert (Hs : 1 < sqrt (2 * PI)) by (rewrite <- sqrt_1 at 1; apply sqrt_lt_1_alt; pose proof PI2_3_2; lra).
  set (w := rprod _) in *. assert (G : w = w * sqrt (2 * PI)) by (rewrite <- H at 2; field; lra). nra.
Qed.
Print Assumptions C92_mixed_refuted.
Example C92_weight_example : diag_position mixed [1; 2] /\ In "hermite"%string (p_types mixed) /\ diag_position (Pos (N := num_R) [0; 1]%nat [1; 3] (diag_mat num_R [1; 2]) ["hermite"; "hermite"]%string true) [1; 2] /\
  la_diag PyQuadSpec.r_la_inv (fun m => rprod (map (fun i => nth i (nth i m []) 0) (seq 0 (length m)))).
Proof.
  split; [exact mixed_diag|]. split; [left; reflexivity|]. split; [destruct mixed_diag as (H1 & H2 & H3 & _ & _ & H4 & _); split; [reflexivity|]; split; [exact H2|]; do 3 (split; [reflexivity|]); split; [exact H4|reflexivity]|].
  exact r_la_diag.
Qed.
