(** Property C67: derivatives and differential operators discretized by a quadrature. *)
From Coq Require Import String List Bool Arith ZArith Reals Lia Lra.
From Verif Require Import Base IndexModel Num Fnum LinSpec LinBase Facts2 Facts6 Facts7 Facts9 CalcSpec CalcHermite PyBase PosModel PosSpec PosFacts SeriesModel SeriesSpec OpModel OpSpec
  PyQuadModel PyQuadSpec PyQuadFacts2 OpQuadModel OpQuadSpec OpQuadFacts.
Import ListNotations.
Local Open Scope R_scope.

(** C67: the matrix of Quad.varfd for a function f and a list of directions (those that are not directions of the quadrature are
    ignored) has the entries: quadrature of f times phi_r times the derivative of the basis function number c in the physical
    coordinates x = mean + sqrt(variance) y, along the directions of the list. *)
Theorem C67_varfd : forall E (free_vars : E -> list nat) (eval : E -> (nat -> R) -> R) cov_factor la_inv far8 junk e_1 la_eig, numpy_ok cov_factor la_inv far8 -> reads_free eval free_vars -> eig_ok la_eig ->
  forall (q : quad fnum_R E) vars s degree f directions ks, setting q vars s degree -> (forall k, nth k (kinds (p_types (q_pos q))) 0%nat = 1%nat -> paired s (length vars) degree k) ->
  f_dirs f = p_dirs (q_pos q) -> incl (free_vars (f_sym f)) (f_dirs f) ->
  (forall values, grid_values q vars values (eval (f_sym f)) -> nothing_dropped s degree (q_nodes q) (q_weights q) (kinds (p_types (q_pos q))) values) ->
  coordinates_of (p_dirs (q_pos q)) directions ks ->
  exists values v, grid_values q vars values (eval (f_sym f)) /\ quad_varfd fnum_R E e_1 free_vars eval cov_factor junk la_eig q f degree directions s = Ok v /\
    varf_ok v (length vars) /\ v_pos v = q_pos q /\ v_set v = s /\ v_factor v = q_factor q /\ v_degree v = Degree.recovered s degree /\
    (forall m, varf_index v m <-> index_of s (length vars) degree m) /\
    forall r c g, varf_index v r -> varf_index v c -> deriv_along (length vars) ks (psi (p_mean (q_pos q)) vars (kinds (p_types (q_pos q))) c) g ->
      varf_at v r c = quadrature (q_nodes q) (q_weights q) values (fun y => phi (kinds (p_types (q_pos q))) r y * g (located (p_mean (q_pos q)) vars y)).
Proof. exact varfd_matrix. Qed.
Print Assumptions C67_varfd.

(** Quad.discretize_op of a differential operator L, with the factor w of the quadrature: the entries are the quadratures of phi_r
    times L(w psi_c)/w, where psi_c is the basis function number c in the physical coordinates. *)
Theorem C67_discretize_op : forall E (free_vars : E -> list nat) (eval : E -> (nat -> R) -> R) cov_factor la_inv far8 junk e_1 la_eig, numpy_ok cov_factor la_inv far8 -> reads_free eval free_vars -> eig_ok la_eig ->
  forall e_add e_mul e_0 e_mono simplify is0 sym_eqb pos_eqb op_map, sympy_lin (N := num_R) eval e_add e_mul e_0 e_mono simplify is0 -> (forall p, pos_eqb p p = true) -> (forall e, sym_eqb e e = true) ->
  (forall a b, sym_eqb a b = true -> forall env, eval a env = eval b env) ->
  forall (q : quad fnum_R E) vars s degree env, setting q vars s degree -> (forall k, nth k (kinds (p_types (q_pos q))) 0%nat = 1%nat -> paired s (length vars) degree k) ->
  increasing (p_dirs (q_pos q)) -> assigns (p_dirs (q_pos q)) env -> sympy_lin_vars e_add e_mul e_0 e_1 e_mono simplify free_vars (p_dirs (q_pos q)) ->
  forall (op : oper E) (D : list nat -> list nat -> list R -> R),
  f_dirs (q_factor q) = p_dirs (q_pos q) -> incl (free_vars (f_sym (q_factor q))) (p_dirs (q_pos q)) -> (forall x, eval e_1 x = 1) ->
  (forall c n, In (c, n) op -> length n = length vars /\ (order n <= 5)%nat /\ incl (free_vars c) (p_dirs (q_pos q))) ->
  maps eval free_vars (p_dirs (q_pos q)) env op (q_factor q) (op_map op (q_factor q)) ->
  (forall p, In p (grid (q_nodes q)) -> eval (f_sym (q_factor q)) (env (grid_point q vars p)) <> 0) ->
  (forall op' n values, (sym_eqb (f_sym (q_factor q)) e_1 = true /\ op' = op) \/ (sym_eqb (f_sym (q_factor q)) e_1 = false /\ op' = op_map op (q_factor q)) -> length n = length vars ->
    grid_values q vars values (coefficient (N := num_R) eval op' n) -> nothing_dropped s degree (q_nodes q) (q_weights q) (kinds (p_types (q_pos q))) values) ->
  (forall c, index_of s (length vars) degree c -> derivatives (length vars) (fun x => eval (f_sym (q_factor q)) (env x) * psi (p_mean (q_pos q)) vars (kinds (p_types (q_pos q))) c x) (D c)) ->
  exists v, quad_discretize_op fnum_R E e_add e_mul e_0 e_1 e_mono simplify is0 free_vars eval sym_eqb pos_eqb cov_factor junk la_eig op_map q op degree s = Ok v /\
    varf_ok v (length vars) /\ v_pos v = q_pos q /\ v_set v = s /\ v_factor v = q_factor q /\ v_degree v = Degree.recovered s degree /\ (forall m, varf_index v m <-> index_of s (length vars) degree m) /\
    forall r c, varf_index v r -> varf_index v c ->
      varf_at v r c = integral (q_nodes q) (q_weights q) (fun y => let x := located (p_mean (q_pos q)) vars y in
        phi (kinds (p_types (q_pos q))) r y * (op_value (N := num_R) eval op (fun n => D c n x) (env x) / eval (f_sym (q_factor q)) (env x))).
Proof. exact discretize_op_galerkin. Qed.
Print Assumptions C67_discretize_op.

(** One direction with mean 3, variance 4 and the two-point rule. *)
Notation quad1 factor := (Qd (F := fnum_R) (E := rexpr) [[-1; 1]] [[1/2; 1/2]] (Pos (N := fnum_R) [0]%nat [3] (diag_mat fnum_R [4]) ["hermite"]%string true) (Fn factor [0]%nat)).
Lemma quad1_setting : forall factor, setting (quad1 factor) [4] Triangle 1.
Proof.
  intros factor. split.
  - split; [|split; [reflexivity|split; [discriminate|unfold grid_fits; cbn; lia]]]. split; [reflexivity|]. split; [repeat constructor; lra|]. repeat split; repeat constructor; cbn; intuition discriminate.
  - split; [repeat constructor|]. split; [apply usable_dim4; cbn; lia|]. split; [apply usable_fits, usable_dim4; cbn; lia|]. split; [split; [repeat constructor|intros [H|H]; discriminate H]|left; reflexivity].
Qed.
Lemma sqrt_4 : sqrt 4 = 2.
Proof. replace 4 with (2 * 2) by lra. apply sqrt_square; lra. Qed.
(** The values of a function at the two points. *)
Lemma quad1_values : forall factor values f, grid_values (quad1 factor) [4] values f -> values = [f (fun _ => 1); f (fun _ => 5)].
Proof.
  intros factor values f [H1 H2].
  assert (P : forall i a, (i < 2)%nat -> 3 + 2 * nth i [-1; 1] 0 = a -> at_point [0]%nat (grid_point (quad1 factor) [4] [i]) (fun _ => a)).
  { intros i a Hi <-. destruct i as [|[|i]]; try lia; intros [|k] d Hd; cbn in Hd; try (destruct k; discriminate Hd); injection Hd as <-; cbn -[sqrt]; f_equal; rewrite sqrt_4; lra. }
  assert (F0 := H2 0%nat [0]%nat _ eq_refl (P 0%nat 1 ltac:(lia) ltac:(cbn; lra))). assert (F1 := H2 1%nat [1]%nat _ eq_refl (P 1%nat 5 ltac:(lia) ltac:(cbn; lra))).
  destruct values as [|a [|b [|? ?]]]; try discriminate H1. cbn in F0, F1. injection F0 as ->. injection F1 as ->. reflexivity.
Qed.
(** The function x and one derivative: the derivative of (x - 3)/2 is 1/2, and the mean of x is 3; the direction 7 is ignored. *)
Example C67_varfd_example : exists v, quad_varfd fnum_R rexpr (RNum 1) r_free r_eval r_cov_factor 0 r_la_eig (quad1 (RNum 1)) (Fn (RVar 0) [0]%nat) 1 [7; 0]%nat Triangle = Ok v /\
  varf_at v [0]%nat [1]%nat = 3 / 2 /\ varf_at v [1]%nat [1]%nat = 1.
Proof.
  destruct (C67_varfd rexpr r_free r_eval r_cov_factor r_la_inv r_far 0 (RNum 1) r_la_eig numpy_sample r_reads diag_eig (quad1 (RNum 1)) [4] Triangle 1 (Fn (RVar 0) [0]%nat) [7; 0]%nat [0]%nat (quad1_setting _))
    as (values & v & V1 & V2 & _ & _ & _ & _ & _ & V3 & V4).
  - intros [|[|k]] H; discriminate H.
  - reflexivity.
  - apply incl_refl.
  - intros values Hv. apply quad1_values in Hv. subst values. apply dropped_1d; [left; reflexivity|cbn; lra|cbn; lra].
  - reflexivity.
  - exists v. split; [exact V2|]. apply quad1_values in V1. subst values.
    assert (I0 : varf_index v [0]%nat) by (apply V3; split; [reflexivity|cbn; lia]). assert (I1 : varf_index v [1]%nat) by (apply V3; split; [reflexivity|cbn; lia]).
    pose proof (proj1 (g1_along 1 1)) as G. split; [rewrite (V4 _ _ (g1 1 1) I0 I1 G)|rewrite (V4 _ _ (g1 1 1) I1 I1 G)]; unfold quadrature, g1, psi, standardised, located, grid, at_pos, phi, basis, rsum, rprod; cbn -[hermite sqrt];
      rewrite !hermite_0, ?hermite_1, sqrt_4; change (sqrt (INR 1)) with (sqrt 1); rewrite ?sqrt_1; cbn [Nat.sub]; rewrite ?hermite_0; field.
Qed.
(** The operator f -> x f' with the factor x: L(x f)/x = f + x f'. *)
Example C67_discretize_op_example : exists v, quad_discretize_op fnum_R rexpr RAdd RMul (RNum 0) (RNum 1) (r_mono [0]%nat) (fun e => e) r_is0 r_free r_eval r_eqb (fun _ _ => true) r_cov_factor 0 r_la_eig
    (fun _ _ => [(RNum 1, [0]%nat); (RVar 0, [1]%nat)]) (quad1 (RVar 0)) [(RVar 0, [1]%nat)] 1 Triangle = Ok v /\ varf_at v [0]%nat [1]%nat = 3 / 2 /\ varf_at v [1]%nat [1]%nat = 2.
Proof.
  destruct (C67_discretize_op rexpr r_free r_eval r_cov_factor r_la_inv r_far 0 (RNum 1) r_la_eig numpy_sample r_reads diag_eig RAdd RMul (RNum 0) (r_mono [0]%nat) (fun e => e) r_is0 r_eqb (fun _ _ => true)
    (fun _ _ => [(RNum 1, [0]%nat); (RVar 0, [1]%nat)]) (r_lin [0]%nat) (fun _ => eq_refl) r_eqb_refl r_eqb_sound (quad1 (RVar 0)) [4] Triangle 1 (fun x _ => nth 0 x 0) (quad1_setting _)) with (op := [(RVar 0, [1]%nat)]) (D := xg1)
    as (v & V1 & _ & _ & _ & _ & _ & V2 & V3).
  - intros [|[|k]] H; discriminate H.
  - repeat constructor.
  - intros x Hx [|k] d Hd; cbn in Hd; [injection Hd as <-|destruct k; discriminate Hd]. destruct x as [|a x]; [discriminate Hx|reflexivity].
  - apply r_lin_vars.
  - reflexivity.
  - apply incl_refl.
  - reflexivity.
  - intros c n [H|[]]. injection H as <- <-. split; [reflexivity|]. split; [cbn; lia|apply incl_refl].
  - exact x_maps.
  - intros p Hp. cbn in Hp. destruct Hp as [<-|[<-|[]]]; cbn -[sqrt]; rewrite sqrt_4; lra.
  - intros op' n values [[H _]|[_ ->]] Hn Hv; [discriminate H|]. apply quad1_values in Hv. subst values. destruct n as [|[|[|n]] [|? ?]]; try discriminate Hn; unfold coefficient; cbn -[nothing_dropped].
    + apply dropped_const; [left; reflexivity|right; lra].
    + apply dropped_1d; [left; reflexivity|lra|lra].
    + apply dropped_const; [left; reflexivity|left; reflexivity].
  - intros c [Hc _]. destruct c as [|c [|? ?]]; try discriminate Hc. exact (xg1_derivatives c).
  - exists v. split; [exact V1|].
    assert (I0 : varf_index v [0]%nat) by (apply V2; split; [reflexivity|cbn; lia]). assert (I1 : varf_index v [1]%nat) by (apply V2; split; [reflexivity|cbn; lia]).
    split; rewrite V3 by assumption; unfold integral, quadrature, op_value, nsum, xg1, g1, psi, standardised, located, grid, at_pos, phi, basis, rsum, rprod; cbn -[hermite sqrt];
      rewrite !hermite_0, ?hermite_1, sqrt_4; change (sqrt (INR 1)) with (sqrt 1); rewrite ?sqrt_1; cbn [Nat.sub]; rewrite ?hermite_0; field.
Qed.
