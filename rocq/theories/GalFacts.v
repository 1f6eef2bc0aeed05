(** Variational forms applied to series. *)
From Coq Require Import String List Arith Reals Lia Lra Bool.
From Verif Require Import Base PyBase IndexModel Num Fnum LinSpec LinBase Facts2 CalcModel CalcSpec CalcReal CalcQuad CalcVarf2 Facts6 Facts7 Facts9 PosModel PosSpec PosFacts SeriesModel SeriesSpec SeriesFacts SeriesFacts3 PyQuadModel PyQuadSpec PyQuadFacts2 GalSpec
  OpSpec OpQuadModel OpQuadSpec OpModel OpQuadFacts OpArithModel OpArithSpec OpArithFacts OpArithFacts3 TensQuadFacts TensQuadFacts3 TensOpFacts4.
Import ListNotations.
Local Open Scope R_scope.

Lemma call_degree : forall (N : num) Sym (sym_1 : Sym) pos_eqb (v : varf N Sym) (f h : series N Sym) dim, varf_ok v dim -> varf_call N Sym sym_1 pos_eqb v f = Ok h ->
  s_degree h = Degree.recovered (v_set v) (v_degree v).
Proof.
  intros N Sym sym_1 pos_eqb v f h dim [Hv [M1 M2]] H. unfold varf_call in H. apply bind_ok in H as (_ & _ & H). apply bind_ok in H as (coeffs & Hc & H).
  assert (L : length coeffs = length (points (v_set v) dim (v_degree v))). { rewrite <- M1. unfold np_dot in Hc. clear -Hc. revert coeffs Hc. induction (v_mat v) as [|r A IH]; intros coeffs Hc; cbn [mapM] in Hc; [injection Hc as <-; reflexivity|].
    apply bind_ok in Hc as (y & _ & Hc). apply bind_ok in Hc as (ys & Hy & Hc). injection Hc as <-. cbn [length]. f_equal. apply IH. exact Hy. }
  rewrite (series_init_ok N Sym sym_1 coeffs (v_pos v) (Some (v_factor v)) (v_set v) dim (v_degree v) Hv L) in H by (left; discriminate). injection H as <-. reflexivity.
Qed.
Lemma series_same : forall (N : num) Sym (f g : series N Sym) dim, series_ok f dim -> series_ok g dim -> s_pos f = s_pos g -> s_set f = s_set g -> s_factor f = s_factor g -> s_degree f = s_degree g ->
  (forall m, series_index f m -> series_at f m = series_at g m) -> f = g.
Proof.
  intros N Sym [c p s d w] [c' p' s' d' w'] dim [(F1 & F2 & F3) F4] [_ G4]. cbn [s_pos s_set s_factor s_degree s_coeffs] in *. intros <- <- <- <- H. f_equal.
  apply (coef_ext N s dim d c c' F3 F4 G4). intros m Hm. specialize (H m). unfold series_index, series_at in H. cbn [s_pos s_set s_degree s_coeffs] in H. rewrite F1 in H. exact (H Hm).
Qed.

Section Acts.
Variable E : Type.
Variable free_vars : E -> list nat.
Variable eval : E -> (nat -> R) -> R.
Variable cov_factor : list (list R) -> list (list R).
Variable la_inv : list (list R) -> res (list (list R)).
Variable far8 : list (list R) -> bool.
Variable junk tiny : R.
Variable e_1 : E.
Variable pos_eqb : position fnum_R -> position fnum_R -> bool.
Hypothesis NP : numpy_ok cov_factor la_inv far8.
Hypothesis RF : reads_free eval free_vars.
Hypothesis PR : forall p, pos_eqb p p = true.
Notation quad := (quad fnum_R E).
Notation quad_discretize := (quad_discretize fnum_R E free_vars eval cov_factor junk).
Notation quad_eval := (quad_eval fnum_R E free_vars eval cov_factor la_inv far8 junk).
Notation quad_transform := (quad_transform fnum_R E e_1 free_vars eval cov_factor junk tiny).
Notation call := (varf_call fnum_R E e_1 pos_eqb).

Lemma act : forall (q : quad) vars s degree (v : varf fnum_R E) (h : list nat -> list R -> R) (f : series fnum_R E) (values : list R),
  quad_R q vars -> rules_match (q_nodes q) (q_weights q) -> usable s (length vars) degree -> flags_ok s degree (kinds (p_types (q_pos q))) ->
  f_dirs (q_factor q) = p_dirs (q_pos q) -> incl (free_vars (f_sym (q_factor q))) (f_dirs (q_factor q)) ->
  varf_ok v (length vars) -> v_pos v = q_pos q -> v_set v = s -> v_factor v = q_factor q -> v_degree v = Degree.recovered s degree ->
  (forall r c, varf_index v r -> varf_index v c -> varf_at v r c = integral (q_nodes q) (q_weights q) (fun y => phi (kinds (p_types (q_pos q))) r y * h c (located (p_mean (q_pos q)) vars y))) ->
  series_ok f (length vars) -> s_pos f = q_pos q -> s_set f = s -> s_degree f = Degree.recovered s degree ->
  length values = length (grid (q_nodes q)) ->
  (forall k p env, nth_error (grid (q_nodes q)) k = Some p -> at_point (p_dirs (q_pos q)) (grid_point q vars p) env -> eval (f_sym (q_factor q)) env <> 0 /\
    nth_error values k = Some (rsum (map (fun c => series_at f c * h c (grid_point q vars p)) (points s (length vars) (s_degree f))) * eval (f_sym (q_factor q)) env)) ->
  exists g, call v f = Ok g /\ quad_transform q values degree s = Ok g.
Proof using NP RF PR.
  intros q vars s degree v h f values Hq Hw Hu Hfl Hfd Hfi Hv Hvp Hvs Hvf Hvd Hva Hf Hfp Hfs Hfdeg Hlen Hval.
  destruct (call_spec fnum_R E e_1 pos_eqb v f (length vars) Hv Hf) as (g & G1 & G2 & G3 & G4 & G5 & G6 & G7); [rewrite Hvp, Hfp; apply PR|congruence|congruence|].
  destruct (transform_coefficients E free_vars eval cov_factor la_inv far8 junk tiny e_1 NP RF q vars values degree s Hq Hfd Hfi Hlen Hw Hu Hfl) as (r & fv & T1 & T2 & T3 & T4 & T5 & T6 & T7 & T8).
  exists g. split; [exact G1|]. rewrite T1. f_equal.
  pose proof Hq as ((P1 & P2 & P3 & P4 & P5 & P6) & Q1 & Q2 & Q3).
  assert (HR : s_degree r = Degree.recovered s degree).
  { destruct (transform_mapped E free_vars eval cov_factor la_inv far8 junk tiny e_1 NP RF q vars values Hq Hfd Hfi Hlen) as (fv' & D1 & D2 & D3). rewrite D3 in T1. apply bind_ok in T1 as (cs & C1 & T1).
    assert (Hu' : usable s (length (q_nodes q)) degree) by (rewrite Q1; exact Hu).
    destruct (forward_coef s degree (q_nodes q) (q_weights q) (kinds (p_types (q_pos q))) (divided tiny values fv')) as (out & O1 & O2 & O3); try assumption.
    { apply usable_fits. exact Hu'. } { unfold kinds. rewrite map_length. exact (eq_trans P5 (eq_sym Q1)). }
    assert (C2 : @Ok (list R) cs = Ok out) by (etransitivity; [symmetry; exact C1|exact O1]). injection C2 as ->.
    rewrite (series_init_ok fnum_R E e_1 out (q_pos q) (Some (q_factor q)) s (length vars) degree) in T1; [injection T1 as <-; reflexivity|split; [exact P3|split; [exact P4|exact Hu]]|rewrite <- Q1; exact O2|left; discriminate]. }
  assert (HG : s_degree g = Degree.recovered s degree) by (rewrite (call_degree _ _ _ _ _ _ _ _ Hv G1), Hvs, Hvd; apply recovered_idem).
  apply (series_same _ _ r g (length vars) T6 G2); [congruence|congruence|congruence|congruence|].
  intros m Hm. pose proof (proj1 (T7 m) Hm) as Hm1. rewrite (T8 m Hm). 
  assert (Pts : points s (length vars) (s_degree f) = points s (length vars) degree) by (rewrite Hfdeg; apply points_recovered; exact Hu).
  assert (Ix : forall c, varf_index v c <-> index_of s (length vars) degree c) by (intros c; unfold varf_index; rewrite Hvs, Hvd, Hvp; rewrite P3; apply index_of_recovered).
  assert (Sx : forall c, series_index f c <-> index_of s (length vars) degree c) by (intros c; unfold series_index; rewrite Hfs, Hfdeg, Hfp; rewrite P3; apply index_of_recovered).
  rewrite (G7 m (proj2 (Sx m) Hm1)). rewrite Hfs, Pts.
  assert (Dv : divided tiny values fv = map (fun p => rsum (map (fun c => series_at f c * h c (grid_point q vars p)) (points s (length vars) degree))) (grid (q_nodes q))).
  { apply (divided_map _ tiny (grid (q_nodes q)) values fv _ (fun p => eval (f_sym (q_factor q)) (env_at E q vars p)) Hlen). intros k p Ek. pose proof (env_at_point E q vars p Hq (nth_error_In _ _ Ek)) as Hat.
    destruct (Hval k p _ Ek Hat) as [V1 V2]. rewrite Pts in V2. split; [exact V2|]. split; [exact (proj2 T2 k p _ Ek Hat)|exact V1]. }
  rewrite Dv, quadrature_map. etransitivity; [|symmetry; exact (nsum_rsum _)].
  transitivity (rsum (map (fun c => integral (q_nodes q) (q_weights q) (fun y => phi (kinds (p_types (q_pos q))) m y * h c (located (p_mean (q_pos q)) vars y)) * series_at f c) (points s (length vars) degree))).
  - unfold integral. erewrite (rsum_map_ext _ (fun c => quadrature _ _ _ _ * _)); [|intros c _; rewrite quadrature_map, <- rsum_map_mult_r; reflexivity]. rewrite (rsum_swap _ _ (fun c p => _)). apply rsum_map_ext. intros p _.
    rewrite Rmult_assoc, <- rsum_map_mult_r. apply rsum_map_ext. intros c _. unfold grid_point. cbv beta. set (a := series_at f c). change (@carrier (fn fnum_R)) with R in a. ring.
  - apply rsum_map_ext. intros c Hc. apply (points_In _ _ _ _ Hu) in Hc. etransitivity; [|apply (f_equal (fun x : R => x * series_at f c)); symmetry; apply (Hva m c); apply Ix; assumption]. reflexivity.
Qed.

Lemma recovered_same : forall s degree flags, flags_ok s degree flags -> (s = CrossNc -> degree <> 1%nat) -> Degree.recovered s degree = degree.
Proof using.
  intros s degree flags [_ H] Hn. destruct s; cbn [Degree.recovered]; try reflexivity; [specialize (H (or_introl eq_refl)); lia|]. destruct (Nat.eqb_spec degree 1) as [->|_]; [exfalso; apply Hn; reflexivity|reflexivity].
Qed.
Definition env0 (q : quad) (x : list R) (d : nat) : R := nth (PyQuadModel.place d (p_dirs (q_pos q))) x 0.
Lemma env0_assigns : forall (q : quad) vars, quad_R q vars -> assigns (p_dirs (q_pos q)) (env0 q).
Proof using.
  intros q vars ((P1 & P2 & P3 & P4 & P5 & P6) & _) x Hx i d Hd. unfold env0. rewrite (place_at _ i d P6 Hd). apply nth_error_nth'. rewrite Hx. apply nth_error_Some. rewrite Hd. discriminate.
Qed.
(** two assignments of the same point agree on the variables of an expression *)
Lemma same_value : forall (q : quad) x env env' e, incl (free_vars e) (p_dirs (q_pos q)) -> at_point (p_dirs (q_pos q)) x env -> at_point (p_dirs (q_pos q)) x env' -> eval e env = eval e env'.
Proof using RF.
  intros q x env env' e Hi H1 H2. apply RF. intros d Hd. apply Hi in Hd. apply In_nth_error in Hd as [i Hi']. specialize (H1 i d Hi'). specialize (H2 i d Hi'). congruence.
Qed.

Lemma eval_sampled : forall (q : quad) vars s degree u env, quad_R q vars -> usable s (length vars) degree -> flags_ok s degree (kinds (p_types (q_pos q))) ->
  f_dirs (q_factor q) = p_dirs (q_pos q) -> incl (free_vars (f_sym (q_factor q))) (f_dirs (q_factor q)) -> assigns (p_dirs (q_pos q)) env -> series_for q vars s degree u ->
  quad_eval q u = Ok (sampled q vars (stands_for eval env vars u)).
Proof using NP RF.
  intros q vars s degree u env Hq Hu Hfl Hfd Hfi Hen (U1 & U2 & U3 & U4 & U5). pose proof Hq as ((P1 & P2 & P3 & P4 & P5 & P6) & Q1 & Q2 & Q3).
  destruct (eval_values E free_vars eval cov_factor la_inv far8 junk NP RF q vars u vars Hq) as (values & V1 & V2 & V3).
  { rewrite U1. apply Hq. } { rewrite U1. reflexivity. } { rewrite U2. exact Hfd. } { rewrite U2. exact Hfi. } { rewrite U3, U4. apply usable_fits. exact Hu. } { rewrite U3, U4. exact Hfl. } { unfold vec_for. rewrite U3, U4. exact U5. }
  rewrite V1. f_equal. apply nth_error_same. intros k. unfold sampled. rewrite nth_error_map. destruct (nth_error (grid (q_nodes q)) k) as [p|] eqn:Ek; cbn [option_map].
  - etransitivity; [exact (V3 k p (env (grid_point q vars p)) Ek (Hen _ (point_length E q vars p Hq (nth_error_In _ _ Ek))))|]. apply f_equal. unfold stands_for. rewrite U1, U2. apply Rmult_comm.
  - apply nth_error_None in Ek. apply nth_error_None. etransitivity; [apply Nat.eq_le_incl; exact V2|exact Ek].
Qed.

Lemma series_for_ok : forall (q : quad) vars s degree u, quad_R q vars -> usable s (length vars) degree -> series_for q vars s degree u -> series_ok u (length vars).
Proof using.
  intros q vars s degree u ((P1 & P2 & P3 & P4 & P5 & P6) & Q1 & Q2 & Q3) Hu (U1 & U2 & U3 & U4 & U5). unfold series_ok, pos_dim, vec_for. rewrite U1, U3, U4. split; [|exact U5]. split; [exact P3|]. split; [exact P4|exact Hu].
Qed.

(** the series as a sum over the multi-indices *)
Lemma stands_for_sum : forall (q : quad) vars s degree u env x, quad_R q vars -> series_for q vars s degree u ->
  stands_for eval env vars u x = rsum (map (fun c => series_at u c * psi (p_mean (q_pos q)) vars (kinds (p_types (q_pos q))) c x) (points s (length vars) degree)) * eval (f_sym (q_factor q)) (env x).
Proof using.
  intros q vars s degree u env x ((P1 & P2 & P3 & P4 & P5 & P6) & Q1 & Q2 & Q3) (U1 & U2 & U3 & U4 & U5). unfold stands_for, CalcSpec.series. rewrite U1, U2, U3, U4, Rmult_comm. apply (f_equal (fun a : R => a * _)).
  assert (L : length (kinds (p_types (q_pos q))) = length vars) by (unfold kinds; rewrite map_length; exact P5). rewrite L. apply rsum_map_ext. intros c _. unfold psi, series_at. rewrite U1, U3, U4, P3. reflexivity.
Qed.

Theorem varf_acts : forall (q : quad) vars s degree f u, setting q vars s degree -> (s = CrossNc -> degree <> 1%nat) ->
  f_dirs f = p_dirs (q_pos q) -> incl (free_vars (f_sym f)) (p_dirs (q_pos q)) -> f_dirs (q_factor q) = p_dirs (q_pos q) -> incl (free_vars (f_sym (q_factor q))) (p_dirs (q_pos q)) ->
  (forall values, grid_values q vars values (eval (f_sym f)) -> nothing_dropped s degree (q_nodes q) (q_weights q) (kinds (p_types (q_pos q))) values) ->
  (forall p env, In p (grid (q_nodes q)) -> at_point (p_dirs (q_pos q)) (grid_point q vars p) env -> eval (f_sym (q_factor q)) env <> 0) ->
  series_for q vars s degree u ->
  exists v values w g, quad_varf_fun fnum_R E e_1 free_vars eval cov_factor junk q f degree s = Ok v /\ quad_discretize q f = Ok values /\ quad_eval q u = Ok w /\ call v u = Ok g /\
    quad_transform q (map (fun '(a, b) => a * b) (combine values w)) degree s = Ok g.
Proof using NP RF PR.
  intros q vars s degree f u Hs Hnc Hd Hi Hfd Hfi Hnd Hnz Hu. pose proof Hs as (Hq & Hw & Hus & Hfit & Hfl & Hcl). pose proof Hq as ((P1 & P2 & P3 & P4 & P5 & P6) & Q1 & Q2 & Q3).
  assert (Hrec := recovered_same _ _ _ Hfl Hnc). assert (Hi' : incl (free_vars (f_sym f)) (f_dirs f)) by (rewrite Hd; exact Hi). assert (Hfi' : incl (free_vars (f_sym (q_factor q))) (f_dirs (q_factor q))) by (rewrite Hfd; exact Hfi).
  destruct (varf_built E free_vars eval cov_factor la_inv far8 junk e_1 NP RF q vars s degree f Hs Hd Hi' Hnd) as (values & v & D1 & D2 & D3 & D4 & D5 & D6).
  destruct (built E e_1 q vars s degree (v_mat v) Hq Hus D4) as (v' & E1 & E2 & E3 & E4 & E5 & E6 & E7 & E8 & E9). rewrite D5 in E1. injection E1 as <-.
  assert (Hen := env0_assigns q vars Hq).
  pose proof (eval_sampled q vars s degree u (env0 q) Hq Hus Hfl Hfd Hfi' Hen Hu) as W1.
  set (w := sampled q vars (stands_for eval (env0 q) vars u)) in *. set (prod := map (fun '(a, b) => a * b) (combine values w)).
  assert (Lw : length w = length (grid (q_nodes q))) by (unfold w, sampled; apply map_length).
  destruct (act q vars s degree v (fun c x => eval (f_sym f) (env0 q x) * psi (p_mean (q_pos q)) vars (kinds (p_types (q_pos q))) c x) u prod) as (g & G1 & G2); try assumption.
  - intros r c Hr Hc. rewrite E9. rewrite D6 by (apply E8; assumption). unfold galerkin. rewrite (integral_values E q vars values _ _ (env0 q) Hq Hen D2). apply integral_ext. intros p Hp.
    unfold psi. rewrite standard_located; [ring|exact P4|etransitivity; [apply at_pos_length, grid_length_in; exact Hp|exact Q1]|exact P2].
  - exact (series_for_ok q vars s degree u Hq Hus Hu).
  - apply Hu.
  - apply Hu.
  - rewrite Hrec. apply Hu.
  - unfold prod. rewrite map_length, combine_length, Lw. etransitivity; [apply f_equal2; [exact (proj1 D2)|reflexivity]|]. apply Nat.min_id.
  - intros k p env Ek He. split; [exact (Hnz p env (nth_error_In _ _ Ek) He)|]. unfold prod. rewrite nth_error_map, nth_error_comb. assert (V : @nth_error R values k = Some (eval (f_sym f) env)) by exact (proj2 D2 k p env Ek He).
    match goal with |- context [@nth_error ?T values k] => replace (@nth_error T values k) with (@Some T (eval (f_sym f) env)) by (symmetry; exact V) end. unfold w, sampled. rewrite nth_error_map, Ek. cbn [option_map].
    apply f_equal. rewrite (stands_for_sum q vars s degree u (env0 q) _ Hq Hu). replace (s_degree u) with degree by (symmetry; apply Hu).
    pose proof (Hen _ (point_length E q vars p Hq (nth_error_In _ _ Ek))) as He0.
    rewrite (same_value q _ env (env0 q (grid_point q vars p)) (f_sym f) Hi He He0), (same_value q _ env (env0 q (grid_point q vars p)) (f_sym (q_factor q)) Hfi He He0).
    rewrite <- Rmult_assoc. apply (f_equal (fun a : R => a * _)). rewrite <- rsum_map_mult. apply rsum_map_ext. intros c _. cbv beta. change (carrier (fn fnum_R)) with R. set (a := series_at u c). change (carrier (fn fnum_R)) with R in a. ring.
  - exists v, values, w, g. auto.
Qed.

Lemma deriv_plus : forall dim ks f g f' g', deriv_along dim ks f g -> deriv_along dim ks f' g' -> deriv_along dim ks (fun x => f x + f' x) (fun x => g x + g' x).
Proof using.
  intros dim. induction ks as [|k ks IH]; intros f g f' g' H H'; cbn [deriv_along] in *; [intros x Hx; rewrite H, H' by exact Hx; reflexivity|].
  destruct H as (h & H1 & H2). destruct H' as (h' & H1' & H2'). exists (fun x => h x + h' x). split; [apply IH; assumption|]. intros x Hx. exact (derivable_pt_lim_plus _ _ _ _ _ (H2 x Hx) (H2' x Hx)).
Qed.
Lemma deriv_ext : forall dim ks f f' g, Forall (fun k => k < dim)%nat ks -> (forall x, length x = dim -> f x = f' x) -> deriv_along dim ks f g -> deriv_along dim ks f' g.
Proof using.
  intros dim. induction ks as [|k ks IH]; intros f f' g Hk H G; cbn [deriv_along] in *; [intros x Hx; rewrite G by exact Hx; apply H; exact Hx|]. inversion Hk; subst. destruct G as (h & G1 & G2). exists h. split; [apply (IH f); assumption|exact G2].
Qed.
Lemma deriv_zero : forall dim ks, deriv_along dim ks (fun _ => 0) (fun _ => 0).
Proof using. intros dim. induction ks as [|k ks IH]; cbn [deriv_along]; [reflexivity|]. exists (fun _ => 0). split; [exact IH|]. intros x Hx. apply derivable_pt_lim_const. Qed.
Lemma deriv_sum : forall dim ks (a : list nat -> R) (f g : list nat -> list R -> R) l, (forall c, In c l -> deriv_along dim ks (f c) (g c)) ->
  deriv_along dim ks (fun x => rsum (map (fun c => a c * f c x) l)) (fun x => rsum (map (fun c => a c * g c x) l)).
Proof using.
  intros dim ks a f g. induction l as [|c l IH]; intros H; [exact (deriv_zero dim ks)|].
  exact (deriv_plus dim ks _ _ _ _ (TensOpFacts4.deriv_scal dim (a c) ks _ _ (H c (or_introl eq_refl))) (IH (fun c' Hc => H c' (or_intror Hc)))).
Qed.

Theorem operator_acts : forall la_eig, eig_ok la_eig ->
  forall e_add e_mul e_div e_opp e_0 e_diff fine e_mono simplify is0 sym_eqb, sympy_lin (N := num_R) eval e_add e_mul e_0 e_mono simplify is0 ->
  sympy_arith eval e_add e_mul e_div e_opp e_0 e_diff fine -> sympy_arith_vars free_vars e_add e_mul e_div e_opp e_0 e_diff -> (forall e, sym_eqb e e = true) ->
  (forall a b, sym_eqb a b = true -> forall env, eval a env = eval b env) ->
  forall (q : quad) vars s degree env, setting q vars s degree -> (forall k, nth k (kinds (p_types (q_pos q))) 0%nat = 1%nat -> paired s (length vars) degree k) -> (s = CrossNc -> degree <> 1%nat) ->
  increasing (p_dirs (q_pos q)) -> assigns (p_dirs (q_pos q)) env -> sympy_lin_vars e_add e_mul e_0 e_1 e_mono simplify free_vars (p_dirs (q_pos q)) ->
  forall (op : oper E) u,
  f_dirs (q_factor q) = p_dirs (q_pos q) -> incl (free_vars (f_sym (q_factor q))) (p_dirs (q_pos q)) -> fine (f_sym (q_factor q)) -> (forall x, eval e_1 x = 1) ->
  (forall c n, In (c, n) op -> length n = length vars /\ (order n <= 5)%nat /\ incl (free_vars c) (p_dirs (q_pos q))) ->
  (forall p, In p (grid (q_nodes q)) -> eval (f_sym (q_factor q)) (env (grid_point q vars p)) <> 0) ->
  let mapped op w := map_terms E e_mul e_div e_diff (p_dirs (q_pos q)) op (f_sym w) in
  (forall op' n values, (sym_eqb (f_sym (q_factor q)) e_1 = true /\ op' = op) \/ (sym_eqb (f_sym (q_factor q)) e_1 = false /\ op' = mapped op (q_factor q)) -> length n = length vars ->
    grid_values q vars values (coefficient (N := num_R) eval op' n) -> nothing_dropped s degree (q_nodes q) (q_weights q) (kinds (p_types (q_pos q))) values) ->
  series_for q vars s degree u ->
  exists v g, quad_discretize_op fnum_R E e_add e_mul e_0 e_1 e_mono simplify is0 free_vars eval sym_eqb pos_eqb cov_factor junk la_eig mapped q op degree s = Ok v /\ call v u = Ok g /\
    quad_eval q u = Ok (sampled q vars (stands_for eval env vars u)) /\ (exists D, derivatives (length vars) (stands_for eval env vars u) D) /\
    forall D, derivatives (length vars) (stands_for eval env vars u) D ->
      quad_transform q (sampled q vars (fun x => op_value (N := num_R) eval op (fun n => D n x) (env x))) degree s = Ok g.
Proof using NP RF PR.
  intros la_eig EI e_add e_mul e_div e_opp e_0 e_diff fine e_mono simplify is0 sym_eqb SL SA SAV SR SS q vars s degree env Hs Hpair Hnc Hinc Hen SV op u Hfd Hfi Hfine H1 Hop Hnz mapped Hnd Hu.
  pose proof Hs as (Hq & Hw & Hus & Hfit & Hfl & Hcl). pose proof Hq as ((P1 & P2 & P3 & P4 & P5 & P6) & Q1 & Q2 & Q3). assert (Hrec := recovered_same _ _ _ Hfl Hnc).
  assert (Hfi' : incl (free_vars (f_sym (q_factor q))) (f_dirs (q_factor q))) by (rewrite Hfd; exact Hfi).
  destruct (discretize_op_mapped E free_vars eval cov_factor la_inv far8 junk e_1 la_eig NP RF EI e_add e_mul e_div e_opp e_0 e_diff fine e_mono simplify is0 sym_eqb pos_eqb SL SA SAV PR SR SS q vars s degree env Hs Hpair Hinc Hen SV op
    Hfd Hfi Hfine H1 Hop Hnz Hnd) as (v & V1 & V2 & V3 & V4 & V5 & V6 & V7 & (D & HD) & V8).
  set (l := points s (length vars) degree). assert (Hl : forall c, In c l <-> index_of s (length vars) degree c) by (intros c; apply points_In; exact Hus).
  set (w := fun x => eval (f_sym (q_factor q)) (env x)) in *. set (bas := fun c x => psi (p_mean (q_pos q)) vars (kinds (p_types (q_pos q))) c x) in *.
  set (DU := fun n x => rsum (map (fun c => series_at u c * D c n x) l)).
  assert (HDU : derivatives (length vars) (stands_for eval env vars u) DU).
  { intros n Hn Ho. assert (G : deriv_along (length vars) (coordinates n) (fun x => rsum (map (fun c => series_at u c * (w x * bas c x)) l)) (DU n)) by (apply deriv_sum; intros c Hc; apply (HD c (proj1 (Hl c) Hc) n Hn Ho)).
    refine (deriv_ext (length vars) (coordinates n) _ _ _ _ _ G).
    - apply Forall_forall. intros k Hk. apply coordinates_lt in Hk. rewrite Hn in Hk. exact Hk.
    - intros x _. rewrite (stands_for_sum q vars s degree u env x Hq Hu). rewrite <- rsum_map_mult_r. apply rsum_map_ext. intros c _. unfold w, bas. cbv beta. change (carrier (fn fnum_R)) with R. set (a := series_at u c). change (carrier (fn fnum_R)) with R in a. ring. }
  assert (Hact : exists g, call v u = Ok g /\ quad_transform q (sampled q vars (fun x => op_value (N := num_R) eval op (fun n => DU n x) (env x))) degree s = Ok g).
  { apply (act q vars s degree v (fun c x => op_value (N := num_R) eval op (fun n => D c n x) (env x) / w x) u); try assumption.
    - intros r c Hr Hc. rewrite (V8 D r c HD Hr Hc). reflexivity.
    - exact (series_for_ok q vars s degree u Hq Hus Hu).
    - apply Hu.
    - apply Hu.
    - rewrite Hrec. apply Hu.
    - unfold sampled. apply map_length.
    - intros k p env' Ek He'. pose proof (Hnz p (nth_error_In _ _ Ek)) as Hz. pose proof (Hen _ (point_length E q vars p Hq (nth_error_In _ _ Ek))) as He.
      rewrite (same_value q _ env' (env (grid_point q vars p)) (f_sym (q_factor q)) Hfi He' He). split; [exact Hz|]. unfold sampled. rewrite nth_error_map, Ek. cbn [option_map]. apply f_equal. replace (s_degree u) with degree by (symmetry; apply Hu). fold l.
      unfold op_value. change (eval (f_sym (q_factor q)) (env (grid_point q vars p))) with (w (grid_point q vars p)) in *. set (x := grid_point q vars p) in *.
      rewrite <- rsum_map_mult_r. etransitivity; [exact (nsum_rsum _)|]. unfold DU.
      transitivity (rsum (map (fun t => rsum (map (fun c => series_at u c * (eval (fst t) (env x) * D c (snd t) x)) l)) op)).
      + apply rsum_map_ext. intros [e n] _. cbn [fst snd]. change (@nmul num_R) with Rmult. rewrite <- rsum_map_mult. apply rsum_map_ext. intros c _. change (carrier (fn fnum_R)) with R. set (a := series_at u c). change (carrier (fn fnum_R)) with R in a. ring.
      + rewrite (rsum_swap _ _ (fun t c => _)). apply rsum_map_ext. intros c _. rewrite rsum_map_mult.
        transitivity (series_at u c * (rsum (map (fun '(c0, n) => eval c0 (env x) * D c n x) op) / w x) * w x).
        * assert (Eq : map (fun x0 : E * list nat => eval (fst x0) (env x) * D c (snd x0) x) op = map (fun '(c0, n) => eval c0 (env x) * D c n x) op) by (apply map_ext; intros [e n]; reflexivity). rewrite Eq.
          change (carrier (fn fnum_R)) with R. set (a := series_at u c). change (carrier (fn fnum_R)) with R in a. field. exact Hz.
        * apply (f_equal (fun b : R => b * w x)). apply (f_equal (fun b : R => series_at u c * b)). unfold Rdiv. apply (f_equal (fun b : R => b * / w x)). symmetry. exact (nsum_rsum _). }
  destruct Hact as (g & G1 & G2). exists v, g. split; [exact V1|]. split; [exact G1|]. split; [exact (eval_sampled q vars s degree u env Hq Hus Hfl Hfd Hfi' Hen Hu)|]. split; [exists DU; exact HDU|].
  intros D' HD'. rewrite <- G2. f_equal. unfold sampled. apply map_ext_in. intros p Hp. unfold op_value. f_equal. apply map_ext_in. intros [e n] Hn. destruct (Hop e n Hn) as (N1 & N2 & _). f_equal.
  assert (Lx : length (grid_point q vars p) = length vars) by (etransitivity; [exact (point_length E q vars p Hq Hp)|exact P3]).
  refine (deriv_same (length vars) (coordinates n) _ _ _ _ (HD' n N1 N2) (HDU n N1 N2) _ Lx). apply Forall_forall. intros k Hk. apply coordinates_lt in Hk. rewrite N1 in Hk. exact Hk.
Qed.
End Acts.
