(** Properties C87 and C88: variational forms applied to series, and composite quadratures. *)
From Coq Require Import String List Bool Arith Reals Lia Lra.
From Verif Require Import Base PyBase IndexModel Num Fnum LinModel LinSpec LinBase MatBase Facts2 Facts6 Facts7 Facts9 CalcModel CalcSpec CalcReal CalcHermite PosModel PosSpec PosFacts SeriesModel SeriesSpec SplitModel SplitSpec PartModel PartSpec OpModel OpSpec OpQuadModel OpQuadSpec OpQuadFacts
  OpArithModel OpArithSpec OpArithFacts OpArithFacts2 OpArithFacts3 PyQuadModel PyQuadSpec PyQuadFacts PyQuadFacts2 TensQuadModel TensQuadSpec TensQuadFacts TensQuadFacts3 TensQuadFacts4 TensOpFacts4 QuadIntModel QuadIntSpec QuadIntFacts QuadMakeModel QuadMakeSpec QuadMakeFacts
  GalSpec GalFacts CompModel CompFacts Properties16 Properties22 Properties23.
Import ListNotations.
Local Open Scope R_scope.

(** C87: the variational form Quad.varf(f) of a function, applied to a series u, is the series Quad.transform makes from the product of the values of f and the values of u on the grid. *)
Theorem C87_varf : forall E (free_vars : E -> list nat) (eval : E -> (nat -> R) -> R) cov_factor la_inv far8 junk tiny e_1 pos_eqb, numpy_ok cov_factor la_inv far8 -> reads_free eval free_vars -> (forall p, pos_eqb p p = true) ->
  forall (q : quad fnum_R E) vars s degree f u, setting q vars s degree -> (s = CrossNc -> degree <> 1%nat) ->
  f_dirs f = p_dirs (q_pos q) -> incl (free_vars (f_sym f)) (p_dirs (q_pos q)) -> f_dirs (q_factor q) = p_dirs (q_pos q) -> incl (free_vars (f_sym (q_factor q))) (p_dirs (q_pos q)) ->
  (forall values, grid_values q vars values (eval (f_sym f)) -> nothing_dropped s degree (q_nodes q) (q_weights q) (kinds (p_types (q_pos q))) values) ->
  (forall p env, In p (grid (q_nodes q)) -> at_point (p_dirs (q_pos q)) (grid_point q vars p) env -> eval (f_sym (q_factor q)) env <> 0) ->
  series_for q vars s degree u ->
  exists v values w g, quad_varf_fun fnum_R E e_1 free_vars eval cov_factor junk q f degree s = Ok v /\ quad_discretize fnum_R E free_vars eval cov_factor junk q f = Ok values /\ quad_eval fnum_R E free_vars eval cov_factor la_inv far8 junk q u = Ok w /\ varf_call fnum_R E e_1 pos_eqb v u = Ok g /\
    quad_transform fnum_R E e_1 free_vars eval cov_factor junk tiny q (map (fun '(a, b) => a * b) (combine values w)) degree s = Ok g.
Proof. exact varf_acts. Qed.
Print Assumptions C87_varf.

(** Hypotheses met: one direction with mean 3, variance 4, the two-point rule and the factor x; f = x and the series x (1 + 2 (x - 3)/2). *)
Definition u1 : SeriesModel.series fnum_R rexpr := Ser (N := fnum_R) [1; 2] (q_pos (quad1 (RVar 0))) Triangle 1 (Fn (RVar 0) [0]%nat).
Example C87_varf_example : exists v g, quad_varf_fun fnum_R rexpr (RNum 1) r_free r_eval r_cov_factor 0 (quad1 (RVar 0)) (Fn (RVar 0) [0]%nat) 1 Triangle = Ok v /\ varf_call fnum_R rexpr (RNum 1) (fun _ _ => true) v u1 = Ok g.
Proof.
  destruct (C87_varf rexpr r_free r_eval r_cov_factor r_la_inv r_far 0 (1 / 10) (RNum 1) (fun _ _ => true) numpy_sample r_reads (fun _ => eq_refl) (quad1 (RVar 0)) [4] Triangle 1 (Fn (RVar 0) [0]%nat) u1 (quad1_setting _))
    as (v & values & w & g & V1 & V2 & V3 & V4 & V5).
  - discriminate.
  - reflexivity.
  - apply incl_refl.
  - reflexivity.
  - apply incl_refl.
  - intros values Hv. apply quad1_values in Hv. subst values. apply dropped_1d; [left; reflexivity|cbn; lra|cbn; lra].
  - intros p env Hp He. pose proof (He 0%nat 0%nat eq_refl) as H0. cbn in Hp. destruct Hp as [<-|[<-|[]]]; cbn -[sqrt] in H0 |- *; rewrite Properties16.sqrt_4 in H0; injection H0 as H0; lra.
  - repeat split.
  - exists v, g. split; assumption.
Qed.

(** The variational form Quad.discretize_op(L) of a differential operator, applied to a series u, is the series Quad.transform makes from the values on the grid of L applied to the function u stands for, which Quad.eval samples on the grid. *)
Theorem C87_operator : forall E (free_vars : E -> list nat) (eval : E -> (nat -> R) -> R) cov_factor la_inv far8 junk tiny e_1 pos_eqb, numpy_ok cov_factor la_inv far8 -> reads_free eval free_vars -> (forall p, pos_eqb p p = true) ->
  forall la_eig, eig_ok la_eig ->
  forall e_add e_mul e_div e_opp e_0 e_diff fine e_mono simplify is0 sym_eqb, sympy_lin (N := num_R) eval e_add e_mul e_0 e_mono simplify is0 ->
  sympy_arith eval e_add e_mul e_div e_opp e_0 e_diff fine -> sympy_arith_vars free_vars e_add e_mul e_div e_opp e_0 e_diff -> (forall e, sym_eqb e e = true) ->
  (forall a b, sym_eqb a b = true -> forall env, eval a env = eval b env) ->
  forall (q : quad fnum_R E) vars s degree env, setting q vars s degree -> (forall k, nth k (kinds (p_types (q_pos q))) 0%nat = 1%nat -> paired s (length vars) degree k) -> (s = CrossNc -> degree <> 1%nat) ->
  increasing (p_dirs (q_pos q)) -> assigns (p_dirs (q_pos q)) env -> sympy_lin_vars e_add e_mul e_0 e_1 e_mono simplify free_vars (p_dirs (q_pos q)) ->
  forall (op : oper E) u,
  f_dirs (q_factor q) = p_dirs (q_pos q) -> incl (free_vars (f_sym (q_factor q))) (p_dirs (q_pos q)) -> fine (f_sym (q_factor q)) -> (forall x, eval e_1 x = 1) ->
  (forall c n, In (c, n) op -> length n = length vars /\ (order n <= 5)%nat /\ incl (free_vars c) (p_dirs (q_pos q))) ->
  (forall p, In p (grid (q_nodes q)) -> eval (f_sym (q_factor q)) (env (grid_point q vars p)) <> 0) ->
  let mapped op w := map_terms E e_mul e_div e_diff (p_dirs (q_pos q)) op (f_sym w) in
  (forall op' n values, (sym_eqb (f_sym (q_factor q)) e_1 = true /\ op' = op) \/ (sym_eqb (f_sym (q_factor q)) e_1 = false /\ op' = mapped op (q_factor q)) -> length n = length vars ->
    grid_values q vars values (coefficient (N := num_R) eval op' n) -> nothing_dropped s degree (q_nodes q) (q_weights q) (kinds (p_types (q_pos q))) values) ->
  series_for q vars s degree u ->
  exists v g, quad_discretize_op fnum_R E e_add e_mul e_0 e_1 e_mono simplify is0 free_vars eval sym_eqb pos_eqb cov_factor junk la_eig mapped q op degree s = Ok v /\ varf_call fnum_R E e_1 pos_eqb v u = Ok g /\
    quad_eval fnum_R E free_vars eval cov_factor la_inv far8 junk q u = Ok (sampled q vars (stands_for eval env vars u)) /\ (exists D, derivatives (length vars) (stands_for eval env vars u) D) /\
    forall D, derivatives (length vars) (stands_for eval env vars u) D ->
      quad_transform fnum_R E e_1 free_vars eval cov_factor junk tiny q (sampled q vars (fun x => op_value (N := num_R) eval op (fun n => D n x) (env x))) degree s = Ok g.
Proof. exact operator_acts. Qed.
Print Assumptions C87_operator.

(** Hypotheses met: the factor exp x and the operator f -> f'. *)
Definition u_e : SeriesModel.series fnum_R sexpr := Ser (N := fnum_R) [1; 2] (q_pos quad_e) Triangle 1 f_exp.
Example C87_operator_example : exists v g, quad_discretize_op fnum_R sexpr SAdd SMul (SNum 0) (SNum 1) (s_mono [0]%nat) (fun e => e) s_is0 s_vars s_eval s_eqb (fun _ _ => true) r_cov_factor 0 r_la_eig
    (fun op w => map_terms sexpr SMul SDiv s_diff [0]%nat op (f_sym w)) quad_e [(SNum 1, [1]%nat)] 1 Triangle = Ok v /\ varf_call fnum_R sexpr (SNum 1) (fun _ _ => true) v u_e = Ok g.
Proof.
  destruct (C87_operator sexpr s_vars s_eval r_cov_factor r_la_inv r_far 0 (1 / 10) (SNum 1) (fun _ _ => true) numpy_sample s_reads (fun _ => eq_refl) r_la_eig diag_eig SAdd SMul SDiv SOpp (SNum 0) s_diff s_fine (s_mono [0]%nat) (fun e => e) s_is0 s_eqb
    (s_lin [0]%nat) s_arith s_arith_vars s_eqb_refl s_eqb_sound quad_e [4] Triangle 1 env1 quad_e_setting) with (op := [(SNum 1, [1]%nat)]) (u := u_e) as (v & g & V1 & V2 & _).
  - intros [|[|k]] H; discriminate H.
  - discriminate.
  - repeat constructor.
  - exact env1_assigns.
  - apply s_lin_vars.
  - reflexivity.
  - apply incl_refl.
  - exact I.
  - reflexivity.
  - intros c n [H|[]]. injection H as <- <-. split; [reflexivity|]. split; [cbn; lia|intros v []].
  - intros p Hp. cbn [quad_e q_factor f_sym f_exp s_eval]. match goal with |- exp ?a <> 0 => pose proof (exp_pos a); lra end.
  - intros op' n values [[H _]|[_ ->]] Hn Hv; [discriminate H|]. apply quad_e_values in Hv. subst values. pose proof (exp_pos 1). pose proof (exp_pos 5).
    destruct n as [|[|[|n]] [|? ?]]; try discriminate Hn; match goal with |- nothing_dropped _ _ _ _ _ [?a; ?b] =>
      first [assert (Ea : a = 1) by (cbn -[exp]; field; lra); assert (Eb : b = 1) by (cbn -[exp]; field; lra); rewrite Ea, Eb|assert (Ea : a = 0) by reflexivity; assert (Eb : b = 0) by reflexivity; rewrite Ea, Eb] end;
      apply dropped_const; auto.
  - repeat split.
  - exists v, g. split; assumption.
Qed.

(** C88: CompQuad accepts at least one quadrature, as many weights as quadratures, and quadratures whose positions equal that of the first; otherwise it raises ValueError. *)
Theorem C88_init : forall E pos_eqb,
  forall (quads : list (quad fnum_R E)) ws,
  (forall c, comp_init fnum_R E pos_eqb quads ws = Ok c <-> c = Comp quads ws (c_pos c) /\ length quads = length ws /\ exists q0 rest, quads = q0 :: rest /\ c_pos c = q_pos q0 /\ Forall (fun q => pos_eqb (q_pos q) (q_pos q0) = true) quads) /\
  ((forall c, comp_init fnum_R E pos_eqb quads ws <> Ok c) -> comp_init fnum_R E pos_eqb quads ws = Throw "ValueError"%string).
Proof. exact init_spec. Qed.
Print Assumptions C88_init.

Definition comp2 (a b : R) : comp fnum_R rexpr := Comp [quad1 (RVar 0); quad1 (RVar 0)] [a; b] (q_pos (quad1 (RVar 0))).
Example C88_init_example : comp_init fnum_R rexpr (fun _ _ => true) [quad1 (RVar 0); quad1 (RVar 0)] [1; 2] = Ok (comp2 1 2) /\
  comp_init fnum_R rexpr (fun _ _ => true) [quad1 (RVar 0)] [1; 2] = Throw "ValueError"%string.
Proof.
  split.
  - apply (C88_init rexpr (fun _ _ => true)). split; [reflexivity|]. split; [reflexivity|]. exists (quad1 (RVar 0)), [quad1 (RVar 0)]. split; [reflexivity|]. split; [reflexivity|]. repeat constructor.
  - apply (C88_init rexpr (fun _ _ => true)). intros c H. apply (C88_init rexpr (fun _ _ => true)) in H as (_ & H & _). discriminate H.
Qed.

(** The integral of a function with a composite quadrature is the sum of the products of the integrals with the quadratures and the weights. *)
Theorem C88_integrate : forall E (eval : E -> (nat -> R) -> R) e_1 free_vars cov_factor la_inv far8 junk tiny, numpy_ok cov_factor la_inv far8 ->
  forall pos_eqb e_mul add_args mul_args, sympy_ok (N := fnum_R) eval e_mul e_1 add_args mul_args free_vars -> sympy_vars e_mul e_1 add_args mul_args free_vars ->
  forall (density : position fnum_R -> E) quads ws c (vars : quad fnum_R E -> list R) (f : func E) flat, comp_init fnum_R E pos_eqb quads ws = Ok c ->
  (forall q, In q quads -> quad_R q (vars q) /\ increasing (p_dirs (q_pos q)) /\ all_fourier q /\ rules_match (q_nodes q) (q_weights q) /\ f_dirs f = p_dirs (q_pos q) /\ incl (free_vars (f_sym f)) (p_dirs (q_pos q))) ->
  exists values, Forall2 (fun q vals => grid_values q (vars q) vals (eval (f_sym f))) quads values /\
    comp_integrate fnum_R E (fun q => quad_integrate_fun fnum_R E e_1 free_vars eval cov_factor junk tiny density q f flat) c =
    Ok (rsum (map (fun '((q, vals), w) => weighted_sum q vals * w) (combine (combine quads values) ws))).
Proof. exact integrate_comp. Qed.
Print Assumptions C88_integrate.

(** Hypotheses met: two quadratures with 2 and 3 points in each of two directions, on the same rectangle. *)
Lemma box_n : forall n, (1 <= n <= 3)%nat -> exists q vars, make n [(0, 1); (1, 3)] [0; 2]%nat = Ok q /\ quad_R q vars /\ all_fourier q /\ rules_match (q_nodes q) (q_weights q) /\ p_dirs (q_pos q) = [0; 2]%nat.
Proof.
  intros n Hn. assert (Hn3 : n = 1%nat \/ n = 2%nat \/ n = 3%nat) by lia. clear Hn. destruct (fourier_made r_far (fun l => eq_refl) mono m_vars (One n) (Some [(0, 1); (1, 3)]) (Some [0; 2]%nat) n [(0, 1); (1, 3)] [0; 2]%nat m_1) as (q & vars & Q);
    [apply arguments; reflexivity|discriminate|exact box_increasing|exact box_bounds|lia|destruct Hn3 as [-> | [-> | ->]]; cbn; lia|intros x []|]. exists q, vars. tauto.
Qed.

Definition diagonal (q : quad fnum_R mono) : list R := map (fun i => nth i (nth i (p_cov (q_pos q)) []) 0) (seq 0 2).
Lemma diagonal_R : forall (q : quad fnum_R mono) vars, quad_R q vars -> p_dirs (q_pos q) = [0; 2]%nat -> diagonal q = vars.
Proof. intros q vars ((G1 & G2 & G3 & _) & _) Hd. rewrite Hd in G3. destruct vars as [|a [|b [|? ?]]]; try discriminate G3. unfold diagonal. rewrite G1. reflexivity. Qed.
Example C88_integrate_example : exists q q' c x, make 2 [(0, 1); (1, 3)] [0; 2]%nat = Ok q /\ make 3 [(0, 1); (1, 3)] [0; 2]%nat = Ok q' /\ comp_init fnum_R mono (fun _ _ => true) [q; q'] [1 / 2; 1 / 2] = Ok c /\
  comp_integrate fnum_R mono (fun q => quad_integrate_fun fnum_R mono m_1 m_vars m_eval r_cov_factor 0 (1 / 10) (fun _ => m_1) q f_xy true) c = Ok x.
Proof.
  destruct (box_n 2 ltac:(lia)) as (q & vars & Q1 & Q2 & Q3 & Q4 & Q5). destruct (box_n 3 ltac:(lia)) as (q' & vars' & R1 & R2 & R3 & R4 & R5).
  pose (c := Comp (F := fnum_R) (E := mono) [q; q'] [1 / 2; 1 / 2] (q_pos q)).
  destruct (C88_integrate mono m_eval m_1 m_vars r_cov_factor r_la_inv r_far 0 (1 / 10) numpy_sample (fun _ _ => true) m_mul m_add_args m_mul_args m_ok m_vars_ok (fun _ => m_1) [q; q'] [1 / 2; 1 / 2] c diagonal f_xy true) as (values & _ & V).
  - reflexivity.
  - intros p [<-|[<-|[]]]; [rewrite (diagonal_R q vars Q2 Q5), Q5|rewrite (diagonal_R q' vars' R2 R5), R5]; repeat (split; [assumption||exact box_increasing|]); (split; [reflexivity|apply incl_refl]).
  - exists q, q', c. eexists. split; [exact Q1|]. split; [exact R1|]. split; [reflexivity|exact V].
Qed.

(** The variational form of a function with a composite quadrature whose quadratures have equal factors is the sum of the variational forms of the quadratures times the weights; if the first two factors differ it raises ValueError. *)
Theorem C88_varf : forall E (eval : E -> (nat -> R) -> R) e_1 free_vars cov_factor la_inv far8 junk, numpy_ok cov_factor la_inv far8 -> reads_free eval free_vars ->
  forall pos_eqb sym_eqb, (forall p p', pos_eqb p p' = true -> pos_eqb p' p = true) ->
  forall quads ws c s dim degree (vars : quad fnum_R E -> list R) (f : func E), comp_init fnum_R E pos_eqb quads ws = Ok c ->
  (forall q, In q quads -> length (vars q) = dim /\ setting q (vars q) s degree /\ f_dirs f = p_dirs (q_pos q) /\ incl (free_vars (f_sym f)) (p_dirs (q_pos q)) /\
    forall values, grid_values q (vars q) values (eval (f_sym f)) -> nothing_dropped s degree (q_nodes q) (q_weights q) (kinds (p_types (q_pos q))) values) ->
  let varf q := quad_varf_fun fnum_R E e_1 free_vars eval cov_factor junk q f degree s in
  ((forall q q', In q quads -> In q' quads -> f_dirs (q_factor q) = f_dirs (q_factor q') /\ sym_eqb (f_sym (q_factor q)) (f_sym (q_factor q')) = true) ->
   exists v q0 values, comp_varf fnum_R E e_1 sym_eqb pos_eqb varf c = Ok (Some v) /\ nth_error quads 0 = Some q0 /\ varf_ok v dim /\ v_pos v = q_pos q0 /\ v_set v = s /\ v_factor v = q_factor q0 /\ v_degree v = Degree.recovered s degree /\
     (forall m, varf_index v m <-> index_of s dim degree m) /\ Forall2 (fun q vals => grid_values q (vars q) vals (eval (f_sym f))) quads values /\
     forall r c, varf_index v r -> varf_index v c -> varf_at v r c = rsum (map (fun (x : quad fnum_R E * list R * R) => let '((q, vals), w) := x in galerkin (q_nodes q) (q_weights q) (kinds (p_types (q_pos q))) vals r c * w) (combine (combine quads values) ws))) /\
  (forall q0 q1 rest, quads = q0 :: q1 :: rest -> f_dirs (q_factor q0) <> f_dirs (q_factor q1) \/ sym_eqb (f_sym (q_factor q0)) (f_sym (q_factor q1)) = false ->
   comp_varf fnum_R E e_1 sym_eqb pos_eqb varf c = Throw "ValueError"%string).
Proof. exact (fun E eval e_1 free_vars cov_factor la_inv far8 junk HN HR pos_eqb => varf_comp E eval e_1 free_vars cov_factor la_inv far8 junk HN pos_eqb HR). Qed.
Print Assumptions C88_varf.

Example C88_varf_example : exists v, comp_varf fnum_R rexpr (RNum 1) r_eqb (fun _ _ => true) (fun q => quad_varf_fun fnum_R rexpr (RNum 1) r_free r_eval r_cov_factor 0 q (Fn (RVar 0) [0]%nat) 1 Triangle) (comp2 1 2) = Ok (Some v) /\ varf_at v [0]%nat [0]%nat = 9.
Proof.
  destruct (C88_varf rexpr r_eval (RNum 1) r_free r_cov_factor r_la_inv r_far 0 numpy_sample r_reads (fun _ _ => true) r_eqb (fun _ _ _ => eq_refl) [quad1 (RVar 0); quad1 (RVar 0)] [1; 2] (comp2 1 2) Triangle 1 1 (fun _ => [4]) (Fn (RVar 0) [0]%nat)) as (V & _).
  - apply C88_init_example.
  - intros q [<-|[<-|[]]]; (split; [reflexivity|]; split; [apply quad1_setting|]; split; [reflexivity|]; split; [apply incl_refl|]; intros values Hv; apply quad1_values in Hv; subst values; apply dropped_1d; [left; reflexivity|cbn; lra|cbn; lra]).
  - destruct V as (v & q0 & values & V1 & V2 & V3 & V4 & V5 & V6 & V7 & V8 & V9 & V10); [intros q q' [<-|[<-|[]]] [<-|[<-|[]]]; split; reflexivity|].
    exists v. split; [exact V1|]. rewrite V10 by (apply V8; split; [reflexivity|cbn; lia]).
    inversion V9 as [|? v1 ? vs1 W1 V9']; subst. inversion V9' as [|? v2 ? vs2 W2 V9'']; subst. inversion V9''; subst. apply quad1_values in W1. apply quad1_values in W2. subst v1 v2.
    unfold galerkin, quadrature, grid, at_pos, phi, basis, rsum, rprod; cbn -[hermite sqrt]. rewrite !hermite_0. field.
Qed.

(** CompQuad.transform never returns a series: the sum of the transforms starts at the int 0, and 0 + series raises TypeError. *)
Theorem C88_transform_refuted : forall E e_1 sym_eqb pos_eqb (method : quad fnum_R E -> res (series fnum_R E)) quads ws c, comp_init fnum_R E pos_eqb quads ws = Ok c ->
  (forall r, comp_transform fnum_R E e_1 sym_eqb pos_eqb method c <> Ok r) /\
  forall q0 rest f dim, quads = q0 :: rest -> method q0 = Ok f -> series_ok f dim -> comp_transform fnum_R E e_1 sym_eqb pos_eqb method c = Throw "TypeError"%string.
Proof. exact transform_never. Qed.
Print Assumptions C88_transform_refuted.

(** Hypotheses met: the first quadrature transforms the values 1 and 5 (of the function x). *)
Example C88_transform_refuted_example : comp_transform fnum_R rexpr (RNum 1) r_eqb (fun _ _ => true) (fun q => quad_transform fnum_R rexpr (RNum 1) r_free r_eval r_cov_factor 0 (1 / 10) q [1; 5] 1 Triangle) (comp2 1 2) = Throw "TypeError"%string.
Proof.
  destruct (transform_coefficients rexpr r_free r_eval r_cov_factor r_la_inv r_far 0 (1 / 10) (RNum 1) numpy_sample r_reads (quad1 (RVar 0)) [4] [1; 5] 1 Triangle) as (r & fv & T1 & _ & _ & _ & _ & T2 & _);
    [apply (quad1_setting (RVar 0))|reflexivity|apply incl_refl|reflexivity|apply (quad1_setting (RVar 0))|apply (quad1_setting (RVar 0))|apply (quad1_setting (RVar 0))|].
  exact (proj2 (C88_transform_refuted rexpr (RNum 1) r_eqb (fun _ _ => true) (fun q => quad_transform fnum_R rexpr (RNum 1) r_free r_eval r_cov_factor 0 (1 / 10) q [1; 5] 1 Triangle) _ _ (comp2 1 2) (proj1 C88_init_example)) (quad1 (RVar 0)) _ r 1%nat eq_refl T1 T2).
Qed.

(** Equality of composite quadratures does not imply equality of integrals: it does not look at the weights. *)
Theorem C88_eq_refuted : forall E (pos_eqb : position fnum_R -> position fnum_R -> bool) (quad_eqb : quad fnum_R E -> quad fnum_R E -> bool) (method : quad fnum_R E -> res R) q x,
  (forall p, pos_eqb p p = true) -> (forall q, quad_eqb q q = true) -> method q = Ok x -> x <> 0 ->
  ~ (forall quads quads' ws ws' c c', comp_init fnum_R E pos_eqb quads ws = Ok c -> comp_init fnum_R E pos_eqb quads' ws' = Ok c' -> comp_eqb fnum_R E pos_eqb quad_eqb c (AComp c') = Ok true ->
     comp_integrate fnum_R E method c = comp_integrate fnum_R E method c').
Proof. exact eq_refuted. Qed.
Print Assumptions C88_eq_refuted.

Example C88_eq_refuted_example : forall quad_eqb : quad fnum_R mono -> quad fnum_R mono -> bool, (forall q, quad_eqb q q = true) -> exists c c' : comp fnum_R mono, comp_eqb fnum_R mono (fun _ _ => true) quad_eqb c (AComp c') = Ok true /\ c_weights c = [1] /\ c_weights c' = [2].
Proof.
  intros quad_eqb Q. destruct (box_n 2 ltac:(lia)) as (q & vars & Q1 & Q2 & Q3 & Q4 & Q5). exists (Comp (F := fnum_R) (E := mono) [q] [1] (q_pos q)), (Comp (F := fnum_R) (E := mono) [q] [2] (q_pos q)). split; [|split; reflexivity].
  apply (eq_weights mono (fun _ _ => true) quad_eqb Q [q] [1] [2]); reflexivity.
Qed.

(** CompQuad.discretize_op and CompQuad.varfd raise TypeError, and CompQuad.project raises NameError, whatever the quadratures. *)
Theorem C88_raises : forall A (rest : res A), comp_discretize_op rest = Throw "TypeError"%string /\ comp_varfd rest = Throw "TypeError"%string /\
  forall E (pos_eqb : position fnum_R -> position fnum_R -> bool) quads ws c, comp_init fnum_R E pos_eqb quads ws = Ok c -> comp_project fnum_R E pos_eqb c = Throw "NameError"%string.
Proof. exact comp_raises. Qed.
Print Assumptions C88_raises.

(** CompQuad.varfd binds its arguments if the keyword "tensorize" is dropped. *)
Example C88_raises_example : py_bind ["self"; "f_grid"; "degree"; "sparse"; "index_set"]%string 3 3 ["sparse"; "index_set"]%string = Ok tt.
Proof. reflexivity. Qed.
