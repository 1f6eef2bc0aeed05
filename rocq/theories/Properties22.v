(** Properties C75, C76, C77 and C78: arithmetic of operators and functions. *)
From Coq Require Import String List Arith Reals Lia Lra Bool Sorting.Sorted Permutation.
From Verif Require Import Base PyBase IndexModel Num Fnum LinSpec CalcModel CalcSpec CalcHermite PosModel PosSpec PosFacts SeriesModel SeriesSpec LinBase Facts2 Facts6 Facts7 Facts9 Facts10 PyQuadModel PyQuadSpec PyQuadFacts PyQuadFacts2 OpSpec OpQuadModel OpQuadSpec OpModel OpQuadFacts OpArithModel OpArithSpec OpArithFacts OpArithFacts2 OpArithFacts3.
Import ListNotations.
Local Open Scope R_scope.

(** For the examples: one variable x0; the operators f' + x f, f'' and x f; the functions x, exp x and exp(-x^2), and the derivatives of exp. *)
Definition env1 (x : list R) (_ : nat) : R := nth 0 x 0.
Lemma env1_assigns : assigns [0]%nat env1.
Proof. intros x Hx [|k] d Hd; cbn in Hd; [injection Hd as <-|destruct k; discriminate Hd]. destruct x as [|a x]; [discriminate Hx|reflexivity]. Qed.
Definition op_a : operator sexpr := Oper sexpr [(SNum 1, [1]%nat); (SVar 0, [0]%nat)] [0]%nat.
Definition op_b : operator sexpr := Oper sexpr [(SNum 1, [2]%nat)] [0]%nat.
Definition op_x : operator sexpr := Oper sexpr [(SVar 0, [0]%nat)] [0]%nat.
Lemma op_a_on : operator_on s_vars [0]%nat op_a.
Proof. split; [reflexivity|]. intros c n [H|[H|[]]]; injection H as <- <-; split; try reflexivity; [intros v []|apply incl_refl]. Qed.
Lemma op_b_on : operator_on s_vars [0]%nat op_b.
Proof. split; [reflexivity|]. intros c n [H|[]]; injection H as <- <-; split; try reflexivity; intros v []. Qed.
Lemma op_x_on : operator_on s_vars [0]%nat op_x.
Proof. split; [reflexivity|]. intros c n [H|[]]; injection H as <- <-; split; try reflexivity; apply incl_refl. Qed.
Lemma op_x_fine : fine_operator s_fine op_x.
Proof. intros c n [H|[]]; injection H as <- <-; exact I. Qed.
Definition D_exp (_ : list nat) (x : list R) : R := exp (nth 0 x 0).
Lemma exp_smooth : smooth 1 (fun x => exp (nth 0 x 0)) D_exp.
Proof.
  split; [reflexivity|]. intros n k _ Hk x Hx. assert (k = 0%nat) by lia. subst k. destruct x as [|a [|? ?]]; try discriminate Hx. unfold D_exp, with_entry. cbn. apply derivable_pt_lim_exp.
Qed.
Definition f_x : func sexpr := Fn (SVar 0) [0]%nat.
Definition f_exp : func sexpr := Fn (SExp (SVar 0)) [0]%nat.
Lemma f_x_on : function_on s_vars [0]%nat f_x.
Proof. split; [reflexivity|apply incl_refl]. Qed.
Lemma f_exp_on : function_on s_vars [0]%nat f_exp.
Proof. split; [reflexivity|apply incl_refl]. Qed.
Ltac vcalc := unfold value, op_value, nsum, D_exp, env1; cbn -[exp].

(** C75: the sum, the difference, the opposite and the multiple by a function of operators on functions of the same variables are the operators with these values, on every function. *)
Theorem C75_add : forall E (eval : E -> (nat -> R) -> R) fine free_vars, forall dirs env a b, operator_on free_vars dirs a -> operator_on free_vars dirs b ->
  exists c, op_add E a b = Ok c /\ operator_on free_vars dirs c /\ (fine_operator fine a -> fine_operator fine b -> fine_operator fine c) /\
    forall D x, value eval env c D x = value eval env a D x + value eval env b D x.
Proof. exact (fun E eval fine free_vars => op_add_ok eval fine free_vars). Qed.
Print Assumptions C75_add.

Example C75_add_example : exists c, op_add sexpr op_a op_b = Ok c /\ value s_eval env1 c D_exp [2] = 4 * exp 2.
Proof. destruct (C75_add sexpr s_eval s_fine s_vars [0]%nat env1 op_a op_b op_a_on op_b_on) as (c & C1 & _ & _ & C2). exists c. split; [exact C1|]. rewrite C2. vcalc. ring. Qed.

(** The opposite. *)
Theorem C75_neg : forall E (eval : E -> (nat -> R) -> R) e_add e_mul e_div e_opp e_0 e_diff fine free_vars, sympy_arith eval e_add e_mul e_div e_opp e_0 e_diff fine -> sympy_arith_vars free_vars e_add e_mul e_div e_opp e_0 e_diff ->
  forall dirs env a, operator_on free_vars dirs a -> operator_on free_vars dirs (op_neg E e_opp a) /\ forall D x, value eval env (op_neg E e_opp a) D x = - value eval env a D x.
Proof. exact (fun E eval e_add e_mul e_div e_opp e_0 e_diff fine free_vars HA HV => op_neg_ok eval e_add e_mul e_div e_opp e_0 e_diff fine free_vars HA HV). Qed.
Print Assumptions C75_neg.

Example C75_neg_example : value s_eval env1 (op_neg sexpr SOpp op_a) D_exp [2] = - (3 * exp 2).
Proof. destruct (C75_neg sexpr s_eval SAdd SMul SDiv SOpp (SNum 0) s_diff s_fine s_vars s_arith s_arith_vars [0]%nat env1 op_a op_a_on) as [_ C]. rewrite C. vcalc. ring. Qed.

(** The difference. *)
Theorem C75_sub : forall E (eval : E -> (nat -> R) -> R) e_add e_mul e_div e_opp e_0 e_diff fine free_vars, sympy_arith eval e_add e_mul e_div e_opp e_0 e_diff fine -> sympy_arith_vars free_vars e_add e_mul e_div e_opp e_0 e_diff ->
  forall dirs env a b, operator_on free_vars dirs a -> operator_on free_vars dirs b ->
  exists c, op_sub E e_opp a b = Ok c /\ operator_on free_vars dirs c /\ forall D x, value eval env c D x = value eval env a D x - value eval env b D x.
Proof. exact (fun E eval e_add e_mul e_div e_opp e_0 e_diff fine free_vars HA HV => op_sub_ok eval e_add e_mul e_div e_opp e_0 e_diff fine free_vars HA HV). Qed.
Print Assumptions C75_sub.

Example C75_sub_example : exists c, op_sub sexpr SOpp op_a op_b = Ok c /\ value s_eval env1 c D_exp [2] = 2 * exp 2.
Proof. destruct (C75_sub sexpr s_eval SAdd SMul SDiv SOpp (SNum 0) s_diff s_fine s_vars s_arith s_arith_vars [0]%nat env1 op_a op_b op_a_on op_b_on) as (c & C1 & _ & C2). exists c. split; [exact C1|]. rewrite C2. vcalc. ring. Qed.

(** The multiple by a function. *)
Theorem C75_mul : forall E (eval : E -> (nat -> R) -> R) e_add e_mul e_div e_opp e_0 e_diff fine free_vars, sympy_arith eval e_add e_mul e_div e_opp e_0 e_diff fine -> sympy_arith_vars free_vars e_add e_mul e_div e_opp e_0 e_diff ->
  forall dirs env a g, operator_on free_vars dirs a -> function_on free_vars dirs g ->
  exists c, op_mul E e_mul a g = Ok c /\ operator_on free_vars dirs c /\ (fine_operator fine a -> fine (f_sym g) -> fine_operator fine c) /\
    forall D x, value eval env c D x = value eval env a D x * eval (f_sym g) (env x).
Proof. exact (fun E eval e_add e_mul e_div e_opp e_0 e_diff fine free_vars HA HV => op_mul_ok eval e_add e_mul e_div e_opp e_0 e_diff fine free_vars HA HV). Qed.
Print Assumptions C75_mul.

Example C75_mul_example : exists c, op_mul sexpr SMul op_a f_x = Ok c /\ value s_eval env1 c D_exp [2] = 6 * exp 2.
Proof. destruct (C75_mul sexpr s_eval SAdd SMul SDiv SOpp (SNum 0) s_diff s_fine s_vars s_arith s_arith_vars [0]%nat env1 op_a f_x op_a_on f_x_on) as (c & C1 & _ & _ & C2). exists c. split; [exact C1|]. rewrite C2. vcalc. ring. Qed.

(** With different directions, sums, differences, multiples and Operator.map raise ValueError. *)
Theorem C75_directions : forall E e_mul e_div e_opp e_diff, forall (a b : operator E) (g : func E), (o_dirs a <> o_dirs b -> op_add E a b = Throw "ValueError" /\ op_sub E e_opp a b = Throw "ValueError") /\
  (o_dirs a <> f_dirs g -> op_mul E e_mul a g = Throw "ValueError" /\ op_map E e_mul e_div e_diff a g = Throw "ValueError").
Proof. exact (fun E e_mul e_div e_opp e_diff => op_dirs_differ e_mul e_div e_opp e_diff). Qed.
Print Assumptions C75_directions.

Example C75_directions_example : op_add sexpr op_a (Oper sexpr [] [1]%nat) = Throw "ValueError".
Proof. apply (C75_directions sexpr SMul SDiv SOpp s_diff op_a (Oper sexpr [] [1]%nat) f_x). discriminate. Qed.

(** C76: the composition of two operators A and B on functions of the same variables maps f to A(B f), for every smooth function f, when the coefficients of B have no singularities. *)
Theorem C76_compose : forall E (eval : E -> (nat -> R) -> R) e_add e_mul e_div e_opp e_0 e_diff fine free_vars (op_is0 : oper E -> bool), sympy_arith eval e_add e_mul e_div e_opp e_0 e_diff fine -> sympy_arith_vars free_vars e_add e_mul e_div e_opp e_0 e_diff -> reads_free eval free_vars ->
  forall dirs env a b, NoDup dirs -> assigns dirs env -> operator_on free_vars dirs a -> operator_on free_vars dirs b -> fine_operator fine b ->
  let c := op_call E e_mul e_diff op_is0 a b in
  operator_on free_vars dirs c /\ (fine_operator fine a -> fine_operator fine c) /\
  forall f D, smooth (length dirs) f D -> (exists D', all_derivatives (length dirs) (value eval env b D) D') /\
    forall D' x, all_derivatives (length dirs) (value eval env b D) D' -> length x = length dirs -> value eval env c D x = value eval env a D' x.
Proof. exact (fun E eval e_add e_mul e_div e_opp e_0 e_diff fine free_vars op_is0 HA HV HF => op_call_ok eval e_add e_mul e_div e_opp e_0 e_diff fine free_vars op_is0 HA HV HF). Qed.
Print Assumptions C76_compose.

(** The second derivative of x f is x f'' + 2 f'. *)
Example C76_compose_example : value s_eval env1 (op_call sexpr SMul s_diff (fun _ => false) op_b op_x) D_exp [5] = 7 * exp 5 /\
  exists D', all_derivatives 1 (value s_eval env1 op_x D_exp) D' /\ value s_eval env1 op_b D' [5] = 7 * exp 5.
Proof.
  destruct (C76_compose sexpr s_eval SAdd SMul SDiv SOpp (SNum 0) s_diff s_fine s_vars (fun _ => false) s_arith s_arith_vars s_reads [0]%nat env1 op_b op_x) as (_ & _ & H);
    [repeat constructor; intros []|exact env1_assigns|exact op_b_on|exact op_x_on|exact op_x_fine|]. destruct (H _ _ exp_smooth) as [(D' & H1) H2].
  assert (V : value s_eval env1 (op_call sexpr SMul s_diff (fun _ => false) op_b op_x) D_exp [5] = 7 * exp 5) by (vcalc; ring).
  split; [exact V|]. exists D'. split; [exact H1|]. rewrite <- (H2 D' [5] H1 eq_refl). exact V.
Qed.

(** An operator applied to a function g without singularities gives the function A g. *)
Theorem C76_apply : forall E (eval : E -> (nat -> R) -> R) e_add e_mul e_div e_opp e_0 e_diff fine free_vars, sympy_arith eval e_add e_mul e_div e_opp e_0 e_diff fine -> sympy_arith_vars free_vars e_add e_mul e_div e_opp e_0 e_diff -> reads_free eval free_vars ->
  forall dirs env a g, increasing dirs -> assigns dirs env -> operator_on free_vars dirs a -> function_on free_vars dirs g -> fine (f_sym g) ->
  exists h, op_apply E e_add e_mul e_0 e_diff free_vars a g = Ok h /\ function_on free_vars dirs h /\ (exists D, all_derivatives (length dirs) (fun x => eval (f_sym g) (env x)) D) /\
    forall D x, all_derivatives (length dirs) (fun x => eval (f_sym g) (env x)) D -> length x = length dirs -> eval (f_sym h) (env x) = value eval env a D x.
Proof. exact (fun E eval e_add e_mul e_div e_opp e_0 e_diff fine free_vars HA HV HF => op_apply_ok eval e_add e_mul e_div e_opp e_0 e_diff fine free_vars HA HV HF). Qed.
Print Assumptions C76_apply.

Example C76_apply_example : exists h, op_apply sexpr SAdd SMul (SNum 0) s_diff s_vars op_a f_exp = Ok h /\ s_eval (f_sym h) (env1 [2]) = 3 * exp 2.
Proof.
  destruct (C76_apply sexpr s_eval SAdd SMul SDiv SOpp (SNum 0) s_diff s_fine s_vars s_arith s_arith_vars s_reads [0]%nat env1 op_a f_exp) as (h & H1 & _ & _ & H2);
    [repeat constructor|exact env1_assigns|exact op_a_on|exact f_exp_on|exact I|]. exists h. split; [exact H1|]. rewrite (H2 D_exp [2]); [vcalc; ring| |reflexivity].
  intros n Hn. destruct n as [|k [|? ?]]; try discriminate Hn. induction k as [|k IH]; [intros x Hx; reflexivity|]. exists (D_exp [k]). split; [apply IH; reflexivity|]. apply (proj2 exp_smooth [k] 0%nat eq_refl). lia.
Qed.

(** Unlike the sum, the composition of operators on functions of different variables is not rejected: the coefficients of the result may contain
    variables that are not among its directions. *)
Theorem C76_directions_refuted : ~ forall (op_is0 : oper sexpr -> bool) a b, (forall l, op_is0 l = true -> forall c n, In (c, n) l -> forall env, s_eval c env = 0) ->
  operator_on s_vars (o_dirs a) a -> operator_on s_vars (o_dirs b) b ->
  let c := op_call sexpr SMul s_diff op_is0 a b in operator_on s_vars (o_dirs c) c.
Proof. exact call_directions_refuted. Qed.
Print Assumptions C76_directions_refuted.

(** C77: Operator.map(w) of an operator of order at most 5 is the operator f -> L(w f)/w, for every function f with derivatives up to order 5, where w is not 0. *)
Theorem C77_map : forall E (eval : E -> (nat -> R) -> R) e_add e_mul e_div e_opp e_0 e_diff fine free_vars, sympy_arith eval e_add e_mul e_div e_opp e_0 e_diff fine -> sympy_arith_vars free_vars e_add e_mul e_div e_opp e_0 e_diff -> reads_free eval free_vars ->
  forall dirs env a w, NoDup dirs -> assigns dirs env -> operator_on free_vars dirs a -> (forall c n, In (c, n) (o_terms a) -> (order n <= 5)%nat) -> function_on free_vars dirs w -> fine (f_sym w) ->
  exists b, op_map E e_mul e_div e_diff a w = Ok b /\ operator_on free_vars dirs b /\
    forall f D D' x, derivatives (length dirs) f D -> derivatives (length dirs) (fun x => eval (f_sym w) (env x) * f x) D' -> length x = length dirs -> eval (f_sym w) (env x) <> 0 ->
      value eval env b D x = value eval env a D' x / eval (f_sym w) (env x).
Proof. exact (fun E eval e_add e_mul e_div e_opp e_0 e_diff fine free_vars HA HV HF => op_map_ok eval e_add e_mul e_div e_opp e_0 e_diff fine free_vars HA HV HF). Qed.
Print Assumptions C77_map.

(** The operator f'' with the factor exp x: f'' + 2 f' + f. *)
Example C77_map_example : exists b, op_map sexpr SMul SDiv s_diff op_b f_exp = Ok b /\ operator_on s_vars [0]%nat b /\ value s_eval env1 b D_exp [2] = 4 * exp 2.
Proof.
  destruct (C77_map sexpr s_eval SAdd SMul SDiv SOpp (SNum 0) s_diff s_fine s_vars s_arith s_arith_vars s_reads [0]%nat env1 op_b f_exp) as (b & H1 & H2 & _);
    [repeat constructor; intros []|exact env1_assigns|exact op_b_on|intros c n [H|[]]; injection H as <- <-; cbn; lia|exact f_exp_on|exact I|].
  exists b. split; [exact H1|]. split; [exact H2|]. cbn in H1. injection H1 as <-. vcalc. pose proof (exp_pos 2). field. lra.
Qed.

(** Quad.discretize_op with Operator.map as it is: C67 without an assumption on Operator.map and on the derivatives of the weighted basis functions. *)
Theorem C77_discretize_op : forall E (free_vars : E -> list nat) (eval : E -> (nat -> R) -> R) cov_factor la_inv far8 junk e_1 la_eig, numpy_ok cov_factor la_inv far8 -> reads_free eval free_vars -> eig_ok la_eig ->
  forall e_add e_mul e_div e_opp e_0 e_diff fine e_mono simplify is0 sym_eqb pos_eqb, sympy_lin (N := num_R) eval e_add e_mul e_0 e_mono simplify is0 ->
  sympy_arith eval e_add e_mul e_div e_opp e_0 e_diff fine -> sympy_arith_vars free_vars e_add e_mul e_div e_opp e_0 e_diff -> (forall p, pos_eqb p p = true) -> (forall e, sym_eqb e e = true) ->
  (forall a b, sym_eqb a b = true -> forall env, eval a env = eval b env) ->
  forall (q : quad fnum_R E) vars s degree env, setting q vars s degree -> (forall k, nth k (kinds (p_types (q_pos q))) 0%nat = 1%nat -> paired s (length vars) degree k) ->
  increasing (p_dirs (q_pos q)) -> assigns (p_dirs (q_pos q)) env -> sympy_lin_vars e_add e_mul e_0 e_1 e_mono simplify free_vars (p_dirs (q_pos q)) ->
  forall op : oper E,
  f_dirs (q_factor q) = p_dirs (q_pos q) -> incl (free_vars (f_sym (q_factor q))) (p_dirs (q_pos q)) -> fine (f_sym (q_factor q)) -> (forall x, eval e_1 x = 1) ->
  (forall c n, In (c, n) op -> length n = length vars /\ (order n <= 5)%nat /\ incl (free_vars c) (p_dirs (q_pos q))) ->
  (forall p, In p (grid (q_nodes q)) -> eval (f_sym (q_factor q)) (env (grid_point q vars p)) <> 0) ->
  let mapped op w := map_terms E e_mul e_div e_diff (p_dirs (q_pos q)) op (f_sym w) in
  let weighted c x := eval (f_sym (q_factor q)) (env x) * psi (p_mean (q_pos q)) vars (kinds (p_types (q_pos q))) c x in
  (forall op' n values, (sym_eqb (f_sym (q_factor q)) e_1 = true /\ op' = op) \/ (sym_eqb (f_sym (q_factor q)) e_1 = false /\ op' = mapped op (q_factor q)) -> length n = length vars ->
    grid_values q vars values (coefficient (N := num_R) eval op' n) -> nothing_dropped s degree (q_nodes q) (q_weights q) (kinds (p_types (q_pos q))) values) ->
  exists v, quad_discretize_op fnum_R E e_add e_mul e_0 e_1 e_mono simplify is0 free_vars eval sym_eqb pos_eqb cov_factor junk la_eig mapped q op degree s = Ok v /\
    varf_ok v (length vars) /\ v_pos v = q_pos q /\ v_set v = s /\ v_factor v = q_factor q /\ v_degree v = Degree.recovered s degree /\ (forall m, varf_index v m <-> index_of s (length vars) degree m) /\
    (exists D, forall c, index_of s (length vars) degree c -> derivatives (length vars) (weighted c) (D c)) /\
    forall D r c, (forall c, index_of s (length vars) degree c -> derivatives (length vars) (weighted c) (D c)) -> varf_index v r -> varf_index v c ->
      varf_at v r c = integral (q_nodes q) (q_weights q) (fun y => let x := located (p_mean (q_pos q)) vars y in
        phi (kinds (p_types (q_pos q))) r y * (op_value (N := num_R) eval op (fun n => D c n x) (env x) / eval (f_sym (q_factor q)) (env x))).
Proof. exact discretize_op_mapped. Qed.
Print Assumptions C77_discretize_op.

(** One direction with mean 3, variance 4 and the two-point rule, and the factor exp x. *)
Definition quad_e : quad fnum_R sexpr := Qd (F := fnum_R) (E := sexpr) [[-1; 1]] [[1/2; 1/2]] (Pos (N := fnum_R) [0]%nat [3] (diag_mat fnum_R [4]) ["hermite"]%string true) f_exp.
Lemma quad_e_setting : setting quad_e [4] Triangle 1.
Proof.
  split.
  - split; [|split; [reflexivity|split; [discriminate|unfold grid_fits; cbn; lia]]]. split; [reflexivity|]. split; [repeat constructor; lra|]. repeat split; repeat constructor; cbn; intuition discriminate.
  - split; [repeat constructor|]. split; [apply usable_dim4; cbn; lia|]. split; [apply usable_fits, usable_dim4; cbn; lia|]. split; [split; [repeat constructor|intros [H|H]; discriminate H]|left; reflexivity].
Qed.
Lemma sqrt_4 : sqrt 4 = 2.
Proof. replace 4 with (2 * 2) by lra. apply sqrt_square; lra. Qed.
Lemma quad_e_values : forall values f, grid_values quad_e [4] values f -> values = [f (fun _ => 1); f (fun _ => 5)].
Proof.
  intros values f [H1 H2].
  assert (P : forall i a, (i < 2)%nat -> 3 + 2 * nth i [-1; 1] 0 = a -> at_point [0]%nat (grid_point quad_e [4] [i]) (fun _ => a)).
  { intros i a Hi <-. destruct i as [|[|i]]; try lia; intros [|k] d Hd; cbn in Hd; try (destruct k; discriminate Hd); injection Hd as <-; cbn -[sqrt]; f_equal; rewrite sqrt_4; lra. }
  assert (F0 := H2 0%nat [0]%nat _ eq_refl (P 0%nat 1 ltac:(lia) ltac:(cbn; lra))). assert (F1 := H2 1%nat [1]%nat _ eq_refl (P 1%nat 5 ltac:(lia) ltac:(cbn; lra))).
  destruct values as [|a [|b [|? ?]]]; try discriminate H1. cbn in F0, F1. injection F0 as ->. injection F1 as ->. reflexivity.
Qed.
(** The operator f -> f': with the factor exp x it is f -> f' + f. *)
Example C77_discretize_op_example : exists v, quad_discretize_op fnum_R sexpr SAdd SMul (SNum 0) (SNum 1) (s_mono [0]%nat) (fun e => e) s_is0 s_vars s_eval s_eqb (fun _ _ => true) r_cov_factor 0 r_la_eig
    (fun op w => map_terms sexpr SMul SDiv s_diff [0]%nat op (f_sym w)) quad_e [(SNum 1, [1]%nat)] 1 Triangle = Ok v /\ varf_at v [0]%nat [1]%nat = 1 / 2 /\ varf_at v [1]%nat [1]%nat = 1.
Proof.
  destruct (C77_discretize_op sexpr s_vars s_eval r_cov_factor r_la_inv r_far 0 (SNum 1) r_la_eig numpy_sample s_reads diag_eig SAdd SMul SDiv SOpp (SNum 0) s_diff s_fine (s_mono [0]%nat) (fun e => e) s_is0 s_eqb (fun _ _ => true)
    (s_lin [0]%nat) s_arith s_arith_vars (fun _ => eq_refl) s_eqb_refl s_eqb_sound quad_e [4] Triangle 1 env1 quad_e_setting) with (op := [(SNum 1, [1]%nat)]) as (v & V1 & _ & _ & _ & _ & _ & V2 & (D & V3) & V4).
  - intros [|[|k]] H; discriminate H.
  - repeat constructor.
  - exact env1_assigns.
  - apply s_lin_vars.
  - reflexivity.
  - apply incl_refl.
  - exact I.
  - reflexivity.
  - intros c n [H|[]]. injection H as <- <-. split; [reflexivity|]. split; [cbn; lia|intros v []].
  - intros p Hp. cbn [quad_e q_factor f_sym f_exp s_eval]. match goal with |- exp ?a <> 0 => pose proof (exp_pos a); lra end.
  - intros op' n values [[H _]|[_ ->]] Hn Hv; [discriminate H|]. apply quad_e_values in Hv. subst values. pose proof (exp_pos 1). pose proof (exp_pos 5).
    destruct n as [|[|[|n]] [|? ?]]; try discriminate Hn; match goal with |- nothing_dropped _ _ _ _ _ [?a; ?b] =>
      first [assert (Ea : a = 1) by (cbn -[exp]; field; lra); assert (Eb : b = 1) by (cbn -[exp]; field; lra); rewrite Ea, Eb|assert (Ea : a = 0) by reflexivity; assert (Eb : b = 0) by reflexivity; rewrite Ea, Eb] end;
      apply dropped_const; auto.
  - exists v. split; [exact V1|].
    assert (I0 : varf_index v [0]%nat) by (apply V2; split; [reflexivity|cbn; lia]). assert (I1 : varf_index v [1]%nat) by (apply V2; split; [reflexivity|cbn; lia]).
    assert (G : forall x, length x = 1%nat -> D [1]%nat [1]%nat x = exp (nth 0 x 0) * (psi [3] [4] [0]%nat [1]%nat x + g1 1 1 x)).
    { apply (deriv_same 1 [0]%nat (fun x => exp (nth 0 x 0) * psi [3] [4] [0]%nat [1]%nat x)); [repeat constructor|apply (V3 [1]%nat (conj eq_refl (le_n 1)) [1]%nat eq_refl); cbn; lia|].
      eexists. split; [intros x _; reflexivity|]. intros x Hx. destruct (proj1 (g1_along 1 1)) as (h & A1 & A2). pose proof (A2 x Hx) as B.
      assert (C : derivable_pt_lim (fun t => psi [3] [4] [0]%nat [1]%nat (with_entry x 0 t)) (nth 0 x 0) (g1 1 1 x)).
      { eapply derivable_pt_lim_ext; [|exact B]. intros t. apply A1. rewrite with_entry_length; [exact Hx|rewrite Hx; lia]. }
      pose proof (derivable_pt_lim_mult _ _ _ _ _ (derivable_pt_lim_exp (nth 0 x 0)) C) as M. cbv beta in M. rewrite with_entry_same in M by (rewrite Hx; lia). rewrite Rmult_plus_distr_l. exact M. }
    split; rewrite (V4 D) by assumption; unfold integral, quadrature, op_value, nsum, located, grid, at_pos, rsum; cbn -[hermite sqrt exp phi psi g1 Rdiv]; rewrite !G by reflexivity;
      unfold env1, g1, psi, standardised, phi, basis, rprod; cbn -[hermite sqrt exp Rdiv]; rewrite !hermite_0, ?hermite_1, sqrt_4; change (sqrt (INR 1)) with (sqrt 1); rewrite ?sqrt_1; cbn [Nat.sub]; rewrite ?hermite_0; pose proof (exp_pos (3 + 2 * -1)); pose proof (exp_pos (3 + 2 * 1)); field; repeat split; try lra.
Qed.

(** C78: the product, sum and quotient of functions of the same variables are the functions with these values. *)
Theorem C78_arith : forall E (eval : E -> (nat -> R) -> R) e_add e_mul e_div e_opp e_0 e_diff fine free_vars, sympy_arith eval e_add e_mul e_div e_opp e_0 e_diff fine -> sympy_arith_vars free_vars e_add e_mul e_div e_opp e_0 e_diff ->
  forall dirs f g, increasing dirs -> function_on free_vars dirs f -> function_on free_vars dirs g ->
  exists p s q, func_mul E e_mul free_vars f g = Ok p /\ func_add E e_add free_vars f g = Ok s /\ func_div E e_div free_vars f g = Ok q /\ function_on free_vars dirs p /\ function_on free_vars dirs s /\ function_on free_vars dirs q /\
    forall env, eval (f_sym p) env = eval (f_sym f) env * eval (f_sym g) env /\ eval (f_sym s) env = eval (f_sym f) env + eval (f_sym g) env /\
      (eval (f_sym g) env <> 0 -> eval (f_sym q) env = eval (f_sym f) env / eval (f_sym g) env).
Proof. exact (fun E eval e_add e_mul e_div e_opp e_0 e_diff fine free_vars HA HV => func_arith_ok eval e_add e_mul e_div e_opp e_0 e_diff fine free_vars HA HV). Qed.
Print Assumptions C78_arith.

Example C78_arith_example : exists p, func_mul sexpr SMul s_vars f_x f_exp = Ok p /\ s_eval (f_sym p) (env1 [3]) = 3 * exp 3.
Proof.
  destruct (C78_arith sexpr s_eval SAdd SMul SDiv SOpp (SNum 0) s_diff s_fine s_vars s_arith s_arith_vars [0]%nat f_x f_exp) as (p & s & q & H1 & _ & _ & _ & _ & _ & H2); [repeat constructor|exact f_x_on|exact f_exp_on|].
  exists p. split; [exact H1|]. rewrite (proj1 (H2 (env1 [3]))). reflexivity.
Qed.

(** With different directions they raise ValueError. *)
Theorem C78_directions : forall E e_add e_mul e_div free_vars, forall f g : func E, f_dirs f <> f_dirs g -> func_mul E e_mul free_vars f g = Throw "ValueError" /\ func_add E e_add free_vars f g = Throw "ValueError" /\ func_div E e_div free_vars f g = Throw "ValueError".
Proof. exact (fun E e_add e_mul e_div free_vars => func_dirs_differ e_add e_mul e_div free_vars). Qed.
Print Assumptions C78_directions.

Example C78_directions_example : func_add sexpr SAdd s_vars f_x (Fn (SVar 1) [1]%nat) = Throw "ValueError".
Proof. apply (C78_directions sexpr SAdd SMul SDiv s_vars f_x (Fn (SVar 1) [1]%nat)). discriminate. Qed.

(** Function.tensorize gives the product of the functions, on the sorted union of their directions; it raises ValueError if two of them share a direction. *)
Theorem C78_tensorize : forall E (eval : E -> (nat -> R) -> R) e_add e_mul e_div e_opp e_0 e_diff fine free_vars, sympy_arith eval e_add e_mul e_div e_opp e_0 e_diff fine -> sympy_arith_vars free_vars e_add e_mul e_div e_opp e_0 e_diff ->
  forall e_1 args, (forall env, eval e_1 env = 1) -> free_vars e_1 = [] -> (forall a, In a args -> increasing (f_dirs a) /\ incl (free_vars (f_sym a)) (f_dirs a)) ->
  (NoDup (concat (map f_dirs args)) -> exists h, func_tensorize E e_mul free_vars e_1 args = Ok h /\ increasing (f_dirs h) /\ Permutation (f_dirs h) (concat (map f_dirs args)) /\ function_on free_vars (f_dirs h) h /\
     forall env, eval (f_sym h) env = product_value eval args env) /\
  (~ NoDup (concat (map f_dirs args)) -> func_tensorize E e_mul free_vars e_1 args = Throw "ValueError").
Proof. exact (fun E eval e_add e_mul e_div e_opp e_0 e_diff fine free_vars HA HV => func_tensorize_ok eval e_add e_mul e_div e_opp e_0 e_diff fine free_vars HA HV). Qed.
Print Assumptions C78_tensorize.

Example C78_tensorize_example : exists h, func_tensorize sexpr SMul s_vars (SNum 1) [Fn (SVar 3) [1; 3]%nat; f_exp] = Ok h /\ f_dirs h = [0; 1; 3]%nat /\ s_eval (f_sym h) INR = 3 * exp 0.
Proof.
  destruct (C78_tensorize sexpr s_eval SAdd SMul SDiv SOpp (SNum 0) s_diff s_fine s_vars s_arith s_arith_vars (SNum 1) [Fn (SVar 3) [1; 3]%nat; f_exp]) as [H _]; [reflexivity|reflexivity| |].
  - intros a [<-|[<-|[]]]; (split; [repeat constructor; lia|]); intros v [<-|[]]; cbn; auto.
  - destruct H as (h & H1 & _ & _ & _ & H2); [repeat constructor; cbn; intuition lia|]. exists h. split; [exact H1|]. split; [cbn in H1; injection H1 as <-; reflexivity|]. rewrite H2. unfold product_value. cbn -[exp]. ring.
Qed.
