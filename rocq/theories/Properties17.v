(** Property C68: the transform of a function, done group of variables by group of variables. *)
From Coq Require Import String List Bool Arith ZArith Reals Lia Lra Permutation.
From Verif Require Import Base IndexModel Spec Num Fnum LinModel LinSpec LinBase MatBase Facts2 Facts6 CalcModel CalcSpec PyBase PosModel PosSpec PosFacts SeriesModel SeriesSpec SplitModel SplitSpec
  PartModel PartSpec PyQuadModel PyQuadSpec PyQuadFacts2 TensQuadModel TensQuadSpec TensQuadFacts TensQuadFacts2 TensQuadFacts3 TensQuadFacts4.
Import ListNotations.
Local Open Scope R_scope.

(** C68: with the setting tensorize (or without it) Quad.transform of a function gives the same coefficients, position, index set, degree and
    factor, whatever the orders in which Python enumerates the sets of groups of variables.  Instead it may raise ValueError. *)
Theorem C68_transform : forall far E (eval : E -> (nat -> R) -> R) e_mul e_div e_1 add_args mul_args free_vars sym_eqb cov_factor la_inv far8 junk tiny order enum pos_eqb,
  (forall l, far (diag_mat fnum_R l) = false) -> sympy_ok (N := fnum_R) eval e_mul e_1 add_args mul_args free_vars -> sympy_vars e_mul e_1 add_args mul_args free_vars -> sympy_unit eval e_div e_1 free_vars sym_eqb ->
  numpy_ok cov_factor la_inv far8 -> (forall i k l, Permutation (order i k l) l) -> (forall i l, Permutation (enum i l) l) -> (forall p, pos_eqb p p = true) ->
  forall (q : quad fnum_R E) vars (f : func E) degree s, quad_ok q -> quad_R q vars -> incl (free_vars (f_sym (q_factor q))) (p_dirs (q_pos q)) ->
  rules_match (q_nodes q) (q_weights q) -> usable s (length vars) degree -> flags_ok s degree (kinds (p_types (q_pos q))) ->
  (forall p env, In p (grid (q_nodes q)) -> at_point (p_dirs (q_pos q)) (grid_point q vars p) env -> eval (f_sym (q_factor q)) env <> 0) ->
  f_dirs f = p_dirs (q_pos q) -> incl (free_vars (f_sym f)) (p_dirs (q_pos q)) -> add_args (f_sym f) <> [] ->
  let transform tensorize := transform_tensorized fnum_R far E e_mul e_div e_1 add_args mul_args free_vars sym_eqb eval order enum cov_factor junk tiny pos_eqb tensorize q f degree s in
  exists r0, transform false = Ok r0 /\
    (transform true = Throw "ValueError" \/
     exists r, transform true = Ok r /\ s_coeffs r = s_coeffs r0 /\ s_pos r = s_pos r0 /\ s_set r = s_set r0 /\ s_degree r = s_degree r0 /\
       f_dirs (s_factor r) = f_dirs (s_factor r0) /\ forall env, eval (f_sym (s_factor r)) env = eval (f_sym (s_factor r0)) env).
Proof. exact transform_either. Qed.
Print Assumptions C68_transform.

(** It raises no ValueError if the factor of the quadrature is not a sum, and either the function is not a sum or sympy finds that
    expressions with equal values are equal. *)
Theorem C68_transform_ok : forall far E (eval : E -> (nat -> R) -> R) e_mul e_div e_1 add_args mul_args free_vars sym_eqb cov_factor la_inv far8 junk tiny order enum pos_eqb,
  (forall l, far (diag_mat fnum_R l) = false) -> sympy_ok (N := fnum_R) eval e_mul e_1 add_args mul_args free_vars -> sympy_vars e_mul e_1 add_args mul_args free_vars -> sympy_unit eval e_div e_1 free_vars sym_eqb ->
  sympy_terms e_mul e_div e_1 add_args mul_args ->
  numpy_ok cov_factor la_inv far8 -> (forall i k l, Permutation (order i k l) l) -> (forall i l, Permutation (enum i l) l) -> (forall p, pos_eqb p p = true) ->
  forall (q : quad fnum_R E) vars (f : func E) degree s, quad_ok q -> quad_R q vars -> incl (free_vars (f_sym (q_factor q))) (p_dirs (q_pos q)) ->
  rules_match (q_nodes q) (q_weights q) -> usable s (length vars) degree -> flags_ok s degree (kinds (p_types (q_pos q))) ->
  (forall p env, In p (grid (q_nodes q)) -> at_point (p_dirs (q_pos q)) (grid_point q vars p) env -> eval (f_sym (q_factor q)) env <> 0) ->
  f_dirs f = p_dirs (q_pos q) -> incl (free_vars (f_sym f)) (p_dirs (q_pos q)) -> add_args (f_sym f) <> [] ->
  one_term add_args (f_sym (q_factor q)) -> one_term add_args (f_sym f) \/ (forall a b, (forall env, eval a env = eval b env) -> sym_eqb a b = true) ->
  let transform tensorize := transform_tensorized fnum_R far E e_mul e_div e_1 add_args mul_args free_vars sym_eqb eval order enum cov_factor junk tiny pos_eqb tensorize q f degree s in
  exists r0 r, transform false = Ok r0 /\ transform true = Ok r /\ s_coeffs r = s_coeffs r0 /\ s_pos r = s_pos r0 /\ s_set r = s_set r0 /\ s_degree r = s_degree r0 /\
    f_dirs (s_factor r) = f_dirs (s_factor r0) /\ forall env, eval (f_sym (s_factor r)) env = eval (f_sym (s_factor r0)) env.
Proof. exact transform_ok. Qed.
Print Assumptions C68_transform_ok.

(** With a factor that is a sum, it always raises ValueError. *)
Theorem C68_sum_factor_raises : forall far E (eval : E -> (nat -> R) -> R) e_mul e_div e_1 add_args mul_args free_vars sym_eqb cov_factor junk tiny order enum pos_eqb,
  sympy_ok (N := fnum_R) eval e_mul e_1 add_args mul_args free_vars -> sympy_vars e_mul e_1 add_args mul_args free_vars ->
  forall (q : quad fnum_R E) (f : func E) degree s, quad_ok q -> NoDup (f_dirs f) -> incl (free_vars (f_sym f)) (f_dirs f) -> add_args (f_sym f) <> [] ->
  length (add_args (f_sym (q_factor q))) <> 1%nat ->
  transform_tensorized fnum_R far E e_mul e_div e_1 add_args mul_args free_vars sym_eqb eval order enum cov_factor junk tiny pos_eqb true q f degree s = Throw "ValueError".
Proof. exact sum_factor_raises. Qed.
Print Assumptions C68_sum_factor_raises.

(** Hypotheses met: nodes -1 and 1 with mean 3, variance 1 in the directions x and y, the function x y (or, as a sum, x y / 2 + x y / 2), and the factor 2 x. *)
Notation quad_xy factor := (Qd (F := fnum_R) (E := mono) [[-1; 1]; [-1; 1]] [[1 / 2; 1 / 2]; [1 / 2; 1 / 2]]
  (Pos (N := fnum_R) [0; 1]%nat [3; 3] [[1; 0]; [0; 1]] ["hermite"; "hermite"]%string true) (Fn factor [0; 1]%nat)).
Example C68_transform_ok_example : forall sum (order : nat -> nat -> list fset -> list fset) enum, (forall i k l, Permutation (order i k l) l) -> (forall i l, Permutation (enum i l) l) ->
  let transform tensorize := transform_tensorized fnum_R r_far mono m_mul m_div m_1 m_add_args m_mul_args m_vars m_eqb m_eval order enum r_cov_factor 0 (1 / 10) (fun _ _ => true)
    tensorize (quad_xy (Mono false 2 [0%nat])) (Fn (Mono sum 1 [0; 1]%nat) [0; 1]%nat) 1 Triangle in
  exists r0 r, transform false = Ok r0 /\ transform true = Ok r /\ s_coeffs r = s_coeffs r0.
Proof.
  intros sum order enum Ho He transform.
  destruct (C68_transform_ok r_far mono m_eval m_mul m_div m_1 m_add_args m_mul_args m_vars m_eqb r_cov_factor r_la_inv r_far 0 (1 / 10) order enum (fun _ _ => true) (fun l => eq_refl) m_ok m_vars_ok m_unit m_terms numpy_sample Ho He (fun _ => eq_refl)
    (quad_xy (Mono false 2 [0%nat])) [1; 1] (Fn (Mono sum 1 [0; 1]%nat) [0; 1]%nat) 1 Triangle) as (r0 & r & H1 & H2 & H3 & _).
  - apply quad_xy_ok.
  - apply quad_xy_R.
  - intros x [<-|[]]. left. reflexivity.
  - repeat constructor.
  - apply usable_dim4; cbn; lia.
  - split; [repeat constructor|intros [H|H]; discriminate H].
  - intros p env Hp Hat. exact (quad_xy_factor p env Hp Hat).
  - reflexivity.
  - apply incl_refl.
  - unfold m_add_args. destruct sum; discriminate.
  - reflexivity.
  - right. exact m_eqb_complete.
  - exists r0, r. auto.
Qed.
Example C68_transform_example : forall (order : nat -> nat -> list fset -> list fset) enum, (forall i k l, Permutation (order i k l) l) -> (forall i l, Permutation (enum i l) l) ->
  exists r, transform_tensorized fnum_R r_far mono m_mul m_div m_1 m_add_args m_mul_args m_vars m_eqb m_eval order enum r_cov_factor 0 (1 / 10) (fun _ _ => true)
    false (quad_xy (Mono false 2 [0%nat])) (Fn (Mono true 1 [0; 1]%nat) [0; 1]%nat) 1 Triangle = Ok r.
Proof. intros order enum Ho He. destruct (C68_transform_ok_example true order enum Ho He) as (r0 & r & H & _). exists r0. exact H. Qed.
Example C68_sum_factor_raises_example : 
  transform_tensorized fnum_R r_far mono m_mul m_div m_1 m_add_args m_mul_args m_vars m_eqb m_eval (fun _ _ l => l) (fun _ l => l) r_cov_factor 0 (1 / 10) (fun _ _ => true)
    true (quad_xy (Mono true 2 [0%nat])) (Fn (Mono false 1 [0; 1]%nat) [0; 1]%nat) 1 Triangle = Throw "ValueError".
Proof. apply C68_sum_factor_raises; [exact m_ok|exact m_vars_ok|apply quad_xy_ok|repeat constructor; cbn; intuition discriminate|apply incl_refl|discriminate|discriminate]. Qed.

(** The result always is at the position of the quadrature only without the setting: a function that is declared with fewer directions than the
    quadrature gives, with it, a series in these directions. *)
Theorem C68_direct_position : forall far E (eval : E -> (nat -> R) -> R) e_mul e_div e_1 add_args mul_args free_vars sym_eqb cov_factor junk tiny order enum pos_eqb (q : quad fnum_R E) (f : func E) degree s r,
  transform_tensorized fnum_R far E e_mul e_div e_1 add_args mul_args free_vars sym_eqb eval order enum cov_factor junk tiny pos_eqb false q f degree s = Ok r -> s_pos r = q_pos q.
Proof. exact direct_position. Qed.
Print Assumptions C68_direct_position.

Theorem C68_position_refuted : ~ forall far E (eval : E -> (nat -> R) -> R) e_mul e_div e_1 add_args mul_args free_vars sym_eqb cov_factor la_inv far8 junk tiny order enum pos_eqb,
  (forall l, far (diag_mat fnum_R l) = false) -> sympy_ok (N := fnum_R) eval e_mul e_1 add_args mul_args free_vars -> sympy_vars e_mul e_1 add_args mul_args free_vars -> sympy_unit eval e_div e_1 free_vars sym_eqb ->
  sympy_terms e_mul e_div e_1 add_args mul_args ->
  numpy_ok cov_factor la_inv far8 -> (forall i k l, Permutation (order i k l) l) -> (forall i l, Permutation (enum i l) l) -> (forall p, pos_eqb p p = true) ->
  forall (q : quad fnum_R E) vars (f : func E) degree s r, quad_ok q -> quad_R q vars -> incl (free_vars (f_sym (q_factor q))) (p_dirs (q_pos q)) ->
  rules_match (q_nodes q) (q_weights q) -> usable s (length vars) degree -> flags_ok s degree (kinds (p_types (q_pos q))) ->
  incl (f_dirs f) (p_dirs (q_pos q)) -> incl (free_vars (f_sym f)) (f_dirs f) ->
  transform_tensorized fnum_R far E e_mul e_div e_1 add_args mul_args free_vars sym_eqb eval order enum cov_factor junk tiny pos_eqb true q f degree s = Ok r -> s_pos r = q_pos q.
Proof. exact position_refuted. Qed.
Print Assumptions C68_position_refuted.
