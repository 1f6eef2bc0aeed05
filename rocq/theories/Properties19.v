(** Properties C71, C72: Quad.varfd and Quad.discretize_op, group of variables by group of variables. *)
From Coq Require Import String List Bool Arith ZArith Reals Lia Lra Permutation.
From Verif Require Import Base IndexModel Spec Num Fnum LinModel LinSpec LinBase MatBase Degree Facts2 Facts6 Facts7 CalcModel CalcSpec PyBase PosModel PosSpec PosFacts SeriesModel SeriesSpec SplitModel SplitSpec
  PartModel PartSpec OpModel OpSpec PyQuadModel PyQuadSpec PyQuadFacts2 OpQuadModel OpQuadSpec OpQuadFacts CalcHermite TensQuadModel TensQuadSpec TensVarfModel TensVarfSpec TensVarfFacts3 TensOpModel TensOpSpec TensOpFacts4.
Import ListNotations.
Local Open Scope R_scope.

(** The examples: nodes 1, 3 in direction 0 and 2, 4 in direction 1, the constant factor 2, the function xy + x and the operator xy d/dy. *)
Notation form_ex tensorize := (varfd_tensorized fnum_R r_far rexpr RMul (RNum 1) r_add_args r_mul_args r_free r_same r_eval r_cov_factor 0 r_la_eig (fun _ _ => true) (fun _ _ l => rev l) (fun _ l => rev l) tensorize (quad_23r (RNum 2)) f_ex 1 [1; 5]%nat Triangle).
Notation disc_ex tensorize := (discretize_op_tensorized fnum_R r_far rexpr RAdd RMul (RNum 0) (RNum 1) (r_mono [0; 1]%nat) (fun e => e) r_is0 r_add_args r_mul_args r_free r_same r_eval r_cov_factor 0 r_la_eig (fun op _ => op) (fun _ _ => true) (fun _ _ _ l => rev l) (fun _ _ l => rev l) tensorize (quad_23r (RNum 2)) op_ex 1 Triangle).

(** C71: with the setting tensorize (or without it) Quad.varfd of a function gives the same matrix, position, index set, degree and factor, whatever
    the orders in which Python enumerates the sets of groups of variables, provided that no coefficient of a transform falls under the threshold
    of Quad.varf.  Instead it may raise ValueError. *)
Theorem C71_varfd : forall far E (eval : E -> (nat -> R) -> R) e_mul e_1 add_args mul_args free_vars sym_eqb cov_factor la_inv far8 junk la_eig order enum pos_eqb,
  (forall l, far (diag_mat fnum_R l) = false) -> sympy_ok (N := fnum_R) eval e_mul e_1 add_args mul_args free_vars -> sympy_vars e_mul e_1 add_args mul_args free_vars ->
  numpy_ok cov_factor la_inv far8 -> eig_ok la_eig -> (forall i k l, Permutation (order i k l) l) -> (forall i l, Permutation (enum i l) l) -> (forall p, pos_eqb p p = true) ->
  forall (q : quad fnum_R E) vars (f : func E) degree directions s, quad_ok q -> setting q vars s degree -> usable s (length vars) (2 * degree) -> parts_paired (kinds (p_types (q_pos q))) s degree ->
  incl (free_vars (f_sym (q_factor q))) (p_dirs (q_pos q)) -> f_dirs f = p_dirs (q_pos q) -> incl (free_vars (f_sym f)) (p_dirs (q_pos q)) -> add_args (f_sym f) <> [] ->
  (forall t, In t (add_args (f_sym f)) -> parts_drop_nothing eval mul_args free_vars (quad_project fnum_R far E e_mul e_1 add_args mul_args free_vars) q s degree t) ->
  drops_nothing q s degree (eval (f_sym f)) ->
  let form tensorize := varfd_tensorized fnum_R far E e_mul e_1 add_args mul_args free_vars sym_eqb eval cov_factor junk la_eig pos_eqb order enum tensorize q f degree directions s in
  exists v0, form false = Ok v0 /\
    (form true = Throw "ValueError" \/ exists v, form true = Ok v /\ v_mat v = v_mat v0 /\ v_pos v = v_pos v0 /\ v_set v = v_set v0 /\ v_degree v = v_degree v0 /\
       f_dirs (v_factor v) = f_dirs (v_factor v0) /\ forall env, eval (f_sym (v_factor v)) env = eval (f_sym (v_factor v0)) env).
Proof. exact varfd_either. Qed.
Print Assumptions C71_varfd.
Example C71_varfd_example : exists v0, form_ex false = Ok v0.
Proof.
  destruct (C71_varfd r_far rexpr r_eval RMul (RNum 1) r_add_args r_mul_args r_free r_same r_cov_factor r_la_inv r_far 0 r_la_eig (fun _ _ l => rev l) (fun _ l => rev l) (fun _ _ => true) (fun _ => eq_refl) r_ok r_vars_ok numpy_sample diag_eig
    (fun _ _ l => Permutation_sym (Permutation_rev l)) (fun _ l => Permutation_sym (Permutation_rev l)) (fun _ => eq_refl) (quad_23r (RNum 2)) [1; 1] f_ex 1%nat [1; 5]%nat Triangle (quad_23r_ok _) (setting_23r _)) as (v0 & G & _).
  { apply usable_dim4; cbn; lia. } { exact (hermite_paired 2 Triangle 1). } { apply incl_nil_l. } { reflexivity. } { intros x Hx. cbn in Hx |- *. tauto. } { apply r_terms. } { exact f_ex_parts. } { exact f_ex_whole. }
  exists v0. exact G.
Qed.

(** It raises no ValueError if the factor of the quadrature is not a sum, and either the function is not a sum or sympy finds that
    expressions with equal values are equal. *)
Theorem C71_varfd_ok : forall far E (eval : E -> (nat -> R) -> R) e_mul e_1 add_args mul_args free_vars sym_eqb cov_factor la_inv far8 junk la_eig order enum pos_eqb,
  (forall l, far (diag_mat fnum_R l) = false) -> sympy_ok (N := fnum_R) eval e_mul e_1 add_args mul_args free_vars -> sympy_vars e_mul e_1 add_args mul_args free_vars ->
  numpy_ok cov_factor la_inv far8 -> eig_ok la_eig -> (forall i k l, Permutation (order i k l) l) -> (forall i l, Permutation (enum i l) l) -> (forall p, pos_eqb p p = true) ->
  forall (q : quad fnum_R E) vars (f : func E) degree directions s, quad_ok q -> setting q vars s degree -> usable s (length vars) (2 * degree) -> parts_paired (kinds (p_types (q_pos q))) s degree ->
  incl (free_vars (f_sym (q_factor q))) (p_dirs (q_pos q)) -> f_dirs f = p_dirs (q_pos q) -> incl (free_vars (f_sym f)) (p_dirs (q_pos q)) -> add_args (f_sym f) <> [] ->
  (forall t, In t (add_args (f_sym f)) -> parts_drop_nothing eval mul_args free_vars (quad_project fnum_R far E e_mul e_1 add_args mul_args free_vars) q s degree t) ->
  drops_nothing q s degree (eval (f_sym f)) ->
  one_term add_args (f_sym (q_factor q)) -> one_term add_args (f_sym f) \/ (forall a b, (forall env, eval a env = eval b env) -> sym_eqb a b = true) ->
  let form tensorize := varfd_tensorized fnum_R far E e_mul e_1 add_args mul_args free_vars sym_eqb eval cov_factor junk la_eig pos_eqb order enum tensorize q f degree directions s in
  exists v0 v, form false = Ok v0 /\ form true = Ok v /\ v_mat v = v_mat v0 /\ v_pos v = v_pos v0 /\ v_set v = v_set v0 /\ v_degree v = v_degree v0 /\
    f_dirs (v_factor v) = f_dirs (v_factor v0) /\ forall env, eval (f_sym (v_factor v)) env = eval (f_sym (v_factor v0)) env.
Proof. exact varfd_both_ok. Qed.
Print Assumptions C71_varfd_ok.
Example C71_varfd_ok_example : exists v0 v, form_ex false = Ok v0 /\ form_ex true = Ok v /\ v_mat v = v_mat v0.
Proof.
  destruct (C71_varfd_ok r_far rexpr r_eval RMul (RNum 1) r_add_args r_mul_args r_free r_same r_cov_factor r_la_inv r_far 0 r_la_eig (fun _ _ l => rev l) (fun _ l => rev l) (fun _ _ => true) (fun _ => eq_refl) r_ok r_vars_ok numpy_sample diag_eig
    (fun _ _ l => Permutation_sym (Permutation_rev l)) (fun _ l => Permutation_sym (Permutation_rev l)) (fun _ => eq_refl) (quad_23r (RNum 2)) [1; 1] f_ex 1%nat [1; 5]%nat Triangle (quad_23r_ok _) (setting_23r _)) as (v0 & v & G1 & G2 & G3 & _).
  { apply usable_dim4; cbn; lia. } { exact (hermite_paired 2 Triangle 1). } { apply incl_nil_l. } { reflexivity. } { intros x Hx. cbn in Hx |- *. tauto. } { apply r_terms. } { exact f_ex_parts. } { exact f_ex_whole. } { reflexivity. } { right. intros a b. apply r_same_iff. }
  exists v0, v. auto.
Qed.

(** The entries: the quadratures of phi_r times the function times the derivative of phi_c in the physical coordinates. *)
Theorem C71_entries : forall far E (eval : E -> (nat -> R) -> R) e_mul e_1 add_args mul_args free_vars sym_eqb cov_factor la_inv far8 junk la_eig order enum pos_eqb,
  (forall l, far (diag_mat fnum_R l) = false) -> sympy_ok (N := fnum_R) eval e_mul e_1 add_args mul_args free_vars -> sympy_vars e_mul e_1 add_args mul_args free_vars ->
  numpy_ok cov_factor la_inv far8 -> eig_ok la_eig -> (forall i k l, Permutation (order i k l) l) -> (forall i l, Permutation (enum i l) l) -> (forall p, pos_eqb p p = true) ->
  forall (q : quad fnum_R E) vars (f : func E) degree directions ks s, quad_ok q -> setting q vars s degree -> usable s (length vars) (2 * degree) -> parts_paired (kinds (p_types (q_pos q))) s degree ->
  incl (free_vars (f_sym (q_factor q))) (p_dirs (q_pos q)) -> f_dirs f = p_dirs (q_pos q) -> incl (free_vars (f_sym f)) (p_dirs (q_pos q)) -> add_args (f_sym f) <> [] ->
  (forall t, In t (add_args (f_sym f)) -> parts_drop_nothing eval mul_args free_vars (quad_project fnum_R far E e_mul e_1 add_args mul_args free_vars) q s degree t) ->
  one_term add_args (f_sym (q_factor q)) -> one_term add_args (f_sym f) \/ (forall a b, (forall env, eval a env = eval b env) -> sym_eqb a b = true) ->
  coordinates_of (p_dirs (q_pos q)) directions ks ->
  let form tensorize := varfd_tensorized fnum_R far E e_mul e_1 add_args mul_args free_vars sym_eqb eval cov_factor junk la_eig pos_eqb order enum tensorize q f degree directions s in
  exists v, form true = Ok v /\ varf_ok v (length vars) /\ v_pos v = q_pos q /\ v_set v = s /\ (recovered s degree = degree -> v_degree v = degree) /\ (forall m, varf_index v m <-> index_of s (length vars) degree m) /\
    (forall env, eval (f_sym (v_factor v)) env = eval (f_sym (q_factor q)) env) /\
    forall values r c g, grid_values q vars values (eval (f_sym f)) -> index_of s (length vars) degree r -> index_of s (length vars) degree c ->
      deriv_along (length vars) ks (psi (p_mean (q_pos q)) vars (kinds (p_types (q_pos q))) c) g ->
      varf_at v r c = quadrature (q_nodes q) (q_weights q) values (fun y => phi (kinds (p_types (q_pos q))) r y * g (located (p_mean (q_pos q)) vars y)).
Proof. exact varfd_tensorized_entries. Qed.
Print Assumptions C71_entries.
Example C71_entries_example : exists v, form_ex true = Ok v /\ varf_at v [0; 0]%nat [0; 1]%nat = 8 /\ varf_at v [1; 0]%nat [0; 1]%nat = 4.
Proof.
  destruct (C71_entries r_far rexpr r_eval RMul (RNum 1) r_add_args r_mul_args r_free r_same r_cov_factor r_la_inv r_far 0 r_la_eig (fun _ _ l => rev l) (fun _ l => rev l) (fun _ _ => true) (fun _ => eq_refl) r_ok r_vars_ok numpy_sample diag_eig
    (fun _ _ l => Permutation_sym (Permutation_rev l)) (fun _ l => Permutation_sym (Permutation_rev l)) (fun _ => eq_refl) (quad_23r (RNum 2)) [1; 1] f_ex 1%nat [1; 5]%nat [1]%nat Triangle (quad_23r_ok _) (setting_23r _)) as (v & G1 & _ & _ & _ & _ & _ & _ & G2).
  { apply usable_dim4; cbn; lia. } { exact (hermite_paired 2 Triangle 1). } { apply incl_nil_l. } { reflexivity. } { intros x Hx. cbn in Hx |- *. tauto. } { apply r_terms. } { exact f_ex_parts. } { reflexivity. } { right. intros a b. apply r_same_iff. } { reflexivity. }
  exists v. split; [exact G1|]. assert (V : grid_values (quad_23r (RNum 2)) [1; 1] [3; 5; 9; 15] (r_eval (f_sym f_ex))) by exact f_ex_values.
  split; (rewrite (G2 [3; 5; 9; 15] _ _ (fun x => 1) V); [|split; [reflexivity|cbn; lia]|split; [reflexivity|cbn; lia]|exact psi_01]);
    unfold quadrature, grid, at_pos, phi, basis, rsum, rprod; cbn -[hermite]; rewrite ?hermite_0, ?hermite_1; field.
Qed.

(** If the factor is a sum it raises ValueError. *)
Theorem C71_sum_factor : forall far E (eval : E -> (nat -> R) -> R) e_mul e_1 add_args mul_args free_vars sym_eqb cov_factor junk la_eig order enum pos_eqb,
  sympy_ok (N := fnum_R) eval e_mul e_1 add_args mul_args free_vars -> sympy_vars e_mul e_1 add_args mul_args free_vars ->
  forall (q : quad fnum_R E) (f : func E) degree directions s, quad_ok q -> NoDup (f_dirs f) -> incl (free_vars (f_sym f)) (f_dirs f) -> add_args (f_sym f) <> [] -> ~ one_term add_args (f_sym (q_factor q)) ->
  varfd_tensorized fnum_R far E e_mul e_1 add_args mul_args free_vars sym_eqb eval cov_factor junk la_eig pos_eqb order enum true q f degree directions s = Throw "ValueError".
Proof. exact varfd_sum_factor. Qed.
Print Assumptions C71_sum_factor.
Example C71_sum_factor_example : varfd_tensorized fnum_R r_far rexpr RMul (RNum 1) r_add_args r_mul_args r_free r_same r_eval r_cov_factor 0 r_la_eig (fun _ _ => true) (fun _ _ l => rev l) (fun _ l => rev l) true
    (quad_23r (RAdd (RVar 0) (RNum 1))) f_ex 1 [1; 5]%nat Triangle = Throw "ValueError".
Proof.
  apply C71_sum_factor; [exact r_ok|exact r_vars_ok|apply quad_23r_ok|repeat constructor; cbn; intuition discriminate|intros x Hx; cbn in Hx |- *; tauto|apply r_terms|].
  intros H. discriminate H.
Qed.

(** C72: with the setting tensorize (or without it) Quad.discretize_op of a differential operator gives the same matrix, position, index set, degree and
    factor, whatever the orders in which Python enumerates the sets of groups of variables, provided that no coefficient of a transform falls under
    the threshold of Quad.varf.  Instead it may raise ValueError. *)
Theorem C72_discretize_op : forall far E (eval : E -> (nat -> R) -> R) e_add e_mul e_0 e_1 e_mono simplify is0 add_args mul_args free_vars sym_eqb cov_factor la_inv far8 junk la_eig op_map pos_eqb order enum,
  (forall l, far (diag_mat fnum_R l) = false) -> sympy_ok (N := fnum_R) eval e_mul e_1 add_args mul_args free_vars -> sympy_vars e_mul e_1 add_args mul_args free_vars -> (forall e, add_args e <> []) ->
  sympy_lin (N := num_R) eval e_add e_mul e_0 e_mono simplify is0 -> numpy_ok cov_factor la_inv far8 -> eig_ok la_eig ->
  (forall j i k l, Permutation (order j i k l) l) -> (forall j i l, Permutation (enum j i l) l) -> (forall p, pos_eqb p p = true) -> (forall e, sym_eqb e e = true) ->
  forall (q : quad fnum_R E) vars degree s (op op' : oper E), quad_ok q -> setting q vars s degree -> usable s (length vars) (2 * degree) -> parts_paired (kinds (p_types (q_pos q))) s degree ->
  incl (free_vars (f_sym (q_factor q))) (p_dirs (q_pos q)) -> sympy_lin_vars e_add e_mul e_0 e_1 e_mono simplify free_vars (p_dirs (q_pos q)) ->
  op' = (if sym_eqb (f_sym (q_factor q)) e_1 then op else op_map op (q_factor q)) ->
  (forall c n, In (c, n) op' -> length n = length vars /\ (OpSpec.order n <= 5)%nat /\ incl (free_vars c) (p_dirs (q_pos q))) ->
  (forall l e, op_split E e_add e_mul e_0 e_mono simplify is0 (length vars) op' = Ok l -> (exists n, In (n, e) l) \/ l = [] /\ e = e_0 ->
    drops_nothing q s degree (eval e) /\ forall t, In t (add_args e) -> parts_drop_nothing eval mul_args free_vars (quad_project fnum_R far E e_mul e_1 add_args mul_args free_vars) q s degree t) ->
  let form tensorize := discretize_op_tensorized fnum_R far E e_add e_mul e_0 e_1 e_mono simplify is0 add_args mul_args free_vars sym_eqb eval cov_factor junk la_eig op_map pos_eqb order enum tensorize q op degree s in
  exists v0, form false = Ok v0 /\
    (form true = Throw "ValueError" \/ exists v, form true = Ok v /\ v_mat v = v_mat v0 /\ v_pos v = v_pos v0 /\ v_set v = v_set v0 /\ v_degree v = v_degree v0 /\
       f_dirs (v_factor v) = f_dirs (v_factor v0) /\ forall env, eval (f_sym (v_factor v)) env = eval (f_sym (v_factor v0)) env).
Proof. exact op_either. Qed.
Print Assumptions C72_discretize_op.
Example C72_discretize_op_example : exists v0, disc_ex false = Ok v0.
Proof.
  destruct (C72_discretize_op r_far rexpr r_eval RAdd RMul (RNum 0) (RNum 1) (r_mono [0; 1]%nat) (fun e => e) r_is0 r_add_args r_mul_args r_free r_same r_cov_factor r_la_inv r_far 0 r_la_eig (fun op _ => op) (fun _ _ => true) (fun _ _ _ l => rev l) (fun _ _ l => rev l)
    (fun _ => eq_refl) r_ok r_vars_ok r_terms (r_lin _) numpy_sample diag_eig (fun _ _ _ l => Permutation_sym (Permutation_rev l)) (fun _ _ l => Permutation_sym (Permutation_rev l)) (fun _ => eq_refl) (fun e => proj1 (r_same_iff e e) (fun _ => eq_refl)) (quad_23r (RNum 2)) [1; 1] 1%nat Triangle op_ex op_ex (quad_23r_ok _) (setting_23r _)) as (v0 & G & _).
  { apply usable_dim4; cbn; lia. } { exact (hermite_paired 2 Triangle 1). } { apply incl_nil_l. } { apply r_lin_vars. } { destruct (r_same _ _); reflexivity. } { exact op_ex_ok. } { exact op_ex_split. }
  exists v0. exact G.
Qed.

(** It raises no ValueError if the factor of the quadrature is not a sum and sympy finds that expressions with equal values are equal. *)
Theorem C72_discretize_op_ok : forall far E (eval : E -> (nat -> R) -> R) e_add e_mul e_0 e_1 e_mono simplify is0 add_args mul_args free_vars sym_eqb cov_factor la_inv far8 junk la_eig op_map pos_eqb order enum,
  (forall l, far (diag_mat fnum_R l) = false) -> sympy_ok (N := fnum_R) eval e_mul e_1 add_args mul_args free_vars -> sympy_vars e_mul e_1 add_args mul_args free_vars -> (forall e, add_args e <> []) ->
  sympy_lin (N := num_R) eval e_add e_mul e_0 e_mono simplify is0 -> numpy_ok cov_factor la_inv far8 -> eig_ok la_eig ->
  (forall j i k l, Permutation (order j i k l) l) -> (forall j i l, Permutation (enum j i l) l) -> (forall p, pos_eqb p p = true) -> (forall a b, (forall env, eval a env = eval b env) -> sym_eqb a b = true) ->
  forall (q : quad fnum_R E) vars degree s (op op' : oper E), quad_ok q -> setting q vars s degree -> usable s (length vars) (2 * degree) -> parts_paired (kinds (p_types (q_pos q))) s degree ->
  incl (free_vars (f_sym (q_factor q))) (p_dirs (q_pos q)) -> sympy_lin_vars e_add e_mul e_0 e_1 e_mono simplify free_vars (p_dirs (q_pos q)) ->
  op' = (if sym_eqb (f_sym (q_factor q)) e_1 then op else op_map op (q_factor q)) ->
  (forall c n, In (c, n) op' -> length n = length vars /\ (OpSpec.order n <= 5)%nat /\ incl (free_vars c) (p_dirs (q_pos q))) ->
  (forall l e, op_split E e_add e_mul e_0 e_mono simplify is0 (length vars) op' = Ok l -> (exists n, In (n, e) l) \/ l = [] /\ e = e_0 ->
    drops_nothing q s degree (eval e) /\ forall t, In t (add_args e) -> parts_drop_nothing eval mul_args free_vars (quad_project fnum_R far E e_mul e_1 add_args mul_args free_vars) q s degree t) ->
  one_term add_args (f_sym (q_factor q)) ->
  let form tensorize := discretize_op_tensorized fnum_R far E e_add e_mul e_0 e_1 e_mono simplify is0 add_args mul_args free_vars sym_eqb eval cov_factor junk la_eig op_map pos_eqb order enum tensorize q op degree s in
  exists v0 v, form false = Ok v0 /\ form true = Ok v /\ v_mat v = v_mat v0 /\ v_pos v = v_pos v0 /\ v_set v = v_set v0 /\ v_degree v = v_degree v0 /\
    f_dirs (v_factor v) = f_dirs (v_factor v0) /\ forall env, eval (f_sym (v_factor v)) env = eval (f_sym (v_factor v0)) env.
Proof. exact op_both_ok. Qed.
Print Assumptions C72_discretize_op_ok.
Example C72_discretize_op_ok_example : exists v0 v, disc_ex false = Ok v0 /\ disc_ex true = Ok v /\ v_mat v = v_mat v0.
Proof.
  destruct (C72_discretize_op_ok r_far rexpr r_eval RAdd RMul (RNum 0) (RNum 1) (r_mono [0; 1]%nat) (fun e => e) r_is0 r_add_args r_mul_args r_free r_same r_cov_factor r_la_inv r_far 0 r_la_eig (fun op _ => op) (fun _ _ => true) (fun _ _ _ l => rev l) (fun _ _ l => rev l)
    (fun _ => eq_refl) r_ok r_vars_ok r_terms (r_lin _) numpy_sample diag_eig (fun _ _ _ l => Permutation_sym (Permutation_rev l)) (fun _ _ l => Permutation_sym (Permutation_rev l)) (fun _ => eq_refl) (fun a b => proj1 (r_same_iff a b)) (quad_23r (RNum 2)) [1; 1] 1%nat Triangle op_ex op_ex (quad_23r_ok _) (setting_23r _)) as (v0 & v & G1 & G2 & G3 & _).
  { apply usable_dim4; cbn; lia. } { exact (hermite_paired 2 Triangle 1). } { apply incl_nil_l. } { apply r_lin_vars. } { destruct (r_same _ _); reflexivity. } { exact op_ex_ok. } { exact op_ex_split. } { reflexivity. }
  exists v0, v. auto.
Qed.

(** The entries, with the factor w of the quadrature: the quadratures of phi_r times L(w psi_c)/w, where psi_c is the basis function number c in
    the physical coordinates. *)
Theorem C72_entries : forall far E (eval : E -> (nat -> R) -> R) e_add e_mul e_0 e_1 e_mono simplify is0 add_args mul_args free_vars sym_eqb cov_factor la_inv far8 junk la_eig op_map pos_eqb order enum,
  (forall l, far (diag_mat fnum_R l) = false) -> sympy_ok (N := fnum_R) eval e_mul e_1 add_args mul_args free_vars -> sympy_vars e_mul e_1 add_args mul_args free_vars -> (forall e, add_args e <> []) ->
  sympy_lin (N := num_R) eval e_add e_mul e_0 e_mono simplify is0 -> numpy_ok cov_factor la_inv far8 -> eig_ok la_eig ->
  (forall j i k l, Permutation (order j i k l) l) -> (forall j i l, Permutation (enum j i l) l) -> (forall p, pos_eqb p p = true) -> (forall a b, (forall env, eval a env = eval b env) <-> sym_eqb a b = true) ->
  forall (q : quad fnum_R E) vars degree s env (op op' : oper E) (D : list nat -> list nat -> list R -> R), quad_ok q -> setting q vars s degree -> usable s (length vars) (2 * degree) -> parts_paired (kinds (p_types (q_pos q))) s degree ->
  incl (free_vars (f_sym (q_factor q))) (p_dirs (q_pos q)) -> sympy_lin_vars e_add e_mul e_0 e_1 e_mono simplify free_vars (p_dirs (q_pos q)) -> assigns (p_dirs (q_pos q)) env ->
  op' = (if sym_eqb (f_sym (q_factor q)) e_1 then op else op_map op (q_factor q)) ->
  (forall c n, In (c, n) op -> length n = length vars /\ (OpSpec.order n <= 5)%nat /\ incl (free_vars c) (p_dirs (q_pos q))) ->
  maps eval free_vars (p_dirs (q_pos q)) env op (q_factor q) (op_map op (q_factor q)) ->
  (forall p, In p (grid (q_nodes q)) -> eval (f_sym (q_factor q)) (env (grid_point q vars p)) <> 0) ->
  (forall l e, op_split E e_add e_mul e_0 e_mono simplify is0 (length vars) op' = Ok l -> (exists n, In (n, e) l) \/ l = [] /\ e = e_0 ->
    forall t, In t (add_args e) -> parts_drop_nothing eval mul_args free_vars (quad_project fnum_R far E e_mul e_1 add_args mul_args free_vars) q s degree t) ->
  (forall n, length n = length vars -> drops_nothing q s degree (coefficient (N := num_R) eval op' n)) ->
  one_term add_args (f_sym (q_factor q)) ->
  (forall c, index_of s (length vars) degree c -> derivatives (length vars) (fun x => eval (f_sym (q_factor q)) (env x) * psi (p_mean (q_pos q)) vars (kinds (p_types (q_pos q))) c x) (D c)) ->
  let form tensorize := discretize_op_tensorized fnum_R far E e_add e_mul e_0 e_1 e_mono simplify is0 add_args mul_args free_vars sym_eqb eval cov_factor junk la_eig op_map pos_eqb order enum tensorize q op degree s in
  exists v, form true = Ok v /\ varf_ok v (length vars) /\ v_pos v = q_pos q /\ v_set v = s /\ (forall env, eval (f_sym (v_factor v)) env = eval (f_sym (q_factor q)) env) /\ (forall m, varf_index v m <-> index_of s (length vars) degree m) /\
    forall r c, varf_index v r -> varf_index v c ->
      varf_at v r c = integral (q_nodes q) (q_weights q) (fun y => let x := located (p_mean (q_pos q)) vars y in
        phi (kinds (p_types (q_pos q))) r y * (op_value (N := num_R) eval op (fun n => D c n x) (env x) / eval (f_sym (q_factor q)) (env x))).
Proof. exact op_tensorized_entries. Qed.
Print Assumptions C72_entries.
Example C72_entries_example : exists v, disc_ex true = Ok v /\ varf_at v [0; 0]%nat [0; 1]%nat = 6 /\ varf_at v [1; 0]%nat [0; 1]%nat = 3.
Proof.
  destruct (C72_entries r_far rexpr r_eval RAdd RMul (RNum 0) (RNum 1) (r_mono [0; 1]%nat) (fun e => e) r_is0 r_add_args r_mul_args r_free r_same r_cov_factor r_la_inv r_far 0 r_la_eig (fun op _ => op) (fun _ _ => true) (fun _ _ _ l => rev l) (fun _ _ l => rev l)
    (fun _ => eq_refl) r_ok r_vars_ok r_terms (r_lin _) numpy_sample diag_eig (fun _ _ _ l => Permutation_sym (Permutation_rev l)) (fun _ _ l => Permutation_sym (Permutation_rev l)) (fun _ => eq_refl) r_same_iff (quad_23r (RNum 2)) [1; 1] 1%nat Triangle (fun x d => nth d x 0) op_ex op_ex D_ex (quad_23r_ok _) (setting_23r _)) as (v & G1 & _ & _ & _ & _ & G2 & G3).
  { apply usable_dim4; cbn; lia. } { exact (hermite_paired 2 Triangle 1). } { apply incl_nil_l. } { apply r_lin_vars. } { intros x Hx [|[|k]] d Hd; cbn in Hd; try (injection Hd as <-); destruct x as [|a [|b x]]; try discriminate Hx; try reflexivity; destruct k; discriminate Hd. } { destruct (r_same _ _); reflexivity. } { exact op_ex_ok. }
  { apply (const_maps [0; 1]%nat _ 2 op_ex ltac:(lra) op_ex_ok [1; 1] eq_refl). } { intros p _. cbn. lra. } { intros l e H1 H2. exact (proj2 (op_ex_split l e H1 H2)). } { exact op_ex_coefficients. } { reflexivity. } { exact D_ex_derivatives. }
  exists v. split; [exact G1|]. assert (I : forall m, (m = [0; 0] \/ m = [1; 0] \/ m = [0; 1])%nat -> varf_index v m) by (intros m [->|[->| ->]]; apply G2; split; [reflexivity|cbn; lia|reflexivity|cbn; lia|reflexivity|cbn; lia]).
  split; (rewrite G3 by (apply I; auto)); unfold integral, quadrature, op_value, nsum, D_ex, psi, standardised, located, grid, at_pos, phi, basis, rsum, rprod; cbn -[hermite sqrt]; rewrite ?hermite_0, ?hermite_1, ?sqrt_1; field.
Qed.
