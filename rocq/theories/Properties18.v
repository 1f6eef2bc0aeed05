(** Properties C69, C70: products of variational forms, and the variational form of a function group of variables by group of variables. *)
From Coq Require Import String List Bool Arith ZArith Reals Lia Lra Permutation.
From Verif Require Import Base IndexModel Spec Num Fnum LinModel LinSpec LinBase MatBase Degree Facts2 Facts6 Facts7 CalcModel CalcSpec PyBase PosModel PosSpec PosFacts SeriesModel SeriesSpec SplitModel SplitSpec
  PartModel PartSpec PyQuadModel PyQuadSpec PyQuadFacts2 OpQuadSpec TensQuadModel TensQuadSpec TensQuadFacts4 TensVarfModel TensVarfSpec TensVarfFacts3.
Import ListNotations.
Local Open Scope R_scope.

(** C69: Varf.tensorize of variational forms in disjoint groups of directions, with the same index set and degree, gives a form in all their directions:
    each entry is the product of the entries of the forms at the parts of the multi-indices in their directions, the factor is the product of
    the factors, and each direction keeps its mean, variance and type. *)
Theorem C69_tensorize : forall (N : num) (L : num_laws N) far E (eval : E -> (nat -> N) -> N) e_mul e_1 free_vars,
  (forall l, far (diag_mat N l) = false) -> (forall a b env, eval (e_mul a b) env = nmul (eval a env) (eval b env)) -> (forall env, eval e_1 env = n1) ->
  (forall a b x, In x (free_vars (e_mul a b)) -> In x (free_vars a) \/ In x (free_vars b)) -> free_vars e_1 = [] ->
  forall s degree groups (vs : list (SeriesModel.varf N E)) d, Forall2 (fun g v => form_on free_vars v g) groups vs -> Forall (fun v => v_set v = s /\ v_degree v = degree) vs -> vs <> [] ->
  increasing d -> Permutation d (concat groups) -> usable s (length d) degree ->
  exists r, varf_tensorize N far E e_mul e_1 free_vars vs = Ok r /\ form_on free_vars r d /\ v_set r = s /\ (recovered s degree = degree -> v_degree r = degree) /\ (forall m, varf_index r m <-> index_of s (length d) degree m) /\
    (forall env, eval (f_sym (v_factor r)) env = nprod (map (fun v => eval (f_sym (v_factor v)) env) vs)) /\
    (forall a x m v t, In a (map v_pos vs) -> records a x m v t -> records (v_pos r) x m v t) /\
    forall i j, index_of s (length d) degree i -> index_of s (length d) degree j -> varf_at r i j = entries_product d groups vs i j.
Proof. exact tensorize_varfs. Qed.
Print Assumptions C69_tensorize.
Example C69_tensorize_example : exists r, varf_tensorize num_Z (fun _ => false) nat Nat.mul 1%nat (fun _ => []) [form_1; form_0] = Ok r /\ varf_at r [1; 0]%nat [0; 0]%nat = 15%Z /\ varf_at r [0; 1]%nat [1; 0]%nat = 14%Z.
Proof.
  destruct (C69_tensorize num_Z num_Z_laws (fun _ => false) nat (fun n _ => Z.of_nat n) Nat.mul 1%nat (fun _ => []) (fun _ => eq_refl) (fun a b _ => Nat2Z.inj_mul a b) (fun _ => eq_refl) (fun _ _ _ G => or_introl G) eq_refl
    Triangle 1%nat [[1]; [0]]%nat [form_1; form_0] [0; 1]%nat) as (r & A1 & _ & _ & _ & _ & _ & _ & A2).
  { constructor; [exact form_1_on|]. constructor; [exact form_0_on|constructor]. } { repeat constructor. } { discriminate. } { repeat constructor. } { apply perm_swap. } { apply usable_dim4; cbn; lia. }
  exists r. split; [exact A1|]. rewrite !A2 by (split; [reflexivity|cbn; lia]). split; reflexivity.
Qed.

(** The product of two variational forms (v * w). *)
Theorem C69_mul : forall (N : num) (L : num_laws N) far E (eval : E -> (nat -> N) -> N) e_mul e_1 free_vars,
  (forall l, far (diag_mat N l) = false) -> (forall a b env, eval (e_mul a b) env = nmul (eval a env) (eval b env)) -> (forall env, eval e_1 env = n1) ->
  (forall a b x, In x (free_vars (e_mul a b)) -> In x (free_vars a) \/ In x (free_vars b)) -> free_vars e_1 = [] ->
  forall s degree g h (v w : SeriesModel.varf N E) d, form_on free_vars v g -> form_on free_vars w h -> v_set v = s -> v_degree v = degree -> v_set w = s -> v_degree w = degree ->
  increasing d -> Permutation d (g ++ h) -> usable s (length d) degree ->
  exists r, varf_mul N far E e_mul e_1 free_vars v w = Ok r /\ form_on free_vars r d /\ v_set r = s /\
    forall i j, index_of s (length d) degree i -> index_of s (length d) degree j ->
      varf_at r i j = nmul (varf_at v (reindex d g i) (reindex d g j)) (varf_at w (reindex d h i) (reindex d h j)).
Proof. exact mul_varfs. Qed.
Print Assumptions C69_mul.
Example C69_mul_example : exists r, varf_mul num_Z (fun _ => false) nat Nat.mul 1%nat (fun _ => []) form_1 form_0 = Ok r /\ varf_at r [1; 0]%nat [0; 0]%nat = 15%Z.
Proof.
  destruct (C69_mul num_Z num_Z_laws (fun _ => false) nat (fun n _ => Z.of_nat n) Nat.mul 1%nat (fun _ => []) (fun _ => eq_refl) (fun a b _ => Nat2Z.inj_mul a b) (fun _ => eq_refl) (fun _ _ _ G => or_introl G) eq_refl
    Triangle 1%nat [1]%nat [0]%nat form_1 form_0 [0; 1]%nat form_1_on form_0_on eq_refl eq_refl eq_refl eq_refl) as (r & A1 & _ & _ & A2).
  { repeat constructor. } { apply perm_swap. } { apply usable_dim4; cbn; lia. }
  exists r. split; [exact A1|]. rewrite A2 by (split; [reflexivity|cbn; lia]). reflexivity.
Qed.

(** The product of two forms of one degree is not always a form of this degree: forms that share a direction are accepted too. *)
Theorem C69_shared_refuted : ~ forall (N : num) (L : num_laws N) far E (eval : E -> (nat -> N) -> N) e_mul e_1 free_vars,
  (forall l, far (diag_mat N l) = false) -> (forall a b env, eval (e_mul a b) env = nmul (eval a env) (eval b env)) -> (forall env, eval e_1 env = n1) ->
  (forall a b x, In x (free_vars (e_mul a b)) -> In x (free_vars a) \/ In x (free_vars b)) -> free_vars e_1 = [] ->
  forall s degree g h (v w r : SeriesModel.varf N E), form_on free_vars v g -> form_on free_vars w h -> v_set v = s -> v_degree v = degree -> v_set w = s -> v_degree w = degree ->
  varf_mul N far E e_mul e_1 free_vars v w = Ok r -> v_degree r = degree.
Proof. exact shared_refuted. Qed.
Print Assumptions C69_shared_refuted.
Example C69_shared_example : exists r, varf_mul num_Z (fun _ => false) nat Nat.mul 1%nat (fun _ => []) form_01 form_0 = Ok r /\ v_degree r = 3%nat /\ p_dirs (v_pos r) = [1]%nat /\ length (v_mat r) = 4%nat.
Proof.
  pose proof shared_run as G. destruct (varf_mul num_Z (fun _ => false) nat Nat.mul 1%nat (fun _ => []) form_01 form_0) as [r| | | | ]; try discriminate G. injection G as G1 G2 G3. exists r. auto.
Qed.

(** C70: with the setting tensorize (or without it) Quad.varf of a function gives the same matrix, position, index set, degree and factor, whatever
    the orders in which Python enumerates the sets of groups of variables, provided that no coefficient of a transform falls under the threshold
    of Quad.varf.  Instead it may raise ValueError. *)
Theorem C70_varf : forall far E (eval : E -> (nat -> R) -> R) e_mul e_1 add_args mul_args free_vars sym_eqb cov_factor la_inv far8 junk order enum pos_eqb,
  (forall l, far (diag_mat fnum_R l) = false) -> sympy_ok (N := fnum_R) eval e_mul e_1 add_args mul_args free_vars -> sympy_vars e_mul e_1 add_args mul_args free_vars ->
  numpy_ok cov_factor la_inv far8 -> (forall i k l, Permutation (order i k l) l) -> (forall i l, Permutation (enum i l) l) -> (forall p, pos_eqb p p = true) ->
  forall (q : quad fnum_R E) vars (f : func E) degree s, quad_ok q -> setting q vars s degree -> usable s (length vars) (2 * degree) -> incl (free_vars (f_sym (q_factor q))) (p_dirs (q_pos q)) ->
  f_dirs f = p_dirs (q_pos q) -> incl (free_vars (f_sym f)) (p_dirs (q_pos q)) -> add_args (f_sym f) <> [] ->
  (forall t, In t (add_args (f_sym f)) -> parts_drop_nothing eval mul_args free_vars (quad_project fnum_R far E e_mul e_1 add_args mul_args free_vars) q s degree t) ->
  drops_nothing q s degree (eval (f_sym f)) ->
  let form tensorize := varf_tensorized fnum_R far E e_mul e_1 add_args mul_args free_vars sym_eqb eval order enum cov_factor junk pos_eqb tensorize q f degree s in
  exists v0, form false = Ok v0 /\
    (form true = Throw "ValueError" \/ exists v, form true = Ok v /\ v_mat v = v_mat v0 /\ v_pos v = v_pos v0 /\ v_set v = v_set v0 /\ v_degree v = v_degree v0 /\
       f_dirs (v_factor v) = f_dirs (v_factor v0) /\ forall env, eval (f_sym (v_factor v)) env = eval (f_sym (v_factor v0)) env).
Proof. exact varf_either. Qed.
Print Assumptions C70_varf.
(** The function x y, written as a sum of two terms, on the grid {1, 3} x {2, 4}, with a constant factor. *)
Example C70_varf_example : exists v0, varf_tensorized fnum_R r_far mono m_mul m_1 m_add_args m_mul_args m_vars m_eqb m_eval (fun _ _ l => rev l) (fun _ l => rev l) r_cov_factor 0 (fun _ _ => true) false (quad_23 (Mono false 2 [])) (Fn (Mono true 1 [0; 1]%nat) [0; 1]%nat) 1 Triangle = Ok v0.
Proof.
  destruct (C70_varf r_far mono m_eval m_mul m_1 m_add_args m_mul_args m_vars m_eqb r_cov_factor r_la_inv r_far 0 (fun _ _ l => rev l) (fun _ l => rev l) (fun _ _ => true) (fun _ => eq_refl) m_ok m_vars_ok numpy_sample
    (fun _ _ l => Permutation_sym (Permutation_rev l)) (fun _ l => Permutation_sym (Permutation_rev l)) (fun _ => eq_refl) (quad_23 (Mono false 2 [])) [1; 1] (Fn (Mono true 1 [0; 1]%nat) [0; 1]%nat) 1%nat Triangle (quad_23_ok _) (setting_23 _)) as (v0 & G & _).
  { apply usable_dim4; cbn; lia. } { apply incl_nil_l. } { reflexivity. } { apply incl_refl. } { unfold m_add_args; cbn; discriminate. } { intros t [<-|[<-|[]]]; apply parts_23. } { apply whole_23. }
  exists v0. exact G.
Qed.

(** It raises no ValueError if the factor of the quadrature is not a sum, and either the function is not a sum or sympy finds that
    expressions with equal values are equal. *)
Theorem C70_varf_ok : forall far E (eval : E -> (nat -> R) -> R) e_mul e_1 add_args mul_args free_vars sym_eqb cov_factor la_inv far8 junk order enum pos_eqb,
  (forall l, far (diag_mat fnum_R l) = false) -> sympy_ok (N := fnum_R) eval e_mul e_1 add_args mul_args free_vars -> sympy_vars e_mul e_1 add_args mul_args free_vars ->
  numpy_ok cov_factor la_inv far8 -> (forall i k l, Permutation (order i k l) l) -> (forall i l, Permutation (enum i l) l) -> (forall p, pos_eqb p p = true) ->
  forall (q : quad fnum_R E) vars (f : func E) degree s, quad_ok q -> setting q vars s degree -> usable s (length vars) (2 * degree) -> incl (free_vars (f_sym (q_factor q))) (p_dirs (q_pos q)) ->
  f_dirs f = p_dirs (q_pos q) -> incl (free_vars (f_sym f)) (p_dirs (q_pos q)) -> add_args (f_sym f) <> [] ->
  (forall t, In t (add_args (f_sym f)) -> parts_drop_nothing eval mul_args free_vars (quad_project fnum_R far E e_mul e_1 add_args mul_args free_vars) q s degree t) ->
  drops_nothing q s degree (eval (f_sym f)) ->
  one_term add_args (f_sym (q_factor q)) -> one_term add_args (f_sym f) \/ (forall a b, (forall env, eval a env = eval b env) -> sym_eqb a b = true) ->
  let form tensorize := varf_tensorized fnum_R far E e_mul e_1 add_args mul_args free_vars sym_eqb eval order enum cov_factor junk pos_eqb tensorize q f degree s in
  exists v0 v, form false = Ok v0 /\ form true = Ok v /\ v_mat v = v_mat v0 /\ v_pos v = v_pos v0 /\ v_set v = v_set v0 /\ v_degree v = v_degree v0 /\
    f_dirs (v_factor v) = f_dirs (v_factor v0) /\ forall env, eval (f_sym (v_factor v)) env = eval (f_sym (v_factor v0)) env.
Proof. exact varf_both_ok. Qed.
Print Assumptions C70_varf_ok.
Example C70_varf_ok_example : exists v0 v, varf_tensorized fnum_R r_far mono m_mul m_1 m_add_args m_mul_args m_vars m_eqb m_eval (fun _ _ l => rev l) (fun _ l => rev l) r_cov_factor 0 (fun _ _ => true) false (quad_23 (Mono false 2 [])) (Fn (Mono true 1 [0; 1]%nat) [0; 1]%nat) 1 Triangle = Ok v0 /\
  varf_tensorized fnum_R r_far mono m_mul m_1 m_add_args m_mul_args m_vars m_eqb m_eval (fun _ _ l => rev l) (fun _ l => rev l) r_cov_factor 0 (fun _ _ => true) true (quad_23 (Mono false 2 [])) (Fn (Mono true 1 [0; 1]%nat) [0; 1]%nat) 1 Triangle = Ok v /\ v_mat v = v_mat v0.
Proof.
  destruct (C70_varf_ok r_far mono m_eval m_mul m_1 m_add_args m_mul_args m_vars m_eqb r_cov_factor r_la_inv r_far 0 (fun _ _ l => rev l) (fun _ l => rev l) (fun _ _ => true) (fun _ => eq_refl) m_ok m_vars_ok numpy_sample
    (fun _ _ l => Permutation_sym (Permutation_rev l)) (fun _ l => Permutation_sym (Permutation_rev l)) (fun _ => eq_refl) (quad_23 (Mono false 2 [])) [1; 1] (Fn (Mono true 1 [0; 1]%nat) [0; 1]%nat) 1%nat Triangle (quad_23_ok _) (setting_23 _)) as (v0 & v & G1 & G2 & G3 & _).
  { apply usable_dim4; cbn; lia. } { apply incl_nil_l. } { reflexivity. } { apply incl_refl. } { unfold m_add_args; cbn; discriminate. } { intros t [<-|[<-|[]]]; apply parts_23. } { apply whole_23. } { reflexivity. } { right. exact m_eqb_complete. }
  exists v0, v. auto.
Qed.

(** The entries of the form: the discrete Galerkin matrix of the function, if no coefficient of the transform of a part falls under the threshold,
    whatever the size of the constant coefficients of the terms of the function. *)
Theorem C70_entries : forall far E (eval : E -> (nat -> R) -> R) e_mul e_1 add_args mul_args free_vars sym_eqb cov_factor la_inv far8 junk order enum pos_eqb,
  (forall l, far (diag_mat fnum_R l) = false) -> sympy_ok (N := fnum_R) eval e_mul e_1 add_args mul_args free_vars -> sympy_vars e_mul e_1 add_args mul_args free_vars ->
  numpy_ok cov_factor la_inv far8 -> (forall i k l, Permutation (order i k l) l) -> (forall i l, Permutation (enum i l) l) -> (forall p, pos_eqb p p = true) ->
  forall (q : quad fnum_R E) vars (f : func E) degree s, quad_ok q -> setting q vars s degree -> usable s (length vars) (2 * degree) -> incl (free_vars (f_sym (q_factor q))) (p_dirs (q_pos q)) ->
  f_dirs f = p_dirs (q_pos q) -> incl (free_vars (f_sym f)) (p_dirs (q_pos q)) -> add_args (f_sym f) <> [] ->
  (forall t, In t (add_args (f_sym f)) -> parts_drop_nothing eval mul_args free_vars (quad_project fnum_R far E e_mul e_1 add_args mul_args free_vars) q s degree t) ->
  one_term add_args (f_sym (q_factor q)) -> one_term add_args (f_sym f) \/ (forall a b, (forall env, eval a env = eval b env) -> sym_eqb a b = true) ->
  let form tensorize := varf_tensorized fnum_R far E e_mul e_1 add_args mul_args free_vars sym_eqb eval order enum cov_factor junk pos_eqb tensorize q f degree s in
  exists v, form true = Ok v /\ varf_ok v (length vars) /\ v_pos v = q_pos q /\ v_set v = s /\ (recovered s degree = degree -> v_degree v = degree) /\ (forall m, varf_index v m <-> index_of s (length vars) degree m) /\
    (forall env, eval (f_sym (v_factor v)) env = eval (f_sym (q_factor q)) env) /\
    forall values r c, grid_values q vars values (eval (f_sym f)) -> index_of s (length vars) degree r -> index_of s (length vars) degree c ->
      varf_at v r c = galerkin (q_nodes q) (q_weights q) (kinds (p_types (q_pos q))) values r c.
Proof. exact varf_tensorized_entries. Qed.
Print Assumptions C70_entries.
Example C70_entries_example : exists v, varf_tensorized fnum_R r_far mono m_mul m_1 m_add_args m_mul_args m_vars m_eqb m_eval (fun _ _ l => rev l) (fun _ l => rev l) r_cov_factor 0 (fun _ _ => true) true (quad_23 (Mono false 2 [])) (Fn (Mono false (/ 10 ^ 13) [0; 1]%nat) [0; 1]%nat) 1 Triangle = Ok v /\ v_set v = Triangle.
Proof.
  destruct (C70_entries r_far mono m_eval m_mul m_1 m_add_args m_mul_args m_vars m_eqb r_cov_factor r_la_inv r_far 0 (fun _ _ l => rev l) (fun _ l => rev l) (fun _ _ => true) (fun _ => eq_refl) m_ok m_vars_ok numpy_sample
    (fun _ _ l => Permutation_sym (Permutation_rev l)) (fun _ l => Permutation_sym (Permutation_rev l)) (fun _ => eq_refl) (quad_23 (Mono false 2 [])) [1; 1] (Fn (Mono false (/ 10 ^ 13) [0; 1]%nat) [0; 1]%nat) 1%nat Triangle (quad_23_ok _) (setting_23 _)) as (v & G1 & _ & _ & G2 & _).
  { apply usable_dim4; cbn; lia. } { apply incl_nil_l. } { reflexivity. } { apply incl_refl. } { unfold m_add_args; cbn; discriminate. } { intros t [<-|[]]; apply parts_23. } { reflexivity. } { left; reflexivity. }
  exists v. auto.
Qed.

(** It raises ValueError for every function if the factor of the quadrature is a sum. *)
Theorem C70_sum_factor : forall far E (eval : E -> (nat -> R) -> R) e_mul e_1 add_args mul_args free_vars sym_eqb cov_factor junk order enum pos_eqb,
  sympy_ok (N := fnum_R) eval e_mul e_1 add_args mul_args free_vars -> sympy_vars e_mul e_1 add_args mul_args free_vars ->
  forall (q : quad fnum_R E) (f : func E) degree s, quad_ok q -> NoDup (f_dirs f) -> incl (free_vars (f_sym f)) (f_dirs f) -> add_args (f_sym f) <> [] ->
  length (add_args (f_sym (q_factor q))) <> 1%nat ->
  varf_tensorized fnum_R far E e_mul e_1 add_args mul_args free_vars sym_eqb eval order enum cov_factor junk pos_eqb true q f degree s = Throw "ValueError".
Proof. exact varf_sum_factor_raises. Qed.
Print Assumptions C70_sum_factor.
Example C70_sum_factor_example : varf_tensorized fnum_R r_far mono m_mul m_1 m_add_args m_mul_args m_vars m_eqb m_eval (fun _ _ l => rev l) (fun _ l => rev l) r_cov_factor 0 (fun _ _ => true) true (quad_23 (Mono true 2 [0]%nat)) (Fn (Mono false 1 [0; 1]%nat) [0; 1]%nat) 1 Triangle = Throw "ValueError".
Proof.
  apply (C70_sum_factor r_far mono m_eval m_mul m_1 m_add_args m_mul_args m_vars m_eqb r_cov_factor 0 (fun _ _ l => rev l) (fun _ l => rev l) (fun _ _ => true) m_ok m_vars_ok); [apply quad_23_ok|repeat constructor; cbn; intuition discriminate|apply incl_refl|unfold m_add_args; cbn; discriminate|unfold m_add_args; cbn; discriminate].
Qed.

(** The two need not agree on terms under the threshold 1e-12: the tensorized form keeps those with a small constant coefficient. *)
Theorem C70_small_refuted : ~ forall far E (eval : E -> (nat -> R) -> R) e_mul e_1 add_args mul_args free_vars sym_eqb cov_factor la_inv far8 junk order enum pos_eqb,
  (forall l, far (diag_mat fnum_R l) = false) -> sympy_ok (N := fnum_R) eval e_mul e_1 add_args mul_args free_vars -> sympy_vars e_mul e_1 add_args mul_args free_vars ->
  numpy_ok cov_factor la_inv far8 -> (forall i k l, Permutation (order i k l) l) -> (forall i l, Permutation (enum i l) l) -> (forall p, pos_eqb p p = true) ->
  forall (q : quad fnum_R E) vars (f : func E) degree s, quad_ok q -> setting q vars s degree -> usable s (length vars) (2 * degree) -> incl (free_vars (f_sym (q_factor q))) (p_dirs (q_pos q)) ->
  f_dirs f = p_dirs (q_pos q) -> incl (free_vars (f_sym f)) (p_dirs (q_pos q)) -> add_args (f_sym f) <> [] ->
  (forall t, In t (add_args (f_sym f)) -> parts_drop_nothing eval mul_args free_vars (quad_project fnum_R far E e_mul e_1 add_args mul_args free_vars) q s degree t) ->
  one_term add_args (f_sym (q_factor q)) -> one_term add_args (f_sym f) \/ (forall a b, (forall env, eval a env = eval b env) -> sym_eqb a b = true) ->
  let form tensorize := varf_tensorized fnum_R far E e_mul e_1 add_args mul_args free_vars sym_eqb eval order enum cov_factor junk pos_eqb tensorize q f degree s in
  exists v0 v, form false = Ok v0 /\ form true = Ok v /\ v_mat v = v_mat v0.
Proof. exact small_refuted. Qed.
Print Assumptions C70_small_refuted.
Example C70_small_example : exists v, quad_varf_fun fnum_R mono m_1 m_vars m_eval r_cov_factor 0 quad_2 (Fn (Mono false (/ 10 ^ 13) []) [0]%nat) 1 Triangle = Ok v /\ varf_at v [0]%nat [0]%nat = 0.
Proof. destruct small_direct as (v & G1 & _ & _ & _ & G2). exists v. auto. Qed.
