(** Quad.discretize_op with Operator.map, and sample expressions. *)
From Coq Require Import String List Arith Reals Lia Lra Bool Sorting.Sorted Permutation.
From Verif Require Import Base PyBase IndexModel Num Fnum LinSpec CalcModel CalcSpec PosModel PosSpec PosFacts SeriesModel SeriesSpec PyQuadModel PyQuadSpec OpSpec OpQuadModel OpQuadSpec OpModel CalcVarfd TensOpFacts OpQuadFacts OpArithModel OpArithSpec OpArithFacts OpArithFacts2.
Import ListNotations.
Local Open Scope R_scope.

Theorem discretize_op_mapped : forall E (free_vars : E -> list nat) (eval : E -> (nat -> R) -> R) cov_factor la_inv far8 junk e_1 la_eig, numpy_ok cov_factor la_inv far8 -> reads_free eval free_vars -> eig_ok la_eig ->
  forall e_add e_mul e_div e_opp e_0 e_diff fine e_mono simplify is0 sym_eqb pos_eqb, sympy_lin (N := num_R) eval e_add e_mul e_0 e_mono simplify is0 ->
  sympy_arith eval e_add e_mul e_div e_opp e_0 e_diff fine -> sympy_arith_vars free_vars e_add e_mul e_div e_opp e_0 e_diff -> (forall p, pos_eqb p p = true) -> (forall e, sym_eqb e e = true) ->
  (forall a b, sym_eqb a b = true -> forall env, eval a env = eval b env) ->
  forall (q : quad fnum_R E) vars s degree env, setting q vars s degree -> (forall k, nth k (kinds (p_types (q_pos q))) 0%nat = 1%nat -> paired s (length vars) degree k) ->
  increasing (p_dirs (q_pos q)) -> assigns (p_dirs (q_pos q)) env -> sympy_lin_vars e_add e_mul e_0 e_1 e_mono simplify free_vars (p_dirs (q_pos q)) ->
  forall op : oper E,
  f_dirs (q_factor q) = p_dirs (q_pos q) -> incl (free_vars (f_sym (q_factor q))) (p_dirs (q_pos q)) -> fine (f_sym (q_factor q)) -> (forall x, eval e_1 x = 1) ->
  (forall c n, In (c, n) op -> length n = length vars /\ (order n <= 5)%nat /\ incl (free_vars c) (p_dirs (q_pos q))) ->
  (forall p, In p (grid (q_nodes q)) -> eval (f_sym (q_factor q)) (env (grid_point q vars p)) <> 0) ->
  let mapped op w := map_terms E e_mul e_div e_diff (p_dirs (q_pos q)) op (f_sym w) in
  let weighted c x := eval (f_sym (q_factor q)) (env x) * psi (p_mean (q_pos q)) vars (kinds (p_types (q_pos q))) c x in
  (forall op' n values, (sym_eqb (f_sym (q_factor q)) e_1 = true /\ op' = op) \/ (sym_eqb (f_sym (q_factor q)) e_1 = false /\ op' = mapped op (q_factor q)) -> length n = length vars ->
    grid_values q vars values (coefficient (N := num_R) eval op' n) -> nothing_dropped s degree (q_nodes q) (q_weights q) (kinds (p_types (q_pos q))) values) ->
  exists v, quad_discretize_op fnum_R E e_add e_mul e_0 e_1 e_mono simplify is0 free_vars eval sym_eqb pos_eqb cov_factor junk la_eig mapped q op degree s = Ok v /\
    varf_ok v (length vars) /\ v_pos v = q_pos q /\ v_set v = s /\ v_factor v = q_factor q /\ v_degree v = Degree.recovered s degree /\ (forall m, varf_index v m <-> index_of s (length vars) degree m) /\
    (exists D, forall c, index_of s (length vars) degree c -> derivatives (length vars) (weighted c) (D c)) /\
    forall D r c, (forall c, index_of s (length vars) degree c -> derivatives (length vars) (weighted c) (D c)) -> varf_index v r -> varf_index v c ->
      varf_at v r c = integral (q_nodes q) (q_weights q) (fun y => let x := located (p_mean (q_pos q)) vars y in
        phi (kinds (p_types (q_pos q))) r y * (op_value (N := num_R) eval op (fun n => D c n x) (env x) / eval (f_sym (q_factor q)) (env x))).
Proof.
  intros E free_vars eval cov_factor la_inv far8 junk e_1 la_eig Hn HF Hg e_add e_mul e_div e_opp e_0 e_diff fine e_mono simplify is0 sym_eqb pos_eqb SL HA HV Hpe Hse Hss q vars s degree env Hs Hp Hinc Hen SV op Hfd Hfi Hff H1 Hop Hw mapped weighted Hdrop.
  pose proof (proj2 (increasing_le _ Hinc)) as Hd. assert (Hl : length vars = length (p_dirs (q_pos q))). { destruct Hs as ((G & _) & _). destruct G as (P1 & P2 & P3 & P4 & P5 & P6). congruence. }
  assert (HD : forall c, index_of s (length vars) degree c -> derivatives (length vars) (weighted c) (fun n x => rv eval (op_diffs E e_diff (along (p_dirs (q_pos q)) n) (p_dirs (q_pos q)) [(f_sym (q_factor q), repeat 0%nat (length (p_dirs (q_pos q))))]) (fun n => D0 E q vars c n x) (env x))).
  { intros c [Hc _] n Hn' Ho. rewrite Hl in *. apply (factor_diffs eval e_add e_mul e_div e_opp e_0 e_diff fine HA free_vars HV HF (p_dirs (q_pos q)) Hd env Hen); [exact Hff|exact Hfi| |exact Hn'|exact Ho]. rewrite <- Hl. apply (D0_derivatives E q vars s degree Hs). rewrite Hl. exact Hc. }
  assert (HM : maps eval free_vars (p_dirs (q_pos q)) env op (q_factor q) (mapped op (q_factor q))).
  { apply (map_maps eval e_add e_mul e_div e_opp e_0 e_diff fine HA free_vars HV HF (p_dirs (q_pos q)) Hd env Hen); try assumption. intros c n H. destruct (Hop c n H) as (A & B & C). rewrite Hl in A. auto. }
  pose proof (fun D HD => discretize_op_galerkin E free_vars eval cov_factor la_inv far8 junk e_1 la_eig Hn HF Hg e_add e_mul e_0 e_mono simplify is0 sym_eqb pos_eqb mapped SL Hpe Hse Hss q vars s degree env Hs Hp Hinc Hen SV op D Hfd Hfi H1 Hop HM Hw Hdrop HD) as G.
  destruct (G _ HD) as (v & V1 & V2 & V3 & V4 & V5 & Vd & V6 & _). exists v. split; [exact V1|]. do 6 (split; [assumption|]). split; [eexists; exact HD|].
  intros D r c HD' Hr Hc. destruct (G D HD') as (v' & V1' & _ & _ & _ & _ & _ & _ & V7). rewrite V1 in V1'. injection V1' as <-. apply V7; assumption.
Qed.

(** the sample expressions *)
Lemma s_eval_diff : forall e d env, s_fine e -> derivable_pt_lim (fun t => s_eval e (fun d' => if Nat.eqb d' d then t else env d')) (env d) (s_eval (s_diff d e) env).
Proof.
  assert (X : forall e d env, s_eval e (fun d' => if Nat.eqb d' d then env d else env d') = s_eval e env).
  { induction e; intros; cbn [s_eval]; rewrite ?IHe, ?IHe1, ?IHe2; try reflexivity. destruct (Nat.eqb_spec d d0) as [->|]; reflexivity. }
  induction e; intros d0 env Hf; cbn [s_eval s_diff s_fine] in *.
  - apply derivable_pt_lim_const.
  - destruct (Nat.eqb_spec d d0); [apply derivable_pt_lim_id|apply derivable_pt_lim_const].
  - destruct Hf as [F1 F2]. apply (derivable_pt_lim_plus _ _ _ _ _ (IHe1 d0 env F1) (IHe2 d0 env F2)).
  - destruct Hf as [F1 F2]. pose proof (derivable_pt_lim_mult _ _ _ _ _ (IHe1 d0 env F1) (IHe2 d0 env F2)) as G. cbv beta in G. rewrite !X in G. exact G.
  - destruct Hf.
  - apply (derivable_pt_lim_opp _ _ _ (IHe d0 env Hf)).
  - pose proof (derivable_pt_lim_comp _ _ _ _ _ (IHe d0 env Hf) (derivable_pt_lim_exp _)) as G. cbv beta in G. rewrite X in G. exact G.
Qed.
Lemma s_fine_diff : forall e d, s_fine e -> s_fine (s_diff d e).
Proof. induction e; intros d0 H; cbn [s_fine s_diff] in *; intuition. Qed.
Lemma s_arith : sympy_arith s_eval SAdd SMul SDiv SOpp (SNum 0) s_diff s_fine.
Proof. constructor; try reflexivity; [exact s_eval_diff|exact (fun e d => s_fine_diff e d)|cbn; auto]. Qed.
Lemma s_arith_vars : sympy_arith_vars s_vars SAdd SMul SDiv SOpp (SNum 0) s_diff.
Proof.
  constructor; try (intros; apply incl_refl); [reflexivity|]. intros d e. induction e; cbn [s_vars s_diff]; try (intros v []; fail); try exact IHe.
  all: intros v Hv; repeat (apply in_app_or in Hv as [Hv|Hv]); first [exact Hv|apply IHe; exact Hv|apply in_or_app; auto].
Qed.
Lemma s_reads : reads_free s_eval s_vars.
Proof.
  intros e env env' H. induction e; cbn [s_eval s_vars] in *; try reflexivity; try (apply H; left; reflexivity); try (rewrite IHe by exact H; reflexivity).
  all: rewrite IHe1, IHe2; [reflexivity|intros x Hx; apply H, in_or_app; right; exact Hx|intros x Hx; apply H, in_or_app; left; exact Hx].
Qed.

Theorem call_directions_refuted : ~ forall (op_is0 : oper sexpr -> bool) a b, (forall l, op_is0 l = true -> forall c n, In (c, n) l -> forall env, s_eval c env = 0) ->
  operator_on s_vars (o_dirs a) a -> operator_on s_vars (o_dirs b) b ->
  let c := op_call sexpr SMul s_diff op_is0 a b in operator_on s_vars (o_dirs c) c.
Proof.
  intros H. specialize (H (fun _ => false) (Oper sexpr [(SVar 1, [0]%nat)] [1]%nat) (Oper sexpr [(SNum 1, [1]%nat)] [0]%nat)). destruct H as [_ H].
  - discriminate.
  - split; [reflexivity|]. intros c n [H|[]]. injection H as <- <-. split; [reflexivity|apply incl_refl].
  - split; [reflexivity|]. intros c n [H|[]]. injection H as <- <-. split; [reflexivity|intros v []].
  - destruct (H _ _ (or_introl eq_refl)) as [_ G]. specialize (G 1%nat (or_introl eq_refl)). destruct G as [G|[]]. discriminate G.
Qed.

Lemma s_eqb_refl : forall e, s_eqb e e = true.
Proof. induction e; cbn [s_eqb]; rewrite ?IHe, ?IHe1, ?IHe2; try reflexivity; [destruct (Req_EM_T x x); [reflexivity|congruence]|apply Nat.eqb_refl]. Qed.
Lemma s_eqb_sound : forall a b, s_eqb a b = true -> forall env, s_eval a env = s_eval b env.
Proof.
  induction a; intros [] H env; cbn [s_eqb s_eval] in *; try discriminate H; try (apply andb_true_iff in H as [H1 H2]; rewrite (IHa1 _ H1), (IHa2 _ H2); reflexivity); try (rewrite (IHa _ H); reflexivity).
  - destruct (Req_EM_T x x0) as [->|]; [reflexivity|discriminate H].
  - apply Nat.eqb_eq in H. rewrite H. reflexivity.
Qed.
Lemma s_lin : forall dirs, sympy_lin (N := num_R) s_eval SAdd SMul (SNum 0) (s_mono dirs) (fun e => e) s_is0.
Proof.
  intros dirs. split; try reflexivity.
  - intros k env. unfold s_mono. assert (G : forall d, concat (map (fun '(d, a) => repeat (SVar d) a) (combine d (repeat 0%nat k))) = []) by (induction k as [|k IH]; intros [|a d]; cbn; auto). rewrite G. reflexivity.
  - intros e H env. destruct e; try discriminate H. cbn [s_is0] in H. destruct (Req_EM_T x 0) as [->|]; [reflexivity|discriminate H].
Qed.
Lemma s_lin_vars : forall dirs, sympy_lin_vars SAdd SMul (SNum 0) (SNum 1) (s_mono dirs) (fun e => e) s_vars dirs.
Proof.
  intros dirs. split; intros; try reflexivity; try apply incl_refl. intros x Hx. unfold s_mono in Hx.
  assert (G : forall l, In x (s_vars (fold_right SMul (SNum 1) l)) -> exists e, In e l /\ In x (s_vars e)).
  { induction l as [|e l IH]; intros Hl; [destruct Hl|]. cbn [fold_right s_vars] in Hl. apply in_app_or in Hl as [Hl|Hl]; [exists e; split; [left; reflexivity|exact Hl]|]. destruct (IH Hl) as (e' & E1 & E2). exists e'. split; [right; exact E1|exact E2]. }
  apply G in Hx as (e & E1 & E2). apply in_concat in E1 as (l & L1 & L2). apply in_map_iff in L1 as ([d a] & <- & L1). apply repeat_spec in L2. subst e. destruct E2 as [<-|[]]. exact (in_combine_l _ _ _ _ L1).
Qed.
