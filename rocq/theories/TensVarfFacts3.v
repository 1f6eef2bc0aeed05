(** Quad.varf with the decorator tensorize_at: statements, samples and counterexamples. *)
From Coq Require Import String List Bool Arith ZArith Lia Sorted Permutation Reals Lra.
From Verif Require Import Base Lists IndexModel Spec IndexSet Grid Num LinModel LinSpec LinBase MatBase Dirs Degree Facts2 Facts3 PyBase PosModel PosSpec PosFacts SeriesModel SeriesSpec SeriesFacts SeriesFacts3 PartModel PartSpec PartFacts
  SplitModel SplitSpec SplitFacts MulModel MulSpec MulFacts Fnum CalcModel CalcSpec CalcReal CalcQuad CalcVarf2 CalcTensor Facts6 Facts7 Facts8 Facts9 PyQuadModel PyQuadSpec PyQuadFacts PyQuadFacts2 OpQuadSpec OpQuadFacts
  TensQuadModel TensQuadSpec TensQuadFacts TensQuadFacts2 TensQuadFacts3 TensQuadFacts4 TensVarfModel TensVarfSpec TensVarfFacts TensVarfFacts2.
Import ListNotations.
Local Open Scope R_scope.

Theorem tensorize_varfs : forall (N : num) (L : num_laws N) far E (eval : E -> (nat -> N) -> N) e_mul e_1 free_vars,
  (forall l, far (diag_mat N l) = false) -> (forall a b env, eval (e_mul a b) env = nmul (eval a env) (eval b env)) -> (forall env, eval e_1 env = n1) ->
  (forall a b x, In x (free_vars (e_mul a b)) -> In x (free_vars a) \/ In x (free_vars b)) -> free_vars e_1 = [] ->
  forall s degree groups (vs : list (SeriesModel.varf N E)) d, Forall2 (fun g v => form_on free_vars v g) groups vs -> Forall (fun v => v_set v = s /\ v_degree v = degree) vs -> vs <> [] ->
  increasing d -> Permutation d (concat groups) -> usable s (length d) degree ->
  exists r, varf_tensorize N far E e_mul e_1 free_vars vs = Ok r /\ form_on free_vars r d /\ v_set r = s /\ (recovered s degree = degree -> v_degree r = degree) /\ (forall m, varf_index r m <-> index_of s (length d) degree m) /\
    (forall env, eval (f_sym (v_factor r)) env = nprod (map (fun v => eval (f_sym (v_factor v)) env) vs)) /\
    (forall a x m v t, In a (map v_pos vs) -> records a x m v t -> records (v_pos r) x m v t) /\
    forall i j, index_of s (length d) degree i -> index_of s (length d) degree j -> varf_at r i j = entries_product d groups vs i j.
Proof.
  intros N L far E eval e_mul e_1 free_vars Hfar E1 E2 E3 E4. apply (tensorize_forms N L far Hfar E eval e_mul e_1 free_vars E1 E2 E3 E4).
Qed.
Theorem mul_varfs : forall (N : num) (L : num_laws N) far E (eval : E -> (nat -> N) -> N) e_mul e_1 free_vars,
  (forall l, far (diag_mat N l) = false) -> (forall a b env, eval (e_mul a b) env = nmul (eval a env) (eval b env)) -> (forall env, eval e_1 env = n1) ->
  (forall a b x, In x (free_vars (e_mul a b)) -> In x (free_vars a) \/ In x (free_vars b)) -> free_vars e_1 = [] ->
  forall s degree g h (v w : SeriesModel.varf N E) d, form_on free_vars v g -> form_on free_vars w h -> v_set v = s -> v_degree v = degree -> v_set w = s -> v_degree w = degree ->
  increasing d -> Permutation d (g ++ h) -> usable s (length d) degree ->
  exists r, varf_mul N far E e_mul e_1 free_vars v w = Ok r /\ form_on free_vars r d /\ v_set r = s /\
    forall i j, index_of s (length d) degree i -> index_of s (length d) degree j ->
      varf_at r i j = nmul (varf_at v (reindex d g i) (reindex d g j)) (varf_at w (reindex d h i) (reindex d h j)).
Proof.
  intros N L far E eval e_mul e_1 free_vars Hfar E1 E2 E3 E4 s degree g h v w d Hv Hw V1 V2 W1 W2 Hd HP Hu.
  destruct (tensorize_forms N L far Hfar E eval e_mul e_1 free_vars E1 E2 E3 E4 s degree [g; h] [v; w] d) as (r & A1 & A2 & A3 & _ & _ & _ & _ & A4); try assumption.
  { constructor; [exact Hv|]. constructor; [exact Hw|constructor]. } { constructor; [split; assumption|]. constructor; [split; assumption|constructor]. } { discriminate. } { cbn [concat]. rewrite app_nil_r. exact HP. }
  exists r. split; [unfold varf_mul; rewrite V1, W1; destruct s; exact A1|]. split; [exact A2|]. split; [exact A3|]. intros i j Hi Hj. rewrite (A4 i j Hi Hj). unfold entries_product. cbn [combine map].
  unfold nprod. cbn [fold_left]. rewrite (law_mul_1 _ L). reflexivity.
Qed.

Theorem varf_either : forall far E (eval : E -> (nat -> R) -> R) e_mul e_1 add_args mul_args free_vars sym_eqb cov_factor la_inv far8 junk order enum pos_eqb,
  (forall l, far (diag_mat fnum_R l) = false) -> sympy_ok (N := fnum_R) eval e_mul e_1 add_args mul_args free_vars -> sympy_vars e_mul e_1 add_args mul_args free_vars ->
  numpy_ok cov_factor la_inv far8 -> (forall i k l, Permutation (order i k l) l) -> (forall i l, Permutation (enum i l) l) -> (forall p, pos_eqb p p = true) ->
  forall (q : quad fnum_R E) vars (f : func E) degree s, quad_ok q -> setting q vars s degree -> usable s (length vars) (2 * degree) -> incl (free_vars (f_sym (q_factor q))) (p_dirs (q_pos q)) ->
  f_dirs f = p_dirs (q_pos q) -> incl (free_vars (f_sym f)) (p_dirs (q_pos q)) -> add_args (f_sym f) <> [] ->
  (forall t, In t (add_args (f_sym f)) -> parts_drop_nothing eval mul_args free_vars (quad_project fnum_R far E e_mul e_1 add_args mul_args free_vars) q s degree t) ->
  drops_nothing q s degree (eval (f_sym f)) ->
  let form tensorize := varf_tensorized fnum_R far E e_mul e_1 add_args mul_args free_vars sym_eqb eval order enum cov_factor junk pos_eqb tensorize q f degree s in
  exists v0, form false = Ok v0 /\
    (form true = Throw "ValueError" \/ exists v, form true = Ok v /\ v_mat v = v_mat v0 /\ v_pos v = v_pos v0 /\ v_set v = v_set v0 /\ v_degree v = v_degree v0 /\
       f_dirs (v_factor v) = f_dirs (v_factor v0) /\ forall env, eval (f_sym (v_factor v)) env = eval (f_sym (v_factor v0)) env).
Proof.
  intros far E eval e_mul e_1 add_args mul_args free_vars sym_eqb cov_factor la_inv far8 junk order enum pos_eqb Hfar OK V NP Ho He Hp q vars f degree s H1 H2 H3 H4 H5 H6 H7 H8 H9 form.
  destruct (varf_same far Hfar E eval e_mul e_1 add_args mul_args free_vars sym_eqb OK V cov_factor la_inv far8 junk NP order Ho enum He pos_eqb Hp q vars f degree s H1 H2 H3 H4 H5 H6 H7 H8 H9) as (v0 & G1 & [[G2 _]|G2]);
    exists v0; (split; [exact G1|]); [left; exact G2|right; exact G2].
Qed.
Theorem varf_both_ok : forall far E (eval : E -> (nat -> R) -> R) e_mul e_1 add_args mul_args free_vars sym_eqb cov_factor la_inv far8 junk order enum pos_eqb,
  (forall l, far (diag_mat fnum_R l) = false) -> sympy_ok (N := fnum_R) eval e_mul e_1 add_args mul_args free_vars -> sympy_vars e_mul e_1 add_args mul_args free_vars ->
  numpy_ok cov_factor la_inv far8 -> (forall i k l, Permutation (order i k l) l) -> (forall i l, Permutation (enum i l) l) -> (forall p, pos_eqb p p = true) ->
  forall (q : quad fnum_R E) vars (f : func E) degree s, quad_ok q -> setting q vars s degree -> usable s (length vars) (2 * degree) -> incl (free_vars (f_sym (q_factor q))) (p_dirs (q_pos q)) ->
  f_dirs f = p_dirs (q_pos q) -> incl (free_vars (f_sym f)) (p_dirs (q_pos q)) -> add_args (f_sym f) <> [] ->
  (forall t, In t (add_args (f_sym f)) -> parts_drop_nothing eval mul_args free_vars (quad_project fnum_R far E e_mul e_1 add_args mul_args free_vars) q s degree t) ->
  drops_nothing q s degree (eval (f_sym f)) ->
  one_term add_args (f_sym (q_factor q)) -> one_term add_args (f_sym f) \/ (forall a b, (forall env, eval a env = eval b env) -> sym_eqb a b = true) ->
  let form tensorize := varf_tensorized fnum_R far E e_mul e_1 add_args mul_args free_vars sym_eqb eval order enum cov_factor junk pos_eqb tensorize q f degree s in
  exists v0 v, form false = Ok v0 /\ form true = Ok v /\ v_mat v = v_mat v0 /\ v_pos v = v_pos v0 /\ v_set v = v_set v0 /\ v_degree v = v_degree v0 /\
    f_dirs (v_factor v) = f_dirs (v_factor v0) /\ forall env, eval (f_sym (v_factor v)) env = eval (f_sym (v_factor v0)) env.
Proof.
  intros far E eval e_mul e_1 add_args mul_args free_vars sym_eqb cov_factor la_inv far8 junk order enum pos_eqb Hfar OK V NP Ho He Hp q vars f degree s H1 H2 H3 H4 H5 H6 H7 H8 H9 H10 H11 form.
  destruct (varf_same far Hfar E eval e_mul e_1 add_args mul_args free_vars sym_eqb OK V cov_factor la_inv far8 junk NP order Ho enum He pos_eqb Hp q vars f degree s H1 H2 H3 H4 H5 H6 H7 H8 H9) as (v0 & G1 & [[_ G2]|(v & G2)]).
  - exfalso. apply G2. auto.
  - exists v0, v. split; [exact G1|exact G2].
Qed.
Theorem varf_tensorized_entries : forall far E (eval : E -> (nat -> R) -> R) e_mul e_1 add_args mul_args free_vars sym_eqb cov_factor la_inv far8 junk order enum pos_eqb,
  (forall l, far (diag_mat fnum_R l) = false) -> sympy_ok (N := fnum_R) eval e_mul e_1 add_args mul_args free_vars -> sympy_vars e_mul e_1 add_args mul_args free_vars ->
  numpy_ok cov_factor la_inv far8 -> (forall i k l, Permutation (order i k l) l) -> (forall i l, Permutation (enum i l) l) -> (forall p, pos_eqb p p = true) ->
  forall (q : quad fnum_R E) vars (f : func E) degree s, quad_ok q -> setting q vars s degree -> usable s (length vars) (2 * degree) -> incl (free_vars (f_sym (q_factor q))) (p_dirs (q_pos q)) ->
  f_dirs f = p_dirs (q_pos q) -> incl (free_vars (f_sym f)) (p_dirs (q_pos q)) -> add_args (f_sym f) <> [] ->
  (forall t, In t (add_args (f_sym f)) -> parts_drop_nothing eval mul_args free_vars (quad_project fnum_R far E e_mul e_1 add_args mul_args free_vars) q s degree t) ->
  one_term add_args (f_sym (q_factor q)) -> one_term add_args (f_sym f) \/ (forall a b, (forall env, eval a env = eval b env) -> sym_eqb a b = true) ->
  let form tensorize := varf_tensorized fnum_R far E e_mul e_1 add_args mul_args free_vars sym_eqb eval order enum cov_factor junk pos_eqb tensorize q f degree s in
  exists v, form true = Ok v /\ varf_ok v (length vars) /\ v_pos v = q_pos q /\ v_set v = s /\ (recovered s degree = degree -> v_degree v = degree) /\ (forall m, varf_index v m <-> index_of s (length vars) degree m) /\
    (forall env, eval (f_sym (v_factor v)) env = eval (f_sym (q_factor q)) env) /\
    forall values r c, grid_values q vars values (eval (f_sym f)) -> index_of s (length vars) degree r -> index_of s (length vars) degree c ->
      varf_at v r c = galerkin (q_nodes q) (q_weights q) (kinds (p_types (q_pos q))) values r c.
Proof.
  intros far E eval e_mul e_1 add_args mul_args free_vars sym_eqb cov_factor la_inv far8 junk order enum pos_eqb Hfar OK V NP Ho He Hp q vars f degree s H1 H2 H3 H4 H5 H6 H7 H8 H9 H10 form.
  destruct (varf_galerkin_tensorized far Hfar E eval e_mul e_1 add_args mul_args free_vars sym_eqb OK V cov_factor la_inv far8 junk NP order Ho enum He pos_eqb Hp q vars f degree s H1 H2 H3 H4 H5 H6 H7 H8) as [[_ G]|(v & G1 & G2 & G3 & G4 & G5)].
  - exfalso. apply G. auto.
  - destruct H2 as (HR & _). pose proof HR as ((_ & _ & R3 & _) & _). destruct G2 as ((B1 & B2 & _) & _ & B3 & B4). rewrite R3 in B1. exists v. split; [exact G1|]. split; [exact B1|]. split; [exact G3|]. split; [exact B3|]. split; [intros Hr; rewrite B4; exact Hr|]. split.
    + intros m. unfold varf_index. rewrite B2, B3, B4, R3. apply index_of_recovered.
    + split; [exact G4|]. intros values r c Hv Hr Hc. rewrite (samples_ok E eval q vars (f_sym f) values HR Hv). exact (G5 r c Hr Hc).
Qed.
Theorem varf_sum_factor_raises : forall far E (eval : E -> (nat -> R) -> R) e_mul e_1 add_args mul_args free_vars sym_eqb cov_factor junk order enum pos_eqb,
  sympy_ok (N := fnum_R) eval e_mul e_1 add_args mul_args free_vars -> sympy_vars e_mul e_1 add_args mul_args free_vars ->
  forall (q : quad fnum_R E) (f : func E) degree s, quad_ok q -> NoDup (f_dirs f) -> incl (free_vars (f_sym f)) (f_dirs f) -> add_args (f_sym f) <> [] ->
  length (add_args (f_sym (q_factor q))) <> 1%nat ->
  varf_tensorized fnum_R far E e_mul e_1 add_args mul_args free_vars sym_eqb eval order enum cov_factor junk pos_eqb true q f degree s = Throw "ValueError".
Proof. intros. eapply vsum_factor; eassumption. Qed.

(** The sample quadrature: nodes 1, 3 in direction 0 and 2, 4 in direction 1. *)
Notation quad_23 factor := (Qd (F := fnum_R) (E := mono) [[-1; 1]; [-1; 1]] [[1 / 2; 1 / 2]; [1 / 2; 1 / 2]]
  (Pos (N := fnum_R) [0; 1]%nat [2; 3] [[1; 0]; [0; 1]] ["hermite"; "hermite"]%string true) (Fn factor [0; 1]%nat)).
Notation m_project := (quad_project fnum_R r_far mono m_mul m_1 m_add_args m_mul_args m_vars).
Lemma quad_23_ok : forall factor, quad_ok (quad_23 factor).
Proof.
  intros factor. unfold quad_ok, pos_ok, mat_wf. cbn [q_pos q_nodes q_weights q_factor p_dirs p_mean p_cov p_types p_is_diag f_dirs length].
  repeat match goal with |- _ /\ _ => split | |- exists n, _ => exists 2%nat end; repeat constructor; cbn; intuition discriminate.
Qed.
Lemma quad_23_R : forall factor, quad_R (quad_23 factor) [1; 1].
Proof.
  intros factor. split; [|split; [reflexivity|split; [discriminate|unfold grid_fits; cbn; lia]]].
  split; [reflexivity|]. split; [repeat constructor; lra|]. repeat split; repeat constructor; cbn; intuition discriminate.
Qed.
Lemma gaussian_unique : forall E (q : quad fnum_R E) vars vars', quad_R q vars -> quad_R q vars' -> vars' = vars.
Proof.
  intros E q vars vars' ((C & _ & L & _) & _) ((C' & _ & L' & _) & _). apply nth_error_ext. intros i. assert (LL : length vars' = length vars) by congruence.
  destruct (nth_error (diag_mat fnum_R vars) i) as [row|] eqn:E1.
  - pose proof (diag_nth fnum_R vars i row E1) as G1. rewrite <- C, C' in E1. pose proof (diag_nth fnum_R vars' i row E1) as G2. exact (eq_trans (eq_sym G2) G1).
  - apply nth_error_None in E1. rewrite diag_length in E1. transitivity (@None R); [|symmetry]; apply nth_error_None; rewrite ?LL; exact E1.
Qed.
Lemma increasing_sub2 : forall d, increasing d -> d <> [] -> incl d [0; 1]%nat -> d = [0]%nat \/ d = [1]%nat \/ d = [0; 1]%nat.
Proof.
  intros d Hi Hn Hs. assert (G : forall x, In x d -> (x = 0 \/ x = 1)%nat). { intros x Hx. destruct (Hs x Hx) as [<-|[<-|[]]]; auto. }
  destruct d as [|a [|b [|c d]]]; [contradiction| | |].
  - destruct (G a (or_introl eq_refl)) as [->| ->]; auto.
  - inversion Hi as [|? ? H1 H2]; subst. inversion H2; subst. pose proof (G a (or_introl eq_refl)). pose proof (G b (or_intror (or_introl eq_refl))). right. right. f_equal; [lia|f_equal; lia].
  - apply StronglySorted_inv in Hi as [Hi H1]. apply StronglySorted_inv in Hi as [_ H2]. apply Forall_inv in H1, H2.
    pose proof (G a (or_introl eq_refl)). pose proof (G b (or_intror (or_introl eq_refl))). pose proof (G c (or_intror (or_intror (or_introl eq_refl)))). lia.
Qed.
Lemma m_part : forall q vars factor g a, quad_ok q -> quad_R q vars -> q_factor q = Fn factor (p_dirs (q_pos q)) -> m_vars factor = [] -> m_sum factor = false -> increasing g -> g <> [] -> incl g (p_dirs (q_pos q)) -> m_project q g = Ok a ->
  let ix := idx (p_dirs (q_pos q)) g in
  p_dirs (q_pos a) = g /\ q_nodes a = pick [] (q_nodes q) ix /\ q_weights a = pick [] (q_weights q) ix /\ p_mean (q_pos a) = pick 0 (p_mean (q_pos q)) ix /\ p_types (q_pos a) = pick ""%string (p_types (q_pos q)) ix /\ quad_R a (pick 0 vars ix).
Proof.
  intros q vars factor g a Hq HR Hf Hv Hs Hi Hn Hg Ha ix. destruct (p_dirs (q_pos q)) as [|first rest] eqn:Ed. { exfalso. destruct g as [|x g]; [contradiction|]. destruct (Hg x (or_introl eq_refl)). }
  assert (Hargs : m_mul_args factor = [Mono false (m_coef factor) []]) by (unfold m_mul_args; rewrite Hs, Hv; reflexivity).
  destruct (quad_project_ok fnum_R num_R_laws r_far (fun _ => eq_refl) mono m_eval m_mul m_1 m_add_args m_mul_args m_vars m_ok m_vars_ok q factor first rest g Hq Ed) as (a' & e & A1 & A2 & A3 & _ & _ & _ & A4 & A5).
  { rewrite Hf. cbn [f_sym]. rewrite Hv. apply incl_nil_l. } { rewrite Hf. cbn [f_sym]. unfold m_add_args. rewrite Hs. reflexivity. } { exact Hi. } { exact Hn. } { rewrite Ed. exact Hg. }
  { rewrite Hargs. intros b [<-|[]] [(x & Hx & _) _]. exact Hx. }
  rewrite Ha in A1. injection A1 as <-. rewrite <- Ed in Hg.
  destruct (part_R r_far mono m_mul m_1 m_add_args m_mul_args m_vars q vars g a Hq HR Ha A2 A3 Hi Hn Hg A4 A5) as (B1 & B2 & B3 & B4 & B5 & _). unfold ix. rewrite <- ?Ed. auto 8.
Qed.

Lemma values_2 : forall (q : quad fnum_R mono) vars values g, q_nodes q = [[-1; 1]] -> grid_values q vars values g -> forall u w,
  at_point (p_dirs (q_pos q)) (located (p_mean (q_pos q)) vars [-1]) u -> at_point (p_dirs (q_pos q)) (located (p_mean (q_pos q)) vars [1]) w -> values = [g u; g w].
Proof.
  intros q vars values g Hn [L G] u w Hu Hw. unfold grid_point in G. rewrite Hn in L, G.
  pose proof (G 0%nat [0]%nat u eq_refl Hu) as G0. pose proof (G 1%nat [1]%nat w eq_refl Hw) as G1. destruct values as [|a [|b [|c values]]]; try discriminate L. cbn in G0, G1. congruence.
Qed.
Lemma values_4 : forall (q : quad fnum_R mono) vars values g, q_nodes q = [[-1; 1]; [-1; 1]] -> grid_values q vars values g -> forall e1 e2 e3 e4,
  let here x y e := at_point (p_dirs (q_pos q)) (located (p_mean (q_pos q)) vars [x; y]) e in here (-1) (-1) e1 -> here (-1) 1 e2 -> here 1 (-1) e3 -> here 1 1 e4 -> values = [g e1; g e2; g e3; g e4].
Proof.
  intros q vars values g Hn [L G] e1 e2 e3 e4 here H1 H2 H3 H4. unfold grid_point in G. rewrite Hn in L, G.
  pose proof (G 0%nat [0; 0]%nat e1 eq_refl H1) as G1. pose proof (G 1%nat [0; 1]%nat e2 eq_refl H2) as G2. pose proof (G 2%nat [1; 0]%nat e3 eq_refl H3) as G3. pose proof (G 3%nat [1; 1]%nat e4 eq_refl H4) as G4.
  destruct values as [|a [|b [|c [|d [|? values]]]]]; try discriminate L. cbn in G1, G2, G3, G4. congruence.
Qed.
Lemma at_1 : forall d m x e, e d = m + x -> at_point [d] (located [m] [1] [x]) e.
Proof.
  intros d m x e H [|[|i]] y Hy; [|discriminate Hy|discriminate Hy]. injection Hy as <-. cbn [located combine map nth_error]. rewrite H, sqrt_1. f_equal. ring.
Qed.
Lemma at_2 : forall d d' m m' x x' e, e d = m + x -> e d' = m' + x' -> at_point [d; d'] (located [m; m'] [1; 1] [x; x']) e.
Proof.
  intros d d' m m' x x' e H H' [|[|[|i]]] y Hy; try discriminate Hy; injection Hy as <-; cbn [located combine map nth_error]; rewrite ?H, ?H', sqrt_1; f_equal; ring.
Qed.
Definition at_xy (x y : R) (d : nat) : R := match d with 0%nat => x | _ => y end.
Lemma parts_23 : forall c k, parts_drop_nothing m_eval m_mul_args m_vars m_project (quad_23 (Mono false c [])) Triangle 1 (Mono false k [0; 1]%nat).
Proof.
  intros c k dirs part Hi Hn Hs Ha.
  destruct (m_part _ [1; 1] (Mono false c []) dirs part (quad_23_ok _) (quad_23_R _) eq_refl eq_refl eq_refl Hi Hn Hs Ha) as (A1 & A2 & A3 & A4 & A5 & A6). intros vars values HR Hv.
  pose proof (gaussian_unique _ _ _ _ A6 HR) as Ev. subst vars.
  destruct (increasing_sub2 dirs Hi Hn Hs) as [->|[->| ->]]; rewrite A2, A3, A5; match type of A2 with _ = ?x => let y := eval cbn in x in change x with y in A2 end; match type of A4 with _ = ?x => let y := eval cbn in x in change x with y in A4 end;
    match goal with |- nothing_dropped _ _ ?a ?b ?c _ => let a' := eval cbn in a in let b' := eval cbn in b in let c' := eval cbn in c in change a with a'; change b with b'; change c with c' end.
  - rewrite (values_2 part _ values _ A2 Hv (at_xy 1 0) (at_xy 3 0)); [|rewrite A1, A4; apply at_1; cbn; lra|rewrite A1, A4; apply at_1; cbn; lra].
    match goal with |- nothing_dropped _ _ _ _ _ [?a; ?b] => replace a with 1 by (unfold product, m_eval; cbn; lra); replace b with 3 by (unfold product, m_eval; cbn; lra) end.
    apply dropped_1d; [left; reflexivity|lra|lra].
  - rewrite (values_2 part _ values _ A2 Hv (at_xy 0 2) (at_xy 0 4)); [|rewrite A1, A4; apply at_1; cbn; lra|rewrite A1, A4; apply at_1; cbn; lra].
    match goal with |- nothing_dropped _ _ _ _ _ [?a; ?b] => replace a with 2 by (unfold product, m_eval; cbn; lra); replace b with 4 by (unfold product, m_eval; cbn; lra) end.
    apply dropped_1d; [left; reflexivity|lra|lra].
  - rewrite (values_4 part _ values _ A2 Hv (at_xy 1 2) (at_xy 1 4) (at_xy 3 2) (at_xy 3 4)); try (rewrite A1, A4; apply at_2; cbn; lra).
    match goal with |- nothing_dropped _ _ _ _ _ [?a; ?b; ?c; ?d] => replace a with 2 by (unfold product, m_eval; cbn; lra); replace b with 4 by (unfold product, m_eval; cbn; lra);
      replace c with 6 by (unfold product, m_eval; cbn; lra); replace d with 12 by (unfold product, m_eval; cbn; lra) end.
    apply dropped_2d.
Qed.
Lemma whole_23 : forall c sum, drops_nothing (quad_23 (Mono false c [])) Triangle 1 (m_eval (Mono sum 1 [0; 1]%nat)).
Proof.
  intros c sum vars values HR Hv. pose proof (gaussian_unique _ _ _ _ (quad_23_R (Mono false c [])) HR) as Ev. subst vars.
  rewrite (values_4 (quad_23 (Mono false c [])) _ values _ eq_refl Hv (at_xy 1 2) (at_xy 1 4) (at_xy 3 2) (at_xy 3 4)); try (cbn [q_pos p_dirs p_mean]; apply at_2; cbn; lra).
  match goal with |- nothing_dropped _ _ _ _ _ [?a; ?b; ?c; ?d] => replace a with 2 by (unfold product, m_eval; cbn; lra); replace b with 4 by (unfold product, m_eval; cbn; lra);
    replace c with 6 by (unfold product, m_eval; cbn; lra); replace d with 12 by (unfold product, m_eval; cbn; lra) end.
  exact dropped_2d.
Qed.
Lemma setting_23 : forall factor, setting (quad_23 factor) [1; 1] Triangle 1.
Proof.
  intros factor. split; [apply quad_23_R|]. split; [repeat constructor|]. split; [apply usable_dim4; cbn; lia|]. split; [apply usable_fits, usable_dim4; cbn; lia|].
  split; [split; [repeat constructor|intros [G|G]; discriminate G]|right; repeat constructor].
Qed.

(** One direction, with the nodes 1 and 3. *)
Notation quad_2 := (Qd (F := fnum_R) (E := mono) [[-1; 1]] [[1 / 2; 1 / 2]] (Pos (N := fnum_R) [0]%nat [2] [[1]] ["hermite"]%string true) (Fn m_1 [0]%nat)).
Notation small := (Mono false (/ 10 ^ 13) []).
Lemma quad_2_ok : quad_ok quad_2.
Proof.
  unfold quad_ok, pos_ok, mat_wf. cbn [q_pos q_nodes q_weights q_factor p_dirs p_mean p_cov p_types p_is_diag f_dirs length].
  repeat match goal with |- _ /\ _ => split | |- exists n, _ => exists 2%nat end; repeat constructor; cbn; intuition discriminate.
Qed.
Lemma setting_2 : setting quad_2 [1] Triangle 1.
Proof.
  split.
  { split; [|split; [reflexivity|split; [discriminate|unfold grid_fits; cbn; lia]]]. split; [reflexivity|]. split; [repeat constructor; lra|]. repeat split; repeat constructor; cbn; intuition discriminate. }
  split; [repeat constructor|]. split; [apply usable_dim4; cbn; lia|]. split; [apply usable_fits, usable_dim4; cbn; lia|].
  split; [split; [repeat constructor|intros [G|G]; discriminate G]|right; repeat constructor].
Qed.
Lemma parts_2 : parts_drop_nothing m_eval m_mul_args m_vars m_project quad_2 Triangle 1 small.
Proof.
  intros dirs part Hi Hn Hs Ha.
  assert (Ed : dirs = [0]%nat). { destruct (increasing_sub2 dirs Hi Hn) as [G|[G|G]]; [intros x Hx; left; destruct (Hs x Hx) as [G|[]]; exact G|exact G| |]; exfalso; subst dirs; [destruct (Hs 1%nat) as [G|[]]|destruct (Hs 1%nat) as [G|[]]]; cbn; auto; discriminate G. }
  subst dirs. destruct (m_part _ [1] m_1 [0]%nat part quad_2_ok (proj1 setting_2) eq_refl eq_refl eq_refl Hi Hn Hs Ha) as (A1 & A2 & A3 & A4 & A5 & A6). intros vars values HR Hv.
  pose proof (gaussian_unique _ _ _ _ A6 HR) as Ev. subst vars.
  rewrite A2, A3, A5; match type of A2 with _ = ?x => let y := eval cbn in x in change x with y in A2 end; match type of A4 with _ = ?x => let y := eval cbn in x in change x with y in A4 end;
    match goal with |- nothing_dropped _ _ ?a ?b ?c _ => let a' := eval cbn in a in let b' := eval cbn in b in let c' := eval cbn in c in change a with a'; change b with b'; change c with c' end.
  rewrite (values_2 part _ values _ A2 Hv (at_xy 1 0) (at_xy 3 0)); [|rewrite A1, A4; apply at_1; cbn; lra|rewrite A1, A4; apply at_1; cbn; lra].
  match goal with |- nothing_dropped _ _ _ _ _ [?a; ?b] => replace a with 1 by (unfold product, m_eval; cbn; lra); replace b with 1 by (unfold product, m_eval; cbn; lra) end.
  apply dropped_const; [left; reflexivity|right; reflexivity].
Qed.
Lemma small_dropped : forall m, In m (points Triangle 1 (2 * 1)) -> Rabs (quadrature [[-1; 1]] [[1 / 2; 1 / 2]] [/ 10 ^ 13; / 10 ^ 13] (phi [0]%nat m)) <
  threshold (fun m => quadrature [[-1; 1]] [[1 / 2; 1 / 2]] [/ 10 ^ 13; / 10 ^ 13] (phi [0]%nat m)) (points Triangle 1 (2 * 1)).
Proof.
  intros m Hm. destruct (gauss2_1d (/ 10 ^ 13) (/ 10 ^ 13)) as [G0 [G1 G2]]. assert (0 < / 10 ^ 13 < / 10 ^ 12) by (split; [apply Rinv_0_lt_compat; lra|apply Rinv_lt_contravar; lra]).
  apply Rlt_le_trans with (/ 10 ^ 12).
  - change (In m [[0]; [1]; [2]]%nat) in Hm. destruct Hm as [<-|[<-|[<-|[]]]]; [rewrite G0|rewrite G1|rewrite G2]; apply Rabs_def1; lra.
  - unfold threshold. match goal with |- _ <= _ * ?x => assert (1 <= x) by apply Rmax_l end. nra.
Qed.
Lemma small_direct : exists v, quad_varf_fun fnum_R mono m_1 m_vars m_eval r_cov_factor 0 quad_2 (Fn small [0]%nat) 1 Triangle = Ok v /\ v_pos v = q_pos quad_2 /\ v_set v = Triangle /\ v_degree v = 1%nat /\ varf_at v [0]%nat [0]%nat = 0.
Proof.
  destruct setting_2 as (Hq & Hw & Hu & Hfit & Hfl & Hcl).
  destruct (discretize_values mono m_vars m_eval r_cov_factor r_la_inv r_far 0 numpy_sample (ok_free _ _ _ _ _ _ _ _ m_ok) quad_2 [1] (Fn small [0]%nat) Hq eq_refl (incl_nil_l _)) as (values & D1 & D2).
  destruct (tables_exist _ _ _ Hfl) as (TH & TF & T1 & T2).
  assert (Ev : values = [/ 10 ^ 13; / 10 ^ 13]).
  { rewrite (values_2 quad_2 [1] values _ eq_refl D2 (at_xy 1 0) (at_xy 3 0)); [|apply at_1; cbn; lra|apply at_1; cbn; lra]. unfold m_eval. cbn [m_coef m_vars map fold_right f_sym]. rewrite Rmult_1_r. reflexivity. }
  destruct (varf_formula Triangle 1 [[-1; 1]] [[1 / 2; 1 / 2]] [0]%nat values Hu Hfit (proj2 (proj2 (proj2 Hq))) Hfl eq_refl Hw (proj1 D2) TH TF T1 T2) as (A & B & V1 & V2 & _ & _ & V3).
  destruct (built mono m_1 quad_2 [1] Triangle 1 A Hq Hu V2) as (v & E1 & _ & _ & E3 & E4 & _ & E5 & _ & E2). exists v. split; [|split; [exact E3|split; [exact E4|split; [rewrite E5; reflexivity|]]]].
  - unfold quad_varf_fun. rewrite D1. cbn [bind]. unfold quad_varf. change (do_fourier quad_2) with [0]%nat. cbn [q_nodes q_weights]. rewrite V1. exact E1.
  - rewrite E2. assert (I0 : index_of Triangle 1 1 [0]%nat) by (split; [reflexivity|cbn; lia]). destruct (V3 _ _ I0 I0) as [G _]. etransitivity; [exact G|]. clear G. rewrite Ev.
    assert (Z : forall l, (forall m, In m l -> In m (points Triangle 1 (2 * 1))) -> rsum (map (fun m => (if Rlt_dec (Rabs (quadrature [[-1; 1]] [[1 / 2; 1 / 2]] [/ 10 ^ 13; / 10 ^ 13] (phi [0]%nat m))) (threshold (fun m => quadrature [[-1; 1]] [[1 / 2; 1 / 2]] [/ 10 ^ 13; / 10 ^ 13] (phi [0]%nat m)) (points Triangle 1 (2 * 1))) then 0 else quadrature [[-1; 1]] [[1 / 2; 1 / 2]] [/ 10 ^ 13; / 10 ^ 13] (phi [0]%nat m)) * table_product TH TF [0]%nat m [0]%nat [0]%nat) l) = 0).
    { induction l as [|m l IH]; intros Hl; [reflexivity|]. cbn [map]. unfold rsum. cbn [fold_right]. fold rsum. destruct (Rlt_dec _ _) as [_|n]; [|exfalso; apply n, small_dropped, Hl; left; reflexivity].
      change (0 * table_product TH TF [0]%nat m [0]%nat [0]%nat + rsum (map (fun m => (if Rlt_dec (Rabs (quadrature [[-1; 1]] [[1 / 2; 1 / 2]] [/ 10 ^ 13; / 10 ^ 13] (phi [0]%nat m))) (threshold (fun m => quadrature [[-1; 1]] [[1 / 2; 1 / 2]] [/ 10 ^ 13; / 10 ^ 13] (phi [0]%nat m)) (points Triangle 1 (2 * 1))) then 0 else quadrature [[-1; 1]] [[1 / 2; 1 / 2]] [/ 10 ^ 13; / 10 ^ 13] (phi [0]%nat m)) * table_product TH TF [0]%nat m [0]%nat [0]%nat) l) = 0).
      rewrite IH by (intros m' Hm'; apply Hl; right; exact Hm'). ring. }
    apply Z. auto.
Qed.

Theorem small_refuted : ~ forall far E (eval : E -> (nat -> R) -> R) e_mul e_1 add_args mul_args free_vars sym_eqb cov_factor la_inv far8 junk order enum pos_eqb,
  (forall l, far (diag_mat fnum_R l) = false) -> sympy_ok (N := fnum_R) eval e_mul e_1 add_args mul_args free_vars -> sympy_vars e_mul e_1 add_args mul_args free_vars ->
  numpy_ok cov_factor la_inv far8 -> (forall i k l, Permutation (order i k l) l) -> (forall i l, Permutation (enum i l) l) -> (forall p, pos_eqb p p = true) ->
  forall (q : quad fnum_R E) vars (f : func E) degree s, quad_ok q -> setting q vars s degree -> usable s (length vars) (2 * degree) -> incl (free_vars (f_sym (q_factor q))) (p_dirs (q_pos q)) ->
  f_dirs f = p_dirs (q_pos q) -> incl (free_vars (f_sym f)) (p_dirs (q_pos q)) -> add_args (f_sym f) <> [] ->
  (forall t, In t (add_args (f_sym f)) -> parts_drop_nothing eval mul_args free_vars (quad_project fnum_R far E e_mul e_1 add_args mul_args free_vars) q s degree t) ->
  one_term add_args (f_sym (q_factor q)) -> one_term add_args (f_sym f) \/ (forall a b, (forall env, eval a env = eval b env) -> sym_eqb a b = true) ->
  let form tensorize := varf_tensorized fnum_R far E e_mul e_1 add_args mul_args free_vars sym_eqb eval order enum cov_factor junk pos_eqb tensorize q f degree s in
  exists v0 v, form false = Ok v0 /\ form true = Ok v /\ v_mat v = v_mat v0.
Proof.
  intros H.
  specialize (H r_far mono m_eval m_mul m_1 m_add_args m_mul_args m_vars m_eqb r_cov_factor r_la_inv r_far 0 (fun _ _ l => l) (fun _ l => l) (fun _ _ => true) (fun _ => eq_refl) m_ok m_vars_ok numpy_sample
    (fun _ _ l => Permutation_refl l) (fun _ l => Permutation_refl l) (fun _ => eq_refl) quad_2 [1] (Fn small [0]%nat) 1%nat Triangle quad_2_ok setting_2).
  destruct (varf_tensorized_entries r_far mono m_eval m_mul m_1 m_add_args m_mul_args m_vars m_eqb r_cov_factor r_la_inv r_far 0 (fun _ _ l => l) (fun _ l => l) (fun _ _ => true) (fun _ => eq_refl) m_ok m_vars_ok numpy_sample
    (fun _ _ l => Permutation_refl l) (fun _ l => Permutation_refl l) (fun _ => eq_refl) quad_2 [1] (Fn small [0]%nat) 1%nat Triangle quad_2_ok setting_2) as (v & G1 & G2 & G3 & G4 & Gd & _ & _ & G5).
  { apply usable_dim4; cbn; lia. } { apply incl_nil_l. } { reflexivity. } { apply incl_nil_l. } { discriminate. } { intros t [<-|[]]. exact parts_2. } { reflexivity. } { left; reflexivity. }
  destruct H as (v0 & v' & H1 & H2 & H3).
  { apply usable_dim4; cbn; lia. } { apply incl_nil_l. } { reflexivity. } { apply incl_nil_l. } { discriminate. } { intros t [<-|[]]. exact parts_2. } { reflexivity. } { left; reflexivity. }
  rewrite G1 in H2. injection H2 as <-. destruct small_direct as (w & W1 & S1 & S2 & S3 & W2). change (quad_varf_fun fnum_R mono m_1 m_vars m_eval r_cov_factor 0 quad_2 (Fn small [0]%nat) 1 Triangle = Ok v0) in H1. rewrite W1 in H1. injection H1 as <-.
  assert (I0 : index_of Triangle 1 1 [0]%nat) by (split; [reflexivity|cbn; lia]).
  assert (GV : grid_values quad_2 [1] [/ 10 ^ 13; / 10 ^ 13] (m_eval small)).
  { split; [reflexivity|]. intros k p env Hk _. change (m_eval small env) with (/ 10 ^ 13 * 1). rewrite Rmult_1_r. destruct k as [|[|k]]; [reflexivity|reflexivity|]. destruct k; discriminate Hk. }
  specialize (G5 _ _ _ GV I0 I0). unfold varf_at in G5, W2. rewrite S1, S2, S3 in W2. rewrite H3, G3, G4, (Gd eq_refl) in G5.
  assert (C : 0 = galerkin [[-1; 1]] [[1 / 2; 1 / 2]] [0]%nat [/ 10 ^ 13; / 10 ^ 13] [0]%nat [0]%nat) by (etransitivity; [symmetry; exact W2|exact G5]).
  unfold galerkin, quadrature, grid, at_pos, phi, basis, rsum, rprod in C. cbn -[hermite] in C. rewrite !(proj1 (hermite_small _)) in C. lra.
Qed.

(** Forms that share directions. *)
Notation zform d m := (Vf (N := num_Z) (Sym := nat) m (Pos (N := num_Z) d (repeat 0%Z (length d)) (diag_mat num_Z (repeat 1%Z (length d))) (repeat "hermite"%string (length d)) true) Triangle 1%nat (Fn 1%nat d)).
Notation form_01 := (zform [0; 1]%nat [[1; 2; 3]; [4; 5; 6]; [7; 8; 9]]%Z).
Notation form_0 := (zform [0]%nat [[1; 2]; [3; 4]]%Z).
Notation form_1 := (zform [1]%nat [[5; 6]; [7; 8]]%Z).
Lemma form_01_on : form_on (fun _ => []) form_01 [0; 1]%nat.
Proof.
  split; [split; [split; [reflexivity|split; [reflexivity|apply usable_dim4; cbn; lia]]|split; [reflexivity|repeat constructor]]|]. split; [reflexivity|]. split; [repeat constructor|]. split; [discriminate|].
  split; [|split; [reflexivity|apply incl_nil_l]]. unfold pos_ok, mat_wf. cbn. repeat split; repeat constructor; cbn; intuition discriminate.
Qed.
Lemma form_0_on : form_on (fun _ => []) form_0 [0]%nat.
Proof.
  split; [split; [split; [reflexivity|split; [reflexivity|apply usable_dim4; cbn; lia]]|split; [reflexivity|repeat constructor]]|]. split; [reflexivity|]. split; [repeat constructor|]. split; [discriminate|].
  split; [|split; [reflexivity|apply incl_nil_l]]. unfold pos_ok, mat_wf. cbn. repeat split; repeat constructor; cbn; intuition discriminate.
Qed.
Lemma form_1_on : form_on (fun _ => []) form_1 [1]%nat.
Proof.
  split; [split; [split; [reflexivity|split; [reflexivity|apply usable_dim4; cbn; lia]]|split; [reflexivity|repeat constructor]]|]. split; [reflexivity|]. split; [repeat constructor|]. split; [discriminate|].
  split; [|split; [reflexivity|apply incl_nil_l]]. unfold pos_ok, mat_wf. cbn. repeat split; repeat constructor; cbn; intuition discriminate.
Qed.
Lemma shared_run : match varf_mul num_Z (fun _ => false) nat Nat.mul 1%nat (fun _ => []) form_01 form_0 with Ok r => (v_degree r, (p_dirs (v_pos r), length (v_mat r))) | _ => (0, ([], 0))%nat end = (3, ([1], 4))%nat.
Proof. vm_compute. reflexivity. Qed.
Theorem shared_refuted : ~ forall (N : num) (L : num_laws N) far E (eval : E -> (nat -> N) -> N) e_mul e_1 free_vars,
  (forall l, far (diag_mat N l) = false) -> (forall a b env, eval (e_mul a b) env = nmul (eval a env) (eval b env)) -> (forall env, eval e_1 env = n1) ->
  (forall a b x, In x (free_vars (e_mul a b)) -> In x (free_vars a) \/ In x (free_vars b)) -> free_vars e_1 = [] ->
  forall s degree g h (v w r : SeriesModel.varf N E), form_on free_vars v g -> form_on free_vars w h -> v_set v = s -> v_degree v = degree -> v_set w = s -> v_degree w = degree ->
  varf_mul N far E e_mul e_1 free_vars v w = Ok r -> v_degree r = degree.
Proof.
  intros H.
  destruct (varf_mul num_Z (fun _ => false) nat Nat.mul 1%nat (fun _ => []) form_01 form_0) as [r| | | | ] eqn:Er; [|pose proof shared_run as G; rewrite Er in G; discriminate G..].
  pose proof (H num_Z num_Z_laws (fun _ => false) nat (fun n _ => Z.of_nat n) Nat.mul 1%nat (fun _ => []) (fun _ => eq_refl) (fun a b _ => Nat2Z.inj_mul a b) (fun _ => eq_refl) (fun _ _ _ G => or_introl G) eq_refl
    Triangle 1%nat [0; 1]%nat [0]%nat form_01 form_0 r form_01_on form_0_on eq_refl eq_refl eq_refl eq_refl Er) as G.
  pose proof shared_run as G'. rewrite Er, G in G'. discriminate G'.
Qed.
