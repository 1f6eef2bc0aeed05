(** Monomials: they behave as sympy is assumed to. *)
From Coq Require Import String List Bool Arith ZArith Lia Sorted Permutation Reals Lra.
From Verif Require Import Base Lists IndexModel Spec Grid Num LinModel LinSpec LinBase MatBase Dirs Degree Facts2 PyBase PosModel PosSpec PosFacts SeriesModel SeriesSpec SeriesFacts PartModel PartSpec PartFacts
  SplitModel SplitSpec SplitFacts MulModel Fnum CalcModel CalcSpec CalcReal CalcQuad Facts6 Facts7 PyQuadModel PyQuadSpec PyQuadFacts PyQuadFacts2 TensQuadModel TensQuadSpec TensQuadFacts TensQuadFacts2 TensQuadFacts3.
Import ListNotations.
Local Open Scope R_scope.

Lemma m_prod_app : forall (env : nat -> R) l l', fold_right Rmult 1 (map env (l ++ l')) = fold_right Rmult 1 (map env l) * fold_right Rmult 1 (map env l').
Proof. intros env l l'. induction l as [|x l IH]; cbn [app map fold_right]; [lra|]. rewrite IH. lra. Qed.
Lemma m_nprod : forall l : list R, nprod (N := fnum_R) l = fold_right Rmult 1 l.
Proof.
  assert (G : forall (l : list R) a, fold_left Rmult l a = a * fold_right Rmult 1 l). { induction l as [|x l IH]; intros a; cbn [fold_left fold_right]; [lra|]. rewrite IH. lra. }
  intros l. etransitivity; [exact (G l 1)|]. lra.
Qed.

Lemma m_ok : sympy_ok (N := fnum_R) m_eval m_mul m_1 m_add_args m_mul_args m_vars.
Proof.
  split.
  - intros a b env. unfold m_eval, m_mul. cbn [m_coef m_vars]. rewrite m_prod_app. cbn [nmul fnum_R]. match goal with |- @eq _ ?a ?b => change (@eq R a b) end. cbn. ring.
  - intros env. unfold m_eval. cbn. lra.
  - intros e env. unfold m_add_args. destruct (m_sum e); cbn [map]; unfold nsum; cbn [fold_left]; match goal with |- @eq _ ?a ?b => change (@eq R a b) end; cbn; unfold m_eval; cbn; lra.
  - intros e env. etransitivity; [|symmetry; apply m_nprod]. unfold m_mul_args. destruct (m_sum e); cbn [map fold_right]; [unfold m_eval; cbn; lra|]. rewrite map_map.
    assert (G : map (fun d => m_eval (Mono false 1 [d]) env) (m_vars e) = map env (m_vars e)) by (apply map_ext; intros d; unfold m_eval; cbn; lra).
    etransitivity; [|apply (f_equal (fun l => m_eval (Mono false (m_coef e) []) env * fold_right Rmult 1 l)); symmetry; exact G]. unfold m_eval. cbn. lra.
  - intros e env env' H. unfold m_eval. f_equal. f_equal. apply map_ext_in. exact H.
Qed.
Lemma m_vars_ok : sympy_vars m_mul m_1 m_add_args m_mul_args m_vars.
Proof.
  split.
  - intros a b x Hx. apply in_app_or. exact Hx.
  - reflexivity.
  - intros e a Ha. unfold m_add_args in Ha. destruct (m_sum e); [destruct Ha as [<-|[<-|[]]]|destruct Ha as [<-|[]]]; apply incl_refl.
  - intros e a Ha. unfold m_mul_args in Ha. destruct (m_sum e); [destruct Ha as [<-|[]]; apply incl_refl|]. destruct Ha as [<-|Ha]; [apply incl_nil_l|]. apply in_map_iff in Ha as (d & <- & Hd). intros x [<-|[]]. exact Hd.
Qed.
Lemma m_eqb_complete : forall a b, (forall env, m_eval a env = m_eval b env) -> m_eqb a b = true.
Proof.
  intros a b H. unfold m_eqb, m_eval in *.
  assert (P1 : forall l, fold_right Rmult 1 (map (fun _ : nat => 1) l) = 1) by (induction l as [|x l IH]; cbn [map fold_right]; [reflexivity|rewrite IH; lra]).
  assert (Hc : m_coef a = m_coef b) by (pose proof (H (fun _ => 1)) as G; rewrite !P1 in G; lra).
  destruct (Req_EM_T (m_coef a) (m_coef b)) as [_|n]; [|contradiction]. cbn [andb]. destruct (Req_EM_T (m_coef a) 0) as [|Hz]; [reflexivity|]. cbn [orb]. apply forallb_forall. intros d _. apply Nat.eqb_eq.
  assert (P2 : forall l, fold_right Rmult 1 (map (fun x => if Nat.eq_dec x d then 2 else 1) l) = 2 ^ count_occ Nat.eq_dec l d).
  { induction l as [|x l IH]; cbn [map fold_right count_occ pow]; [reflexivity|]. rewrite IH. destruct (Nat.eq_dec x d); cbn [pow]; lra. }
  pose proof (H (fun x => if Nat.eq_dec x d then 2 else 1)) as G. rewrite !P2, Hc in G. rewrite Hc in Hz. apply Rmult_eq_reg_l in G; [|exact Hz].
  destruct (Nat.lt_trichotomy (count_occ Nat.eq_dec (m_vars a) d) (count_occ Nat.eq_dec (m_vars b) d)) as [L|[L|L]]; [|exact L|]; pose proof (Rlt_pow 2 _ _ ltac:(lra) L); lra.
Qed.
Lemma m_unit : sympy_unit m_eval m_div m_1 m_vars m_eqb.
Proof.
  split.
  - intros a env. unfold m_eval, m_div, m_1. cbn. field.
  - intros a. apply incl_refl.
  - apply m_eqb_complete. reflexivity.
Qed.
Lemma m_terms : sympy_terms m_mul m_div m_1 m_add_args m_mul_args.
Proof.
  assert (P : forall e, one_term m_add_args e <-> m_sum e = false). { intros e. unfold one_term, m_add_args. destruct (m_sum e); cbn; split; intros H; try reflexivity; discriminate H. }
  split.
  - reflexivity.
  - intros a b Ha Hb. apply P in Ha, Hb. apply P. cbn. rewrite Ha, Hb. reflexivity.
  - intros a Ha. apply P in Ha. apply P. exact Ha.
  - intros e t a He Ha. unfold m_add_args in He. destruct (m_sum e) eqn:Es; [discriminate He|]. injection He as <-. unfold m_mul_args in Ha. rewrite Es in Ha. destruct Ha as [<-|Ha]; [reflexivity|]. apply in_map_iff in Ha as (d & <- & _). reflexivity.
Qed.

(** The theorems, with their hypotheses in the order of the properties. *)
Theorem transform_either : forall far E (eval : E -> (nat -> R) -> R) e_mul e_div e_1 add_args mul_args free_vars sym_eqb cov_factor la_inv far8 junk tiny order enum pos_eqb,
  (forall l, far (diag_mat fnum_R l) = false) -> sympy_ok (N := fnum_R) eval e_mul e_1 add_args mul_args free_vars -> sympy_vars e_mul e_1 add_args mul_args free_vars -> sympy_unit eval e_div e_1 free_vars sym_eqb ->
  numpy_ok cov_factor la_inv far8 -> (forall i k l, Permutation (order i k l) l) -> (forall i l, Permutation (enum i l) l) -> (forall p, pos_eqb p p = true) ->
  forall (q : quad fnum_R E) vars (f : func E) degree s, quad_ok q -> quad_R q vars -> incl (free_vars (f_sym (q_factor q))) (p_dirs (q_pos q)) ->
  rules_match (q_nodes q) (q_weights q) -> usable s (length vars) degree -> flags_ok s degree (kinds (p_types (q_pos q))) ->
  (forall p env, In p (grid (q_nodes q)) -> at_point (p_dirs (q_pos q)) (grid_point q vars p) env -> eval (f_sym (q_factor q)) env <> 0) ->
  f_dirs f = p_dirs (q_pos q) -> incl (free_vars (f_sym f)) (p_dirs (q_pos q)) -> add_args (f_sym f) <> [] ->
  let transform tensorize := transform_tensorized fnum_R far E e_mul e_div e_1 add_args mul_args free_vars sym_eqb eval order enum cov_factor junk tiny pos_eqb tensorize q f degree s in
  exists r0, transform false = Ok r0 /\
    (transform true = Throw "ValueError" \/
     exists r, transform true = Ok r /\ s_coeffs r = s_coeffs r0 /\ s_pos r = s_pos r0 /\ s_set r = s_set r0 /\ s_degree r = s_degree r0 /\
       f_dirs (s_factor r) = f_dirs (s_factor r0) /\ forall env, eval (f_sym (s_factor r)) env = eval (f_sym (s_factor r0)) env).
Proof.
  intros far E eval e_mul e_div e_1 add_args mul_args free_vars sym_eqb cov_factor la_inv far8 junk tiny order enum pos_eqb Hfar OK V [U1 U2 U3] NP Ho He Hp q vars f degree s H1 H2 H3 H4 H5 H6 H7 H8 H9 H10 transform.
  destruct (transform_same far Hfar E eval e_mul e_div e_1 add_args mul_args free_vars sym_eqb OK V U1 U2 U3 cov_factor la_inv far8 junk tiny NP order Ho enum He pos_eqb Hp q vars f degree s H1 H2 H3 H4 H5 H6 H7 H8 H9 H10) as (r0 & G1 & [[G2 _]|G2]);
    exists r0; (split; [exact G1|]); [left; exact G2|right; exact G2].
Qed.
Theorem transform_ok : forall far E (eval : E -> (nat -> R) -> R) e_mul e_div e_1 add_args mul_args free_vars sym_eqb cov_factor la_inv far8 junk tiny order enum pos_eqb,
  (forall l, far (diag_mat fnum_R l) = false) -> sympy_ok (N := fnum_R) eval e_mul e_1 add_args mul_args free_vars -> sympy_vars e_mul e_1 add_args mul_args free_vars -> sympy_unit eval e_div e_1 free_vars sym_eqb ->
  sympy_terms e_mul e_div e_1 add_args mul_args ->
  numpy_ok cov_factor la_inv far8 -> (forall i k l, Permutation (order i k l) l) -> (forall i l, Permutation (enum i l) l) -> (forall p, pos_eqb p p = true) ->
  forall (q : quad fnum_R E) vars (f : func E) degree s, quad_ok q -> quad_R q vars -> incl (free_vars (f_sym (q_factor q))) (p_dirs (q_pos q)) ->
  rules_match (q_nodes q) (q_weights q) -> usable s (length vars) degree -> flags_ok s degree (kinds (p_types (q_pos q))) ->
  (forall p env, In p (grid (q_nodes q)) -> at_point (p_dirs (q_pos q)) (grid_point q vars p) env -> eval (f_sym (q_factor q)) env <> 0) ->
  f_dirs f = p_dirs (q_pos q) -> incl (free_vars (f_sym f)) (p_dirs (q_pos q)) -> add_args (f_sym f) <> [] ->
  one_term add_args (f_sym (q_factor q)) -> one_term add_args (f_sym f) \/ (forall a b, (forall env, eval a env = eval b env) -> sym_eqb a b = true) ->
  let transform tensorize := transform_tensorized fnum_R far E e_mul e_div e_1 add_args mul_args free_vars sym_eqb eval order enum cov_factor junk tiny pos_eqb tensorize q f degree s in
  exists r0 r, transform false = Ok r0 /\ transform true = Ok r /\ s_coeffs r = s_coeffs r0 /\ s_pos r = s_pos r0 /\ s_set r = s_set r0 /\ s_degree r = s_degree r0 /\
    f_dirs (s_factor r) = f_dirs (s_factor r0) /\ forall env, eval (f_sym (s_factor r)) env = eval (f_sym (s_factor r0)) env.
Proof.
  intros far E eval e_mul e_div e_1 add_args mul_args free_vars sym_eqb cov_factor la_inv far8 junk tiny order enum pos_eqb Hfar OK V [U1 U2 U3] T NP Ho He Hp q vars f degree s H1 H2 H3 H4 H5 H6 H7 H8 H9 H10 H11 H12 transform.
  destruct (transform_same far Hfar E eval e_mul e_div e_1 add_args mul_args free_vars sym_eqb OK V U1 U2 U3 cov_factor la_inv far8 junk tiny NP order Ho enum He pos_eqb Hp q vars f degree s H1 H2 H3 H4 H5 H6 H7 H8 H9 H10) as (r0 & G1 & [[_ G2]|(r & G2)]).
  - exfalso. apply G2. auto.
  - exists r0, r. split; [exact G1|exact G2].
Qed.
Theorem sum_factor_raises : forall far E (eval : E -> (nat -> R) -> R) e_mul e_div e_1 add_args mul_args free_vars sym_eqb cov_factor junk tiny order enum pos_eqb,
  sympy_ok (N := fnum_R) eval e_mul e_1 add_args mul_args free_vars -> sympy_vars e_mul e_1 add_args mul_args free_vars ->
  forall (q : quad fnum_R E) (f : func E) degree s, quad_ok q -> NoDup (f_dirs f) -> incl (free_vars (f_sym f)) (f_dirs f) -> add_args (f_sym f) <> [] ->
  length (add_args (f_sym (q_factor q))) <> 1%nat ->
  transform_tensorized fnum_R far E e_mul e_div e_1 add_args mul_args free_vars sym_eqb eval order enum cov_factor junk tiny pos_eqb true q f degree s = Throw "ValueError".
Proof. intros. eapply sum_factor; eassumption. Qed.
Theorem direct_position : forall far E (eval : E -> (nat -> R) -> R) e_mul e_div e_1 add_args mul_args free_vars sym_eqb cov_factor junk tiny order enum pos_eqb (q : quad fnum_R E) (f : func E) degree s r,
  transform_tensorized fnum_R far E e_mul e_div e_1 add_args mul_args free_vars sym_eqb eval order enum cov_factor junk tiny pos_eqb false q f degree s = Ok r -> s_pos r = q_pos q.
Proof.
  intros far E eval e_mul e_div e_1 add_args mul_args free_vars sym_eqb cov_factor junk tiny order enum pos_eqb q f degree s r H. unfold transform_tensorized, tensorize_at in H. cbn [negb orb] in H.
  unfold quad_transform_fun in H. apply bind_ok in H as (values & _ & H). unfold PyQuadModel.quad_transform in H. apply bind_ok in H as (fv & _ & H). apply bind_ok in H as (d & _ & H). apply bind_ok in H as (c & _ & H).
  unfold series_init in H. repeat (apply bind_ok in H as (? & _ & H)). injection H as <-. reflexivity.
Qed.

(** The sample quadrature. *)
Notation quad_xy factor := (Qd (F := fnum_R) (E := mono) [[-1; 1]; [-1; 1]] [[1 / 2; 1 / 2]; [1 / 2; 1 / 2]]
  (Pos (N := fnum_R) [0; 1]%nat [3; 3] [[1; 0]; [0; 1]] ["hermite"; "hermite"]%string true) (Fn factor [0; 1]%nat)).
Lemma quad_xy_ok : forall factor, quad_ok (quad_xy factor).
Proof.
  intros factor. unfold quad_ok, pos_ok, mat_wf. cbn [q_pos q_nodes q_weights q_factor p_dirs p_mean p_cov p_types p_is_diag f_dirs length].
  repeat match goal with |- _ /\ _ => split | |- exists n, _ => exists 2%nat end; repeat constructor; cbn; intuition discriminate.
Qed.
Lemma quad_xy_R : forall factor, quad_R (quad_xy factor) [1; 1].
Proof.
  intros factor. split; [|split; [reflexivity|split; [discriminate|unfold grid_fits; cbn; lia]]].
  split; [reflexivity|]. split; [repeat constructor; lra|]. repeat split; repeat constructor; cbn; intuition discriminate.
Qed.
Lemma quad_xy_factor : forall p env, In p (grid [[-1; 1]; [-1; 1]]) -> at_point [0; 1]%nat (grid_point (quad_xy (Mono false 2 [0%nat])) [1; 1] p) env -> m_eval (Mono false 2 [0%nat]) env <> 0.
Proof.
  intros p env Hp Hat. pose proof (Hat 0%nat 0%nat eq_refl) as H. unfold grid_point, located in H. cbn in Hp.
  assert (S1 : sqrt 1 = 1) by apply sqrt_1.
  destruct Hp as [<-|[<-|[<-|[<-|[]]]]]; cbn -[sqrt] in H; injection H as H; unfold m_eval; cbn; rewrite <- H, S1; lra.
Qed.
Theorem position_refuted : ~ forall far E (eval : E -> (nat -> R) -> R) e_mul e_div e_1 add_args mul_args free_vars sym_eqb cov_factor la_inv far8 junk tiny order enum pos_eqb,
  (forall l, far (diag_mat fnum_R l) = false) -> sympy_ok (N := fnum_R) eval e_mul e_1 add_args mul_args free_vars -> sympy_vars e_mul e_1 add_args mul_args free_vars -> sympy_unit eval e_div e_1 free_vars sym_eqb ->
  sympy_terms e_mul e_div e_1 add_args mul_args ->
  numpy_ok cov_factor la_inv far8 -> (forall i k l, Permutation (order i k l) l) -> (forall i l, Permutation (enum i l) l) -> (forall p, pos_eqb p p = true) ->
  forall (q : quad fnum_R E) vars (f : func E) degree s r, quad_ok q -> quad_R q vars -> incl (free_vars (f_sym (q_factor q))) (p_dirs (q_pos q)) ->
  rules_match (q_nodes q) (q_weights q) -> usable s (length vars) degree -> flags_ok s degree (kinds (p_types (q_pos q))) ->
  incl (f_dirs f) (p_dirs (q_pos q)) -> incl (free_vars (f_sym f)) (f_dirs f) ->
  transform_tensorized fnum_R far E e_mul e_div e_1 add_args mul_args free_vars sym_eqb eval order enum cov_factor junk tiny pos_eqb true q f degree s = Ok r -> s_pos r = q_pos q.
Proof.
  intros H.
  set (q := quad_xy m_1). set (g := Fn (m_mul m_1 (m_mul m_1 (Mono false 1 [0%nat]))) [0%nat]).
  assert (W : rules_match (q_nodes q) (q_weights q)) by repeat constructor.
  assert (U : usable Triangle 2 1) by (apply usable_dim4; cbn; lia).
  assert (FL : flags_ok Triangle 1 (kinds (p_types (q_pos q)))) by (split; [repeat constructor|intros [G|G]; discriminate G]).
  destruct (part_transform r_far (fun _ => eq_refl) mono m_eval m_mul m_1 m_add_args m_mul_args m_vars m_ok m_vars_ok r_cov_factor r_la_inv r_far 0 0 numpy_sample q [1; 1] 1 Triangle m_1 0%nat [1%nat] [0%nat] g (quad_xy_ok _) (quad_xy_R _) eq_refl (incl_nil_l _) eq_refl W U FL)
    as (a & h & dv & A1 & A2 & A3 & A4 & A5 & _).
  { repeat constructor. } { discriminate. } { intros x [<-|[]]. left. reflexivity. } { intros b [<-|[]] [(x & Hx & _) _]. exact Hx. } { reflexivity. } { apply incl_refl. }
  destruct (scale_on fnum_R mono m_1 m_vars (m_eval (m_mul m_1 (Mono false 1 [])) (fun _ => 0)) h [0%nat] Triangle 1 A4) as (r & B1 & B2 & B3 & _).
  assert (Run : transform_tensorized fnum_R r_far mono m_mul m_div m_1 m_add_args m_mul_args m_vars m_eqb m_eval (fun _ _ l => l) (fun _ l => l) r_cov_factor 0 0 (fun _ _ => true) true q (Fn (Mono false 1 [0%nat]) [0%nat]) 1 Triangle = Ok r).
  { unfold transform_tensorized, tensorize_at. cbn [q q_pos p_is_diag negb orb]. unfold fun_split. cbn [m_add_args m_sum map length seq combine mapM f_sym f_dirs].
    assert (Sp : split_term mono m_mul m_1 m_mul_args m_vars [0%nat] (Mono false 1 [0%nat]) = [([0%nat], m_mul m_1 (Mono false 1 [0%nat])); ([], m_mul m_1 (Mono false 1 []))]) by reflexivity. rewrite Sp.
    unfold tens_term.
    assert (D : d_get mono [] [([0%nat], m_mul m_1 (Mono false 1 [0%nat])); ([], m_mul m_1 (Mono false 1 []))] = Ok (m_mul m_1 (Mono false 1 []))) by reflexivity. rewrite D. cbn [bind].
    assert (Sf : fun_split mono m_mul m_1 m_add_args m_mul_args m_vars (q_factor q) = [[([0%nat], m_1); ([1%nat], m_1); ([], m_mul m_1 m_1)]]) by reflexivity. rewrite Sf.
    assert (Fl : filter (fun '(key, _) => negb (fs_eqb [] key)) [([0%nat], m_mul m_1 (Mono false 1 [0%nat])); ([], m_mul m_1 (Mono false 1 []))] = [([0%nat], m_mul m_1 (Mono false 1 [0%nat]))]) by reflexivity. rewrite Fl.
    match goal with |- context [finest_common ?o ?a ?b] => change (finest_common o a b) with (Ok (A := list fset) [[0%nat]]) end. cbn [bind].
    assert (Gf : group_functions mono m_mul m_1 m_vars [[0%nat]] [([0%nat], m_mul m_1 (Mono false 1 [0%nat]))] = Ok [([0%nat], g)]) by reflexivity. rewrite Gf. cbn [bind mapM].
    change (fs_list [0%nat]) with [0%nat]. rewrite A1. cbn [bind]. rewrite A2. cbn [bind length Nat.ltb Nat.leb require series_tensorize for_in]. match goal with |- bind (bind ?x _) _ = _ => replace x with (Ok r) by (symmetry; exact B1) end. reflexivity. }
  pose proof (H r_far mono m_eval m_mul m_div m_1 m_add_args m_mul_args m_vars m_eqb r_cov_factor r_la_inv r_far 0 0 (fun _ _ l => l) (fun _ l => l) (fun _ _ => true) (fun _ => eq_refl) m_ok m_vars_ok m_unit m_terms numpy_sample
    (fun _ _ l => Permutation_refl l) (fun _ l => Permutation_refl l) (fun _ => eq_refl) q [1; 1] (Fn (Mono false 1 [0%nat]) [0%nat]) 1%nat Triangle r (quad_xy_ok _) (quad_xy_R _) (incl_nil_l _) W U FL) as G.
  specialize (G ltac:(intros x [<-|[]]; left; reflexivity) (incl_refl _) Run). destruct B2 as (_ & B2 & _). rewrite G in B2. discriminate B2.
Qed.
