(** Quad.varfd and Quad.discretize_op with tensorization: statements. *)
From Coq Require Import String List Bool Arith ZArith Lia Sorted Permutation Reals Lra.
From Verif Require Import Base Lists IndexModel Spec IndexSet Grid Num LinModel LinSpec LinBase MatBase Dirs Degree Facts2 Facts3 PyBase PosModel PosSpec PosFacts SeriesModel SeriesSpec SeriesFacts SeriesFacts3 PartModel PartSpec PartFacts
  SplitModel SplitSpec SplitFacts MulModel MulSpec MulFacts OpModel OpSpec OpFacts Fnum CalcModel CalcSpec CalcReal CalcQuad CalcVarf2 CalcTensor Facts6 Facts7 Facts8 Facts9 Facts10 CalcHermite PyQuadModel PyQuadSpec PyQuadFacts PyQuadFacts2 OpQuadModel OpQuadSpec OpQuadFacts
  TensQuadModel TensQuadSpec TensQuadFacts TensQuadFacts2 TensQuadFacts3 TensQuadFacts4 TensVarfModel TensVarfSpec TensVarfFacts TensVarfFacts2 TensVarfFacts3 TensOpModel TensOpSpec TensOpFacts TensOpFacts2 TensOpFacts3.
Import ListNotations.
Local Open Scope R_scope.

Theorem varfd_either : forall far E (eval : E -> (nat -> R) -> R) e_mul e_1 add_args mul_args free_vars sym_eqb cov_factor la_inv far8 junk la_eig order enum pos_eqb,
  (forall l, far (diag_mat fnum_R l) = false) -> sympy_ok (N := fnum_R) eval e_mul e_1 add_args mul_args free_vars -> sympy_vars e_mul e_1 add_args mul_args free_vars ->
  numpy_ok cov_factor la_inv far8 -> eig_ok la_eig -> (forall i k l, Permutation (order i k l) l) -> (forall i l, Permutation (enum i l) l) -> (forall p, pos_eqb p p = true) ->
  forall (q : quad fnum_R E) vars (f : func E) degree directions s, quad_ok q -> setting q vars s degree -> usable s (length vars) (2 * degree) -> parts_paired (kinds (p_types (q_pos q))) s degree ->
  incl (free_vars (f_sym (q_factor q))) (p_dirs (q_pos q)) -> f_dirs f = p_dirs (q_pos q) -> incl (free_vars (f_sym f)) (p_dirs (q_pos q)) -> add_args (f_sym f) <> [] ->
  (forall t, In t (add_args (f_sym f)) -> parts_drop_nothing eval mul_args free_vars (quad_project fnum_R far E e_mul e_1 add_args mul_args free_vars) q s degree t) ->
  drops_nothing q s degree (eval (f_sym f)) ->
  let form tensorize := varfd_tensorized fnum_R far E e_mul e_1 add_args mul_args free_vars sym_eqb eval cov_factor junk la_eig pos_eqb order enum tensorize q f degree directions s in
  exists v0, form false = Ok v0 /\
    (form true = Throw "ValueError" \/ exists v, form true = Ok v /\ v_mat v = v_mat v0 /\ v_pos v = v_pos v0 /\ v_set v = v_set v0 /\ v_degree v = v_degree v0 /\
       f_dirs (v_factor v) = f_dirs (v_factor v0) /\ forall env, eval (f_sym (v_factor v)) env = eval (f_sym (v_factor v0)) env).
Proof.
  intros far E eval e_mul e_1 add_args mul_args free_vars sym_eqb cov_factor la_inv far8 junk la_eig order enum pos_eqb Hfar OK V NP EI Ho He Hp q vars f degree directions s H1 H2 H3 HP H4 H5 H6 H7 H8 H9 form.
  destruct (varfd_same far Hfar E eval e_mul e_1 add_args mul_args free_vars sym_eqb OK V cov_factor la_inv far8 junk NP la_eig EI directions order Ho enum He pos_eqb Hp q vars f degree s H1 H2 H3 HP H4 H5 H6 H7 H8 H9) as (v0 & G1 & [[G2 _]|G2]);
    exists v0; (split; [exact G1|]); [left; exact G2|right; exact G2].
Qed.
Theorem varfd_both_ok : forall far E (eval : E -> (nat -> R) -> R) e_mul e_1 add_args mul_args free_vars sym_eqb cov_factor la_inv far8 junk la_eig order enum pos_eqb,
  (forall l, far (diag_mat fnum_R l) = false) -> sympy_ok (N := fnum_R) eval e_mul e_1 add_args mul_args free_vars -> sympy_vars e_mul e_1 add_args mul_args free_vars ->
  numpy_ok cov_factor la_inv far8 -> eig_ok la_eig -> (forall i k l, Permutation (order i k l) l) -> (forall i l, Permutation (enum i l) l) -> (forall p, pos_eqb p p = true) ->
  forall (q : quad fnum_R E) vars (f : func E) degree directions s, quad_ok q -> setting q vars s degree -> usable s (length vars) (2 * degree) -> parts_paired (kinds (p_types (q_pos q))) s degree ->
  incl (free_vars (f_sym (q_factor q))) (p_dirs (q_pos q)) -> f_dirs f = p_dirs (q_pos q) -> incl (free_vars (f_sym f)) (p_dirs (q_pos q)) -> add_args (f_sym f) <> [] ->
  (forall t, In t (add_args (f_sym f)) -> parts_drop_nothing eval mul_args free_vars (quad_project fnum_R far E e_mul e_1 add_args mul_args free_vars) q s degree t) ->
  drops_nothing q s degree (eval (f_sym f)) ->
  one_term add_args (f_sym (q_factor q)) -> one_term add_args (f_sym f) \/ (forall a b, (forall env, eval a env = eval b env) -> sym_eqb a b = true) ->
  let form tensorize := varfd_tensorized fnum_R far E e_mul e_1 add_args mul_args free_vars sym_eqb eval cov_factor junk la_eig pos_eqb order enum tensorize q f degree directions s in
  exists v0 v, form false = Ok v0 /\ form true = Ok v /\ v_mat v = v_mat v0 /\ v_pos v = v_pos v0 /\ v_set v = v_set v0 /\ v_degree v = v_degree v0 /\
    f_dirs (v_factor v) = f_dirs (v_factor v0) /\ forall env, eval (f_sym (v_factor v)) env = eval (f_sym (v_factor v0)) env.
Proof.
  intros far E eval e_mul e_1 add_args mul_args free_vars sym_eqb cov_factor la_inv far8 junk la_eig order enum pos_eqb Hfar OK V NP EI Ho He Hp q vars f degree directions s H1 H2 H3 HP H4 H5 H6 H7 H8 H9 H10 H11 form.
  destruct (varfd_same far Hfar E eval e_mul e_1 add_args mul_args free_vars sym_eqb OK V cov_factor la_inv far8 junk NP la_eig EI directions order Ho enum He pos_eqb Hp q vars f degree s H1 H2 H3 HP H4 H5 H6 H7 H8 H9) as (v0 & G1 & [[_ G2]|(v & G2)]).
  - exfalso. apply G2. auto.
  - exists v0, v. split; [exact G1|exact G2].
Qed.
Theorem varfd_tensorized_entries : forall far E (eval : E -> (nat -> R) -> R) e_mul e_1 add_args mul_args free_vars sym_eqb cov_factor la_inv far8 junk la_eig order enum pos_eqb,
  (forall l, far (diag_mat fnum_R l) = false) -> sympy_ok (N := fnum_R) eval e_mul e_1 add_args mul_args free_vars -> sympy_vars e_mul e_1 add_args mul_args free_vars ->
  numpy_ok cov_factor la_inv far8 -> eig_ok la_eig -> (forall i k l, Permutation (order i k l) l) -> (forall i l, Permutation (enum i l) l) -> (forall p, pos_eqb p p = true) ->
  forall (q : quad fnum_R E) vars (f : func E) degree directions ks s, quad_ok q -> setting q vars s degree -> usable s (length vars) (2 * degree) -> parts_paired (kinds (p_types (q_pos q))) s degree ->
  incl (free_vars (f_sym (q_factor q))) (p_dirs (q_pos q)) -> f_dirs f = p_dirs (q_pos q) -> incl (free_vars (f_sym f)) (p_dirs (q_pos q)) -> add_args (f_sym f) <> [] ->
  (forall t, In t (add_args (f_sym f)) -> parts_drop_nothing eval mul_args free_vars (quad_project fnum_R far E e_mul e_1 add_args mul_args free_vars) q s degree t) ->
  one_term add_args (f_sym (q_factor q)) -> one_term add_args (f_sym f) \/ (forall a b, (forall env, eval a env = eval b env) -> sym_eqb a b = true) ->
  coordinates_of (p_dirs (q_pos q)) directions ks ->
  let form tensorize := varfd_tensorized fnum_R far E e_mul e_1 add_args mul_args free_vars sym_eqb eval cov_factor junk la_eig pos_eqb order enum tensorize q f degree directions s in
  exists v, form true = Ok v /\ varf_ok v (length vars) /\ v_pos v = q_pos q /\ v_set v = s /\ (recovered s degree = degree -> v_degree v = degree) /\ (forall m, varf_index v m <-> index_of s (length vars) degree m) /\
    (forall env, eval (f_sym (v_factor v)) env = eval (f_sym (q_factor q)) env) /\
    forall values r c g, grid_values q vars values (eval (f_sym f)) -> index_of s (length vars) degree r -> index_of s (length vars) degree c ->
      deriv_along (length vars) ks (psi (p_mean (q_pos q)) vars (kinds (p_types (q_pos q))) c) g ->
      varf_at v r c = quadrature (q_nodes q) (q_weights q) values (fun y => phi (kinds (p_types (q_pos q))) r y * g (located (p_mean (q_pos q)) vars y)).
Proof.
  intros far E eval e_mul e_1 add_args mul_args free_vars sym_eqb cov_factor la_inv far8 junk la_eig order enum pos_eqb Hfar OK V NP EI Ho He Hp q vars f degree directions ks s H1 H2 H3 HP H4 H5 H6 H7 H8 H9 H10 Hks form.
  destruct (varfd_galerkin_tensorized far Hfar E eval e_mul e_1 add_args mul_args free_vars sym_eqb OK V cov_factor la_inv far8 junk NP la_eig EI directions order Ho enum He pos_eqb Hp q vars f degree s H1 H2 H3 HP H4 H5 H6 H7 H8) as [[_ G]|(v & G1 & G2 & G3 & G4 & G5)].
  - exfalso. apply G. auto.
  - destruct H2 as (HR & _). pose proof HR as ((P1 & P2 & P3 & P4 & P5 & P6) & Q1 & Q2 & Q3). destruct G2 as ((B1 & B2 & _) & _ & B3 & B4). rewrite P3 in B1. exists v. split; [exact G1|]. split; [exact B1|]. split; [exact G3|]. split; [exact B3|]. split; [intros Hr; rewrite B4; exact Hr|]. split.
    + intros m. unfold varf_index. rewrite B2, B3, B4, P3. apply index_of_recovered.
    + split; [exact G4|]. intros values r c g Hv Hr Hc Hg. etransitivity; [exact (G5 r c Hr Hc)|]. rewrite <- (samples_ok E eval q vars (f_sym f) values HR Hv).
      assert (Ek : ks_of (p_dirs (q_pos q)) directions = ks).
      { pose proof (ks_of_coordinates (p_dirs (q_pos q)) directions) as K. unfold coordinates_of in Hks, K. rewrite <- Hks in K. assert (Hb : Forall (fun k => k < length (p_dirs (q_pos q)))%nat ks) by exact (coordinates_bound _ _ _ Hks).
        clear - K P6 Hb. revert K. generalize (ks_of (p_dirs (q_pos q)) directions). induction Hb as [|k ks Hk Hb IH]; intros [|k' l] K; cbn [map] in K; try discriminate K; [reflexivity|]. injection K as K0 K. f_equal; [|apply IH; exact K].
        symmetry. apply (proj1 (NoDup_nth_error (p_dirs (q_pos q))) P6 k k' Hk (eq_sym K0)). }
      rewrite Ek. unfold dgal, galerkin. rewrite <- quadrature_scal. apply quadrature_ext. intros p Hpi.
      assert (Lp : length (at_pos (q_nodes q) p) = length vars). { rewrite at_pos_length; [exact Q1|apply grid_length_in; exact Hpi]. }
      assert (Ll : length (located (p_mean (q_pos q)) vars (at_pos (q_nodes q) p)) = length vars). { unfold located. rewrite map_length, !combine_length. assert (P4' : @length R (p_mean (q_pos q)) = length vars) by exact P4. assert (Lp' : @length R (at_pos (q_nodes q) p) = length vars) by exact Lp. etransitivity; [apply f_equal2; [exact P4'|apply f_equal2; [reflexivity|exact Lp']]|]. lia. }
      assert (Hkb : Forall (fun k => k < length vars)%nat ks) by (rewrite <- P3; exact (coordinates_bound _ _ _ Hks)).
      assert (Hfl : length (kinds (p_types (q_pos q))) = length vars) by (unfold kinds; rewrite map_length; exact P5).
      rewrite (deriv_unique vars ks _ _ _ _ Hkb (fun x _ => eq_refl) Hg (deriv_psi (p_mean (q_pos q)) vars (kinds (p_types (q_pos q))) P4 Hfl P2 ks c Hkb (proj1 Hc)) _ Ll).
      unfold psi. rewrite standard_located by assumption. ring.
Qed.
Theorem varfd_sum_factor : forall far E (eval : E -> (nat -> R) -> R) e_mul e_1 add_args mul_args free_vars sym_eqb cov_factor junk la_eig order enum pos_eqb,
  sympy_ok (N := fnum_R) eval e_mul e_1 add_args mul_args free_vars -> sympy_vars e_mul e_1 add_args mul_args free_vars ->
  forall (q : quad fnum_R E) (f : func E) degree directions s, quad_ok q -> NoDup (f_dirs f) -> incl (free_vars (f_sym f)) (f_dirs f) -> add_args (f_sym f) <> [] -> ~ one_term add_args (f_sym (q_factor q)) ->
  varfd_tensorized fnum_R far E e_mul e_1 add_args mul_args free_vars sym_eqb eval cov_factor junk la_eig pos_eqb order enum true q f degree directions s = Throw "ValueError".
Proof. intros. eapply vdsum_factor; eassumption. Qed.

(** Without tensorization. *)
Lemma op_false : forall far E (eval : E -> (nat -> R) -> R) e_add e_mul e_0 e_1 e_mono simplify is0 add_args mul_args free_vars sym_eqb cov_factor junk la_eig op_map pos_eqb order enum q op degree s,
  discretize_op_tensorized fnum_R far E e_add e_mul e_0 e_1 e_mono simplify is0 add_args mul_args free_vars sym_eqb eval cov_factor junk la_eig op_map pos_eqb order enum false q op degree s =
  quad_discretize_op fnum_R E e_add e_mul e_0 e_1 e_mono simplify is0 free_vars eval sym_eqb pos_eqb cov_factor junk la_eig op_map q op degree s.
Proof.
  intros. unfold discretize_op_tensorized, quad_discretize_op. destruct (function_init E free_vars e_1 (p_dirs (q_pos q))) as [one| | | |]; try reflexivity. cbn [bind].
  match goal with |- bind ?x _ = _ => destruct x as [sp| | | |]; try reflexivity end. cbn [bind]. match goal with |- bind ?x _ = _ => destruct x as [sp'| | | |]; try reflexivity end. cbn [bind]. destruct sp' as [|p sp']; [reflexivity|].
  match goal with |- bind ?x _ = bind ?y _ => assert (G : x = y); [|rewrite G; reflexivity] end.
  generalize (@None (SeriesModel.varf fnum_R E)). generalize 0%nat. generalize (p :: sp'). intros l. induction l as [|(m, f) l IH]; intros k acc; [reflexivity|]. cbn [length seq combine for_in].
  destruct (d_vector (p_dirs (q_pos q)) m) as [ds| | | |]; try reflexivity. cbn [bind]. change (varfd_tensorized fnum_R far E e_mul e_1 add_args mul_args free_vars sym_eqb eval cov_factor junk la_eig pos_eqb (order k) (enum k) false q f degree ds s) with (quad_varfd fnum_R E e_1 free_vars eval cov_factor junk la_eig q f degree ds s).
  match goal with |- bind (bind ?x _) _ = _ => destruct x as [part| | | |]; try reflexivity end. cbn [bind]. match goal with |- bind (bind ?x _) _ = _ => destruct x as [r| | | |]; try reflexivity end. cbn [bind]. apply IH.
Qed.

Theorem op_either : forall far E (eval : E -> (nat -> R) -> R) e_add e_mul e_0 e_1 e_mono simplify is0 add_args mul_args free_vars sym_eqb cov_factor la_inv far8 junk la_eig op_map pos_eqb order enum,
  (forall l, far (diag_mat fnum_R l) = false) -> sympy_ok (N := fnum_R) eval e_mul e_1 add_args mul_args free_vars -> sympy_vars e_mul e_1 add_args mul_args free_vars -> (forall e, add_args e <> []) ->
  sympy_lin (N := num_R) eval e_add e_mul e_0 e_mono simplify is0 -> numpy_ok cov_factor la_inv far8 -> eig_ok la_eig ->
  (forall j i k l, Permutation (order j i k l) l) -> (forall j i l, Permutation (enum j i l) l) -> (forall p, pos_eqb p p = true) -> (forall e, sym_eqb e e = true) ->
  forall (q : quad fnum_R E) vars degree s (op op' : oper E), quad_ok q -> setting q vars s degree -> usable s (length vars) (2 * degree) -> parts_paired (kinds (p_types (q_pos q))) s degree ->
  incl (free_vars (f_sym (q_factor q))) (p_dirs (q_pos q)) -> sympy_lin_vars e_add e_mul e_0 e_1 e_mono simplify free_vars (p_dirs (q_pos q)) ->
  op' = (if sym_eqb (f_sym (q_factor q)) e_1 then op else op_map op (q_factor q)) ->
  (forall c n, In (c, n) op' -> length n = length vars /\ (OpSpec.order n <= 5)%nat /\ incl (free_vars c) (p_dirs (q_pos q))) ->
  (forall l e, op_split E e_add e_mul e_0 e_mono simplify is0 (length vars) op' = Ok l -> (exists n, In (n, e) l) \/ l = [] /\ e = e_0 ->
    drops_nothing q s degree (eval e) /\ forall t, In t (add_args e) -> parts_drop_nothing eval mul_args free_vars (quad_project fnum_R far E e_mul e_1 add_args mul_args free_vars) q s degree t) ->
  let form tensorize := discretize_op_tensorized fnum_R far E e_add e_mul e_0 e_1 e_mono simplify is0 add_args mul_args free_vars sym_eqb eval cov_factor junk la_eig op_map pos_eqb order enum tensorize q op degree s in
  exists v0, form false = Ok v0 /\
    (form true = Throw "ValueError" \/ exists v, form true = Ok v /\ v_mat v = v_mat v0 /\ v_pos v = v_pos v0 /\ v_set v = v_set v0 /\ v_degree v = v_degree v0 /\
       f_dirs (v_factor v) = f_dirs (v_factor v0) /\ forall env, eval (f_sym (v_factor v)) env = eval (f_sym (v_factor v0)) env).
Proof.
  intros far E eval e_add e_mul e_0 e_1 e_mono simplify is0 add_args mul_args free_vars sym_eqb cov_factor la_inv far8 junk la_eig op_map pos_eqb order enum Hfar OK V H0 SL NP EI Ho He Hp SR q vars degree s op op' H1 H2 H3 HP H4 SV Eop Hop Hsp form.
  pose proof H2 as (((_ & _ & P3 & _) & _) & _). subst op'. rewrite <- P3 in Hop, Hsp.
  destruct (both_op far Hfar E eval e_add e_mul e_0 e_1 e_mono simplify is0 add_args mul_args free_vars sym_eqb OK V cov_factor la_inv far8 junk NP la_eig EI op_map pos_eqb Hp order Ho enum He q vars s degree H1 H2 H3 HP H4 SR SL SV op Hop H0 Hsp)
    as (v0 & G1 & _ & [[G2 _]|(v & G2 & G3)]); exists v0; (split; [unfold form; rewrite op_false; exact G1|]); [left; exact G2|right; exists v; split; [exact G2|]].
  eapply both_equal; [exact H2|exact G3].
Qed.
Theorem op_both_ok : forall far E (eval : E -> (nat -> R) -> R) e_add e_mul e_0 e_1 e_mono simplify is0 add_args mul_args free_vars sym_eqb cov_factor la_inv far8 junk la_eig op_map pos_eqb order enum,
  (forall l, far (diag_mat fnum_R l) = false) -> sympy_ok (N := fnum_R) eval e_mul e_1 add_args mul_args free_vars -> sympy_vars e_mul e_1 add_args mul_args free_vars -> (forall e, add_args e <> []) ->
  sympy_lin (N := num_R) eval e_add e_mul e_0 e_mono simplify is0 -> numpy_ok cov_factor la_inv far8 -> eig_ok la_eig ->
  (forall j i k l, Permutation (order j i k l) l) -> (forall j i l, Permutation (enum j i l) l) -> (forall p, pos_eqb p p = true) -> (forall a b, (forall env, eval a env = eval b env) -> sym_eqb a b = true) ->
  forall (q : quad fnum_R E) vars degree s (op op' : oper E), quad_ok q -> setting q vars s degree -> usable s (length vars) (2 * degree) -> parts_paired (kinds (p_types (q_pos q))) s degree ->
  incl (free_vars (f_sym (q_factor q))) (p_dirs (q_pos q)) -> sympy_lin_vars e_add e_mul e_0 e_1 e_mono simplify free_vars (p_dirs (q_pos q)) ->
  op' = (if sym_eqb (f_sym (q_factor q)) e_1 then op else op_map op (q_factor q)) ->
  (forall c n, In (c, n) op' -> length n = length vars /\ (OpSpec.order n <= 5)%nat /\ incl (free_vars c) (p_dirs (q_pos q))) ->
  (forall l e, op_split E e_add e_mul e_0 e_mono simplify is0 (length vars) op' = Ok l -> (exists n, In (n, e) l) \/ l = [] /\ e = e_0 ->
    drops_nothing q s degree (eval e) /\ forall t, In t (add_args e) -> parts_drop_nothing eval mul_args free_vars (quad_project fnum_R far E e_mul e_1 add_args mul_args free_vars) q s degree t) ->
  one_term add_args (f_sym (q_factor q)) ->
  let form tensorize := discretize_op_tensorized fnum_R far E e_add e_mul e_0 e_1 e_mono simplify is0 add_args mul_args free_vars sym_eqb eval cov_factor junk la_eig op_map pos_eqb order enum tensorize q op degree s in
  exists v0 v, form false = Ok v0 /\ form true = Ok v /\ v_mat v = v_mat v0 /\ v_pos v = v_pos v0 /\ v_set v = v_set v0 /\ v_degree v = v_degree v0 /\
    f_dirs (v_factor v) = f_dirs (v_factor v0) /\ forall env, eval (f_sym (v_factor v)) env = eval (f_sym (v_factor v0)) env.
Proof.
  intros far E eval e_add e_mul e_0 e_1 e_mono simplify is0 add_args mul_args free_vars sym_eqb cov_factor la_inv far8 junk la_eig op_map pos_eqb order enum Hfar OK V H0 SL NP EI Ho He Hp SC q vars degree s op op' H1 H2 H3 HP H4 SV Eop Hop Hsp H5 form.
  pose proof H2 as (((_ & _ & P3 & _) & _) & _). subst op'. rewrite <- P3 in Hop, Hsp.
  destruct (both_op far Hfar E eval e_add e_mul e_0 e_1 e_mono simplify is0 add_args mul_args free_vars sym_eqb OK V cov_factor la_inv far8 junk NP la_eig EI op_map pos_eqb Hp order Ho enum He q vars s degree H1 H2 H3 HP H4 (fun e => SC e e (fun _ => eq_refl)) SL SV op Hop H0 Hsp)
    as (v0 & G1 & _ & [[_ G2]|(v & G2 & G3)]); [exfalso; apply G2; auto|]. exists v0, v. split; [unfold form; rewrite op_false; exact G1|]. split; [exact G2|]. eapply both_equal; [exact H2|exact G3].
Qed.
Theorem op_tensorized_entries : forall far E (eval : E -> (nat -> R) -> R) e_add e_mul e_0 e_1 e_mono simplify is0 add_args mul_args free_vars sym_eqb cov_factor la_inv far8 junk la_eig op_map pos_eqb order enum,
  (forall l, far (diag_mat fnum_R l) = false) -> sympy_ok (N := fnum_R) eval e_mul e_1 add_args mul_args free_vars -> sympy_vars e_mul e_1 add_args mul_args free_vars -> (forall e, add_args e <> []) ->
  sympy_lin (N := num_R) eval e_add e_mul e_0 e_mono simplify is0 -> numpy_ok cov_factor la_inv far8 -> eig_ok la_eig ->
  (forall j i k l, Permutation (order j i k l) l) -> (forall j i l, Permutation (enum j i l) l) -> (forall p, pos_eqb p p = true) -> (forall a b, (forall env, eval a env = eval b env) <-> sym_eqb a b = true) ->
  forall (q : quad fnum_R E) vars degree s env (op op' : oper E) (D : list nat -> list nat -> list R -> R), quad_ok q -> setting q vars s degree -> usable s (length vars) (2 * degree) -> parts_paired (kinds (p_types (q_pos q))) s degree ->
  incl (free_vars (f_sym (q_factor q))) (p_dirs (q_pos q)) -> sympy_lin_vars e_add e_mul e_0 e_1 e_mono simplify free_vars (p_dirs (q_pos q)) -> assigns (p_dirs (q_pos q)) env ->
  op' = (if sym_eqb (f_sym (q_factor q)) e_1 then op else op_map op (q_factor q)) ->
  (forall c n, In (c, n) op -> length n = length vars /\ (OpSpec.order n <= 5)%nat /\ incl (free_vars c) (p_dirs (q_pos q))) ->
  maps eval free_vars (p_dirs (q_pos q)) env op (q_factor q) (op_map op (q_factor q)) ->
  (forall p, In p (grid (q_nodes q)) -> eval (f_sym (q_factor q)) (env (grid_point q vars p)) <> 0) ->
  (forall l e, op_split E e_add e_mul e_0 e_mono simplify is0 (length vars) op' = Ok l -> (exists n, In (n, e) l) \/ l = [] /\ e = e_0 ->
    forall t, In t (add_args e) -> parts_drop_nothing eval mul_args free_vars (quad_project fnum_R far E e_mul e_1 add_args mul_args free_vars) q s degree t) ->
  (forall n, length n = length vars -> drops_nothing q s degree (coefficient (N := num_R) eval op' n)) ->
  one_term add_args (f_sym (q_factor q)) ->
  (forall c, index_of s (length vars) degree c -> derivatives (length vars) (fun x => eval (f_sym (q_factor q)) (env x) * psi (p_mean (q_pos q)) vars (kinds (p_types (q_pos q))) c x) (D c)) ->
  let form tensorize := discretize_op_tensorized fnum_R far E e_add e_mul e_0 e_1 e_mono simplify is0 add_args mul_args free_vars sym_eqb eval cov_factor junk la_eig op_map pos_eqb order enum tensorize q op degree s in
  exists v, form true = Ok v /\ varf_ok v (length vars) /\ v_pos v = q_pos q /\ v_set v = s /\ (forall env, eval (f_sym (v_factor v)) env = eval (f_sym (q_factor q)) env) /\ (forall m, varf_index v m <-> index_of s (length vars) degree m) /\
    forall r c, varf_index v r -> varf_index v c ->
      varf_at v r c = integral (q_nodes q) (q_weights q) (fun y => let x := located (p_mean (q_pos q)) vars y in
        phi (kinds (p_types (q_pos q))) r y * (op_value (N := num_R) eval op (fun n => D c n x) (env x) / eval (f_sym (q_factor q)) (env x))).
Proof.
  intros far E eval e_add e_mul e_0 e_1 e_mono simplify is0 add_args mul_args free_vars sym_eqb cov_factor la_inv far8 junk la_eig op_map pos_eqb order enum Hfar OK V H0 SL NP EI Ho He Hp SC q vars degree s env op op' D H1 H2 H3 HP H4 SV Hen Eop Hop Hmap Hnz Hsp Hnd H5 HD form.
  pose proof H2 as (HR & _). pose proof HR as ((P1 & P2 & P3 & P4 & P5 & P6) & Q1 & Q2 & Q3).
  assert (Hop' : forall c n, In (c, n) op' -> length n = length vars /\ (OpSpec.order n <= 5)%nat /\ incl (free_vars c) (p_dirs (q_pos q))).
  { subst op'. destruct (sym_eqb (f_sym (q_factor q)) e_1); [exact Hop|]. intros c n H. destruct (proj1 Hmap c n H) as (M1 & M2 & M3). rewrite P3 in M1. auto. }
  assert (Hwp : forall k, nth k (kinds (p_types (q_pos q))) 0%nat = 1%nat -> paired s (length vars) degree k). { pose proof (whole_paired _ _ _ HP) as HW. unfold kinds at 2 in HW. rewrite map_length, P5 in HW. exact HW. }
  destruct (op_both_ok far E eval e_add e_mul e_0 e_1 e_mono simplify is0 add_args mul_args free_vars sym_eqb cov_factor la_inv far8 junk la_eig op_map pos_eqb order enum Hfar OK V H0 SL NP EI Ho He Hp (fun a b => proj1 (SC a b)) q vars degree s op op' H1 H2 H3 HP H4 SV Eop Hop') as (v0 & v & G1 & G2 & G3 & G4 & G5 & G6 & G7 & G8).
  - intros l e Hl Hin. split; [|exact (Hsp l e Hl Hin)].
    destruct (op_split_ok num_R num_R_laws E eval e_add e_mul e_0 e_mono simplify is0 SL (length vars) op') as (l' & L1 & _ & L3 & L4 & _); [intros c n H; destruct (Hop' c n H) as (M1 & M2 & _); split; assumption|].
    rewrite L1 in Hl. injection Hl as <-. intros vars' values HR' [V1 V2]. destruct Hin as [(n & Hn)|[-> ->]].
    + destruct (L3 n e Hn) as (N1 & _ & N3). apply (Hnd n N1 vars' values HR'). split; [exact V1|]. intros k p u Hk Hu. rewrite <- N3. exact (V2 k p u Hk Hu).
    + apply (Hnd (repeat 0%nat (length vars)) (repeat_length _ _) vars' values HR'). split; [exact V1|]. intros k p u Hk Hu. rewrite (L4 _ (fun F => match F with end)). rewrite (V2 k p u Hk Hu). apply f_equal. apply (lin_0 _ _ _ _ _ _ _ _ _ SL).
  - exact H5.
  - assert (HI : increasing (p_dirs (q_pos q))) by apply H1. assert (Hfd : f_dirs (q_factor q) = p_dirs (q_pos q)) by apply H1.
    destruct (discretize_op_galerkin E free_vars eval cov_factor la_inv far8 junk e_1 la_eig NP (ok_free _ _ _ _ _ _ _ _ OK) EI e_add e_mul e_0 e_mono simplify is0 sym_eqb pos_eqb op_map SL Hp (fun e => proj1 (SC e e) (fun _ => eq_refl)) (fun a b => proj2 (SC a b)) q vars s degree env H2 Hwp
      HI Hen SV op D Hfd H4 (ok_1 _ _ _ _ _ _ _ _ OK) Hop Hmap Hnz) as (w & W1 & W2 & W3 & W4 & W5 & _ & W6 & W7); [|exact HD|].
    + intros op2 n values Hc Hn Hv. apply (Hnd n Hn vars values HR). subst op'. destruct Hc as [[-> ->]|[-> ->]]; exact Hv.
    + unfold form in G1. rewrite op_false in G1. rewrite W1 in G1. injection G1 as <-. exists v. split; [exact G2|]. split; [|split; [congruence|split; [congruence|split; [intros x; rewrite G8, W5; reflexivity|]]]].
      * unfold varf_ok in *. rewrite G3, G4, G5, G6. exact W2.
      * assert (Ei : forall m, varf_index v m <-> varf_index w m) by (intros m; unfold varf_index; rewrite G4, G5, G6; reflexivity). split; [intros m; rewrite Ei; apply W6|].
        intros r c Hr Hc. etransitivity; [|exact (W7 r c (proj1 (Ei r) Hr) (proj1 (Ei c) Hc))]. unfold varf_at, entry. rewrite G3, G4, G5, G6. reflexivity.
Qed.

(** A sample: the expressions of PyQuadSpec.v. *)
Lemma r_nsum : forall l : list R, nsum (N := fnum_R) l = fold_right Rplus 0 l.
Proof. intros l. etransitivity; [exact (nsum_rsum l)|reflexivity]. Qed.
Lemma r_sum : forall e env, r_eval e env = fold_right Rplus 0 (map (fun a => r_eval a env) (r_add_args e)).
Proof.
  intros e env. induction e as [x|d|a IHa b IHb|a IHa b IHb]; cbn [r_add_args map fold_right r_eval]; try ring. rewrite map_app, fold_right_app, IHa, IHb. clear.
  generalize (fold_right Rplus 0 (map (fun a => r_eval a env) (r_add_args b))). intros z. induction (map (fun a => r_eval a env) (r_add_args a)) as [|y l IH]; cbn [fold_right]; lra.
Qed.
Lemma r_prod : forall e env, r_eval e env = fold_right Rmult 1 (map (fun a => r_eval a env) (r_mul_args e)).
Proof.
  intros e env. induction e as [x|d|a IHa b IHb|a IHa b IHb]; cbn [r_mul_args map fold_right r_eval]; try ring. rewrite map_app, fold_right_app, IHa, IHb. clear.
  generalize (fold_right Rmult 1 (map (fun a => r_eval a env) (r_mul_args b))). intros z. induction (map (fun a => r_eval a env) (r_mul_args a)) as [|y l IH]; cbn [fold_right]; [lra|]. rewrite <- IH. ring.
Qed.
Lemma r_ok : sympy_ok (N := fnum_R) r_eval RMul (RNum 1) r_add_args r_mul_args r_free.
Proof.
  split; try reflexivity.
  - intros e env. etransitivity; [|symmetry; apply r_nsum]. exact (r_sum e env).
  - intros e env. etransitivity; [|symmetry; apply m_nprod]. exact (r_prod e env).
  - exact r_reads.
Qed.
Lemma r_vars_ok : sympy_vars RMul (RNum 1) r_add_args r_mul_args r_free.
Proof.
  split; [intros a b x Hx; apply in_app_or; exact Hx|reflexivity| |];
    intros e; induction e as [x|d|a IHa b IHb|a IHa b IHb]; intros c Hc; cbn [r_add_args r_mul_args] in Hc; try (destruct Hc as [<-|[]]; apply incl_refl);
    apply in_app_or in Hc; cbn [r_free]; destruct Hc as [Hc|Hc]; [apply incl_appl, IHa, Hc|apply incl_appr, IHb, Hc|apply incl_appl, IHa, Hc|apply incl_appr, IHb, Hc].
Qed.
Lemma r_terms : forall e, r_add_args e <> [].
Proof. induction e as [x|d|a IHa b IHb|a IHa b IHb]; cbn [r_add_args]; try discriminate. intros H. apply app_eq_nil in H. tauto. Qed.
Lemma r_same_iff : forall a b, (forall env, r_eval a env = r_eval b env) <-> r_same a b = true.
Proof.
  intros a b. unfold r_same. destruct (ClassicalDedekindReals.sig_not_dec (forall env, r_eval a env = r_eval b env)) as [H|H].
  - split; [reflexivity|]. intros _ env. destruct (Req_EM_T (r_eval a env) (r_eval b env)) as [G|G]; [exact G|]. exfalso. apply H. intros K. exact (G (K env)).
  - split; [intros G; exfalso; exact (H G)|intros G; discriminate G].
Qed.

Notation quad_23r factor := (Qd (F := fnum_R) (E := rexpr) [[-1; 1]; [-1; 1]] [[1 / 2; 1 / 2]; [1 / 2; 1 / 2]]
  (Pos (N := fnum_R) [0; 1]%nat [2; 3] [[1; 0]; [0; 1]] ["hermite"; "hermite"]%string true) (Fn factor [0; 1]%nat)).
Notation r_project := (quad_project fnum_R r_far rexpr RMul (RNum 1) r_add_args r_mul_args r_free).
Lemma quad_23r_ok : forall factor, quad_ok (quad_23r factor).
Proof.
  intros factor. unfold quad_ok, pos_ok, mat_wf. cbn [q_pos q_nodes q_weights q_factor p_dirs p_mean p_cov p_types p_is_diag f_dirs length].
  repeat match goal with |- _ /\ _ => split | |- exists n, _ => exists 2%nat end; repeat constructor; cbn; intuition discriminate.
Qed.
Lemma quad_23r_R : forall factor, quad_R (quad_23r factor) [1; 1].
Proof. exact (fun factor => quad_23_R m_1). Qed.
Lemma setting_23r : forall factor, setting (quad_23r factor) [1; 1] Triangle 1.
Proof. exact (fun factor => setting_23 m_1). Qed.
Lemma hermite_paired : forall n s degree, parts_paired (repeat 0%nat n) s degree.
Proof. intros n s degree ix k _ _ H. exfalso. unfold pick in H. assert (G : forall l k, nth k (map (fun i => nth i (repeat 0%nat n) 0%nat) l) 0%nat = 0%nat). { induction l as [|i l IH]; intros [|j]; cbn [map nth]; auto. apply nth_repeat. } rewrite G in H. discriminate H. Qed.

(** Values at the four nodes whose coefficients are 0 or not small. *)
Lemma dropped_2d_any : forall a b c d, let fair x := x = 0 \/ 1 <= x in
  fair ((a + b + c + d) / 4) -> fair ((c + d - a - b) / 4) -> fair ((b + d - a - c) / 4) -> fair ((a + d - b - c) / 4) ->
  ((a + b + c + d) / 4) * ((a + b + c + d) / 4) + ((c + d - a - b) / 4) * ((c + d - a - b) / 4) + ((b + d - a - c) / 4) * ((b + d - a - c) / 4) + ((a + d - b - c) / 4) * ((a + d - b - c) / 4) <= 100 ->
  nothing_dropped Triangle 1 [[-1; 1]; [-1; 1]] [[1/2; 1/2]; [1/2; 1/2]] [0; 0]%nat [a; b; c; d].
Proof.
  intros a b c d fair F1 F2 F3 F4 F5.
  assert (G : forall m, quadrature [[-1; 1]; [-1; 1]] [[1/2; 1/2]; [1/2; 1/2]] [a; b; c; d] (phi [0; 0]%nat m) =
    (a * phi [0; 0]%nat m [-1; -1] + b * phi [0; 0]%nat m [-1; 1] + c * phi [0; 0]%nat m [1; -1] + d * phi [0; 0]%nat m [1; 1]) / 4).
  { intros m. unfold quadrature, grid, at_pos, rsum, rprod. cbn -[phi]. field. }
  assert (P : forall a b x y, phi [0; 0]%nat [a; b] [x; y] = hermite a x * hermite b y) by (intros; unfold phi, basis, rprod; cbn -[hermite]; ring).
  assert (0 < sqrt 2) by (apply sqrt_lt_R0; lra).
  set (h := fun m => quadrature [[-1; 1]; [-1; 1]] [[1/2; 1/2]; [1/2; 1/2]] [a; b; c; d] (phi [0; 0]%nat m)).
  assert (V : h [0; 0]%nat = (a + b + c + d) / 4 /\ h [1; 0]%nat = (c + d - a - b) / 4 /\ h [0; 1]%nat = (b + d - a - c) / 4 /\ h [1; 1]%nat = (a + d - b - c) / 4 /\ h [2; 0]%nat = 0 /\ h [0; 2]%nat = 0).
  { unfold h. rewrite !G, !P. rewrite !(proj1 (hermite_small _)), !(proj1 (proj2 (hermite_small _))), !(proj2 (proj2 (hermite_small _))). repeat split; field; lra. }
  destruct V as [V1 [V2 [V3 [V4 [V5 V6]]]]].
  assert (Hp : points Triangle 2 2 = [[0;0]; [0;1]; [1;0]; [0;2]; [1;1]; [2;0]]%nat) by reflexivity.
  assert (Ff : forall x, fair x -> x = 0 \/ / 100 <= x * x) by (intros x [Hx|Hx]; [left; exact Hx|right; nra]).
  apply nothing_dropped_crit; fold h.
  - cbn [length]. change (2 * 1)%nat with 2%nat. rewrite Hp. intros m Hm. change (h m = 0 \/ / 100 <= h m * h m).
    repeat (destruct Hm as [<-|Hm]; [rewrite ?V1, ?V2, ?V3, ?V4, ?V5, ?V6; first [left; reflexivity|apply Ff; assumption]|]). destruct Hm.
  - cbn; lia.
  - exact I.
  - cbn [length]. change (2 * 1)%nat with 2%nat. rewrite Hp. cbn [map]. change (rsum [h [0;0]%nat * h [0;0]%nat; h [0;1]%nat * h [0;1]%nat; h [1;0]%nat * h [1;0]%nat; h [0;2]%nat * h [0;2]%nat; h [1;1]%nat * h [1;1]%nat; h [2;0]%nat * h [2;0]%nat] <= 100).
    rewrite V1, V2, V3, V4, V5, V6. unfold rsum. cbn [fold_right]. lra.
Qed.
Lemma dropped_1d_any : forall a b, let fair x := x = 0 \/ 1 <= x <= 6 in fair ((a + b) / 2) -> fair ((b - a) / 2) -> nothing_dropped Triangle 1 [[-1; 1]] [[1/2; 1/2]] [0]%nat [a; b].
Proof.
  intros a b fair H1 H2. destruct (gauss2_1d a b) as [G0 [G1 G2]].
  assert (Hp : points Triangle 1 2 = [[0]; [1]; [2]]%nat) by reflexivity.
  assert (Ff : forall x, fair x -> x = 0 \/ / 100 <= x * x) by (intros x [Hx|Hx]; [left; exact Hx|right; nra]).
  apply nothing_dropped_crit.
  - cbn [length]. change (2 * 1)%nat with 2%nat. rewrite Hp. intros m [<-|[<-|[<-|[]]]]; [rewrite G0; auto|rewrite G1; auto|left; exact G2].
  - cbn; lia.
  - exact I.
  - cbn [length]. change (2 * 1)%nat with 2%nat. rewrite Hp. cbn [map]. rewrite G0, G1, G2. unfold rsum. cbn [fold_right]. destruct H1 as [-> | H1], H2 as [-> | H2]; nra.
Qed.
Lemma r_part : forall c g a, let q := quad_23r (RNum c) in increasing g -> g <> [] -> incl g [0; 1]%nat -> r_project q g = Ok a ->
  let ix := idx [0; 1]%nat g in
  p_dirs (q_pos a) = g /\ q_nodes a = pick [] (q_nodes q) ix /\ q_weights a = pick [] (q_weights q) ix /\ p_mean (q_pos a) = pick 0 [2; 3] ix /\ p_types (q_pos a) = pick ""%string ["hermite"; "hermite"]%string ix /\ quad_R a (pick 0 [1; 1] ix).
Proof.
  intros c g a q Hi Hn Hg Ha ix.
  destruct (quad_project_ok fnum_R num_R_laws r_far (fun _ => eq_refl) rexpr r_eval RMul (RNum 1) r_add_args r_mul_args r_free r_ok r_vars_ok q (RNum c) 0%nat [1]%nat g (quad_23r_ok _) eq_refl) as (a' & e & A1 & A2 & A3 & _ & _ & _ & A4 & A5).
  { apply incl_nil_l. } { reflexivity. } { exact Hi. } { exact Hn. } { exact Hg. }
  { cbn [r_mul_args]. intros b [<-|[]] [(x & Hx & _) _]. exact Hx. }
  rewrite Ha in A1. injection A1 as <-.
  destruct (part_R r_far rexpr RMul (RNum 1) r_add_args r_mul_args r_free q [1; 1] g a (quad_23r_ok _) (quad_23r_R _) Ha A2 A3 Hi Hn Hg A4 A5) as (B1 & B2 & B3 & B4 & B5 & _). auto 8.
Qed.
Lemma values_2r : forall E (q : quad fnum_R E) vars values g, q_nodes q = [[-1; 1]] -> grid_values q vars values g -> forall u w,
  at_point (p_dirs (q_pos q)) (located (p_mean (q_pos q)) vars [-1]) u -> at_point (p_dirs (q_pos q)) (located (p_mean (q_pos q)) vars [1]) w -> values = [g u; g w].
Proof.
  intros E q vars values g Hn [L G] u w Hu Hw. unfold grid_point in G. rewrite Hn in L, G.
  pose proof (G 0%nat [0]%nat u eq_refl Hu) as G0. pose proof (G 1%nat [1]%nat w eq_refl Hw) as G1. destruct values as [|a [|b [|c values]]]; try discriminate L. cbn in G0, G1. congruence.
Qed.
Lemma values_4r : forall E (q : quad fnum_R E) vars values g, q_nodes q = [[-1; 1]; [-1; 1]] -> grid_values q vars values g -> forall e1 e2 e3 e4,
  let here x y e := at_point (p_dirs (q_pos q)) (located (p_mean (q_pos q)) vars [x; y]) e in here (-1) (-1) e1 -> here (-1) 1 e2 -> here 1 (-1) e3 -> here 1 1 e4 -> values = [g e1; g e2; g e3; g e4].
Proof.
  intros E q vars values g Hn [L G] e1 e2 e3 e4 here H1 H2 H3 H4. unfold grid_point in G. rewrite Hn in L, G.
  pose proof (G 0%nat [0; 0]%nat e1 eq_refl H1) as G1. pose proof (G 1%nat [0; 1]%nat e2 eq_refl H2) as G2. pose proof (G 2%nat [1; 0]%nat e3 eq_refl H3) as G3. pose proof (G 3%nat [1; 1]%nat e4 eq_refl H4) as G4.
  destruct values as [|a [|b [|c [|d [|? values]]]]]; try discriminate L. cbn in G1, G2, G3, G4. congruence.
Qed.
Lemma parts_23r : forall c t, let g dirs := product (N := fnum_R) r_eval (filter (inside r_free dirs) (r_mul_args t)) in
  nothing_dropped Triangle 1 [[-1; 1]] [[1/2; 1/2]] [0]%nat [g [0]%nat (at_xy 1 0); g [0]%nat (at_xy 3 0)] ->
  nothing_dropped Triangle 1 [[-1; 1]] [[1/2; 1/2]] [0]%nat [g [1]%nat (at_xy 0 2); g [1]%nat (at_xy 0 4)] ->
  nothing_dropped Triangle 1 [[-1; 1]; [-1; 1]] [[1/2; 1/2]; [1/2; 1/2]] [0; 0]%nat [g [0; 1]%nat (at_xy 1 2); g [0; 1]%nat (at_xy 1 4); g [0; 1]%nat (at_xy 3 2); g [0; 1]%nat (at_xy 3 4)] ->
  parts_drop_nothing r_eval r_mul_args r_free r_project (quad_23r (RNum c)) Triangle 1 t.
Proof.
  intros c t g N1 N2 N3 dirs part Hi Hn Hs Ha.
  destruct (r_part c dirs part Hi Hn Hs Ha) as (A1 & A2 & A3 & A4 & A5 & A6). intros vars values HR Hv.
  pose proof (gaussian_unique _ _ _ _ A6 HR) as Ev. subst vars. fold (g dirs) in Hv.
  destruct (increasing_sub2 dirs Hi Hn Hs) as [->|[->| ->]]; rewrite A2, A3, A5; match type of A2 with _ = ?x => let y := eval cbn in x in change x with y in A2 end; match type of A4 with _ = ?x => let y := eval cbn in x in change x with y in A4 end;
    match goal with |- nothing_dropped _ _ ?a ?b ?c _ => let a' := eval cbn in a in let b' := eval cbn in b in let c' := eval cbn in c in change a with a'; change b with b'; change c with c' end.
  - rewrite (values_2r _ part _ values _ A2 Hv (at_xy 1 0) (at_xy 3 0)); [exact N1|rewrite A1, A4; apply at_1; cbn; lra|rewrite A1, A4; apply at_1; cbn; lra].
  - rewrite (values_2r _ part _ values _ A2 Hv (at_xy 0 2) (at_xy 0 4)); [exact N2|rewrite A1, A4; apply at_1; cbn; lra|rewrite A1, A4; apply at_1; cbn; lra].
  - rewrite (values_4r _ part _ values _ A2 Hv (at_xy 1 2) (at_xy 1 4) (at_xy 3 2) (at_xy 3 4)); [exact N3|..]; rewrite A1, A4; apply at_2; cbn; lra.
Qed.
Lemma whole_23r : forall factor g, nothing_dropped Triangle 1 [[-1; 1]; [-1; 1]] [[1/2; 1/2]; [1/2; 1/2]] [0; 0]%nat [g (at_xy 1 2); g (at_xy 1 4); g (at_xy 3 2); g (at_xy 3 4)] ->
  drops_nothing (quad_23r factor) Triangle 1 g.
Proof.
  intros factor g N vars values HR Hv. pose proof (gaussian_unique _ _ _ _ (quad_23r_R factor) HR) as Ev. subst vars.
  rewrite (values_4r _ (quad_23r factor) _ values _ eq_refl Hv (at_xy 1 2) (at_xy 1 4) (at_xy 3 2) (at_xy 3 4)); [exact N|..]; cbn [q_pos p_dirs p_mean]; apply at_2; cbn; lra.
Qed.
(** Derivatives of a multiple. *)
Lemma deriv_scal : forall dim a ks f g, deriv_along dim ks f g -> deriv_along dim ks (fun x => a * f x) (fun x => a * g x).
Proof.
  intros dim a. induction ks as [|k ks IH]; intros f g H; cbn [deriv_along] in *.
  - intros x Hx. rewrite (H x Hx). reflexivity.
  - destruct H as (h & H1 & H2). exists (fun x => a * h x). split; [apply IH; exact H1|]. intros x Hx. apply derivable_pt_lim_scal with (f := fun t => h (with_entry x k t)). apply H2. exact Hx.
Qed.
Lemma const_maps : forall dirs env c op, c <> 0 -> (forall e n, In (e, n) op -> length n = length dirs /\ (OpSpec.order n <= 5)%nat /\ incl (r_free e) dirs) ->
  forall vars : list R, length vars = length dirs -> maps r_eval r_free dirs env op (Fn (RNum c) dirs) op.
Proof.
  intros dirs env c op Hc Hop vars Lv. split; [exact Hop|]. intros f D D' x HD HD' Hx _. cbn [f_sym r_eval] in *. unfold op_value. rewrite !nsum_rsum.
  assert (G : forall e n, In (e, n) op -> D' n x = c * D n x).
  { intros e n Hn. destruct (Hop e n Hn) as (N1 & N2 & _). refine (deriv_unique vars (coordinates n) (fun x => c * f x) (fun x => c * f x) (D' n) (fun x => c * D n x) _ (fun _ _ => eq_refl) _ _ x _); [|rewrite Lv; exact (HD' n N1 N2)|rewrite Lv; apply deriv_scal; exact (HD n N1 N2)|rewrite Lv; exact Hx].
    apply Forall_forall. intros k Hk. apply coordinates_lt in Hk. rewrite Lv, <- N1. exact Hk. }
  clear - G Hc. induction op as [|(e, n) op IH]; cbn [map]; [unfold rsum; cbn; field; exact Hc|]. rewrite !rsum_cons, IH by (intros e' n' H; apply (G e' n'); right; exact H). rewrite (G e n (or_introl eq_refl)). cbn [nmul num_R]. match goal with |- @eq _ ?a ?b => change (@eq R a b) end. field. exact Hc.
Qed.
(** The function xy + x, and the operator xy d/dy. *)
Ltac fair_2d := apply dropped_2d_any; unfold product, nprod; cbn; try lra; first [left; lra|right; lra].
Ltac fair_1d := apply dropped_1d_any; unfold product, nprod; cbn; first [left; lra|right; lra].
Notation f_ex := (Fn (RAdd (RMul (RVar 0) (RVar 1)) (RVar 0)) [0; 1]%nat).
Notation op_ex := [(RMul (RVar 0) (RVar 1), [0; 1]%nat)].
Lemma f_ex_parts : forall t, In t (r_add_args (f_sym f_ex)) -> parts_drop_nothing r_eval r_mul_args r_free r_project (quad_23r (RNum 2)) Triangle 1 t.
Proof. intros t [<-|[<-|[]]]; apply parts_23r; first [fair_1d|fair_2d]. Qed.
Lemma f_ex_whole : drops_nothing (quad_23r (RNum 2)) Triangle 1 (r_eval (f_sym f_ex)).
Proof. apply whole_23r. fair_2d. Qed.
Lemma f_ex_values : grid_values (quad_23r (RNum 2)) [1; 1] [3; 5; 9; 15] (r_eval (f_sym f_ex)).
Proof.
  split; [reflexivity|]. intros k p env Hk Hp. pose proof (Hp 0%nat 0%nat eq_refl) as H0. pose proof (Hp 1%nat 1%nat eq_refl) as H1. cbn in Hk.
  destruct k as [|[|[|[|k]]]]; cbn in Hk; [..|destruct k; discriminate Hk]; injection Hk as <-; cbn -[sqrt] in H0, H1; rewrite sqrt_1 in H0, H1; injection H0 as H0; injection H1 as H1; cbn; f_equal; rewrite <- H0, <- H1; lra.
Qed.
Lemma op_ex_ok : forall c n, In (c, n) op_ex -> length n = 2%nat /\ (OpSpec.order n <= 5)%nat /\ incl (r_free c) [0; 1]%nat.
Proof. intros c n [H|[]]. injection H as <- <-. split; [reflexivity|]. split; [cbn; lia|apply incl_refl]. Qed.
Lemma op_ex_run : op_split rexpr RAdd RMul (RNum 0) (r_mono [0; 1]%nat) (fun e => e) r_is0 2 op_ex = Ok [([0; 1]%nat, RAdd (RNum 0) (RMul (RMul (RVar 0) (RVar 1)) (RNum 1)))].
Proof.
  unfold op_split. change (mults 2) with ([0; 0] :: [0; 1] :: skipn 2 (mults 2))%nat. cbn [split_loop sweep fold_left subs_test leb_all Nat.leb andb app r_is0]. destruct (Req_EM_T 0 0) as [_|G]; [|exfalso; apply G; reflexivity].
  cbn. destruct (mults 2) as [|a [|b l]]; reflexivity.
Qed.
Lemma op_ex_split : forall l e, op_split rexpr RAdd RMul (RNum 0) (r_mono [0; 1]%nat) (fun e => e) r_is0 2 op_ex = Ok l -> (exists n, In (n, e) l) \/ l = [] /\ e = RNum 0 ->
  drops_nothing (quad_23r (RNum 2)) Triangle 1 (r_eval e) /\ forall t, In t (r_add_args e) -> parts_drop_nothing r_eval r_mul_args r_free r_project (quad_23r (RNum 2)) Triangle 1 t.
Proof.
  intros l e Hl He. rewrite op_ex_run in Hl. injection Hl as <-. destruct He as [(n & [He|[]])|[He _]]; [|discriminate He]. injection He as _ <-. split; [apply whole_23r; fair_2d|].
  intros t [<-|[<-|[]]]; apply parts_23r; first [fair_1d|fair_2d].
Qed.
Lemma op_ex_coefficients : forall n, length n = 2%nat -> drops_nothing (quad_23r (RNum 2)) Triangle 1 (coefficient (N := num_R) r_eval op_ex n).
Proof.
  intros n Hn. apply whole_23r. unfold coefficient. cbn [filter]. match goal with |- context [if ?b then _ else _] => destruct b end; unfold nsum; cbn [map fold_left fst r_eval n0 nadd num_R at_xy]; apply dropped_2d_any; try lra; first [left; lra|right; lra].
Qed.
Definition D_ex (c n : list nat) (x : list R) : R := 2 * (fst (dpsi [1; 1] [0; 0]%nat (coordinates n) c) * psi [2; 3] [1; 1] [0; 0]%nat (snd (dpsi [1; 1] [0; 0]%nat (coordinates n) c)) x).
Lemma D_ex_derivatives : forall c, index_of Triangle 2 1 c -> derivatives 2 (fun x => 2 * psi [2; 3] [1; 1] [0; 0]%nat c x) (D_ex c).
Proof.
  intros c [Hc _] n Hn Ho. apply deriv_scal. refine (deriv_psi [2; 3] [1; 1] [0; 0]%nat eq_refl eq_refl _ (coordinates n) c _ Hc); [repeat constructor; lra|].
  apply Forall_forall. intros k Hk. apply coordinates_lt in Hk. rewrite Hn in Hk. exact Hk.
Qed.
Lemma psi_01 : deriv_along 2 [1]%nat (psi [2; 3] [1; 1] [0; 0]%nat [0; 1]%nat) (fun _ => 1).
Proof.
  exists (psi [2; 3] [1; 1] [0; 0]%nat [0; 1]%nat). split; [intros x _; reflexivity|]. intros x Hx. destruct x as [|a [|b [|]]]; try discriminate Hx.
  apply (derivable_pt_lim_ext (fun t => t - 3)).
  - intros t. unfold psi, standardised, with_entry, phi, basis, rprod. cbn -[hermite sqrt]. rewrite hermite_0, hermite_1, sqrt_1. field.
  - replace 1 with (1 - 0) by ring. apply (derivable_pt_lim_minus (fun t => t) (fun _ => 3)); [apply derivable_pt_lim_id|apply derivable_pt_lim_const].
Qed.
