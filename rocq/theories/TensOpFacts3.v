(** Quad.discretize_op with tensorization. *)
From Coq Require Import String List Bool Arith ZArith Lia Sorted Permutation Reals Lra.
From Verif Require Import Base Lists IndexModel Spec Grid Num LinModel LinSpec LinBase MatBase Dirs Degree Facts2 Facts3 PyBase PosModel PosSpec PosFacts SeriesModel SeriesSpec SeriesFacts SeriesFacts3 PartModel PartSpec PartFacts
  SplitModel SplitSpec SplitFacts MulModel MulSpec MulFacts OpModel OpSpec OpFacts Fnum CalcModel CalcSpec CalcReal CalcQuad CalcVarf2 CalcTensor Facts6 Facts7 Facts8 PyQuadModel PyQuadSpec PyQuadFacts PyQuadFacts2 OpQuadModel OpQuadSpec OpQuadFacts
  TensQuadModel TensQuadSpec TensQuadFacts TensQuadFacts2 TensQuadFacts3 TensVarfModel TensVarfSpec TensVarfFacts TensVarfFacts2 TensOpModel TensOpSpec TensOpFacts TensOpFacts2.
Import ListNotations.
Local Open Scope string_scope. Local Open Scope list_scope. Local Open Scope nat_scope.

Section Op.
Variable far : list (list R) -> bool.
Hypothesis far_ok : forall l, far (diag_mat fnum_R l) = false.
Variable E : Type.
Variable eval : E -> (nat -> R) -> R.
Variable e_add e_mul : E -> E -> E.
Variable e_0 e_1 : E.
Variable e_mono : list nat -> E.
Variable simplify : E -> E.
Variable is0 : E -> bool.
Variable add_args mul_args : E -> list E.
Variable free_vars : E -> list nat.
Variable sym_eqb : E -> E -> bool.
Hypothesis OK : sympy_ok (N := fnum_R) eval e_mul e_1 add_args mul_args free_vars.
Hypothesis V : sympy_vars e_mul e_1 add_args mul_args free_vars.
Variable cov_factor : list (list R) -> list (list R).
Variable la_inv : list (list R) -> res (list (list R)).
Variable far8 : list (list R) -> bool.
Variable junk : R.
Hypothesis NP : numpy_ok cov_factor la_inv far8.
Variable la_eig : list (list R) -> list R.
Hypothesis EI : eig_ok la_eig.
Variable op_map : oper E -> func E -> oper E.
Variable pos_eqb : position fnum_R -> position fnum_R -> bool.
Hypothesis pos_refl : forall p, pos_eqb p p = true.
Variable order : nat -> nat -> nat -> list fset -> list fset.
Hypothesis order_perm : forall j i k l, Permutation (order j i k l) l.
Variable enum : nat -> nat -> list fset -> list fset.
Hypothesis enum_perm : forall j i l, Permutation (enum j i l) l.
Notation quad := (quad fnum_R E).
Notation varf := (SeriesModel.varf fnum_R E).
Notation von := (TensVarfFacts2.von E free_vars).
Notation project := (quad_project fnum_R far E e_mul e_1 add_args mul_args free_vars).
Notation direct := (quad_discretize_op fnum_R E e_add e_mul e_0 e_1 e_mono simplify is0 free_vars eval sym_eqb pos_eqb cov_factor junk la_eig op_map).
Notation tens := (discretize_op_tensorized fnum_R far E e_add e_mul e_0 e_1 e_mono simplify is0 add_args mul_args free_vars sym_eqb eval cov_factor junk la_eig op_map pos_eqb order enum).
Notation varfd0 := (quad_varfd fnum_R E e_1 free_vars eval cov_factor junk la_eig).
Notation varfd1 i := (varfd_tensorized fnum_R far E e_mul e_1 add_args mul_args free_vars sym_eqb eval cov_factor junk la_eig pos_eqb (order i) (enum i) true).
Notation plus := (varf_add fnum_R E sym_eqb e_1 pos_eqb).
Notation plus0 := (varf_add_num fnum_R E e_1 n0).

Lemma vnum_on : forall (v : varf) d s degree, von v d s degree -> exists h, plus0 v = Ok h /\ von h d s degree /\ v_pos h = v_pos v /\ v_factor h = v_factor v /\
  forall r c, index_of s (length d) degree r -> index_of s (length d) degree c -> varf_at h r c = varf_at v r c.
Proof using.
  intros v d s degree ((F1 & F2 & F3 & F4 & F5 & F6 & F7) & F8 & F9 & F10). unfold varf_add_num. destruct F1 as (V0 & V1).
  destruct (vrebuild fnum_R E e_1 (mat_plus fnum_R (v_mat v) 0%R) (v_pos v) (v_factor v) (v_set v) (length d) (v_degree v) V0 (mat_for_map _ _ _ (fun a => a + 0)%R _ V1)) as (u & U1 & U2 & U3 & U4 & U5 & U6 & U7 & U8).
  exists u. split; [exact U1|]. split; [|split; [exact U3|split; [exact U5|]]].
  - split; [|split; [rewrite U3; exact F8|split; [congruence|rewrite U6, F9, F10; apply recovered_twice]]]. split; [exact U2|]. rewrite U3, U5. auto 8.
  - intros r c Hr Hc. rewrite U8. etransitivity; [exact (entry_map (v_set v) (length d) (v_degree v) (fun a => a + 0)%R (v_mat v) r c (Rplus_0_r 0))|]. etransitivity; [apply Rplus_0_r|]. unfold varf_at. rewrite F2. reflexivity.
Qed.

Section Run.
Variables (q : quad) (vars : list R) (s : iset) (degree : nat).
Hypothesis Hq : quad_ok q.
Hypothesis HS : setting q vars s degree.
Hypothesis Hu2 : usable s (length vars) (2 * degree).
Hypothesis HPP : parts_paired (kinds (p_types (q_pos q))) s degree.
Hypothesis Hfv : incl (free_vars (f_sym (q_factor q))) (p_dirs (q_pos q)).
Hypothesis SR : forall e, sym_eqb e e = true.
Let D := p_dirs (q_pos q).
Let bad : Prop := ~ (one_term add_args (f_sym (q_factor q)) /\ forall a b, (forall env, eval a env = eval b env) -> sym_eqb a b = true).

(** The two forms, the direct one first. *)
Definition both (v0 v : varf) : Prop :=
  von v0 D s degree /\ von v D s degree /\ v_pos v0 = q_pos q /\ v_pos v = q_pos q /\ v_factor v0 = q_factor q /\ (forall env, eval (f_sym (v_factor v)) env = eval (f_sym (q_factor q)) env) /\
  forall r c, index_of s (length D) degree r -> index_of s (length D) degree c -> varf_at v r c = varf_at v0 r c.
Definition one0 (v0 : varf) : Prop := von v0 D s degree /\ v_pos v0 = q_pos q /\ v_factor v0 = q_factor q.
Definition fine (e : E) : Prop := incl (free_vars e) D /\ add_args e <> [] /\ drops_nothing q s degree (eval e) /\ forall t, In t (add_args e) -> parts_drop_nothing eval mul_args free_vars project q s degree t.

Lemma both_varfd : forall i e directions, fine e ->
  exists v0, varfd0 q (Fn e D) degree directions s = Ok v0 /\ one0 v0 /\ (varfd1 i q (Fn e D) degree directions s = Throw "ValueError" /\ bad \/ exists v, varfd1 i q (Fn e D) degree directions s = Ok v /\ both v0 v).
Proof using far_ok OK V NP EI pos_refl order_perm enum_perm Hq HS Hu2 HPP Hfv.
  intros i e directions (H1 & H2 & H3 & H4). pose proof HS as (HR & _). pose proof HR as ((R1 & R2 & R3 & R4 & R5 & R6) & R7 & R8 & R9).
  destruct (direct_varfd E eval e_mul e_1 add_args mul_args free_vars OK cov_factor la_inv far8 junk NP la_eig EI directions q vars (Fn e D) degree s) as (v0 & A1 & A2 & A3 & A4 & A5); try assumption; try apply Hq; try reflexivity.
  { pose proof (whole_paired _ _ _ HPP) as HW. unfold kinds at 2 in HW. rewrite map_length, R5 in HW. exact HW. } { exact (ex_intro _ vars R1). }
  exists v0. split; [exact A1|]. split; [exact (conj A2 (conj A3 A4))|].
  destruct (varfd_galerkin_tensorized far far_ok E eval e_mul e_1 add_args mul_args free_vars sym_eqb OK V cov_factor la_inv far8 junk NP la_eig EI directions (order i) (order_perm i) (enum i) (enum_perm i) pos_eqb pos_refl q vars (Fn e D) degree s Hq HS Hu2 HPP Hfv eq_refl H1 H2 H4)
    as [[B1 B2]|(v & B1 & B2 & B3 & B4 & B5)]; [left|right].
  - split; [exact B1|]. intros [C1 C2]. apply B2. split; [exact C1|right; exact C2].
  - exists v. split; [exact B1|]. repeat (split; [assumption|]). assert (LD : length D = length vars) by exact R3. intros r c Hr Hc. rewrite LD in Hr, Hc. exact (eq_trans (B5 r c Hr Hc) (eq_sym (A5 r c Hr Hc))).
Qed.
Lemma both_varf : forall i e, fine e ->
  exists v0, quad_varf_fun fnum_R E e_1 free_vars eval cov_factor junk q (Fn e D) degree s = Ok v0 /\ one0 v0 /\
   (varf_tensorized fnum_R far E e_mul e_1 add_args mul_args free_vars sym_eqb eval (order i) (enum i) cov_factor junk pos_eqb true q (Fn e D) degree s = Throw "ValueError" /\ bad \/
    exists v, varf_tensorized fnum_R far E e_mul e_1 add_args mul_args free_vars sym_eqb eval (order i) (enum i) cov_factor junk pos_eqb true q (Fn e D) degree s = Ok v /\ both v0 v).
Proof using far_ok OK V NP pos_refl order_perm enum_perm Hq HS Hu2 Hfv.
  intros i e (H1 & H2 & H3 & H4). pose proof HS as (HR & _). pose proof HR as ((R1 & R2 & R3 & R4 & R5 & R6) & R7 & R8 & R9).
  destruct (direct_varf E eval e_mul e_1 add_args mul_args free_vars OK cov_factor la_inv far8 junk NP q vars (Fn e D) degree s) as (v0 & A1 & A2 & A3 & A4 & A5); try assumption; try apply Hq; try reflexivity; [exact (ex_intro _ vars R1)|].
  exists v0. split; [exact A1|]. split; [exact (conj A2 (conj A3 A4))|].
  destruct (varf_galerkin_tensorized far far_ok E eval e_mul e_1 add_args mul_args free_vars sym_eqb OK V cov_factor la_inv far8 junk NP (order i) (order_perm i) (enum i) (enum_perm i) pos_eqb pos_refl q vars (Fn e D) degree s Hq HS Hu2 Hfv eq_refl H1 H2 H4)
    as [[B1 B2]|(v & B1 & B2 & B3 & B4 & B5)]; [left|right].
  - split; [exact B1|]. intros [C1 C2]. apply B2. split; [exact C1|right; exact C2].
  - exists v. split; [exact B1|]. repeat (split; [assumption|]). assert (LD : length D = length vars) by exact R3. intros r c Hr Hc. rewrite LD in Hr, Hc. exact (eq_trans (B5 r c Hr Hc) (eq_sym (A5 r c Hr Hc))).
Qed.

Lemma both_plus0 : forall v0 v, both v0 v -> exists h0 h, plus0 v0 = Ok h0 /\ plus0 v = Ok h /\ both h0 h.
Proof using.
  intros v0 v (A1 & A2 & A3 & A4 & A5 & A6 & A7). destruct (vnum_on v0 D s degree A1) as (h0 & B1 & B2 & B3 & B4 & B5). destruct (vnum_on v D s degree A2) as (h & C1 & C2 & C3 & C4 & C5).
  exists h0, h. split; [exact B1|]. split; [exact C1|]. split; [exact B2|]. split; [exact C2|]. split; [congruence|]. split; [congruence|]. split; [congruence|]. split; [intros env; rewrite C4; apply A6|].
  intros r c Hr Hc. rewrite (B5 r c Hr Hc), (C5 r c Hr Hc). apply A7; assumption.
Qed.
Lemma both_plus : forall v0 v w0 w, both v0 v -> both w0 w -> exists h0, plus v0 w0 = Ok h0 /\ (plus v w = Throw "ValueError" /\ bad \/ exists h, plus v w = Ok h /\ both h0 h).
Proof using pos_refl SR.
  intros v0 v w0 w (A1 & A2 & A3 & A4 & A5 & A6 & A7) (B1 & B2 & B3 & B4 & B5 & B6 & B7).
  destruct (vadd_on E e_1 free_vars sym_eqb pos_eqb pos_refl v0 w0 D s degree A1 B1) as [G _]; [congruence|]. destruct G as (h0 & G1 & G2 & G3 & G4 & G5); [rewrite A5, B5; apply SR|]. exists h0. split; [exact G1|].
  destruct (vadd_on E e_1 free_vars sym_eqb pos_eqb pos_refl v w D s degree A2 B2) as [K1 K2]; [congruence|]. destruct (sym_eqb (f_sym (v_factor v)) (f_sym (v_factor w))) eqn:Es; [right|left].
  - destruct (K1 eq_refl) as (h & L1 & L2 & L3 & L4 & L5). exists h. split; [exact L1|]. split; [exact G2|]. split; [exact L2|]. split; [congruence|]. split; [congruence|]. split; [congruence|]. split; [intros env; rewrite L4; apply A6|].
    intros r c Hr Hc. rewrite (G5 r c Hr Hc), (L5 r c Hr Hc). exact (f_equal2 Rplus (A7 r c Hr Hc) (B7 r c Hr Hc)).
  - split; [exact (K2 eq_refl)|]. intros [_ C]. rewrite (C (f_sym (v_factor v)) (f_sym (v_factor w))) in Es; [discriminate Es|]. intros env. rewrite A6, B6. reflexivity.
Qed.

Notation step0 := (fun '(m, coeff) acc => ds <- d_vector D m ;; part <- varfd0 q coeff degree ds s ;; r <- match acc with None => plus0 part | Some v => plus v part end ;; Ok (Some r)).
Notation step1 := (fun '(i, (m, coeff)) acc => ds <- d_vector D m ;; part <- varfd1 i q coeff degree ds s ;; r <- match acc with None => plus0 part | Some v => plus v part end ;; Ok (Some r)).

Lemma direct_loop : forall l v0, one0 v0 -> (forall n e, In (n, e) l -> length n = length D /\ fine e) -> exists h0, for_in step0 (map (fun '(n, e) => (n, Fn e D)) l) (Some v0) = Ok (Some h0) /\ one0 h0.
Proof using far_ok OK V NP EI pos_refl order_perm enum_perm Hq HS Hu2 HPP Hfv SR.
  induction l as [|(n, e) l IH]; intros v0 Hv Hl; cbn [map for_in]; [exists v0; split; [reflexivity|exact Hv]|].
  destruct (Hl n e (or_introl eq_refl)) as [M1 M2]. destruct (d_vector_ok D n M1) as (ds & D1 & _). rewrite D1. cbn [bind]. destruct (both_varfd 0 e ds M2) as (x0 & X1 & (X2 & X3 & X4) & _). rewrite X1. cbn [bind].
  destruct Hv as (Y1 & Y2 & Y3). destruct (vadd_on E e_1 free_vars sym_eqb pos_eqb pos_refl v0 x0 D s degree Y1 X2) as [G _]; [congruence|]. destruct G as (h0 & G1 & G2 & G3 & G4 & G5); [rewrite X4, Y3; apply SR|]. rewrite G1. cbn [bind].
  apply IH; [|intros a b Hab; apply Hl; right; exact Hab]. split; [exact G2|]. split; congruence.
Qed.
Lemma both_one0 : forall v0 v, both v0 v -> one0 v0.
Proof using. intros v0 v (A1 & A2 & A3 & A4 & A5 & _). exact (conj A1 (conj A3 A5)). Qed.
Lemma both_loop : forall l k v0 v, both v0 v -> (forall n e, In (n, e) l -> length n = length D /\ fine e) ->
  exists h0, for_in step0 (map (fun '(n, e) => (n, Fn e D)) l) (Some v0) = Ok (Some h0) /\
   (for_in step1 (combine (seq k (length l)) (map (fun '(n, e) => (n, Fn e D)) l)) (Some v) = Throw "ValueError" /\ bad \/
    exists h, for_in step1 (combine (seq k (length l)) (map (fun '(n, e) => (n, Fn e D)) l)) (Some v) = Ok (Some h) /\ both h0 h).
Proof using far_ok OK V NP EI pos_refl order_perm enum_perm Hq HS Hu2 HPP Hfv SR.
  induction l as [|(n, e) l IH]; intros k v0 v Hb Hl.
  - exists v0. split; [reflexivity|]. right. exists v. split; [reflexivity|exact Hb].
  - destruct (Hl n e (or_introl eq_refl)) as [L1 L2]. destruct (d_vector_ok D n L1) as (ds & D1 & _).
    destruct (both_varfd k e ds L2) as (w0 & W1 & W0 & W2).
    assert (Bad : forall acc, step1 (k, (n, Fn e D)) (Some v) = Throw "ValueError" -> bad -> acc = for_in step1 (combine (seq k (length ((n, e) :: l))) (map (fun '(n, e) => (n, Fn e D)) ((n, e) :: l))) (Some v) ->
      exists h0, for_in step0 (map (fun '(n, e) => (n, Fn e D)) ((n, e) :: l)) (Some v0) = Ok (Some h0) /\ (acc = Throw "ValueError" /\ bad \/ exists h, acc = Ok (Some h) /\ both h0 h)).
    { intros acc Ht Hbad ->. destruct (direct_loop ((n, e) :: l) v0 (both_one0 _ _ Hb) Hl) as (h0 & G & _). exists h0. split; [exact G|]. left. split; [|exact Hbad]. cbn [length seq map combine for_in]. cbn beta iota in Ht. rewrite Ht. reflexivity. }
    destruct W2 as [[W2 Hbad]|(w & W2 & W3)].
    + apply Bad; [|exact Hbad|reflexivity]. cbn beta iota. rewrite D1. cbn [bind]. rewrite W2. reflexivity.
    + destruct (both_plus v0 v w0 w Hb W3) as (x0 & X1 & [[X2 Hbad]|(x & X2 & X3)]).
      * apply Bad; [|exact Hbad|reflexivity]. cbn beta iota. rewrite D1. cbn [bind]. rewrite W2. cbn [bind]. rewrite X2. reflexivity.
      * cbn [length seq map combine for_in]. rewrite D1. cbn [bind]. rewrite W1, W2. cbn [bind]. rewrite X1, X2. cbn [bind]. apply IH; [exact X3|intros a b Hab; apply Hl; right; exact Hab].
Qed.

Hypothesis SL : sympy_lin (N := num_R) eval e_add e_mul e_0 e_mono simplify is0.
Hypothesis SV : sympy_lin_vars e_add e_mul e_0 e_1 e_mono simplify free_vars D.
Variable op : oper E.
Let op' := if sym_eqb (f_sym (q_factor q)) e_1 then op else op_map op (q_factor q).
Hypothesis Hop : forall c n, In (c, n) op' -> length n = length D /\ OpSpec.order n <= 5 /\ incl (free_vars c) D.
Hypothesis H0 : forall e, add_args e <> [].
Hypothesis Hsplit : forall l e, op_split E e_add e_mul e_0 e_mono simplify is0 (length D) op' = Ok l -> (exists n, In (n, e) l) \/ l = [] /\ e = e_0 ->
  drops_nothing q s degree (eval e) /\ forall t, In t (add_args e) -> parts_drop_nothing eval mul_args free_vars project q s degree t.

Lemma both_op : exists v0, direct q op degree s = Ok v0 /\ one0 v0 /\ (tens true q op degree s = Throw "ValueError" /\ bad \/ exists v, tens true q op degree s = Ok v /\ both v0 v).
Proof using far_ok OK V NP EI pos_refl order_perm enum_perm Hq HS Hu2 HPP Hfv SR SL SV Hop H0 Hsplit.
  assert (Hinc : increasing D) by apply Hq. assert (Hfd : f_dirs (q_factor q) = D) by apply Hq.
  assert (FI : forall e, incl (free_vars e) D -> function_init E free_vars e D = Ok (Fn e D)).
  { intros e He. unfold function_init. rewrite py_sorted_id by (apply increasing_sorted; exact Hinc). rewrite (proj2 (nats_eqb_eq D D) eq_refl). cbn [require bind].
    replace (SplitModel.subset (free_vars e) D) with true; [reflexivity|]. symmetry. apply forallb_forall. intros x Hx. apply py_in_iff, He, Hx. }
  unfold quad_discretize_op, discretize_op_tensorized. fold D. rewrite FI by (rewrite (lin_vars_1 _ _ _ _ _ _ _ _ SV); intros x []). cbn [bind].
  assert (Ef : func_eqb E sym_eqb (q_factor q) (Fn e_1 D) = sym_eqb (f_sym (q_factor q)) e_1) by (unfold func_eqb; cbn [f_sym f_dirs]; rewrite Hfd, (proj2 (nats_eqb_eq D D) eq_refl); reflexivity).
  rewrite Ef. fold op'.
  destruct (op_split_ok num_R num_R_laws E eval e_add e_mul e_0 e_mono simplify is0 SL (length D) op') as (l & L1 & _ & L3 & _); [intros c n H; destruct (Hop c n H) as (M1 & M2 & _); split; assumption|].
  assert (Hvars : forall n e, In (n, e) l -> incl (free_vars e) D).
  { apply (op_split_vars E free_vars e_1 e_add e_mul e_0 e_mono simplify is0 D SV op' l); [intros c n H; destruct (Hop c n H) as (M1 & _ & M3); split; assumption|exact L1]. }
  rewrite L1. cbn [bind].
  assert (Hm : mapM (fun '(m, e) => f <- function_init E free_vars e D ;; Ok (m, f)) l = Ok (map (fun '(n, e) => (n, Fn e D)) l)).
  { clear -FI Hvars. induction l as [|[n e] l IH]; [reflexivity|]. cbn [mapM map]. rewrite FI by (apply (Hvars n); left; reflexivity). cbn [bind]. rewrite IH by (intros n' e' H; apply (Hvars n'); right; exact H). reflexivity. }
  rewrite Hm. cbn [bind].
  assert (Hconds : forall n e, In (n, e) l -> length n = length D /\ fine e).
  { intros n e H. destruct (L3 n e H) as (N1 & N2 & N3). split; [exact N1|]. split; [exact (Hvars n e H)|]. split; [apply H0|]. apply (Hsplit l e L1). left. exists n. exact H. }
  destruct l as [|(n, e) l]; cbn [map].
  - rewrite FI by (rewrite (lin_vars_0 _ _ _ _ _ _ _ _ SV); intros x []). cbn [bind]. apply both_varf. split; [rewrite (lin_vars_0 _ _ _ _ _ _ _ _ SV); intros x []|]. split; [apply H0|]. apply (Hsplit [] e_0 L1). right. split; reflexivity.
  - destruct (Hconds n e (or_introl eq_refl)) as [M1 M2]. assert (Hc' : forall n e, In (n, e) l -> length n = length D /\ fine e) by (intros a b Hab; apply Hconds; right; exact Hab).
    destruct (d_vector_ok D n M1) as (ds & D1 & _). destruct (both_varfd 0 e ds M2) as (w0 & W1 & W0 & W2). destruct W0 as (Y1 & Y2 & Y3).
    destruct (vnum_on w0 D s degree Y1) as (x0 & X1 & X2 & X3 & X4 & _). assert (One : one0 x0) by (split; [exact X2|split; congruence]).
    cbn [length seq combine for_in]. rewrite D1. cbn [bind]. rewrite W1. cbn [bind]. rewrite X1. cbn [bind].
    destruct W2 as [[W2 Hbad]|(w & W2 & W3)].
    + destruct (direct_loop l x0 One Hc') as (h0 & G & G'). exists h0. split; [exact (f_equal (fun o => bind o (fun r => match r with Some v => Ok v | None => Ub end)) G)|]. split; [exact G'|]. left. rewrite W2. split; [reflexivity|exact Hbad].
    + destruct (both_plus0 w0 w W3) as (y0 & y & Z1 & Z2 & Z3). rewrite X1 in Z1. injection Z1 as <-. rewrite W2. cbn [bind]. rewrite Z2. cbn [bind].
      destruct (direct_loop l x0 One Hc') as (h0' & G & G'). destruct (both_loop l 1 x0 y Z3 Hc') as (h0 & K1 & K2). rewrite map_length. exists h0. rewrite G in K1. injection K1 as <-.
      split; [exact (f_equal (fun o => bind o (fun r => match r with Some v => Ok v | None => Ub end)) G)|]. split; [exact G'|].
      destruct K2 as [[K2 Hbad]|(h & K2 & K3)]; [left; split; [|exact Hbad]|right; exists h; split; [|exact K3]]; exact (f_equal (fun o => bind o (fun r => match r with Some v => Ok v | None => Ub end)) K2).
Qed.

Lemma both_equal : forall v0 v, both v0 v -> v_mat v = v_mat v0 /\ v_pos v = v_pos v0 /\ v_set v = v_set v0 /\ v_degree v = v_degree v0 /\ f_dirs (v_factor v) = f_dirs (v_factor v0) /\ forall env, eval (f_sym (v_factor v)) env = eval (f_sym (v_factor v0)) env.
Proof using HS.
  intros v0 v (Z2 & T2 & Z3 & T3 & Z4 & T4 & T5). pose proof HS as (HR & Hw & Hu & _). pose proof HR as ((R1 & R2 & R3 & R4 & R5 & R6) & _).
  destruct T2 as ((A1 & A2 & _ & _ & _ & A3 & _) & _ & A4 & A5). destruct Z2 as ((B1 & B2 & _ & _ & _ & B3 & _) & _ & B4 & B5). assert (LD : length D = length vars) by exact R3.
  split; [|split; [congruence|split; [congruence|split; [congruence|split; [congruence|intros env; rewrite T4, Z4; reflexivity]]]]].
  destruct A1 as [_ A1]. destruct B1 as [_ B1]. rewrite A4, A5, LD in A1. rewrite B4, B5, LD in B1. apply (entry_ext fnum_R s (length vars) (recovered s degree)); [apply usable_recovered; exact Hu|exact A1|exact B1|].
  intros r c Hr Hc. apply (proj1 (index_of_recovered _ _ _ _)) in Hr, Hc. rewrite LD in T5. pose proof (T5 r c Hr Hc) as G. unfold varf_at in G. rewrite A4, A5, A2, B4, B5, B2, LD in G. exact G.
Qed.
End Run.
End Op.
