(** Quad.varf with the decorator tensorize_at. *)
From Coq Require Import String List Bool Arith ZArith Lia Sorted Permutation Reals Lra.
From Verif Require Import Base Lists IndexModel Spec Grid Num LinModel LinSpec LinBase MatBase Dirs Degree Facts2 Facts3 PyBase PosModel PosSpec PosFacts SeriesModel SeriesSpec SeriesFacts SeriesFacts3 PartModel PartSpec PartFacts
  SplitModel SplitSpec SplitFacts MulModel MulSpec MulFacts Fnum CalcModel CalcSpec CalcReal CalcQuad CalcVarf2 CalcTensor Facts6 Facts7 Facts8 PyQuadModel PyQuadSpec PyQuadFacts PyQuadFacts2 OpQuadSpec OpQuadFacts
  TensQuadModel TensQuadSpec TensQuadFacts TensQuadFacts2 TensQuadFacts3 TensVarfModel TensVarfSpec TensVarfFacts.
Import ListNotations.
Local Open Scope string_scope. Local Open Scope list_scope. Local Open Scope nat_scope.

Lemma place_mono : forall D x y, increasing D -> In x D -> In y D -> x < y -> place x D < place y D.
Proof.
  intros D x y HD. induction HD as [|z D HD IH Hz]; intros Hx Hy Hxy; [destruct Hx|]. rewrite Forall_forall in Hz. cbn [place].
  destruct (Nat.eqb_spec z x) as [E1|E1]; destruct (Nat.eqb_spec z y) as [E2|E2]; try lia.
  - destruct Hx as [Hx|Hx]; [contradiction|]. specialize (Hz x Hx). lia.
  - destruct Hx as [Hx|Hx]; [contradiction|]. destruct Hy as [Hy|Hy]; [contradiction|]. specialize (IH Hx Hy Hxy). lia.
Qed.
Lemma idx_increasing : forall D g, increasing D -> increasing g -> incl g D -> increasing (idx D g).
Proof.
  intros D g HD Hg. induction Hg as [|x g Hg IH Hx]; intros Hi; cbn [idx map]; [constructor|]. constructor; [apply IH; intros y Hy; apply Hi; right; exact Hy|].
  rewrite Forall_forall in *. intros z Hz. apply in_map_iff in Hz as (y & <- & Hy). apply place_mono; [exact HD|apply Hi; left; reflexivity|apply Hi; right; exact Hy|apply Hx; exact Hy].
Qed.

(** Position.tensorize gives diagonal covariances. *)
Lemma tensorize_diagonal : forall far (ps : list (position fnum_R)) r, Forall (diagonal fnum_R) ps -> pos_tensorize fnum_R far ps = Ok r -> diagonal fnum_R r.
Proof.
  intros far ps r H Hr. unfold pos_tensorize in Hr. apply bind_ok in Hr as (? & _ & Hr). destruct H as [|p ps Hp H]; [discriminate Hr|]. clear H. revert p Hp Hr. induction ps as [|p' ps IH]; intros p Hp Hr; cbn [for_in] in Hr; [injection Hr as <-; exact Hp|].
  apply bind_ok in Hr as (p2 & H2 & Hr). apply (IH p2); [|exact Hr]. unfold tensorize2 in H2. apply bind_ok in H2 as (? & _ & H2). apply bind_ok in H2 as ([[m c] t] & _ & H2). eapply init_diag. exact H2.
Qed.

Section Varf.
Variable far : list (list R) -> bool.
Hypothesis far_ok : forall l, far (diag_mat fnum_R l) = false.
Variable E : Type.
Variable eval : E -> (nat -> R) -> R.
Variable e_mul : E -> E -> E.
Variable e_1 : E.
Variable add_args mul_args : E -> list E.
Variable free_vars : E -> list nat.
Variable sym_eqb : E -> E -> bool.
Hypothesis OK : sympy_ok (N := fnum_R) eval e_mul e_1 add_args mul_args free_vars.
Hypothesis V : sympy_vars e_mul e_1 add_args mul_args free_vars.
Variable cov_factor : list (list R) -> list (list R).
Variable la_inv : list (list R) -> res (list (list R)).
Variable far8 : list (list R) -> bool.
Variable junk : R.
Hypothesis NP : numpy_ok cov_factor la_inv far8.
Notation quad := (quad fnum_R E).
Notation varf := (SeriesModel.varf fnum_R E).
Notation quad_project := (quad_project fnum_R far E e_mul e_1 add_args mul_args free_vars).
Notation varf_fun := (quad_varf_fun fnum_R E e_1 free_vars eval cov_factor junk).
Notation L := (num_R_laws : num_laws fnum_R).
Notation vt := (varf_tensorize fnum_R far E e_mul e_1 free_vars).

Let RF : reads_free eval free_vars := ok_free _ _ _ _ _ _ _ _ OK.

Definition von (v : varf) (d : list nat) (s : iset) (degree : nat) : Prop := form_on free_vars v d /\ diagonal fnum_R (v_pos v) /\ v_set v = s /\ v_degree v = recovered s degree.

(** The values of an expression on the grid. *)
Definition samples (q : quad) (vars : list R) (e : E) : list R := map (fun p => eval e (env_at E q vars p)) (grid (q_nodes q)).

Lemma samples_ok : forall (q : quad) vars e values, quad_R q vars -> grid_values q vars values (eval e) -> values = samples q vars e.
Proof using.
  intros q vars e values HR [G1 G2]. unfold samples. apply nth_error_ext. intros k. destruct (nth_error (grid (q_nodes q)) k) as [p|] eqn:Ek.
  - etransitivity; [exact (G2 k p _ Ek (env_at_point E q vars p HR (nth_error_In _ _ Ek)))|]. rewrite nth_error_map, Ek. reflexivity.
  - rewrite nth_error_map, Ek. apply nth_error_None. apply nth_error_None in Ek. rewrite G1. exact Ek.
Qed.

Definition keeps (q : quad) (s : iset) (degree : nat) (e : E) : Prop := drops_nothing q s degree (eval e).

(** Quad.varf on a quadrature. *)
Lemma direct_varf : forall (q : quad) vars (f : func E) degree s, pos_ok (q_pos q) -> increasing (p_dirs (q_pos q)) -> f_dirs (q_factor q) = p_dirs (q_pos q) -> setting q vars s degree -> incl (free_vars (f_sym (q_factor q))) (p_dirs (q_pos q)) ->
  diagonal fnum_R (q_pos q) -> f_dirs f = p_dirs (q_pos q) -> incl (free_vars (f_sym f)) (p_dirs (q_pos q)) -> keeps q s degree (f_sym f) ->
  exists v, varf_fun q f degree s = Ok v /\ von v (p_dirs (q_pos q)) s degree /\ v_pos v = q_pos q /\ v_factor v = q_factor q /\
    forall r c, index_of s (length vars) degree r -> index_of s (length vars) degree c -> varf_at v r c = galerkin (q_nodes q) (q_weights q) (kinds (p_types (q_pos q))) (samples q vars (f_sym f)) r c.
Proof using NP OK.
  intros q vars f degree s Hq1 Hq2 Hq3 HS Hfv Hdg Hfd Hff Hk. pose proof HS as (HR & _ & Hu & _).
  destruct (varf_built E free_vars eval cov_factor la_inv far8 junk e_1 NP RF q vars s degree f HS Hfd) as (values & v & D1 & D2 & D3 & D4 & D5 & D6); [rewrite Hfd; exact Hff|intros values; apply Hk; exact HR|].
  destruct (built E e_1 q vars s degree (v_mat v) HR Hu D4) as (v' & E1 & E2 & E3 & E4 & E5 & E6 & E7 & E8 & E9). rewrite D5 in E1. injection E1 as <-.
  pose proof HR as ((R1 & R2 & R3 & R4 & R5 & R6) & R7 & R8 & R9). pose proof (samples_ok q vars (f_sym f) values HR D2) as Ev. rewrite Ev in D6.
  exists v. split; [exact D3|]. split; [|split; [exact E4|split; [exact E6|]]].
  - split; [|split; [rewrite E4; exact Hdg|split; [exact E5|exact E7]]]. split; [rewrite R3; exact E2|]. rewrite E4, E6. split; [reflexivity|]. split; [exact Hq2|]. split; [|split; [exact Hq1|split; [exact Hq3|exact Hfv]]].
    intros G. rewrite G in R3. destruct (q_nodes q) as [|x l]; [contradiction|]. rewrite <- R3 in R7. discriminate R7.
  - intros r c Hr Hc. rewrite E9. apply D6; assumption.
Qed.

Lemma part_varf : forall (q : quad) vars degree s ft first rest g (f : func E), quad_ok q -> setting q vars s degree -> usable s (length vars) (2 * degree) -> p_dirs (q_pos q) = first :: rest -> incl (free_vars (f_sym (q_factor q))) (p_dirs (q_pos q)) ->
  add_args (f_sym (q_factor q)) = [ft] ->
  increasing g -> g <> [] -> incl g (p_dirs (q_pos q)) -> (forall a, In a (mul_args ft) -> ~ straddles free_vars g a) -> f_dirs f = g -> incl (free_vars (f_sym f)) g ->
  (forall a, quad_project q g = Ok a -> keeps a s degree (f_sym f)) ->
  let ix := idx (p_dirs (q_pos q)) g in
  exists a v dv, quad_project q g = Ok a /\ varf_fun a f degree s = Ok v /\ von v g s degree /\ (forall d m v' t, In d g -> records (q_pos q) d m v' t -> records (v_pos v) d m v' t) /\
    (forall env, eval (f_sym (v_factor v)) env = ((if existsb (Nat.eqb first) g then product (N := fnum_R) eval (filter (constant free_vars) (mul_args ft)) env else 1) * product (N := fnum_R) eval (filter (inside free_vars g) (mul_args ft)) env)%R) /\
    length dv = length (grid (pick [] (q_nodes q) ix)) /\
    (forall p, In p (grid (q_nodes q)) -> value 0%R (grid (pick [] (q_nodes q) ix)) dv (pick 0 p ix) = eval (f_sym f) (env_at E q vars p)) /\
    forall r c, index_of s (length g) degree r -> index_of s (length g) degree c -> varf_at v r c = galerkin (pick [] (q_nodes q) ix) (pick [] (q_weights q) ix) (pick 0 (kinds (p_types (q_pos q))) ix) dv r c.
Proof using NP OK V far_ok.
  intros q vars degree s ft first rest g f Hq HS Hu2 HD Hfv Hft Hg1 Hg2 Hg3 Hst Hfd Hff Hk ix. pose proof HS as (HR & Hw & Hu & Hfit & Hfl & Hcl).
  destruct (quad_project_ok fnum_R L far far_ok E eval e_mul e_1 add_args mul_args free_vars OK V q ft first rest g Hq HD Hfv Hft Hg1 Hg2 Hg3 Hst) as (a & e & A1 & A2 & A3 & A4 & A5 & A6 & A7 & A8).
  destruct (part_R far E e_mul e_1 add_args mul_args free_vars q vars g a Hq HR A1 A2 A3 Hg1 Hg2 Hg3 A7 A8) as (B1 & B2 & B3 & B4 & B5 & B6). fold ix in B1, B2, B3, B4, B5.
  pose proof HR as ((R1 & R2 & R3 & R4 & R5 & R6) & R7 & R8 & R9).
  assert (Ix : Forall (fun x => x < length (p_dirs (q_pos q))) ix) by (apply idx_lt; exact Hg3).
  assert (Ixv : Forall (fun x => x < length vars) ix) by (rewrite <- R3; exact Ix).
  assert (Lv : length (pick 0%R vars ix) = length g) by (unfold pick; rewrite map_length; apply idx_length).
  assert (Lg : 1 <= length g <= length vars) by (split; [destruct g; [contradiction|cbn; lia]|rewrite <- R3; apply NoDup_incl_length; [apply increasing_NoDup; exact Hg1|exact Hg3]]).
  assert (Hka : kinds (p_types (q_pos a)) = pick 0 (kinds (p_types (q_pos q))) ix) by (rewrite B4; apply kinds_pick).
  assert (Lk : length (kinds (p_types (q_pos q))) = length vars) by (unfold kinds; rewrite map_length; exact R5).
  assert (Ln : @length (list R) (q_nodes q) = length vars) by exact R7.
  assert (Sa : setting a (pick 0%R vars ix) s degree).
  { split; [exact B5|]. split; [rewrite B1, B2; apply rules_match_pick; [exact Hw|rewrite Ln; exact Ixv]|]. rewrite Lv. split; [eapply usable_sub; [exact Hu|exact Lg]|]. split; [apply usable_fits; eapply usable_sub; [exact Hu2|exact Lg]|].
    rewrite Hka. split; [apply flags_ok_pick; [exact Hfl|rewrite Lk; exact Ixv]|]. apply (closed_pick s degree (q_nodes q)); [rewrite Ln; exact Hu|exact Hfl|rewrite Ln; exact Lk|exact Hcl|apply idx_increasing; [apply Hq|exact Hg1|exact Hg3]| |rewrite Ln; exact Ixv].
    intros G. apply (f_equal (@length nat)) in G. unfold ix in G. rewrite idx_length in G. destruct g; [contradiction|discriminate G]. }
  assert (Ea : f_dirs (q_factor a) = p_dirs (q_pos a)) by (rewrite A4, A3; reflexivity).
  destruct (direct_varf a (pick 0%R vars ix) f degree s (proj1 A2)) as (v & T1 & T2 & T3 & T4 & T5); [rewrite A3; exact Hg1|exact Ea|exact Sa|rewrite A3, A4; exact A5|exact B6|rewrite A3; exact Hfd|rewrite A3; exact Hff|apply Hk; exact A1|].
  exists a, v, (samples a (pick 0%R vars ix) (f_sym f)). split; [exact A1|]. split; [exact T1|]. rewrite A3 in T2. split; [exact T2|]. split; [|split; [|split; [|split]]].
  - intros d m v' t Hd Hr. rewrite T3. apply (proj1 (proj2 A2)); [rewrite A3; exact Hd|exact Hr].
  - intros env. rewrite T4, A4. exact (A6 env).
  - unfold samples. rewrite map_length, B1. reflexivity.
  - intros p Hp. destruct (part_point E q a vars g p HR Hg3 A3 B1 B3 Hp) as [Z1 Z2]. fold ix in Z1, Z2. rewrite <- B1. unfold samples.
    etransitivity; [apply (value_map_in R 0%R); exact Z1|]. apply RF. intros x Hx. apply Hff in Hx. 
    pose proof (env_at_point E a (pick 0%R vars ix) _ B5 Z1) as Z3. apply In_nth_error in Hx as (j & Hj). rewrite A3 in Z2, Z3. pose proof (Z2 j x Hj) as G1. pose proof (Z3 j x Hj) as G2. congruence.
  - intros r c Hr Hc. rewrite <- Hka, <- B1, <- B2. apply T5; rewrite Lv; assumption.
Qed.

Lemma vt_diag : forall (vs : list varf) r, Forall (fun v => diagonal fnum_R (v_pos v)) vs -> vt vs = Ok r -> diagonal fnum_R (v_pos r).
Proof using.
  intros vs r H Hr. destruct vs as [|v0 [|v1 vs]]; [discriminate Hr|cbn in Hr; injection Hr as <-; inversion H; assumption|]. unfold varf_tensorize in Hr.
  apply bind_ok in Hr as ([mats factor] & _ & Hr). apply bind_ok in Hr as (m & _ & Hr). apply bind_ok in Hr as (pos & Hp & Hr). apply bind_ok in Hr as (fac & _ & Hr).
  unfold varf_init in Hr. apply bind_ok in Hr as (dg & _ & Hr). apply bind_ok in Hr as (pl & _ & Hr). apply bind_ok in Hr as (u & _ & Hr). apply bind_ok in Hr as (f & _ & Hr). injection Hr as <-. cbn [v_pos].
  apply (tensorize_diagonal far (map v_pos (v0 :: v1 :: vs))); [|exact Hp]. apply Forall_map. exact H.
Qed.

(** What is known of a group of directions, its function, the form and the values. *)
Record vpiece := VPiece { w_g : list nat; w_f : func E; w_v : varf; w_dv : list R }.
Definition vpiece_ok (q : quad) (vars : list R) (degree : nat) (s : iset) (ft : E) (first : nat) (t : vpiece) : Prop :=
  let ix := idx (p_dirs (q_pos q)) (w_g t) in
  von (w_v t) (w_g t) s degree /\ (forall d m v t', In d (w_g t) -> records (q_pos q) d m v t' -> records (v_pos (w_v t)) d m v t') /\
  (forall env, eval (f_sym (v_factor (w_v t))) env = ((if existsb (Nat.eqb first) (w_g t) then product (N := fnum_R) eval (filter (constant free_vars) (mul_args ft)) env else 1) * product (N := fnum_R) eval (filter (inside free_vars (w_g t)) (mul_args ft)) env)%R) /\
  length (w_dv t) = length (grid (pick [] (q_nodes q) ix)) /\
  (forall p, In p (grid (q_nodes q)) -> value 0%R (grid (pick [] (q_nodes q) ix)) (w_dv t) (pick 0 p ix) = eval (f_sym (w_f t)) (env_at E q vars p)) /\
  (forall r c, index_of s (length (w_g t)) degree r -> index_of s (length (w_g t)) degree c ->
    varf_at (w_v t) r c = galerkin (pick [] (q_nodes q) ix) (pick [] (q_weights q) ix) (pick 0 (kinds (p_types (q_pos q))) ix) (w_dv t) r c).

Lemma parts_varf : forall (q : quad) vars degree s ft first rest gs (fs : list (func E)), quad_ok q -> setting q vars s degree -> usable s (length vars) (2 * degree) -> p_dirs (q_pos q) = first :: rest -> incl (free_vars (f_sym (q_factor q))) (p_dirs (q_pos q)) ->
  add_args (f_sym (q_factor q)) = [ft] ->
  Forall (fun g => increasing g /\ g <> [] /\ incl g (p_dirs (q_pos q)) /\ (forall a, In a (mul_args ft) -> ~ straddles free_vars g a)) gs ->
  Forall2 (fun g f => f_dirs f = g /\ incl (free_vars (f_sym f)) g /\ forall a, quad_project q g = Ok a -> keeps a s degree (f_sym f)) gs fs ->
  exists l, map w_g l = gs /\ map w_f l = fs /\ Forall (vpiece_ok q vars degree s ft first) l /\
    forall blocks, length blocks = length gs -> map fst blocks = gs -> map snd blocks = fs ->
    mapM (fun '(g, f) => part <- quad_project q g ;; varf_fun part f degree s) blocks = Ok (map w_v l).
Proof using NP OK V far_ok.
  intros q vars degree s ft first rest gs fs Hq HS Hu2 HD Hfv Hft Hg H. induction H as [|g f gs fs (H1 & H2 & H3) H IH].
  - exists []. split; [reflexivity|]. split; [reflexivity|]. split; [constructor|]. intros [|b blocks] Hb E1 E2; [reflexivity|discriminate Hb].
  - inversion Hg as [|? ? (G1 & G2 & G3 & G4) Hg']; subst. destruct (IH Hg') as (l & L1 & L2 & L3 & L4).
    destruct (part_varf q vars degree s ft first rest (f_dirs f) f Hq HS Hu2 HD Hfv Hft G1 G2 G3 G4 eq_refl H2 H3) as (a & v & dv & A1 & A2 & A3 & A4 & A5 & A6 & A7 & A8).
    exists (VPiece (f_dirs f) f v dv :: l). cbn [map w_g w_f w_v w_dv]. split; [rewrite L1; reflexivity|]. split; [rewrite L2; reflexivity|]. split; [constructor; [|exact L3]; exact (conj A3 (conj A4 (conj A5 (conj A6 (conj A7 A8)))))|].
    intros [|(g0, f0) blocks] Hb E1 E2; [discriminate Hb|]. cbn [map fst snd] in E1, E2. injection E1 as -> E1. injection E2 as -> E2. cbn [mapM]. rewrite A1. cbn [bind]. rewrite A2. cbn [bind]. rewrite (L4 blocks); [reflexivity|cbn in Hb; lia|exact E1|exact E2].
Qed.

Variable order : nat -> nat -> list fset -> list fset.
Hypothesis order_perm : forall i k l, Permutation (order i k l) l.
Variable enum : nat -> list fset -> list fset.
Hypothesis enum_perm : forall i l, Permutation (enum i l) l.
Notation run_term degree s := (tens_term fnum_R far E e_mul e_1 add_args mul_args free_vars eval order enum varf (fun q f => varf_fun q f degree s) vt (varf_scale fnum_R E e_1)).

Definition vterm_result (q : quad) (vars : list R) (degree : nat) (s : iset) (e : E) (v : varf) : Prop :=
  von v (p_dirs (q_pos q)) s degree /\ v_pos v = q_pos q /\ (forall env, eval (f_sym (v_factor v)) env = eval (f_sym (q_factor q)) env) /\
  forall r c, index_of s (length (p_dirs (q_pos q))) degree r -> index_of s (length (p_dirs (q_pos q))) degree c ->
    varf_at v r c = galerkin (q_nodes q) (q_weights q) (kinds (p_types (q_pos q))) (samples q vars e) r c.

Lemma term_varf : forall (q : quad) vars degree s ft k term, quad_ok q -> setting q vars s degree -> usable s (length vars) (2 * degree) -> incl (free_vars (f_sym (q_factor q))) (p_dirs (q_pos q)) ->
  add_args (f_sym (q_factor q)) = [ft] -> (forall a, In a (mul_args term) -> incl (free_vars a) (p_dirs (q_pos q))) -> parts_drop_nothing eval mul_args free_vars quad_project q s degree term ->
  exists v, run_term degree s q k (split_term E e_mul e_1 mul_args free_vars (p_dirs (q_pos q)) term) = Ok v /\ vterm_result q vars degree s term v.
Proof using NP OK V far_ok order_perm enum_perm.
  intros q vars degree s ft k term Hq HS Hu2 Hfv Hft Ht Hkeep. pose proof HS as (HR & Hw & Hu & Hfit & Hfl & Hcl). set (run := run_term _ _ _ _ _).
  pose proof HR as ((R1 & R2 & R3 & R4 & R5 & R6) & R7 & R8 & R9). set (D := p_dirs (q_pos q)) in *.
  assert (HD0 : D <> []). { intros G. rewrite G in R3. destruct (q_nodes q) as [|x l]; [contradiction|]. rewrite <- R3 in R7. discriminate R7. }
  assert (HDq : exists first rest, D = first :: rest) by (destruct D as [|x l]; [contradiction|exists x, l; reflexivity]). destruct HDq as (first & rest & HDq).
  assert (HND : increasing D) by apply Hq. assert (HLD : length D = length vars) by exact R3.
  assert (Hfa : forall a, In a (mul_args ft) -> incl (free_vars a) D).
  { intros a Ha x Hx. apply Hfv. apply (vars_add_args _ _ _ _ _ V _ ft); [rewrite Hft; left; reflexivity|]. apply (vars_mul_args _ _ _ _ _ V _ a); [exact Ha|exact Hx]. }
  destruct (term_groups fnum_R L E eval e_mul e_1 add_args mul_args free_vars OK V (order k) (order_perm k) (enum k) (enum_perm k) D term ft R6 HD0 Ht Hfa) as (c & division & fs & C1 & C2 & C3 & C4 & C5 & C6 & C7 & C8).
  set (gs := map fs_list (enum k division)) in *.
  assert (Hgs : Forall (fun g => increasing g /\ g <> [] /\ incl g D /\ (forall a, In a (mul_args ft) -> ~ straddles free_vars g a)) gs).
  { apply Forall_forall. intros g Hg. destruct C4 as [[C4 _] C4']. rewrite Forall_forall in C4'. destruct (C4' g Hg) as [I1 I2]. split; [exact I1|]. split; [exact I2|]. split; [intros x Hx; apply C4; exists g; auto|]. intros a Ha. apply C5; assumption. }
  destruct (parts_varf q vars degree s ft first rest gs fs Hq HS Hu2 HDq Hfv Hft Hgs) as (l & L1 & L2 & L3 & L4).
  { clear - C6 C8 Hgs Hkeep. revert C8. induction C6 as [|g f gs fs [G1 G2] C6 IH]; intros C8; constructor; inversion Hgs as [|? ? (I1 & I2 & I3 & _) Hgs']; inversion C8 as [|? ? ? ? J1 J2]; subst; [|apply IH; assumption].
    split; [reflexivity|]. split; [exact G2|]. intros a Ha vars' values HRa [V1 V2]. apply (Hkeep (f_dirs f) a I1 I2 I3 Ha vars' values HRa). split; [exact V1|]. intros i p env Hi Hp. rewrite (V2 i p env Hi Hp). apply f_equal. apply J1. }
  assert (Lfs : length (enum k division) = length fs) by (rewrite <- (Forall2_length _ _ _ _ _ C6); unfold gs; rewrite map_length; reflexivity).
  assert (Hparts : mapM (fun '(dirs, term) => part <- quad_project q (fs_list dirs) ;; varf_fun part term degree s) (combine (enum k division) fs) = Ok (map w_v l)).
  { destruct (combine_split _ _ _ _ Lfs) as [F1 F2]. rewrite <- (L4 (map (fun '(b, f) => (fs_list b, f)) (combine (enum k division) fs))).
    - rewrite mapM_map. clear. induction (combine (enum k division) fs) as [|(b, f) m IH]; [reflexivity|]. cbn [mapM]. rewrite IH. reflexivity.
    - unfold gs. rewrite !map_length, combine_length, <- Lfs. apply Nat.min_id.
    - rewrite map_map. unfold gs. rewrite <- F1 at 2. rewrite map_map. apply map_ext. intros (b, f). reflexivity.
    - rewrite map_map. rewrite <- F2 at 2. apply map_ext. intros (b, f). reflexivity. }
  assert (Hl0 : l <> []). { intros ->. cbn [map] in L1. destruct C4 as [[C4 _] _]. rewrite <- L1 in C4. destruct (proj1 (C4 first)) as (b & [] & _). rewrite HDq. left. reflexivity. }
  assert (HP : Permutation D (concat gs)) by (apply grouping_perm; [exact R6|exact C4]).
  assert (Hon : Forall2 (fun g v => form_on free_vars v g) gs (map w_v l)).
  { rewrite <- L1. clear - L3. induction L3 as [|t l Ht L3 IH]; cbn [map]; constructor; [apply Ht|exact IH]. }
  assert (Run : run = (tensorized <- vt (map w_v l) ;; varf_scale fnum_R E e_1 (eval c (fun _ => 0%R)) tensorized)).
  { unfold run, tens_term. rewrite C1. cbn [bind]. unfold fun_split. rewrite Hft. cbn [map]. assert (Hfd : f_dirs (q_factor q) = D) by apply Hq. rewrite Hfd.
    match goal with |- bind ?x _ = _ => replace x with (@Base.Ok (list fset) division) by (symmetry; exact C2) end. cbn [bind].
    match goal with |- bind ?x _ = _ => replace x with (Ok (combine (enum k division) fs)) by (symmetry; exact C3) end. cbn [bind].
    match goal with |- bind ?x _ = _ => replace x with (Ok (map w_v l)) by (symmetry; exact Hparts) end. cbn [bind].
    rewrite map_length. destruct l as [|t l]; [contradiction|]. reflexivity. }
  assert (HuD : usable s (length D) degree) by (rewrite HLD; exact Hu).
  assert (Hsd : Forall (fun v => v_set v = s /\ v_degree v = recovered s degree) (map w_v l)).
  { apply Forall_forall. intros v Hv. apply in_map_iff in Hv as (t & <- & Hin). rewrite Forall_forall in L3. destruct (L3 t Hin) as ((_ & _ & G) & _). exact G. }
  destruct (tensorize_forms fnum_R L far far_ok E eval e_mul e_1 free_vars (ok_mul _ _ _ _ _ _ _ _ OK) (ok_1 _ _ _ _ _ _ _ _ OK) (fun a b x => vars_mul _ _ _ _ _ V a b x) (vars_1 _ _ _ _ _ V) s (recovered s degree) gs (map w_v l) D Hon Hsd)
    as (r0 & T1 & T2 & T3 & T4 & T5 & T6 & T7 & T8); try assumption; [destruct l; [contradiction|discriminate]|apply usable_recovered; exact HuD|].
  destruct (vscale_spec fnum_R E e_1 (eval c (fun _ => 0%R)) r0 (length D) (proj1 T2)) as (r & U1 & U2 & U3 & U4 & U5 & U6 & U7 & U8).
  assert (T4' : v_degree r0 = recovered s degree) by (apply T4; apply recovered_twice).
  assert (T5' : forall m, varf_index r0 m <-> index_of s (length D) degree m) by (intros m; rewrite T5; apply index_of_recovered).
  assert (Hdg0 : diagonal fnum_R (v_pos r0)).
  { apply (vt_diag (map w_v l)); [|exact T1]. apply Forall_forall. intros v Hv. apply in_map_iff in Hv as (t & <- & Hin). rewrite Forall_forall in L3. destruct (L3 t Hin) as ((_ & G & _) & _). exact G. }
  assert (Hpos : v_pos r0 = q_pos q).
  { destruct T2 as (_ & T21 & _ & _ & T22 & _). apply (same_position fnum_R (q_pos q) (v_pos r0)); [apply Hq|exact T22|exact (ex_intro _ vars R1)|exact Hdg0|exact T21|]. intros d m v t Hr. pose proof (records_dir _ _ _ _ _ _ Hr) as Hd. fold D in Hd. destruct C4 as [[C4 _] _]. apply C4 in Hd as (g & Hg & Hd). rewrite <- L1 in Hg.
    apply in_map_iff in Hg as (pc & <- & Hin). rewrite Forall_forall in L3. destruct (L3 pc Hin) as (_ & G & _). apply (T7 (v_pos (w_v pc))); [apply in_map, in_map; exact Hin|]. apply G; [exact Hd|exact Hr]. }
  assert (Hfac : forall env, rprod (map (fun t => eval (f_sym (v_factor (w_v t))) env) l) = eval (f_sym (q_factor q)) env).
  { intros env. pose proof (groups_product fnum_R L E eval free_vars first rest (mul_args ft) gs env) as G. rewrite <- HDq in G. specialize (G C4 Hfa C5).
    assert (Ef : eval (f_sym (q_factor q)) env = product (N := fnum_R) eval (mul_args ft) env).
    { etransitivity; [apply (ok_add_args _ _ _ _ _ _ _ _ OK)|]. rewrite Hft. cbn [map]. etransitivity; [|apply (ok_mul_args _ _ _ _ _ _ _ _ OK)]. unfold nsum. cbn [fold_left]. exact (Rplus_0_l _). }
    rewrite Ef. etransitivity; [|exact G]. etransitivity; [|symmetry; apply nprod_R]. rewrite <- L1, map_map. f_equal. apply map_ext_in. intros t Hin. rewrite Forall_forall in L3. destruct (L3 t Hin) as (_ & _ & G2 & _). exact (G2 env). }
  exists r. rewrite Run, T1. cbn [bind]. split; [exact U1|]. split; [|split; [rewrite U3; exact Hpos|split]].
  - split; [|split; [rewrite U3; exact Hdg0|split; [congruence|rewrite U6, T3, T4'; apply recovered_twice]]]. destruct T2 as (_ & T22). split; [exact U2|]. rewrite U3, U5. exact T22.
  - intros env. rewrite U5. etransitivity; [exact (T6 env)|]. rewrite <- Hfac. etransitivity; [apply nprod_R|]. rewrite map_map. reflexivity.
  - intros i j Hi Hj. etransitivity; [exact (U8 i j (proj2 (T5' i) Hi) (proj2 (T5' j) Hj))|]. rewrite (T8 i j) by (apply index_of_recovered; assumption).
    set (dirs := map (fun t => idx D (w_g t)) l). set (factors := map w_dv l). set (flags := kinds (p_types (q_pos q))).
    assert (Li : length i = length D) by apply Hi. assert (Lj : length j = length D) by apply Hj. assert (LN : length (q_nodes q) = length D) by exact (eq_trans R7 (eq_sym R3)).
    assert (LF : length flags = length D) by (unfold flags, kinds; rewrite map_length; exact (eq_trans R5 (eq_sym R3))).
    assert (HPi : Permutation (seq 0 (length (q_nodes q))) (concat dirs)).
    { rewrite LN. unfold dirs. rewrite <- (map_map w_g (idx D)), L1. apply idx_perm; [exact R6|exact HP]. }
    assert (Hin : forall t, In t l -> incl (w_g t) D). { intros t Hin x Hx. destruct C4 as [[C4 _] _]. apply C4. exists (w_g t). split; [rewrite <- L1; apply in_map; exact Hin|exact Hx]. }
    assert (Sc : entries_product D gs (map w_v l) i j = quadrature (q_nodes q) (q_weights q) (product_values (q_nodes q) dirs factors) (fun x => phi flags i x * phi flags j x)%R).
    { rewrite (quadrature_groups (q_nodes q) (q_weights q) dirs factors HPi Hw) with (gs := fun dj x => (phi (pick 0%nat flags dj) (pick 0%nat i dj) x * phi (pick 0%nat flags dj) (pick 0%nat j dj) x)%R).
      - unfold entries_product. etransitivity; [apply nprod_R|]. f_equal. rewrite <- L1. unfold dirs, factors. clear - L3 Hin Li Lj Hi Hj HND. induction L3 as [|t l Ht L3 IH]; [reflexivity|]. cbn [map combine]. f_equal; [|apply IH; intros t' Ht'; apply Hin; right; exact Ht'].
        destruct Ht as ((G0 & _) & _ & _ & _ & _ & G). fold D in G. rewrite (pick_reindex D (w_g t) i Li), (pick_reindex D (w_g t) j Lj). apply G; apply (index_part s degree D (w_g t)); try assumption; try apply G0; apply Hin; left; reflexivity.
      - unfold dirs, factors. clear - L3. induction L3 as [|t l Ht L3 IH]; cbn [map]; constructor; [apply Ht|exact IH].
      - intros x Hx. rewrite (phi_groups (length (q_nodes q)) dirs flags i x), (phi_groups (length (q_nodes q)) dirs flags j x); try exact HPi; try (rewrite LN; assumption); try exact Hx. rewrite <- rprod_map_mult. reflexivity. }
    match goal with |- nmul ?a ?b = _ => change (a * b = galerkin (q_nodes q) (q_weights q) flags (samples q vars term) i j)%R end. rewrite Sc.
    unfold galerkin, samples, product_values. rewrite !quadrature_map, <- rsum_map_mult_r. apply rsum_map_ext. intros p Hp.
    assert (Ev : forall env, eval term env = (eval c (fun _ => 0%R) * rprod (map (fun t => eval (f_sym (w_f t)) env) l))%R).
    { intros env. etransitivity; [exact (C7 env (fun _ => 0%R))|]. rewrite <- L2, map_map. exact (f_equal (Rmult _) (nprod_R _)). }
    rewrite Ev. set (env := env_at E q vars p).
    assert (Pv : rprod (map (fun '(dj, f) => value 0%R (grid (pick [] (q_nodes q) dj)) f (pick 0 p dj)) (combine dirs factors)) = rprod (map (fun t => eval (f_sym (w_f t)) env) l)).
    { f_equal. unfold dirs, factors. clear - L3 Hp. induction L3 as [|t l Ht L3 IH]; [reflexivity|]. cbn [map combine]. f_equal; [|exact IH]. destruct Ht as (_ & _ & _ & _ & G & _). exact (G p Hp). }
    match goal with |- (?x * ?w * ?g * ?c = ?rhs)%R => refine (eq_trans (f_equal (fun z => (z * w * g * c)%R) Pv) _) end. match goal with |- @eq _ ?a ?b => change (@eq R a b) end. ring.
Qed.

Variable pos_eqb : position fnum_R -> position fnum_R -> bool.
Hypothesis pos_refl : forall p, pos_eqb p p = true.
Notation plus := (varf_add fnum_R E sym_eqb e_1 pos_eqb).

Lemma terms_varf : forall (q : quad) vars degree s ft ts k, quad_ok q -> setting q vars s degree -> usable s (length vars) (2 * degree) -> incl (free_vars (f_sym (q_factor q))) (p_dirs (q_pos q)) ->
  add_args (f_sym (q_factor q)) = [ft] -> (forall t a, In t ts -> In a (mul_args t) -> incl (free_vars a) (p_dirs (q_pos q))) -> (forall t, In t ts -> parts_drop_nothing eval mul_args free_vars quad_project q s degree t) ->
  exists vs, mapM (fun '(k, add) => run_term degree s q k add) (combine (seq k (length ts)) (map (split_term E e_mul e_1 mul_args free_vars (p_dirs (q_pos q))) ts)) = Ok vs /\ Forall2 (fun t v => vterm_result q vars degree s t v) ts vs.
Proof using NP OK V far_ok order_perm enum_perm.
  intros q vars degree s ft ts k Hq HS Hu2 Hfv Hft. revert k. induction ts as [|t ts IH]; intros k Ht Hk; cbn [length seq map combine mapM]; [exists []; split; [reflexivity|constructor]|].
  destruct (term_varf q vars degree s ft k t Hq HS Hu2 Hfv Hft (fun a Ha => Ht t a (or_introl eq_refl) Ha) (Hk t (or_introl eq_refl))) as (v & T1 & T2). rewrite T1. cbn [bind].
  destruct (IH (S k)) as (vs & I1 & I2); [intros t' a Ht' Ha; exact (Ht t' a (or_intror Ht') Ha)|intros t' Ht'; exact (Hk t' (or_intror Ht'))|].
  exists (v :: vs). match goal with |- bind ?x _ = _ /\ _ => replace x with (Ok vs) by (symmetry; exact I1) end. split; [reflexivity|]. constructor; assumption.
Qed.

Lemma vadd_on : forall (v w : varf) d s degree, von v d s degree -> von w d s degree -> v_pos w = v_pos v ->
  (sym_eqb (f_sym (v_factor v)) (f_sym (v_factor w)) = true ->
    exists h, plus v w = Ok h /\ von h d s degree /\ v_pos h = v_pos v /\ v_factor h = v_factor v /\
      forall r c, index_of s (length d) degree r -> index_of s (length d) degree c -> varf_at h r c = (varf_at v r c + varf_at w r c)%R) /\
  (sym_eqb (f_sym (v_factor v)) (f_sym (v_factor w)) = false -> plus v w = Throw "ValueError").
Proof using pos_refl.
  intros v w d s degree ((F1 & F2 & F3 & F4 & F5 & F6 & F7) & F8 & F9 & F10) ((G1 & G2 & G3 & G4 & G5 & G6 & G7) & G8 & G9 & G10) Hp. split; intros Hs.
  - assert (Ha : addable fnum_R E sym_eqb pos_eqb (v_pos v) (v_pos w) (v_set v) (v_set w) (v_factor v) (v_factor w) = true).
    { unfold addable, func_eqb. rewrite Hp, pos_refl, F9, G9, F6, G6, Hs, iset_eqb_refl. rewrite (proj2 (nats_eqb_eq d d) eq_refl). reflexivity. }
    destruct (vadd_full fnum_R E sym_eqb e_1 pos_eqb v w (length d) F1 G1 Ha) as (h & H1 & H2 & H3 & H4 & H5 & H6 & H7 & H8); [rewrite F10, G10; reflexivity|].
    exists h. split; [exact H1|]. split; [|split; [exact H3|split; [exact H5|]]].
    + split; [|split; [rewrite H3; exact F8|split; [congruence|rewrite H6, F9, F10; apply recovered_twice]]]. split; [exact H2|]. rewrite H3, H5. auto 8.
    + intros r c Hr Hc. apply H8; unfold varf_index; rewrite F2, F9, F10; apply index_of_recovered; assumption.
  - unfold varf_add, func_eqb. rewrite Hs, !andb_false_r. reflexivity.
Qed.

Definition vsum_result (q : quad) (vars : list R) (degree : nat) (s : iset) (ts : list E) (v : varf) : Prop :=
  von v (p_dirs (q_pos q)) s degree /\ v_pos v = q_pos q /\ (forall env, eval (f_sym (v_factor v)) env = eval (f_sym (q_factor q)) env) /\
  forall r c, index_of s (length (p_dirs (q_pos q))) degree r -> index_of s (length (p_dirs (q_pos q))) degree c ->
    varf_at v r c = rsum (map (fun t => galerkin (q_nodes q) (q_weights q) (kinds (p_types (q_pos q))) (samples q vars t) r c) ts).

Lemma sum_varf : forall (q : quad) vars degree s ts vs, Forall2 (fun t v => vterm_result q vars degree s t v) ts vs -> forall ts0 acc, vsum_result q vars degree s ts0 acc ->
  let run := for_in (fun v sum => plus sum v) vs acc in
  run = Throw "ValueError" /\ ~ (vs = [] \/ forall a b, (forall env, eval a env = eval b env) -> sym_eqb a b = true) \/ exists v, run = Ok v /\ vsum_result q vars degree s (ts0 ++ ts) v.
Proof using pos_refl.
  intros q vars degree s ts vs H. induction H as [|t v ts vs (T1 & T2 & T3 & T4) H IH]; intros ts0 acc Ha run; subst run; cbn [for_in].
  - right. exists acc. rewrite app_nil_r. split; [reflexivity|exact Ha].
  - destruct Ha as (A1 & A2 & A3 & A4). destruct (vadd_on acc v _ s degree A1 T1) as [B1 B2]; [congruence|].
    destruct (sym_eqb (f_sym (v_factor acc)) (f_sym (v_factor v))) eqn:Es.
    + destruct (B1 eq_refl) as (h & H1 & H2 & H3 & H4 & H5). rewrite H1. cbn [bind]. destruct (IH (ts0 ++ [t]) h) as [[I1 I2]|(r' & I1 & I2)].
      * split; [exact H2|]. split; [congruence|]. split; [intros env; rewrite H4; apply A3|]. intros r c Hr Hc. rewrite (H5 r c Hr Hc). rewrite map_app. cbn [map].
        etransitivity; [apply f_equal2; [exact (A4 r c Hr Hc)|exact (T4 r c Hr Hc)]|]. rewrite rsum_app. symmetry. apply (f_equal2 Rplus); [reflexivity|]. exact (Rplus_0_r _).
      * left. split; [exact I1|]. intros [C|C]; [discriminate C|]. apply I2. right. exact C.
      * right. exists r'. rewrite <- app_assoc in I2. split; [exact I1|exact I2].
    + left. rewrite (B2 eq_refl). split; [reflexivity|]. intros [C|C]; [discriminate C|]. rewrite (C (f_sym (v_factor acc)) (f_sym (v_factor v))) in Es; [discriminate Es|]. intros env. rewrite A3, T3. reflexivity.
Qed.

Lemma sum_galerkin : forall (q : quad) vars e r c, let flags := kinds (p_types (q_pos q)) in galerkin (q_nodes q) (q_weights q) flags (samples q vars e) r c = rsum (map (fun t => galerkin (q_nodes q) (q_weights q) flags (samples q vars t) r c) (add_args e)).
Proof using OK.
  intros q vars e r c flags. unfold galerkin, samples. rewrite quadrature_map. rewrite (map_ext _ _ (fun t => quadrature_map _ _ _ _)). rewrite rsum_swap. apply rsum_map_ext. intros p _.
  assert (Hs : eval e (env_at E q vars p) = rsum (map (fun t => eval t (env_at E q vars p)) (add_args e))) by (rewrite <- nsum_R; exact (ok_add_args _ _ _ _ _ _ _ _ OK e _)).
  rewrite Hs. rewrite <- !rsum_map_mult_r. reflexivity.
Qed.

Notation whole := (varf_tensorized fnum_R far E e_mul e_1 add_args mul_args free_vars sym_eqb eval order enum cov_factor junk pos_eqb).

Lemma vsum_factor : forall (q : quad) (f : func E) degree s, quad_ok q -> NoDup (f_dirs f) -> incl (free_vars (f_sym f)) (f_dirs f) -> add_args (f_sym f) <> [] -> length (add_args (f_sym (q_factor q))) <> 1 ->
  whole true q f degree s = Throw "ValueError".
Proof using OK V.
  intros q f degree s Hq HN Hi H0 Hone. unfold varf_tensorized, tensorize_at. assert (Hdg : p_is_diag (q_pos q) = true) by apply Hq. rewrite Hdg. cbn [negb orb]. unfold fun_split. rewrite map_length.
  destruct (add_args (f_sym f)) as [|t ts] eqn:Et; [contradiction|]. cbn [length seq map combine mapM].
  destruct (split_term_ok fnum_R L E eval e_mul e_1 add_args mul_args free_vars OK (f_dirs f) t HN) as ((A1 & A2 & _) & _).
  { intros a Ha x Hx. apply Hi. apply (vars_add_args _ _ _ _ _ V _ t); [rewrite Et; left; reflexivity|]. apply (vars_mul_args _ _ _ _ _ V _ a Ha). exact Hx. }
  destruct (const_split fnum_R L E eval _ A1 A2) as (c & C1 & _). unfold tens_term at 1. rewrite C1. cbn [bind]. unfold fun_split.
  destruct (add_args (f_sym (q_factor q))) as [|x [|y l]]; [reflexivity|cbn [length] in Hone; lia|reflexivity].
Qed.

(** The entries of the tensorized form, whether or not the direct one drops coefficients. *)
Theorem varf_galerkin_tensorized : forall (q : quad) vars (f : func E) degree s, quad_ok q -> setting q vars s degree -> usable s (length vars) (2 * degree) -> incl (free_vars (f_sym (q_factor q))) (p_dirs (q_pos q)) ->
  f_dirs f = p_dirs (q_pos q) -> incl (free_vars (f_sym f)) (p_dirs (q_pos q)) -> add_args (f_sym f) <> [] ->
  (forall t, In t (add_args (f_sym f)) -> parts_drop_nothing eval mul_args free_vars quad_project q s degree t) ->
  whole true q f degree s = Throw "ValueError" /\ ~ (one_term add_args (f_sym (q_factor q)) /\ (one_term add_args (f_sym f) \/ forall a b, (forall env, eval a env = eval b env) -> sym_eqb a b = true)) \/
  exists v, whole true q f degree s = Ok v /\ von v (p_dirs (q_pos q)) s degree /\ v_pos v = q_pos q /\ (forall env, eval (f_sym (v_factor v)) env = eval (f_sym (q_factor q)) env) /\
    forall r c, index_of s (length vars) degree r -> index_of s (length vars) degree c -> varf_at v r c = galerkin (q_nodes q) (q_weights q) (kinds (p_types (q_pos q))) (samples q vars (f_sym f)) r c.
Proof using NP OK V far_ok order_perm enum_perm pos_refl.
  intros q vars f degree s Hq HS Hu2 Hfv Hfd Hff Hf0 Hk. pose proof HS as (HR & Hw & Hu & Hfit & Hfl & Hcl).
  pose proof HR as ((R1 & R2 & R3 & R4 & R5 & R6) & R7 & R8 & R9).
  destruct (Nat.eq_dec (length (add_args (f_sym (q_factor q)))) 1) as [Hone|Hone]; [|left; split; [|intros (C & _); contradiction]].
  2:{ apply vsum_factor; try assumption; rewrite Hfd; assumption. }
  destruct (add_args (f_sym (q_factor q))) as [|ft [|? ?]] eqn:Hft; try discriminate Hone.
  unfold varf_tensorized, tensorize_at. assert (Hdg : p_is_diag (q_pos q) = true) by apply Hq. rewrite Hdg. cbn [negb orb]. unfold fun_split. rewrite map_length, Hfd.
  destruct (terms_varf q vars degree s ft (add_args (f_sym f)) 0 Hq HS Hu2 Hfv Hft) as (vs & T1 & T2).
  { intros t a Ht Ha x Hx. apply Hff. apply (vars_add_args _ _ _ _ _ V _ t Ht). apply (vars_mul_args _ _ _ _ _ V _ a Ha). exact Hx. }
  { exact Hk. }
  rewrite T1. cbn [bind]. remember (add_args (f_sym f)) as tl eqn:Etl. destruct T2 as [|t v ts vs T T2]; [contradiction|].
  destruct (sum_varf q vars degree s ts vs T2 [t] v) as [[S2 S3]|(r' & S2 & (U1 & U2 & U3 & U4))].
  { destruct T as (A1 & A2 & A3 & A4). split; [exact A1|]. split; [exact A2|]. split; [exact A3|]. intros r c Hr Hc. etransitivity; [exact (A4 r c Hr Hc)|]. symmetry. exact (Rplus_0_r _). }
  - left. split; [exact S2|]. intros (_ & [C|C]); apply S3; [left|right; exact C]. unfold one_term in C. rewrite <- Etl in C. cbn [length] in C. inversion T2; [reflexivity|]. subst. cbn [length] in C. lia.
  - right. exists r'. split; [exact S2|]. split; [exact U1|]. split; [exact U2|]. split; [exact U3|]. intros r c Hr Hc. rewrite <- R3 in Hr, Hc. rewrite sum_galerkin, <- Etl. exact (U4 r c Hr Hc).
Qed.

Theorem varf_same : forall (q : quad) vars (f : func E) degree s, quad_ok q -> setting q vars s degree -> usable s (length vars) (2 * degree) -> incl (free_vars (f_sym (q_factor q))) (p_dirs (q_pos q)) ->
  f_dirs f = p_dirs (q_pos q) -> incl (free_vars (f_sym f)) (p_dirs (q_pos q)) -> add_args (f_sym f) <> [] ->
  (forall t, In t (add_args (f_sym f)) -> parts_drop_nothing eval mul_args free_vars quad_project q s degree t) -> keeps q s degree (f_sym f) ->
  exists v0, varf_fun q f degree s = Ok v0 /\
   (whole true q f degree s = Throw "ValueError" /\ ~ (one_term add_args (f_sym (q_factor q)) /\ (one_term add_args (f_sym f) \/ forall a b, (forall env, eval a env = eval b env) -> sym_eqb a b = true)) \/
    exists v, whole true q f degree s = Ok v /\ v_mat v = v_mat v0 /\ v_pos v = v_pos v0 /\ v_set v = v_set v0 /\ v_degree v = v_degree v0 /\
      f_dirs (v_factor v) = f_dirs (v_factor v0) /\ forall env, eval (f_sym (v_factor v)) env = eval (f_sym (v_factor v0)) env).
Proof using NP OK V far_ok order_perm enum_perm pos_refl.
  intros q vars f degree s Hq HS Hu2 Hfv Hfd Hff Hf0 Hk Hk0. pose proof HS as (HR & Hw & Hu & Hfit & Hfl & Hcl). pose proof HR as ((R1 & R2 & R3 & R4 & R5 & R6) & R7 & R8 & R9).
  destruct (direct_varf q vars f degree s) as (v0 & Z1 & Z2 & Z3 & Z4 & Z5); try assumption; try apply Hq; [exact (ex_intro _ vars R1)|].
  exists v0. split; [exact Z1|]. destruct (varf_galerkin_tensorized q vars f degree s Hq HS Hu2 Hfv Hfd Hff Hf0 Hk) as [G|(v & T1 & T2 & T3 & T4 & T5)]; [left; exact G|right]. exists v. split; [exact T1|].
  destruct T2 as ((A1 & A2 & _ & _ & _ & A3 & _) & _ & A4 & A5). destruct Z2 as ((B1 & B2 & _ & _ & _ & B3 & _) & _ & B4 & B5).
  split; [|split; [congruence|split; [congruence|split; [congruence|split; [congruence|intros env; rewrite T4, Z4; reflexivity]]]]].
  destruct A1 as [_ A1]. destruct B1 as [_ B1]. rewrite A4, A5, R3 in A1. rewrite B4, B5, R3 in B1. apply (entry_ext fnum_R s (length vars) (recovered s degree)); [apply usable_recovered; exact Hu|exact A1|exact B1|].
  intros r c Hr Hc. apply (proj1 (index_of_recovered _ _ _ _)) in Hr, Hc. pose proof (T5 r c Hr Hc) as G1. pose proof (Z5 r c Hr Hc) as G2. unfold varf_at in G1, G2. rewrite A4, A5, A2, R3 in G1. rewrite B4, B5, B2, R3 in G2. congruence.
Qed.
End Varf.
