(** The decorator tensorize_at: the parts of a quadrature over the reals, and the transform. *)
From Coq Require Import String List Bool Arith ZArith Lia Sorted Permutation Reals Lra.
From Verif Require Import Base Lists IndexModel Spec Grid Num LinModel LinSpec LinBase MatBase Dirs Degree Facts2 PyBase PosModel PosSpec PosFacts SeriesModel SeriesSpec SeriesFacts SeriesFacts3 PartModel PartSpec PartFacts
  SplitModel SplitSpec SplitFacts MulModel MulSpec MulFacts Fnum CalcModel CalcSpec CalcReal CalcQuad CalcVarf2 CalcTensor Facts6 Facts7 Facts8 PyQuadModel PyQuadSpec PyQuadFacts PyQuadFacts2 TensQuadModel TensQuadSpec TensQuadFacts TensQuadFacts2.
Import ListNotations.
Local Open Scope string_scope. Local Open Scope list_scope. Local Open Scope nat_scope.

(** The places of the directions [g] in [D]. *)
Definition idx (D g : list nat) : list nat := map (fun d => place d D) g.
Lemma idx_length : forall D g, length (idx D g) = length g.
Proof. intros. apply map_length. Qed.
Lemma place_lt : forall D d, In d D -> place d D < length D.
Proof. intros D d H. apply nth_error_Some. rewrite place_nth by exact H. discriminate. Qed.
Lemma idx_lt : forall D g, incl g D -> Forall (fun x => x < length D) (idx D g).
Proof. intros D g H. apply Forall_forall. intros x Hx. apply in_map_iff in Hx as (d & <- & Hd). apply place_lt, H, Hd. Qed.
Lemma place_at : forall D i d, NoDup D -> nth_error D i = Some d -> place d D = i.
Proof.
  intros D i d ND Hd. pose proof (place_nth _ _ (nth_error_In _ _ Hd)) as G. apply (proj1 (NoDup_nth_error _) ND); [apply nth_error_Some; rewrite G; discriminate|congruence].
Qed.
Lemma place_seq : forall D, NoDup D -> map (fun d => place d D) D = seq 0 (length D).
Proof.
  intros D ND. apply nth_error_ext. intros i. rewrite nth_error_map. destruct (nth_error D i) as [d|] eqn:Ed; cbn [option_map].
  - rewrite (place_at D i d ND Ed). symmetry. assert (Hi : i < length D) by (apply nth_error_Some; rewrite Ed; discriminate). rewrite (nth_error_nth' _ 0) by (rewrite seq_length; exact Hi). rewrite seq_nth by exact Hi. reflexivity.
  - symmetry. apply nth_error_None. rewrite seq_length. apply nth_error_None. exact Ed.
Qed.
Lemma idx_perm : forall D gs, NoDup D -> Permutation D (concat gs) -> Permutation (seq 0 (length D)) (concat (map (idx D) gs)).
Proof. intros D gs ND H. rewrite <- (place_seq D ND). unfold idx. rewrite <- concat_map. apply Permutation_map. exact H. Qed.
Lemma lookup_place : forall D m x, length m = length D -> lookup D m x = nth (place x D) m 0.
Proof. induction D as [|y D IH]; intros [|e m] x H; try discriminate; [reflexivity|]. cbn [lookup place]. destruct (y =? x) eqn:E0; [reflexivity|]. apply IH. cbn in H. lia. Qed.
Lemma pick_reindex : forall D g m, length m = length D -> pick 0 m (idx D g) = reindex D g m.
Proof. intros D g m H. unfold pick, idx, reindex. rewrite map_map. apply map_ext. intros x. symmetry. apply lookup_place. exact H. Qed.
Lemma pick_ext : forall A (z : A) l l' D g, length l' = length g -> (forall j d, nth_error g j = Some d -> nth_error l' j = Some (nth (place d D) l z)) -> l' = pick z l (idx D g).
Proof.
  intros A z l l' D g Hl H. unfold pick, idx. rewrite map_map. apply nth_error_ext. intros j. rewrite nth_error_map. destruct (nth_error g j) as [d|] eqn:Ed; cbn [option_map]; [apply H; exact Ed|].
  apply nth_error_None. apply nth_error_None in Ed. lia.
Qed.
Lemma nth_pick_place : forall A (z : A) l D g j d, nth_error g j = Some d -> nth_error (pick z l (idx D g)) j = Some (nth (place d D) l z).
Proof. intros A z l D g j d H. unfold pick, idx. rewrite map_map, nth_error_map, H. reflexivity. Qed.

Lemma grid_count : forall n (nodes : list (list R)), Forall (fun xs => length xs = n) nodes -> length (grid nodes) = n ^ length nodes.
Proof.
  intros n nodes H. unfold grid. rewrite row_major_glist, glist_length. induction H as [|xs nodes Hx H IH]; [reflexivity|]. cbn [map fold_right length Nat.pow]. rewrite Hx, IH. reflexivity.
Qed.
Lemma grid_fits_pick : forall n (nodes : list (list R)) ix, Forall (fun xs => length xs = n) nodes -> Forall (fun x => x < length nodes) ix -> ix <> [] -> length ix <= length nodes -> grid_fits nodes -> grid_fits (pick [] nodes ix).
Proof.
  intros n nodes ix Hn Hx H0 Hl Hg. unfold grid_fits in *. rewrite (grid_count n nodes Hn) in Hg.
  assert (Hn' : Forall (fun xs : list R => length xs = n) (pick [] nodes ix)). { unfold pick. apply Forall_forall. intros xs Hxs. apply in_map_iff in Hxs as (x & <- & Hin). rewrite Forall_forall in Hn, Hx. apply Hn, nth_In, Hx, Hin. }
  rewrite (grid_count n _ Hn'). assert (Lp : length (pick [] nodes ix) = length ix) by (unfold pick; apply map_length). rewrite Lp. eapply Z.le_lt_trans; [|exact Hg]. apply inj_le.
  destruct n as [|n]; [|apply Nat.pow_le_mono_r; [discriminate|exact Hl]]. destruct ix as [|x ix]; [contradiction|]. cbn [length Nat.pow]. lia.
Qed.

Lemma located_nth : forall mean vars y x, length vars = length mean -> length y = length mean -> x < length mean -> nth x (located mean vars y) 0%R = (nth x mean 0 + sqrt (nth x vars 0) * nth x y 0)%R.
Proof.
  intros mean vars y x H1 H2 Hx. unfold located. rewrite (nth_map_lt _ _ _ _ _ _ (0%R, (0%R, 0%R))) by (rewrite !combine_length; lia).
  rewrite !combine_nth by (rewrite ?combine_length; lia). reflexivity.
Qed.
Lemma located_pick : forall mean vars y ix, length vars = length mean -> length y = length mean -> Forall (fun x => x < length mean) ix ->
  located (pick 0%R mean ix) (pick 0%R vars ix) (pick 0%R y ix) = pick 0%R (located mean vars y) ix.
Proof.
  intros mean vars y ix H1 H2 H. unfold pick. induction H as [|x ix Hx H IH]; [reflexivity|]. cbn [map]. rewrite <- IH. unfold located at 1. cbn [combine map]. rewrite (located_nth mean vars y x H1 H2 Hx). reflexivity.
Qed.

Section Part.
Variable far : list (list R) -> bool.
Variable E : Type.
Variable e_mul : E -> E -> E.
Variable e_1 : E.
Variable add_args mul_args : E -> list E.
Variable free_vars : E -> list nat.
Notation quad := (quad fnum_R E).
Notation quad_project := (quad_project fnum_R far E e_mul e_1 add_args mul_args free_vars).

Lemma part_R : forall (q : quad) vars g a, quad_ok q -> quad_R q vars -> quad_project q g = Ok a -> part_of fnum_R E q a -> p_dirs (q_pos a) = g -> increasing g -> g <> [] -> incl g (p_dirs (q_pos q)) ->
  length (q_nodes a) = length g -> length (q_weights a) = length g ->
  let ix := idx (p_dirs (q_pos q)) g in
  q_nodes a = pick [] (q_nodes q) ix /\ q_weights a = pick [] (q_weights q) ix /\ p_mean (q_pos a) = pick 0%R (p_mean (q_pos q)) ix /\ p_types (q_pos a) = pick "" (p_types (q_pos q)) ix /\
  quad_R a (pick 0%R vars ix) /\ diagonal fnum_R (q_pos a).
Proof.
  intros q vars g a Hq HR Hp (Pa & Pb & Pc) Hd Hi Hn Hg Ln Lw ix. destruct Hq as (Q1 & Q2 & Q3 & Q4 & (n & Q5) & Q6 & Q7). destruct HR as ((R1 & R2 & R3 & R4 & R5 & R6) & R7 & R8 & R9).
  set (D := p_dirs (q_pos q)) in *.
  assert (Hdiag : diagonal fnum_R (q_pos a)).
  { unfold PyQuadModel.quad_project in Hp. apply bind_ok in Hp as (factor & _ & Hp). apply bind_ok in Hp as (pos & Hpos & Hp). apply bind_ok in Hp as (nodes & _ & Hp). apply bind_ok in Hp as (weights & _ & Hp).
    unfold quad_init in Hp. apply bind_ok in Hp as (u & _ & Hp). injection Hp as <-. cbn [q_pos]. eapply project_diag. exact Hpos. }
  assert (ND : NoDup g) by (apply increasing_NoDup; exact Hi).
  assert (Rule : forall j d, nth_error g j = Some d -> nth_error (q_nodes a) j = Some (nth (place d D) (q_nodes q) []) /\ nth_error (q_weights a) j = Some (nth (place d D) (q_weights q) [])).
  { intros j d Hj. rewrite Hd in Pc. destruct (Pc j d Hj) as (xs & ws & X1 & X2 & (i & I1 & I2 & I3)). rewrite X1, X2. rewrite (place_at D i d R6 I1). rewrite (nth_error_nth _ _ _ I2), (nth_error_nth _ _ _ I3). auto. }
  assert (Rec : forall j d, nth_error g j = Some d -> nth_error (p_mean (q_pos a)) j = Some (nth (place d D) (p_mean (q_pos q)) 0%R) /\ nth_error (p_types (q_pos a)) j = Some (nth (place d D) (p_types (q_pos q)) "") /\
    exists row, nth_error (p_cov (q_pos a)) j = Some row /\ nth_error row j = Some (nth (place d D) vars 0%R)).
  { intros j d Hj. pose proof (Hg d (nth_error_In _ _ Hj)) as Hin. set (i := place d D). assert (Hi1 : nth_error D i = Some d) by (apply place_nth; exact Hin). assert (Hi2 : i < length D) by (apply place_lt; exact Hin). assert (Hi3 : i < length vars) by exact (eq_ind _ (fun n => i < n) Hi2 _ R3).
    assert (G : records (q_pos q) d (nth i (p_mean (q_pos q)) 0%R) (nth i vars 0%R) (nth i (p_types (q_pos q)) "")).
    { exists i, (map (fun j => if i =? j then nth i vars 0%R else 0%R) (seq 0 (length vars))). split; [exact Hi1|]. split; [apply nth_error_nth'; exact (eq_ind_r (fun n => i < n) Hi3 R4)|]. split; [|split; [|apply nth_error_nth'; exact (eq_ind_r (fun n => i < n) Hi3 R5)]].
      - rewrite R1. unfold diag_mat. rewrite nth_error_map_seq by exact Hi3. reflexivity.
      - rewrite nth_error_map_seq by exact Hi3. rewrite Nat.eqb_refl. reflexivity. }
    destruct (Pb d _ _ _ (eq_ind_r (fun l => In d l) (nth_error_In _ _ Hj) Hd) G) as (j' & row & J1 & J2 & J3 & J4 & J5).
    assert (j' = j) as ->. { rewrite Hd in J1. apply (proj1 (NoDup_nth_error _) ND); [apply nth_error_Some; rewrite J1; discriminate|congruence]. }
    split; [exact J2|]. split; [exact J5|]. exists row. auto. }
  destruct Pa as (A1 & A2 & A3 & A4 & A5). rewrite Hd in *.
  assert (N1 : q_nodes a = pick [] (q_nodes q) ix) by (apply pick_ext; [exact Ln|intros j d Hj; apply Rule; exact Hj]).
  assert (N2 : q_weights a = pick [] (q_weights q) ix) by (apply pick_ext; [exact Lw|intros j d Hj; apply Rule; exact Hj]).
  assert (N3 : p_mean (q_pos a) = pick 0%R (p_mean (q_pos q)) ix) by (apply pick_ext; [exact A2|intros j d Hj; apply Rec; exact Hj]).
  assert (N4 : p_types (q_pos a) = pick "" (p_types (q_pos q)) ix) by (apply pick_ext; [exact A4|intros j d Hj; apply Rec; exact Hj]).
  assert (Lx : length ix = length g) by apply idx_length.
  assert (Ix : Forall (fun x => x < length D) ix) by (apply idx_lt; exact Hg).
  assert (Lg : length g <= length D) by (apply NoDup_incl_length; assumption).
  split; [exact N1|]. split; [exact N2|]. split; [exact N3|]. split; [exact N4|]. split; [|exact Hdiag].
  split; [|split; [|split]].
  - destruct Hdiag as (l & El). assert (Ll : length l = length g). { destruct A3 as [A3 _]. rewrite El, diag_length in A3. exact A3. }
    split; [|split; [|split; [|split; [|split]]]].
    + rewrite El. f_equal. apply pick_ext; [exact Ll|]. intros j d Hj. destruct (Rec j d Hj) as (_ & _ & row & B1 & B2). rewrite El in B1. exact (eq_trans (eq_sym (diag_nth _ _ _ _ B1)) B2).
    + unfold pick. apply Forall_forall. intros v Hv. apply in_map_iff in Hv as (x & <- & Hx). rewrite Forall_forall in R2, Ix. apply R2, nth_In. rewrite <- R3. apply Ix. exact Hx.
    + unfold pick. rewrite map_length, Hd. symmetry. exact Lx.
    + rewrite N3. unfold pick. rewrite !map_length. reflexivity.
    + rewrite N4. unfold pick. rewrite !map_length. reflexivity.
    + rewrite Hd. exact ND.
  - rewrite N1. unfold pick. rewrite !map_length. reflexivity.
  - intros G. rewrite G in Ln. destruct g; [contradiction|discriminate Ln].
  - rewrite N1. apply (grid_fits_pick n); try assumption; [exact (eq_ind_r (fun n => Forall (fun x => x < n) ix) Ix Q3)|intros G; rewrite G in Lx; destruct g; [contradiction|discriminate Lx]|exact (eq_ind_r (fun n => length ix <= n) (eq_ind_r (fun n => n <= length D) Lg Lx) Q3)].
Qed.

(** The values of the variables at the point at position [p] of the grid. *)
Definition env_at (q : quad) (vars : list R) (p : list nat) (d : nat) : R := nth (place d (p_dirs (q_pos q))) (grid_point q vars p) 0%R.

Lemma point_length : forall (q : quad) vars p, quad_R q vars -> In p (grid (q_nodes q)) -> length (grid_point q vars p) = length (p_dirs (q_pos q)).
Proof.
  intros q vars p ((R1 & R2 & R3 & R4 & R5 & R6) & R7 & R8 & R9) Hp. unfold grid_point, located. rewrite map_length, !combine_length. rewrite (PyQuadFacts2.at_pos_length (q_nodes q) p) by (apply grid_length_in; exact Hp).
  change (@length (carrier (fn fnum_R)) (p_mean (q_pos q)) = length vars) in R4. change (@length (list R) (q_nodes q) = length vars) in R7. rewrite R7. etransitivity; [apply f_equal2; [exact R4|apply Nat.min_id]|]. rewrite Nat.min_id. symmetry. exact R3.
Qed.
Lemma env_at_point : forall (q : quad) vars p, quad_R q vars -> In p (grid (q_nodes q)) -> at_point (p_dirs (q_pos q)) (grid_point q vars p) (env_at q vars p).
Proof.
  intros q vars p HR Hp i d Hd. unfold env_at. rewrite (place_at _ i d) by (try exact Hd; apply HR). apply nth_error_nth'. rewrite point_length by assumption. apply nth_error_Some. rewrite Hd. discriminate.
Qed.
Lemma part_point : forall (q a : quad) vars g p, quad_R q vars -> incl g (p_dirs (q_pos q)) -> let ix := idx (p_dirs (q_pos q)) g in p_dirs (q_pos a) = g -> q_nodes a = pick [] (q_nodes q) ix -> p_mean (q_pos a) = pick 0%R (p_mean (q_pos q)) ix ->
  In p (grid (q_nodes q)) -> In (pick 0 p ix) (grid (q_nodes a)) /\ at_point (p_dirs (q_pos a)) (grid_point a (pick 0%R vars ix) (pick 0 p ix)) (env_at q vars p).
Proof.
  intros q a vars g p HR Hg ix Hd N1 N3 Hp. pose proof HR as ((R1 & R2 & R3 & R4 & R5 & R6) & R7 & R8 & R9). assert (Ix : Forall (fun x => x < length vars) ix) by (rewrite <- R3; apply idx_lt; exact Hg).
  pose proof (grid_length_in _ _ Hp) as Lp. split.
  - rewrite N1. apply in_row_major in Hp as [_ Hp]. apply in_row_major. unfold pick. rewrite !map_length. split; [reflexivity|]. intros k Hk. rewrite map_map.
    rewrite (nth_map_lt _ _ _ ix k 0 0 Hk). rewrite (nth_map_lt _ _ _ ix k 0 0 Hk).
    assert (Hx : nth k ix 0 < length (q_nodes q)) by (rewrite Forall_forall in Ix; rewrite R7; apply Ix, nth_In; exact Hk). specialize (Hp (nth k ix 0)). rewrite map_length in Hp. specialize (Hp Hx).
    rewrite (nth_map_lt _ _ (@length R) (q_nodes q) (nth k ix 0) 0 [] Hx) in Hp. exact Hp.
  - rewrite Hd. unfold grid_point. rewrite N1, N3. rewrite <- at_pos_pick; [|exact Lp|exact (eq_ind_r (fun n => Forall (fun x => x < n) ix) Ix R7)].
    rewrite (located_pick (p_mean (q_pos q)) vars (at_pos (q_nodes q) p) ix); [| | |].
    + intros j d Hj. unfold env_at. apply nth_pick_place. exact Hj.
    + symmetry. exact R4.
    + etransitivity; [apply PyQuadFacts2.at_pos_length; exact Lp|]. etransitivity; [exact R7|symmetry; exact R4].
    + exact (eq_ind_r (fun n => Forall (fun x => x < n) ix) Ix R4).
Qed.
End Part.

Lemma kinds_pick : forall types ix, kinds (pick "" types ix) = pick 0 (kinds types) ix.
Proof. intros types ix. unfold kinds, pick. rewrite map_map. apply map_ext. intros x. symmetry. exact (map_nth (fun t => if String.eqb t "fourier" then 1 else 0) types "" x). Qed.

Section Transform.
Variable far : list (list R) -> bool.
Hypothesis far_ok : forall l, far (diag_mat fnum_R l) = false.
Variable E : Type.
Variable eval : E -> (nat -> R) -> R.
Variable e_mul e_div : E -> E -> E.
Variable e_1 : E.
Variable add_args mul_args : E -> list E.
Variable free_vars : E -> list nat.
Variable sym_eqb : E -> E -> bool.
Hypothesis OK : sympy_ok (N := fnum_R) eval e_mul e_1 add_args mul_args free_vars.
Hypothesis V : sympy_vars e_mul e_1 add_args mul_args free_vars.
Hypothesis D1 : forall a env, eval (e_div a e_1) env = eval a env.
Hypothesis D2 : forall a, incl (free_vars (e_div a e_1)) (free_vars a).
Hypothesis S1 : sym_eqb e_1 e_1 = true.
Variable cov_factor : list (list R) -> list (list R).
Variable la_inv : list (list R) -> res (list (list R)).
Variable far8 : list (list R) -> bool.
Variable junk tiny : R.
Hypothesis NP : numpy_ok cov_factor la_inv far8.
Notation quad := (quad fnum_R E).
Notation quad_project := (quad_project fnum_R far E e_mul e_1 add_args mul_args free_vars).
Notation transform_fun := (quad_transform_fun fnum_R E e_1 free_vars eval cov_factor junk tiny).
Notation on := (on fnum_R E free_vars).
Notation L := (num_R_laws : num_laws fnum_R).

Let RF : reads_free eval free_vars := ok_free _ _ _ _ _ _ _ _ OK.

Lemma transform_degree : forall (q : quad) vars values degree s r, quad_R q vars -> f_dirs (q_factor q) = p_dirs (q_pos q) -> incl (free_vars (f_sym (q_factor q))) (f_dirs (q_factor q)) ->
  length values = length (grid (q_nodes q)) -> rules_match (q_nodes q) (q_weights q) -> usable s (length vars) degree -> flags_ok s degree (kinds (p_types (q_pos q))) ->
  quad_transform fnum_R E e_1 free_vars eval cov_factor junk tiny q values degree s = Ok r -> s_degree r = recovered s degree.
Proof using NP RF.
  intros q vars values degree s r Hq Hfd Hfi Hv Hw Hu Hfl H. destruct (transform_mapped E free_vars eval cov_factor la_inv far8 junk tiny e_1 NP RF q vars values Hq Hfd Hfi Hv) as (fv & G1 & G2 & G3). pose proof Hq as ((P1 & P2 & P3 & P4 & P5 & P6) & Q1 & Q2 & Q3).
  assert (Hu' : usable s (length (q_nodes q)) degree) by (rewrite Q1; exact Hu).
  destruct (Facts6.forward_coef s degree (q_nodes q) (q_weights q) (kinds (p_types (q_pos q))) (divided tiny values fv)) as (out & O1 & O2 & O3); try assumption.
  { apply usable_fits. exact Hu'. } { unfold kinds. rewrite map_length. exact (eq_trans P5 (eq_sym Q1)). }
  assert (Lo : length out = length (points s (length vars) degree)) by (rewrite <- Q1; exact O2).
  assert (Hi : series_init fnum_R E e_1 out (q_pos q) (Some (q_factor q)) s = Ok (Ser out (q_pos q) s (Degree.recovered s degree) (q_factor q))).
  { apply (series_init_ok fnum_R E e_1 out (q_pos q) (Some (q_factor q)) s (length vars) degree); [split; [exact P3|split; [exact P4|exact Hu]]|exact Lo|]. left. intros G. discriminate G. }
  rewrite G3, O1 in H. cbn [bind] in H. pose proof (eq_trans (eq_sym Hi) H) as G. injection G as <-. reflexivity.
Qed.

Lemma part_transform : forall (q : quad) vars degree s ft first rest g (f : func E), quad_ok q -> quad_R q vars -> p_dirs (q_pos q) = first :: rest -> incl (free_vars (f_sym (q_factor q))) (p_dirs (q_pos q)) ->
  add_args (f_sym (q_factor q)) = [ft] -> rules_match (q_nodes q) (q_weights q) -> usable s (length vars) degree -> flags_ok s degree (kinds (p_types (q_pos q))) ->
  increasing g -> g <> [] -> incl g (p_dirs (q_pos q)) -> (forall a, In a (mul_args ft) -> ~ straddles free_vars g a) -> f_dirs f = g -> incl (free_vars (f_sym f)) g ->
  let ix := idx (p_dirs (q_pos q)) g in
  exists a h dv, quad_project q g = Ok a /\ transform_fun a f degree s = Ok h /\ fun_project E e_mul e_1 add_args mul_args free_vars (q_factor q) g = Ok (s_factor h) /\ on h g s degree /\ (forall d m v t, In d g -> records (q_pos q) d m v t -> records (s_pos h) d m v t) /\
    (forall env, eval (f_sym (s_factor h)) env = ((if existsb (Nat.eqb first) g then product (N := fnum_R) eval (filter (constant free_vars) (mul_args ft)) env else 1) * product (N := fnum_R) eval (filter (inside free_vars g) (mul_args ft)) env)%R) /\
    length dv = length (grid (pick [] (q_nodes q) ix)) /\
    (forall p, In p (grid (q_nodes q)) -> eval (f_sym (s_factor h)) (env_at E q vars p) <> 0%R ->
      value 0%R (grid (pick [] (q_nodes q) ix)) dv (pick 0 p ix) = (eval (f_sym f) (env_at E q vars p) / eval (f_sym (s_factor h)) (env_at E q vars p))%R) /\
    forall m, index_of s (length g) degree m -> series_at h m = quadrature (pick [] (q_nodes q) ix) (pick [] (q_weights q) ix) dv (phi (pick 0 (kinds (p_types (q_pos q))) ix) m).
Proof using NP OK V far_ok.
  intros q vars degree s ft first rest g f Hq HR HD Hfv Hft Hw Hu Hfl Hg1 Hg2 Hg3 Hst Hfd Hff ix.
  destruct (quad_project_ok fnum_R L far far_ok E eval e_mul e_1 add_args mul_args free_vars OK V q ft first rest g Hq HD Hfv Hft Hg1 Hg2 Hg3 Hst) as (a & e & A1 & A2 & A3 & A4 & A5 & A6 & A7 & A8).
  destruct (part_R far E e_mul e_1 add_args mul_args free_vars q vars g a Hq HR A1 A2 A3 Hg1 Hg2 Hg3 A7 A8) as (B1 & B2 & B3 & B4 & B5 & B6). fold ix in B1, B2, B3, B4, B5.
  pose proof HR as ((R1 & R2 & R3 & R4 & R5 & R6) & R7 & R8 & R9).
  assert (Ix : Forall (fun x => x < length (p_dirs (q_pos q))) ix) by (apply idx_lt; exact Hg3).
  assert (Ea : f_dirs (q_factor a) = p_dirs (q_pos a)) by (rewrite A4, A3; reflexivity).
  assert (Ei : incl (free_vars (f_sym (q_factor a))) (f_dirs (q_factor a))) by (rewrite A4; exact A5).
  destruct (discretize_values E free_vars eval cov_factor la_inv far8 junk NP RF a (pick 0%R vars ix) f B5) as (values & W1 & W2); [rewrite A3; exact Hfd|rewrite Hfd; exact Hff|].
  assert (Lv : length (pick 0%R vars ix) = length g) by (unfold pick; rewrite map_length; apply idx_length).
  assert (Lg : length g <= length (p_dirs (q_pos q))) by (apply NoDup_incl_length; [apply increasing_NoDup; exact Hg1|exact Hg3]).
  assert (Hwa : rules_match (q_nodes a) (q_weights a)) by (rewrite B1, B2; apply rules_match_pick; [exact Hw|exact (eq_ind_r (fun n => Forall (fun x => x < n) ix) Ix (eq_trans R7 (eq_sym R3)))]).
  assert (Hua : usable s (length (pick 0%R vars ix)) degree) by (rewrite Lv; eapply usable_sub; [exact Hu|split; [destruct g; [contradiction|cbn; lia]|rewrite <- R3; exact Lg]]).
  assert (Hka : kinds (p_types (q_pos a)) = pick 0 (kinds (p_types (q_pos q))) ix) by (rewrite B4; apply kinds_pick).
  assert (Hfa : flags_ok s degree (kinds (p_types (q_pos a)))) by (rewrite Hka; apply flags_ok_pick; [exact Hfl|unfold kinds; rewrite map_length; exact (eq_ind_r (fun n => Forall (fun x => x < n) ix) Ix (eq_trans R5 (eq_sym R3)))]).
  destruct (transform_coefficients E free_vars eval cov_factor la_inv far8 junk tiny e_1 NP RF a (pick 0%R vars ix) values degree s B5 Ea Ei (proj1 W2) Hwa Hua Hfa) as (h & fv & T1 & T2 & T3 & T4 & T5 & T6 & T7 & T8).
  pose proof (transform_degree a (pick 0%R vars ix) values degree s h B5 Ea Ei (proj1 W2) Hwa Hua Hfa T1) as T9.
  exists a, h, (divided tiny values fv). split; [exact A1|]. split; [unfold quad_transform_fun; rewrite W1; exact T1|]. split; [|split; [|split; [|split; [|split; [|split]]]]].
  - unfold PyQuadModel.quad_project in A1. apply bind_ok in A1 as (fac & A1 & A0). apply bind_ok in A0 as (pos & _ & A0). apply bind_ok in A0 as (nodes & _ & A0). apply bind_ok in A0 as (weights & _ & A0).
    unfold quad_init in A0. apply bind_ok in A0 as (u & _ & A0). injection A0 as <-. rewrite T5. exact A1.
  - rewrite Lv in T6. split; [exact T6|]. rewrite T3, T4, T5, T9, A3, A4. split; [reflexivity|]. split; [exact Hg1|]. split; [exact Hg2|]. split; [apply A2|]. split; [exact B6|]. split; [reflexivity|]. split; [reflexivity|]. split; [reflexivity|exact A5].
  - intros d m v t Hd Hr. rewrite T3. apply (proj1 (proj2 A2)); [rewrite A3; exact Hd|exact Hr].
  - intros env. rewrite T5, A4. exact (A6 env).
  - rewrite <- B1. unfold divided. rewrite map_length, combine_length. destruct W2 as [W2 _]. destruct T2 as [T2 _]. etransitivity; [apply f_equal2; [exact W2|exact T2]|]. apply Nat.min_id.
  - intros p Hp Hnz. destruct (part_point E q a vars g p HR Hg3 A3 B1 B3 Hp) as [Z1 Z2]. fold ix in Z1, Z2. rewrite <- B1. apply In_nth_error in Z1 as (k & Hk). destruct W2 as [W2 W3]. destruct T2 as [T2 T2'].
    pose proof (W3 k _ _ Hk Z2) as V1. pose proof (T2' k _ _ Hk Z2) as V2. rewrite T5 in *.
    assert (Ld : length (divided tiny values fv) = length (grid (q_nodes a))) by (unfold divided; rewrite map_length, combine_length; etransitivity; [apply f_equal2; [exact W2|exact T2]|]; apply Nat.min_id).
    etransitivity; [apply (value_nth R 0%R (grid (q_nodes a)) _ k); [unfold grid; rewrite row_major_glist; apply NoDup_glist|exact Hk|exact Ld]|].
    apply nth_error_nth. unfold divided. rewrite nth_error_map.
    assert (C : nth_error (combine values fv) k = Some (eval (f_sym f) (env_at E q vars p), eval (f_sym (q_factor a)) (env_at E q vars p))).
    { clear - V1 V2. revert values fv V1 V2. induction k as [|k IH]; intros [|x values] [|y fv] V1 V2; try discriminate V1; try discriminate V2; cbn in *; [congruence|]. apply IH; assumption. }
    etransitivity; [apply f_equal; exact C|]. cbn [option_map]. destruct (Req_EM_T _ 0) as [G|G]; [contradiction|reflexivity].
  - intros m Hm. rewrite <- Hka, <- B1, <- B2. apply T8, T7. rewrite Lv. exact Hm.
Qed.

Lemma nprod_R : forall l : list R, nprod (N := fnum_R) l = rprod l.
Proof using. induction l as [|x l IH]; [reflexivity|]. etransitivity; [apply (nprod_cons fnum_R L)|]. rewrite IH. reflexivity. Qed.
Lemma nsum_R : forall l : list R, nsum (N := fnum_R) l = rsum l.
Proof using.
  assert (G : forall (l : list R) a, fold_left Rplus l a = (a + rsum l)%R). { induction l as [|x l IH]; intros a; cbn [fold_left rsum fold_right]; [unfold rsum; cbn; lra|]. rewrite IH. unfold rsum. cbn [fold_right]. lra. }
  intros l. etransitivity; [exact (G l 0%R)|]. lra.
Qed.
Lemma rprod_div : forall A (f g : A -> R) l, Forall (fun x => g x <> 0%R) l -> rprod (map (fun x => (f x / g x)%R) l) = (rprod (map f l) / rprod (map g l))%R.
Proof using.
  intros A f g l H. induction H as [|x l Hx H IH]; cbn [map]; [unfold rprod; cbn; field|]. rewrite !rprod_cons, IH. assert (Hp : rprod (map g l) <> 0%R). { clear IH. induction H as [|y l Hy H IH]; cbn [map]; [unfold rprod; cbn; lra|]. rewrite rprod_cons. apply Rmult_integral_contrapositive_currified; assumption. }
  field. split; assumption.
Qed.
Lemma rprod_nonzero : forall A (g : A -> R) l, rprod (map g l) <> 0%R -> Forall (fun x => g x <> 0%R) l.
Proof using. intros A g. induction l as [|x l IH]; intros H; constructor; cbn [map] in H; rewrite rprod_cons in H; [intros G; apply H; rewrite G; ring|apply IH; intros G; apply H; rewrite G; ring]. Qed.

(** What is known of a group of directions, its function, the transform and the divided values. *)
Record piece := Piece { t_g : list nat; t_f : func E; t_h : SeriesModel.series fnum_R E; t_dv : list R }.
Definition piece_ok (q : quad) (vars : list R) (degree : nat) (s : iset) (ft : E) (first : nat) (t : piece) : Prop :=
  let ix := idx (p_dirs (q_pos q)) (t_g t) in
  fun_project E e_mul e_1 add_args mul_args free_vars (q_factor q) (t_g t) = Ok (s_factor (t_h t)) /\ on (t_h t) (t_g t) s degree /\ (forall d m v t', In d (t_g t) -> records (q_pos q) d m v t' -> records (s_pos (t_h t)) d m v t') /\
  (forall env, eval (f_sym (s_factor (t_h t))) env = ((if existsb (Nat.eqb first) (t_g t) then product (N := fnum_R) eval (filter (constant free_vars) (mul_args ft)) env else 1) * product (N := fnum_R) eval (filter (inside free_vars (t_g t)) (mul_args ft)) env)%R) /\
  length (t_dv t) = length (grid (pick [] (q_nodes q) ix)) /\
  (forall p, In p (grid (q_nodes q)) -> eval (f_sym (s_factor (t_h t))) (env_at E q vars p) <> 0%R ->
    value 0%R (grid (pick [] (q_nodes q) ix)) (t_dv t) (pick 0 p ix) = (eval (f_sym (t_f t)) (env_at E q vars p) / eval (f_sym (s_factor (t_h t))) (env_at E q vars p))%R) /\
  (forall m, index_of s (length (t_g t)) degree m -> series_at (t_h t) m = quadrature (pick [] (q_nodes q) ix) (pick [] (q_weights q) ix) (t_dv t) (phi (pick 0 (kinds (p_types (q_pos q))) ix) m)).

Lemma parts_transform : forall (q : quad) vars degree s ft first rest gs (fs : list (func E)), quad_ok q -> quad_R q vars -> p_dirs (q_pos q) = first :: rest -> incl (free_vars (f_sym (q_factor q))) (p_dirs (q_pos q)) ->
  add_args (f_sym (q_factor q)) = [ft] -> rules_match (q_nodes q) (q_weights q) -> usable s (length vars) degree -> flags_ok s degree (kinds (p_types (q_pos q))) ->
  Forall (fun g => increasing g /\ g <> [] /\ incl g (p_dirs (q_pos q)) /\ (forall a, In a (mul_args ft) -> ~ straddles free_vars g a)) gs -> Forall2 (fun g f => f_dirs f = g /\ incl (free_vars (f_sym f)) g) gs fs ->
  exists l, map t_g l = gs /\ map t_f l = fs /\ Forall (piece_ok q vars degree s ft first) l /\
    forall blocks, length blocks = length gs -> map fst blocks = gs -> map snd blocks = fs ->
    mapM (fun '(g, f) => part <- quad_project q g ;; transform_fun part f degree s) blocks = Ok (map t_h l).
Proof using NP OK V far_ok.
  intros q vars degree s ft first rest gs fs Hq HR HD Hfv Hft Hw Hu Hfl Hg H. induction H as [|g f gs fs [H1 H2] H IH].
  - exists []. split; [reflexivity|]. split; [reflexivity|]. split; [constructor|]. intros [|b blocks] Hb E1 E2; [reflexivity|discriminate Hb].
  - inversion Hg as [|? ? (G1 & G2 & G3 & G4) Hg']; subst. destruct (IH Hg') as (l & L1 & L2 & L3 & L4).
    destruct (part_transform q vars degree s ft first rest (f_dirs f) f Hq HR HD Hfv Hft Hw Hu Hfl G1 G2 G3 G4 eq_refl H2) as (a & h & dv & A1 & A2 & A0 & A3 & A4 & A5 & A6 & A7 & A8).
    exists (Piece (f_dirs f) f h dv :: l). cbn [map t_g t_f t_h t_dv]. split; [rewrite L1; reflexivity|]. split; [rewrite L2; reflexivity|]. split; [constructor; [|exact L3]; exact (conj A0 (conj A3 (conj A4 (conj A5 (conj A6 (conj A7 A8))))))|].
    intros [|(g0, f0) blocks] Hb E1 E2; [discriminate Hb|]. cbn [map fst snd] in E1, E2. injection E1 as -> E1. injection E2 as -> E2. cbn [mapM]. rewrite A1. cbn [bind]. rewrite A2. cbn [bind]. rewrite (L4 blocks); [reflexivity|cbn in Hb; lia|exact E1|exact E2].
Qed.

Lemma mapM_map : forall A B C (f : B -> res C) (g : A -> B) l, mapM f (map g l) = mapM (fun x => f (g x)) l.
Proof using. intros A B C f g. induction l as [|x l IH]; [reflexivity|]. cbn [map mapM]. rewrite IH. reflexivity. Qed.
Lemma combine_split : forall A B (l : list A) (l' : list B), length l = length l' -> map fst (combine l l') = l /\ map snd (combine l l') = l'.
Proof using. intros A B. induction l as [|x l IH]; intros [|y l'] H; try discriminate H; [split; reflexivity|]. cbn [combine map fst snd]. destruct (IH l') as [-> ->]; [cbn in H; lia|]. split; reflexivity. Qed.

Variable order : nat -> nat -> list fset -> list fset.
Hypothesis order_perm : forall i k l, Permutation (order i k l) l.
Variable enum : nat -> list fset -> list fset.
Hypothesis enum_perm : forall i l, Permutation (enum i l) l.
Notation tensorize := (series_tensorize fnum_R far E e_mul e_div e_1 add_args mul_args free_vars sym_eqb).
Notation run_term degree s := (tens_term fnum_R far E e_mul e_1 add_args mul_args free_vars eval order enum (SeriesModel.series fnum_R E) (fun q f => transform_fun q f degree s) tensorize (series_scale fnum_R E e_1)).

(** The quotients of the values of an expression by those of the factor of the quadrature. *)
Definition quotients (q : quad) (vars : list R) (e : E) : list R := map (fun p => (eval e (env_at E q vars p) / eval (f_sym (q_factor q)) (env_at E q vars p))%R) (grid (q_nodes q)).
Definition term_result (q : quad) (vars : list R) (degree : nat) (s : iset) (e : E) (r : SeriesModel.series fnum_R E) : Prop :=
  on r (p_dirs (q_pos q)) s degree /\ s_pos r = q_pos q /\ (forall env, eval (f_sym (s_factor r)) env = eval (f_sym (q_factor q)) env) /\
  forall m, index_of s (length (p_dirs (q_pos q))) degree m -> series_at r m = quadrature (q_nodes q) (q_weights q) (quotients q vars e) (phi (kinds (p_types (q_pos q))) m).

Lemma term_transform : forall (q : quad) vars degree s ft k term, quad_ok q -> quad_R q vars -> incl (free_vars (f_sym (q_factor q))) (p_dirs (q_pos q)) ->
  add_args (f_sym (q_factor q)) = [ft] -> rules_match (q_nodes q) (q_weights q) -> usable s (length vars) degree -> flags_ok s degree (kinds (p_types (q_pos q))) ->
  (forall p env, In p (grid (q_nodes q)) -> at_point (p_dirs (q_pos q)) (grid_point q vars p) env -> eval (f_sym (q_factor q)) env <> 0%R) ->
  (forall a, In a (mul_args term) -> incl (free_vars a) (p_dirs (q_pos q))) ->
  let run := run_term degree s q k (split_term E e_mul e_1 mul_args free_vars (p_dirs (q_pos q)) term) in
  run = Throw "ValueError" /\ ~ sympy_terms e_mul e_div e_1 add_args mul_args \/ exists r, run = Ok r /\ term_result q vars degree s term r /\ (sympy_terms e_mul e_div e_1 add_args mul_args -> one_term add_args (f_sym (s_factor r))).
Proof using NP OK V far_ok D1 D2 S1 order_perm enum_perm.
  intros q vars degree s ft k term Hq HR Hfv Hft Hw Hu Hfl Hnz Ht run.
  pose proof HR as ((R1 & R2 & R3 & R4 & R5 & R6) & R7 & R8 & R9). set (D := p_dirs (q_pos q)) in *.
  assert (HD0 : D <> []). { intros G. rewrite G in R3. destruct (q_nodes q) as [|x l]; [contradiction|]. rewrite <- R3 in R7. discriminate R7. }
  assert (HDq : exists first rest, D = first :: rest) by (destruct D as [|x l]; [contradiction|exists x, l; reflexivity]). destruct HDq as (first & rest & HDq).
  assert (HND : increasing D) by apply Hq. assert (HLD : length D = length vars) by exact R3.
  assert (Hfa : forall a, In a (mul_args ft) -> incl (free_vars a) D).
  { intros a Ha x Hx. apply Hfv. apply (vars_add_args _ _ _ _ _ V _ ft); [rewrite Hft; left; reflexivity|]. apply (vars_mul_args _ _ _ _ _ V _ a); [exact Ha|exact Hx]. }
  destruct (term_groups fnum_R L E eval e_mul e_1 add_args mul_args free_vars OK V (order k) (order_perm k) (enum k) (enum_perm k) D term ft R6 HD0 Ht Hfa) as (c & division & fs & C1 & C2 & C3 & C4 & C5 & C6 & C7 & _).
  set (gs := map fs_list (enum k division)) in *.
  destruct (parts_transform q vars degree s ft first rest gs fs Hq HR HDq Hfv Hft Hw Hu Hfl) as (l & L1 & L2 & L3 & L4).
  { apply Forall_forall. intros g Hg. destruct C4 as [[C4 _] C4']. rewrite Forall_forall in C4'. destruct (C4' g Hg) as [I1 I2]. split; [exact I1|]. split; [exact I2|]. split; [intros x Hx; apply C4; exists g; auto|]. intros a Ha. apply C5; assumption. }
  { exact C6. }
  assert (Lfs : length (enum k division) = length fs) by (rewrite <- (Forall2_length _ _ _ _ _ C6); unfold gs; rewrite map_length; reflexivity).
  assert (Hparts : mapM (fun '(dirs, term) => part <- quad_project q (fs_list dirs) ;; transform_fun part term degree s) (combine (enum k division) fs) = Ok (map t_h l)).
  { destruct (combine_split _ _ _ _ Lfs) as [F1 F2]. rewrite <- (L4 (map (fun '(b, f) => (fs_list b, f)) (combine (enum k division) fs))).
    - rewrite mapM_map. clear. induction (combine (enum k division) fs) as [|(b, f) m IH]; [reflexivity|]. cbn [mapM]. rewrite IH. reflexivity.
    - unfold gs. rewrite !map_length, combine_length, <- Lfs. apply Nat.min_id.
    - rewrite map_map. unfold gs. rewrite <- F1 at 2. rewrite map_map. apply map_ext. intros (b, f). reflexivity.
    - rewrite map_map. rewrite <- F2 at 2. apply map_ext. intros (b, f). reflexivity. }
  assert (Hl0 : l <> []). { intros ->. cbn [map] in L1. destruct C4 as [[C4 _] _]. rewrite <- L1 in C4. destruct (proj1 (C4 first)) as (b & [] & _). rewrite HDq. left. reflexivity. }
  assert (HP : Permutation D (concat gs)) by (apply grouping_perm; [exact R6|exact C4]).
  assert (Hon : Forall2 (fun g h => on h g s degree) gs (map t_h l)).
  { rewrite <- L1. clear - L3. induction L3 as [|t l Ht L3 IH]; cbn [map]; constructor; [apply Ht|exact IH]. }
  assert (Run : run = (tensorized <- tensorize (map t_h l) ;; series_scale fnum_R E e_1 (eval c (fun _ => 0%R)) tensorized)).
  { unfold run, tens_term. rewrite C1. cbn [bind]. unfold fun_split. rewrite Hft. cbn [map]. assert (Hfd : f_dirs (q_factor q) = D) by apply Hq. rewrite Hfd.
    match goal with |- bind ?x _ = _ => replace x with (@Base.Ok (list fset) division) by (symmetry; exact C2) end. cbn [bind].
    match goal with |- bind ?x _ = _ => replace x with (Ok (combine (enum k division) fs)) by (symmetry; exact C3) end. cbn [bind].
    match goal with |- bind ?x _ = _ => replace x with (Ok (map t_h l)) by (symmetry; exact Hparts) end. cbn [bind].
    rewrite map_length. destruct l as [|t l]; [contradiction|]. reflexivity. }
  assert (Hsingle : sympy_terms e_mul e_div e_1 add_args mul_args -> closed_single E e_mul e_div e_1 add_args /\ Forall (fun h => single E add_args (f_sym (s_factor h))) (map t_h l)).
  { intros ST. split.
    - intros a b Ha Hb. apply (terms_mul _ _ _ _ _ ST); apply (terms_div _ _ _ _ _ ST); assumption.
    - apply Forall_forall. intros h Hh. apply in_map_iff in Hh as (t & <- & Hin). rewrite Forall_forall in L3. destruct (L3 t Hin) as (G & _).
      apply (project_all E e_mul e_1 add_args mul_args free_vars (one_term add_args) (terms_1 _ _ _ _ _ ST) (terms_mul _ _ _ _ _ ST) (q_factor q) (t_g t) (s_factor (t_h t))); [|exact G].
      intros t0 a Ea Ha. exact (terms_args _ _ _ _ _ ST (f_sym (q_factor q)) t0 a Ea Ha). }
  assert (HuD : usable s (length D) degree) by (rewrite HLD; exact Hu).
  destruct (tens_list fnum_R L far far_ok E eval e_mul e_div e_1 add_args mul_args free_vars sym_eqb OK V D1 D2 S1 s degree gs (map t_h l) D Hon) as [[T1 T2]|(r0 & T1 & T2 & T3 & T4 & T5 & T6)]; try assumption.
  { destruct l; [contradiction|discriminate]. }
  - left. rewrite Run, T1. split; [reflexivity|]. intros ST. apply T2, Hsingle, ST.
  - right. destruct (scale_on fnum_R E e_1 free_vars (eval c (fun _ => 0%R)) r0 D s degree T2) as (r & U1 & U2 & U3 & U4 & U5). exists r. rewrite Run, T1. cbn [bind]. split; [exact U1|].
    assert (Hpos : s_pos r0 = q_pos q).
    { destruct T2 as (_ & T21 & _ & _ & T22 & T23 & _). apply (same_position fnum_R (q_pos q) (s_pos r0)); [apply Hq|exact T22|exact (ex_intro _ vars R1)|exact T23|exact T21|]. intros d m v t Hr. pose proof (records_dir _ _ _ _ _ _ Hr) as Hd. fold D in Hd. destruct C4 as [[C4 _] _]. apply C4 in Hd as (g & Hg & Hd). rewrite <- L1 in Hg.
      apply in_map_iff in Hg as (pc & <- & Hin). rewrite Forall_forall in L3. destruct (L3 pc Hin) as (_ & _ & G & _). apply (T5 (s_pos (t_h pc))); [apply in_map, in_map; exact Hin|]. apply G; [exact Hd|exact Hr]. }
    assert (Hfac : forall env, rprod (map (fun t => eval (f_sym (s_factor (t_h t))) env) l) = eval (f_sym (q_factor q)) env).
    { intros env. pose proof (groups_product fnum_R L E eval free_vars first rest (mul_args ft) gs env) as G. rewrite <- HDq in G. specialize (G C4 Hfa C5).
      assert (Ef : eval (f_sym (q_factor q)) env = product (N := fnum_R) eval (mul_args ft) env).
      { etransitivity; [apply (ok_add_args _ _ _ _ _ _ _ _ OK)|]. rewrite Hft. cbn [map]. etransitivity; [|apply (ok_mul_args _ _ _ _ _ _ _ _ OK)]. unfold nsum. cbn [fold_left]. exact (Rplus_0_l _). }
      rewrite Ef. etransitivity; [|exact G]. etransitivity; [|symmetry; apply nprod_R]. rewrite <- L1, map_map. f_equal. apply map_ext_in. intros t Hin. rewrite Forall_forall in L3. destruct (L3 t Hin) as (_ & _ & _ & G2 & _). exact (G2 env). }
    split; [|intros ST; rewrite U4; apply T4; apply Hsingle; exact ST].
    split; [exact U2|]. split; [rewrite U3; exact Hpos|]. split.
    + intros env. rewrite U4. etransitivity; [exact (T3 env)|]. rewrite <- Hfac. etransitivity; [apply nprod_R|]. rewrite map_map. reflexivity.
    + intros m Hm. etransitivity; [exact (U5 m Hm)|]. rewrite (T6 m Hm).
      set (dirs := map (fun t => idx D (t_g t)) l). set (factors := map t_dv l). set (flags := kinds (p_types (q_pos q))).
      assert (Lm : length m = length D) by apply Hm. assert (LN : length (q_nodes q) = length D) by exact (eq_trans R7 (eq_sym R3)).
      assert (LF : length flags = length D) by (unfold flags, kinds; rewrite map_length; exact (eq_trans R5 (eq_sym R3))).
      assert (HPi : Permutation (seq 0 (length (q_nodes q))) (concat dirs)).
      { rewrite LN. unfold dirs. rewrite <- (map_map t_g (idx D)), L1. apply idx_perm; [exact R6|exact HP]. }
      assert (Hin : forall t, In t l -> incl (t_g t) D). { intros t Hin x Hx. destruct C4 as [[C4 _] _]. apply C4. exists (t_g t). split; [rewrite <- L1; apply in_map; exact Hin|exact Hx]. }
      assert (Sc : scoefs fnum_R E D gs (map t_h l) m = quadrature (q_nodes q) (q_weights q) (product_values (q_nodes q) dirs factors) (phi flags m)).
      { rewrite (quadrature_groups (q_nodes q) (q_weights q) dirs factors HPi Hw) with (gs := fun dj x => phi (pick 0 flags dj) (pick 0 m dj) x).
        - unfold scoefs. etransitivity; [apply nprod_R|]. f_equal. rewrite <- L1. unfold dirs, factors. clear - L3 Hin Lm Hm HND. induction L3 as [|t l Ht L3 IH]; [reflexivity|]. cbn [map combine]. f_equal; [|apply IH; intros t' Ht'; apply Hin; right; exact Ht'].
          destruct Ht as (_ & G0 & _ & _ & _ & _ & G). fold D in G. rewrite (pick_reindex D (t_g t) m Lm). apply G. apply (index_part s degree D (t_g t) m); [exact HND|apply G0|apply Hin; left; reflexivity|exact Hm].
        - unfold dirs, factors. clear - L3. induction L3 as [|t l Ht L3 IH]; cbn [map]; constructor; [apply Ht|exact IH].
        - intros x Hx. apply (phi_groups (length (q_nodes q))); [exact HPi|rewrite LN; exact LF|rewrite LN; exact Lm|exact Hx]. }
      match goal with |- nmul ?a ?b = _ => change (a * b = quadrature (q_nodes q) (q_weights q) (quotients q vars term) (phi flags m))%R end. rewrite Sc.
      unfold quotients, product_values. rewrite !quadrature_map, <- rsum_map_mult_r. apply rsum_map_ext. intros p Hp.
      assert (Ev : forall env, eval term env = (eval c (fun _ => 0%R) * rprod (map (fun t => eval (f_sym (t_f t)) env) l))%R).
      { intros env. etransitivity; [exact (C7 env (fun _ => 0%R))|]. rewrite <- L2, map_map. exact (f_equal (Rmult _) (nprod_R _)). }
      rewrite Ev, <- Hfac. set (env := env_at E q vars p).
      assert (Nz : Forall (fun t => eval (f_sym (s_factor (t_h t))) env <> 0%R) l) by (apply rprod_nonzero; rewrite Hfac; apply (Hnz p); [exact Hp|apply env_at_point; assumption]).
      assert (Pv : rprod (map (fun '(dj, f) => value 0%R (grid (pick [] (q_nodes q) dj)) f (pick 0 p dj)) (combine dirs factors)) = (rprod (map (fun t => eval (f_sym (t_f t)) env) l) / rprod (map (fun t => eval (f_sym (s_factor (t_h t))) env) l))%R).
      { rewrite <- (rprod_div _ _ _ l Nz). f_equal. unfold dirs, factors. clear - L3 Nz Hp. induction L3 as [|t l Ht L3 IH]; [reflexivity|]. inversion Nz as [|? ? N1 N2]; subst. cbn [map combine]. f_equal; [|apply IH; exact N2].
        destruct Ht as (_ & _ & _ & _ & _ & G & _). exact (G p Hp N1). }
      match goal with |- (?x * ?w * ?g * ?c = ?rhs)%R => refine (eq_trans (f_equal (fun z => (z * w * g * c)%R) Pv) _) end. unfold Rdiv. match goal with |- @eq _ ?a ?b => change (@eq R a b) end. ring.
Qed.

Variable pos_eqb : position fnum_R -> position fnum_R -> bool.
Hypothesis pos_refl : forall p, pos_eqb p p = true.
Notation plus := (series_add fnum_R E sym_eqb e_1 pos_eqb).

Lemma terms_transform : forall (q : quad) vars degree s ft ts k, quad_ok q -> quad_R q vars -> incl (free_vars (f_sym (q_factor q))) (p_dirs (q_pos q)) ->
  add_args (f_sym (q_factor q)) = [ft] -> rules_match (q_nodes q) (q_weights q) -> usable s (length vars) degree -> flags_ok s degree (kinds (p_types (q_pos q))) ->
  (forall p env, In p (grid (q_nodes q)) -> at_point (p_dirs (q_pos q)) (grid_point q vars p) env -> eval (f_sym (q_factor q)) env <> 0%R) ->
  (forall t a, In t ts -> In a (mul_args t) -> incl (free_vars a) (p_dirs (q_pos q))) ->
  let run := mapM (fun '(k, add) => run_term degree s q k add) (combine (seq k (length ts)) (map (split_term E e_mul e_1 mul_args free_vars (p_dirs (q_pos q))) ts)) in
  run = Throw "ValueError" /\ ~ sympy_terms e_mul e_div e_1 add_args mul_args \/ exists rs, run = Ok rs /\ Forall2 (fun t r => term_result q vars degree s t r) ts rs.
Proof using NP OK V far_ok D1 D2 S1 order_perm enum_perm.
  intros q vars degree s ft ts k Hq HR Hfv Hft Hw Hu Hfl Hnz. revert k. induction ts as [|t ts IH]; intros k Ht; cbn [length seq map combine mapM].
  - right. exists []. split; [reflexivity|constructor].
  - destruct (term_transform q vars degree s ft k t Hq HR Hfv Hft Hw Hu Hfl Hnz (fun a Ha => Ht t a (or_introl eq_refl) Ha)) as [[T1 T2]|(r & T1 & T2 & _)]; rewrite T1; cbn [bind]; [left; auto|].
    destruct (IH (S k)) as [[I1 I2]|(rs & I1 & I2)]; [intros t' a Ht' Ha; exact (Ht t' a (or_intror Ht') Ha)|left|right].
    + match goal with |- bind ?x _ = _ /\ _ => replace x with (Throw (A := list (SeriesModel.series fnum_R E)) "ValueError") by (symmetry; exact I1) end. auto.
    + exists (r :: rs). match goal with |- bind ?x _ = _ /\ _ => replace x with (Ok rs) by (symmetry; exact I1) end. split; [reflexivity|]. constructor; assumption.
Qed.

(** Sums of the results of terms. *)
Definition sum_result (q : quad) (vars : list R) (degree : nat) (s : iset) (ts : list E) (r : SeriesModel.series fnum_R E) : Prop :=
  on r (p_dirs (q_pos q)) s degree /\ s_pos r = q_pos q /\ (forall env, eval (f_sym (s_factor r)) env = eval (f_sym (q_factor q)) env) /\
  forall m, index_of s (length (p_dirs (q_pos q))) degree m -> series_at r m = rsum (map (fun t => quadrature (q_nodes q) (q_weights q) (quotients q vars t) (phi (kinds (p_types (q_pos q))) m)) ts).

Lemma sum_transform : forall (q : quad) vars degree s ts rs, Forall2 (fun t r => term_result q vars degree s t r) ts rs -> forall ts0 acc, sum_result q vars degree s ts0 acc ->
  let run := for_in (fun r sum => plus sum r) rs acc in
  run = Throw "ValueError" /\ ~ (rs = [] \/ forall a b, (forall env, eval a env = eval b env) -> sym_eqb a b = true) \/ exists r, run = Ok r /\ sum_result q vars degree s (ts0 ++ ts) r.
Proof using pos_refl.
  intros q vars degree s ts rs H. induction H as [|t r ts rs (T1 & T2 & T3 & T4) H IH]; intros ts0 acc Ha run; subst run; cbn [for_in].
  - right. exists acc. rewrite app_nil_r. split; [reflexivity|exact Ha].
  - destruct Ha as (A1 & A2 & A3 & A4). destruct (add_on fnum_R E e_1 free_vars sym_eqb pos_eqb acc r _ s degree A1 T1) as [B1 B2]; [congruence|apply pos_refl|].
    destruct (sym_eqb (f_sym (s_factor acc)) (f_sym (s_factor r))) eqn:Es.
    + destruct (B1 eq_refl) as (h & H1 & H2 & H3 & H4 & H5). rewrite H1. cbn [bind]. destruct (IH (ts0 ++ [t]) h) as [[I1 I2]|(r' & I1 & I2)].
      * split; [exact H2|]. split; [congruence|]. split; [intros env; rewrite H4; apply A3|]. intros m Hm. rewrite (H5 m Hm). rewrite map_app. cbn [map].
        etransitivity; [apply f_equal2; [exact (A4 m Hm)|exact (T4 m Hm)]|]. rewrite rsum_app. symmetry. apply (f_equal2 Rplus); [reflexivity|]. exact (Rplus_0_r _).
      * left. split; [exact I1|]. intros [C|C]; [discriminate C|]. apply I2. right. exact C.
      * right. exists r'. rewrite <- app_assoc in I2. split; [exact I1|exact I2].
    + left. rewrite (B2 eq_refl). split; [reflexivity|]. intros [C|C]; [discriminate C|]. rewrite (C (f_sym (s_factor acc)) (f_sym (s_factor r))) in Es; [discriminate Es|]. intros env. rewrite A3, T3. reflexivity.
Qed.

(** The quadrature of the quotients of a sum. *)
Lemma sum_quotients : forall (q : quad) vars e g, quadrature (q_nodes q) (q_weights q) (quotients q vars e) g = rsum (map (fun t => quadrature (q_nodes q) (q_weights q) (quotients q vars t) g) (add_args e)).
Proof using OK.
  intros q vars e g. unfold quotients. rewrite quadrature_map. rewrite (map_ext _ _ (fun t => quadrature_map _ _ _ g)). rewrite rsum_swap. apply rsum_map_ext. intros p _.
  assert (Hs : eval e (env_at E q vars p) = rsum (map (fun t => eval t (env_at E q vars p)) (add_args e))) by (rewrite <- nsum_R; exact (ok_add_args _ _ _ _ _ _ _ _ OK e _)).
  rewrite Hs. unfold Rdiv. rewrite <- !rsum_map_mult_r. reflexivity.
Qed.

Lemma direct_result : forall (q : quad) vars (f : func E) degree s, quad_ok q -> quad_R q vars -> incl (free_vars (f_sym (q_factor q))) (p_dirs (q_pos q)) ->
  rules_match (q_nodes q) (q_weights q) -> usable s (length vars) degree -> flags_ok s degree (kinds (p_types (q_pos q))) ->
  (forall p env, In p (grid (q_nodes q)) -> at_point (p_dirs (q_pos q)) (grid_point q vars p) env -> eval (f_sym (q_factor q)) env <> 0%R) ->
  f_dirs f = p_dirs (q_pos q) -> incl (free_vars (f_sym f)) (p_dirs (q_pos q)) ->
  exists r, transform_fun q f degree s = Ok r /\ s_pos r = q_pos q /\ s_set r = s /\ s_degree r = recovered s degree /\ s_factor r = q_factor q /\ series_ok r (length vars) /\
    forall m, index_of s (length vars) degree m -> series_at r m = quadrature (q_nodes q) (q_weights q) (quotients q vars (f_sym f)) (phi (kinds (p_types (q_pos q))) m).
Proof using NP OK.
  intros q vars f degree s Hq HR Hfv Hw Hu Hfl Hnz Hfd Hff. assert (Hqd : f_dirs (q_factor q) = p_dirs (q_pos q)) by apply Hq. assert (Hqi : incl (free_vars (f_sym (q_factor q))) (f_dirs (q_factor q))) by (rewrite Hqd; exact Hfv).
  destruct (discretize_values E free_vars eval cov_factor la_inv far8 junk NP RF q vars f HR) as (values & W1 & W2); [exact Hfd|rewrite Hfd; exact Hff|].
  destruct (transform_coefficients E free_vars eval cov_factor la_inv far8 junk tiny e_1 NP RF q vars values degree s HR Hqd Hqi (proj1 W2) Hw Hu Hfl) as (r & fv & T1 & T2 & T3 & T4 & T5 & T6 & T7 & T8).
  pose proof (transform_degree q vars values degree s r HR Hqd Hqi (proj1 W2) Hw Hu Hfl T1) as T9.
  exists r. split; [unfold quad_transform_fun; rewrite W1; exact T1|]. split; [exact T3|]. split; [exact T4|]. split; [exact T9|]. split; [exact T5|]. split; [exact T6|].
  intros m Hm. etransitivity; [exact (T8 m (proj2 (T7 m) Hm))|]. apply (f_equal (fun v => quadrature (q_nodes q) (q_weights q) v (phi (kinds (p_types (q_pos q))) m))).
  unfold quotients. apply (divided_map _ tiny (grid (q_nodes q)) values fv _ (fun p => eval (f_sym (q_factor q)) (env_at E q vars p))); [apply W2|].
  intros k p Hk. pose proof (env_at_point E q vars p HR (nth_error_In _ _ Hk)) as Hp. pose proof (Hnz p _ (nth_error_In _ _ Hk) Hp) as Hz. split; [|split; [exact (proj2 T2 k p _ Hk Hp)|exact Hz]].
  etransitivity; [exact (proj2 W2 k p _ Hk Hp)|]. apply f_equal. field. exact Hz.
Qed.

Notation whole := (transform_tensorized fnum_R far E e_mul e_div e_1 add_args mul_args free_vars sym_eqb eval order enum cov_factor junk tiny pos_eqb).

Lemma sum_factor : forall (q : quad) (f : func E) degree s, quad_ok q -> NoDup (f_dirs f) -> incl (free_vars (f_sym f)) (f_dirs f) -> add_args (f_sym f) <> [] -> length (add_args (f_sym (q_factor q))) <> 1 ->
  whole true q f degree s = Throw "ValueError".
Proof using OK V.
  intros q f degree s Hq HN Hi H0 Hone. unfold transform_tensorized, tensorize_at. assert (Hdg : p_is_diag (q_pos q) = true) by apply Hq. rewrite Hdg. cbn [negb orb]. unfold fun_split. rewrite map_length.
  destruct (add_args (f_sym f)) as [|t ts] eqn:Et; [contradiction|]. cbn [length seq map combine mapM].
  destruct (split_term_ok fnum_R L E eval e_mul e_1 add_args mul_args free_vars OK (f_dirs f) t HN) as ((A1 & A2 & _) & _).
  { intros a Ha x Hx. apply Hi. apply (vars_add_args _ _ _ _ _ V _ t); [rewrite Et; left; reflexivity|]. apply (vars_mul_args _ _ _ _ _ V _ a Ha). exact Hx. }
  destruct (const_split fnum_R L E eval _ A1 A2) as (c & C1 & _). unfold tens_term at 1. rewrite C1. cbn [bind]. unfold fun_split.
  destruct (add_args (f_sym (q_factor q))) as [|x [|y l]]; [reflexivity|cbn [length] in Hone; lia|reflexivity].
Qed.

Theorem transform_same : forall (q : quad) vars (f : func E) degree s, quad_ok q -> quad_R q vars -> incl (free_vars (f_sym (q_factor q))) (p_dirs (q_pos q)) ->
  rules_match (q_nodes q) (q_weights q) -> usable s (length vars) degree -> flags_ok s degree (kinds (p_types (q_pos q))) ->
  (forall p env, In p (grid (q_nodes q)) -> at_point (p_dirs (q_pos q)) (grid_point q vars p) env -> eval (f_sym (q_factor q)) env <> 0%R) ->
  f_dirs f = p_dirs (q_pos q) -> incl (free_vars (f_sym f)) (p_dirs (q_pos q)) -> add_args (f_sym f) <> [] ->
  exists r0, transform_fun q f degree s = Ok r0 /\
    (whole true q f degree s = Throw "ValueError" /\
       ~ (sympy_terms e_mul e_div e_1 add_args mul_args /\ one_term add_args (f_sym (q_factor q)) /\ (one_term add_args (f_sym f) \/ forall a b, (forall env, eval a env = eval b env) -> sym_eqb a b = true)) \/
     exists r, whole true q f degree s = Ok r /\ s_coeffs r = s_coeffs r0 /\ s_pos r = s_pos r0 /\ s_set r = s_set r0 /\ s_degree r = s_degree r0 /\
       f_dirs (s_factor r) = f_dirs (s_factor r0) /\ forall env, eval (f_sym (s_factor r)) env = eval (f_sym (s_factor r0)) env).
Proof using NP OK V far_ok D1 D2 S1 order_perm enum_perm pos_refl.
  intros q vars f degree s Hq HR Hfv Hw Hu Hfl Hnz Hfd Hff Hf0.
  destruct (direct_result q vars f degree s Hq HR Hfv Hw Hu Hfl Hnz Hfd Hff) as (r0 & Z1 & Z2 & Z3 & Z4 & Z5 & Z6 & Z7). exists r0. split; [exact Z1|].
  pose proof HR as ((R1 & R2 & R3 & R4 & R5 & R6) & R7 & R8 & R9).
  destruct (Nat.eq_dec (length (add_args (f_sym (q_factor q)))) 1) as [Hone|Hone]; [|left; split; [|intros (_ & C & _); contradiction]].
  2:{ apply sum_factor; try assumption; rewrite Hfd; assumption. }
  destruct (add_args (f_sym (q_factor q))) as [|ft [|? ?]] eqn:Hft; try discriminate Hone.
  unfold transform_tensorized, tensorize_at. assert (Hdg : p_is_diag (q_pos q) = true) by apply Hq. rewrite Hdg. cbn [negb orb]. unfold fun_split. rewrite map_length, Hfd.
  destruct (terms_transform q vars degree s ft (add_args (f_sym f)) 0 Hq HR Hfv Hft Hw Hu Hfl Hnz) as [[T1 T2]|(rs & T1 & T2)].
  { intros t a Ht Ha x Hx. apply Hff. apply (vars_add_args _ _ _ _ _ V _ t Ht). apply (vars_mul_args _ _ _ _ _ V _ a Ha). exact Hx. }
  - left. rewrite T1. cbn [bind]. split; [reflexivity|]. intros (C & _). exact (T2 C).
  - rewrite T1. cbn [bind]. remember (add_args (f_sym f)) as tl eqn:Etl. destruct T2 as [|t r ts rs T T2]; [contradiction|].
    destruct (sum_transform q vars degree s ts rs T2 [t] r) as [[S2 S3]|(r' & S2 & (U1 & U2 & U3 & U4))].
    { destruct T as (A1 & A2 & A3 & A4). split; [exact A1|]. split; [exact A2|]. split; [exact A3|]. intros m Hm. etransitivity; [exact (A4 m Hm)|]. symmetry. exact (Rplus_0_r _). }
    + left. split; [exact S2|]. intros (_ & _ & [C|C]); apply S3; [left|right; exact C]. unfold one_term in C. rewrite <- Etl in C. cbn [length] in C. inversion T2; [reflexivity|]. subst. cbn [length] in C. lia.
    + right. exists r'. split; [exact S2|]. cbn [app] in U4. destruct U1 as (V1 & V2 & V3 & V4 & V5 & V6 & V7 & V8 & V9 & V10).
      split; [|split; [congruence|split; [congruence|split; [congruence|split; [rewrite V9, Z5; symmetry; apply Hq|intros env; rewrite U3, Z5; reflexivity]]]]].
      destruct V1 as [P1 P2]. destruct Z6 as [P3 P4]. rewrite V7, V8, R3 in P2. rewrite Z3, Z4 in P4. apply (coef_ext fnum_R s (length vars) (recovered s degree)); [apply usable_recovered; exact Hu|exact P2|exact P4|].
      intros m Hm. apply (proj1 (index_of_recovered _ _ _ _)) in Hm. pose proof (Z7 m Hm) as G1. assert (Hm' : index_of s (length (p_dirs (q_pos q))) degree m) by (rewrite R3; exact Hm). pose proof (U4 m Hm') as G2.
      unfold series_at in G1, G2. rewrite Z3, Z4, Z2, R3 in G1. rewrite V7, V8, V2, R3 in G2. etransitivity; [exact G2|]. etransitivity; [|symmetry; exact G1]. rewrite sum_quotients, <- Etl. reflexivity.
Qed.
End Transform.
