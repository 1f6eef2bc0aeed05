(** Varf.solve: proofs. *)
From Coq Require Import String List Bool Arith ZArith Lia Sorted Permutation Ring_theory Ring Reals Lra.
From Verif Require Import Base IndexModel Spec Num Lists LinModel LinSpec LinBase Degree Facts2 Facts4 PyBase PosModel PosSpec PosFacts SeriesModel SeriesSpec SeriesFacts SeriesFacts3 PartModel SplitModel SplitSpec MulModel MulSpec MulFacts SolveModel SolveSpec.
Import ListNotations.
Local Open Scope string_scope. Local Open Scope list_scope. Local Open Scope nat_scope.

Section Algebra.
Variable N : num.
Hypothesis L : num_laws N.
Lemma dot_cons : forall (x y : N) v w, dot (x :: v) (y :: w) = nadd (nmul x y) (dot v w).
Proof. intros x y v w. unfold dot. cbn [combine map]. apply (Facts2.nsum_cons N L). Qed.
Lemma dot_snoc : forall (v w : list N) x y, length v = length w -> dot (v ++ [x]) (w ++ [y]) = nadd (dot v w) (nmul x y).
Proof.
  induction v as [|a v IH]; intros [|b w] x y H; try discriminate H.
  - cbn [app]. rewrite dot_cons. unfold dot. cbn. rewrite (law_add_comm _ L). reflexivity.
  - cbn [app]. rewrite !dot_cons, IH by (injection H; auto). apply (law_add_assoc _ L).
Qed.
Lemma dot_comm : forall v w : list N, dot v w = dot w v.
Proof.
  induction v as [|a v IH]; intros [|b w]; try reflexivity. rewrite !dot_cons, IH, (law_mul_comm _ L a b). reflexivity.
Qed.
Lemma dot_lincomb : forall a b (v w z : list N), length v = length w -> dot (lincomb a b v w) z = nadd (nmul a (dot v z)) (nmul b (dot w z)).
Proof.
  intros a b. induction v as [|x v IH]; intros [|y w] z H; try discriminate H.
  - unfold dot, lincomb. cbn. rewrite !(mul0r N L). symmetry. apply (law_add_0 _ L).
  - destruct z as [|t z]; [unfold dot; cbn; rewrite !(mul0r N L); symmetry; apply (law_add_0 _ L)|]. change (lincomb a b (x :: v) (y :: w)) with (nadd (nmul a x) (nmul b y) :: lincomb a b v w). rewrite !dot_cons, IH by (injection H; auto).
    rewrite (law_distr _ L). rewrite !(law_mul_comm _ L a (nadd _ _)), !(law_mul_comm _ L b (nadd _ _)), !(law_distr _ L).
    rewrite !(law_mul_comm _ L _ a), !(law_mul_comm _ L _ b), !(law_mul_assoc _ L).
    generalize (nmul (nmul a x) t) (nmul (nmul b y) t) (nmul a (dot v z)) (nmul b (dot w z)). intros p q r s.
    rewrite <- !(law_add_assoc _ L). f_equal. rewrite !(law_add_assoc _ L). f_equal. apply (law_add_comm _ L).
Qed.

(** The equations of the bordered system. *)
Lemma bordered : forall (A : list (list N)) v xs lam b c, length A = length v -> Forall (fun row => length row = length xs) A -> length b = length A ->
  map (fun row => dot row (xs ++ [lam])) (map (fun '(row, x) => row ++ [x]) (combine A v)) = b -> c = lam -> lincomb n1 c (matvec A xs) v = b.
Proof.
  induction A as [|row A IH]; intros [|y v] xs lam [|z b] c H1 H2 H3 H4 ->; try discriminate; [reflexivity|]. inversion H2; subst. cbn [combine map] in H4. injection H4 as Ha Hb.
  cbn [matvec map]. unfold lincomb. cbn [combine map]. f_equal; [|apply (IH v xs lam b lam); auto].
  rewrite <- Ha, dot_snoc by assumption. rewrite (law_mul_1 _ L), (law_mul_comm _ L lam y). reflexivity.
Qed.
End Algebra.

Lemma removelast_snoc : forall A (l : list A), l <> [] -> exists x, l = removelast l ++ [x].
Proof. intros A l H. destruct (exists_last H) as (l' & x & ->). exists x. rewrite removelast_last. reflexivity. Qed.

Section Solve.
Variable N : num.
Hypothesis L : num_laws N.
Variable far : list (list N) -> bool.
Hypothesis far_diag : forall l, far (diag_mat N l) = false.
Variable E : Type.
Variable e_mul e_div : E -> E -> E.
Variable e_1 : E.
Variable add_args mul_args : E -> list E.
Variable free_vars : E -> fset.
Variable sym_eqb : E -> E -> bool.
Variable pos_eqb : position N -> position N -> bool.
Variable ndiv : N -> N -> N.
Variable nsqrt : N -> N.
Variable lin_solve : list (list N) -> list N -> res (list N).
Variable small_eig : list (list N) -> res (list N).
Hypothesis solver : solves lin_solve.
Notation series := (series N E).
Notation varf := (varf N E).
Notation project := (fun_project E e_mul e_1 add_args mul_args free_vars).
Notation varf_solve := (varf_solve N far E e_mul e_div e_1 add_args mul_args free_vars sym_eqb pos_eqb ndiv nsqrt lin_solve small_eig).

Lemma recovered_id : forall s degree, (s = Cross -> 1 <= degree) -> (s = CrossNc -> degree <> 1) -> recovered s degree = degree.
Proof. intros [] degree H1 H2; unfold recovered; try reflexivity; [specialize (H1 eq_refl); lia|specialize (H2 eq_refl); apply Nat.eqb_neq in H2; rewrite H2; reflexivity]. Qed.

Lemma records_fun : forall (p : position N) d m v t m' v' t', pos_ok p -> records p d m v t -> records p d m' v' t' -> m = m' /\ v = v'.
Proof.
  intros p d m v t m' v' t' (Hn & _) (i & row & A1 & A2 & A3 & A4 & A5) (j & row' & B1 & B2 & B3 & B4 & B5).
  assert (i = j). { rewrite NoDup_nth_error in Hn. apply Hn; [apply nth_error_Some; congruence|congruence]. } subst j. split; congruence.
Qed.
Lemma no_self_conflict : forall p : position N, pos_ok p -> ~ conflict [p; p].
Proof.
  intros p Hp (i & j & a & b & d & m & v & t & m' & v' & t' & Hij & Ha & Hb & R1 & R2 & Hne). assert (a = p) by (destruct i as [|[|[|i]]]; cbn in Ha; congruence). assert (b = p) by (destruct j as [|[|[|j]]]; cbn in Hb; congruence). subst.
  destruct (records_fun p d m v t m' v' t' Hp R1 R2) as [-> ->]. rewrite !(proj2 (law_eqb _ L _ _) eq_refl) in Hne. destruct Hne; discriminate.
Qed.

(** without removal *)
Theorem solve_keep : forall a b d x, on_same a b d -> pos_eqb (v_pos a) (s_pos b) = true -> lin_solve (v_mat a) (s_coeffs b) = Ok x ->
  exists f, varf_solve a b Keep = Ok f /\ series_ok f (length d) /\ s_pos f = v_pos a /\ s_set f = v_set a /\ s_factor f = v_factor a /\ s_coeffs f = x /\ matvec (v_mat a) (s_coeffs f) = s_coeffs b.
Proof.
  intros a b d x (Ha & Hb & D1 & D2 & I & P1 & P2 & Hc & Hs & Hd & R1 & R2) Hp Hx. unfold SolveModel.varf_solve. rewrite Hp, Hs, iset_eqb_refl. cbn [andb require bind]. rewrite Hx. cbn [bind].
  destruct (solver _ _ _ Hx) as [Lx Ex]. destruct Ha as [(A1 & A2 & A3) [A4 A5]]. rewrite <- Hs in *.
  rewrite (series_init_ok N E e_1 x (v_pos a) (Some (v_factor a)) (v_set a) (length d) (v_degree a)); [|repeat (split; try assumption)|rewrite Lx; exact A4|left; discriminate]. cbn [given].
  eexists. split; [reflexivity|]. rewrite (recovered_id (v_set a) (v_degree a)) by (rewrite Hd; assumption). split; [split; cbn [s_pos s_set s_degree s_coeffs]; [repeat (split; try assumption)|unfold vec_for; rewrite Lx; exact A4]|]. repeat (split; [reflexivity|]). exact Ex.
Qed.

(** [combine (A ++ [v]) (w ++ [0])] *)
Lemma combine_snoc : forall A B (l : list A) (m : list B) x y, length l = length m -> combine (l ++ [x]) (m ++ [y]) = combine l m ++ [(x, y)].
Proof. intros A B. induction l as [|a l IH]; intros [|b m] x y H; try discriminate H; [reflexivity|]. cbn [app combine]. rewrite IH by (injection H; auto). reflexivity. Qed.
Lemma border_ok : forall (A : list (list N)) v n, mat_wf n n A -> length v = n -> border N A v = Ok (map (fun '(row, x) => row ++ [x]) (combine A v) ++ [v ++ [n0]]).
Proof.
  intros A v n [H1 H2] Hv. unfold border. replace (forallb (fun row => length row =? length v) A) with true; [|symmetry; apply forallb_forall; intros row Hr; rewrite Forall_forall in H2; rewrite (H2 row Hr), Hv; apply Nat.eqb_refl].
  cbn [require bind]. rewrite !app_length, H1, Hv, Nat.eqb_refl. cbn [require bind]. f_equal. rewrite combine_snoc by lia. rewrite map_app. reflexivity.
Qed.

(** what a solution of the bordered system is *)
Lemma bordered_solution : forall (A : list (list N)) v b sol n, mat_wf n n A -> length v = n -> length b = n -> length sol = S n ->
  matvec (map (fun '(row, x) => row ++ [x]) (combine A v) ++ [v ++ [n0]]) sol = b ++ [n0] ->
  length (removelast sol) = n /\ (exists lam, sol = removelast sol ++ [lam] /\ lincomb n1 lam (matvec A (removelast sol)) v = b) /\ dot v (removelast sol) = n0.
Proof.
  intros A v b sol n [H1 H2] Hv Hb Hs E0. destruct (removelast_snoc _ sol) as [lam El]; [intros ->; discriminate Hs|]. set (xs := removelast sol) in *. clearbody xs. subst sol. rewrite app_length in Hs. cbn in Hs.
  assert (Hx : length xs = n) by lia. split; [exact Hx|]. unfold matvec in E0. rewrite map_app in E0. cbn [map] in E0.
  assert (E1 : map (fun row => dot row (xs ++ [lam])) (map (fun '(row, x) => row ++ [x]) (combine A v)) = b /\ dot (v ++ [n0]) (xs ++ [lam]) = n0).
  { apply app_inj_tail in E0. exact E0. }
  destruct E1 as [E1 E2]. split.
  - exists lam. split; [reflexivity|]. apply (bordered N L A v xs lam b lam); [lia| |lia|exact E1|reflexivity]. rewrite Hx. exact H2.
  - rewrite dot_snoc in E2 by (exact L || lia). rewrite (law_mul_0 _ L), (law_add_comm _ L), (law_add_0 _ L) in E2. exact E2.
Qed.

Lemma call_fields : forall (a : varf) (f : series) d h, on_same a f d -> varf_call N E e_1 pos_eqb a f = Ok h -> pos_eqb (v_pos a) (s_pos f) = true ->
  series_ok h (length d) /\ s_pos h = v_pos a /\ s_set h = v_set a /\ s_factor h = v_factor a /\ s_degree h = s_degree f.
Proof.
  intros a f d h (Ha & Hb & D1 & D2 & I & P1 & P2 & Hc & Hs & Hd & R1 & R2) E0 Hp.
  destruct (call_spec N E e_1 pos_eqb a f (length d) Ha Hb Hp Hs Hd) as (h' & E1 & K1 & K2 & K3 & K4 & _). rewrite E0 in E1. injection E1 as <-. repeat (split; [assumption|]).
  unfold varf_call in E0. rewrite Hp, Hs, iset_eqb_refl in E0. cbn [andb require bind] in E0. destruct (np_dot N (v_mat a) (s_coeffs f)) as [c| | | |] eqn:En; try discriminate E0. cbn [bind] in E0.
  assert (Hl : length c = length (v_mat a)) by (unfold np_dot in En; apply mapM_length in En; exact En). destruct Ha as [(A1 & A2 & A3) [A4 A5]]. rewrite Hs, Hd in *.
  rewrite (series_init_ok N E e_1 c (v_pos a) (Some (v_factor a)) (s_set f) (length d) (s_degree f)) in E0; [|repeat (split; try assumption)|rewrite Hl; exact A4|left; discriminate]. injection E0 as <-. cbn [s_degree]. apply recovered_id; assumption.
Qed.

Theorem solve_remove : forall a b vec d sol, on_same a b d -> on_same a vec d -> pos_eqb (v_pos a) (s_pos b) = true -> pos_eqb (v_pos a) (s_pos vec) = true ->
  factors_match e_mul e_div e_1 add_args mul_args free_vars sym_eqb vec a d ->
  let v := map (fun c => ndiv c (nsqrt (dot (s_coeffs vec) (s_coeffs vec)))) (s_coeffs vec) in
  lin_solve (bordered_matrix (v_mat a) v) (s_coeffs b ++ [n0]) = Ok sol ->
  exists f lam, varf_solve a b (RemoveVec vec) = Ok f /\ series_ok f (length d) /\ s_pos f = v_pos a /\ s_set f = v_set a /\ s_factor f = v_factor a /\ sol = s_coeffs f ++ [lam] /\
    lincomb n1 lam (matvec (v_mat a) (s_coeffs f)) v = s_coeffs b /\ dot v (s_coeffs f) = n0.
Proof.
  intros a b vec d sol Hab Hav Hpb Hpv (p & q & Ep & Eq & Hpp & Hpq & F1 & F2) v Hsol.
  assert (Hvv : multipliable vec vec d d). { destruct Hav as (Ha & Hb & D1 & D2 & I & P1 & P2 & Hc & Hs & Hd & R1 & R2). repeat (split; [assumption|]). split; [apply no_self_conflict; exact P2|]. split; reflexivity. }
  destruct (mul_float N L far far_diag E e_mul e_div e_1 add_args mul_args free_vars sym_eqb vec vec d p p Hvv Ep Ep Hpp F1) as (n2 & E1 & E2).
  unfold SolveModel.varf_solve. assert (Hs := Hab). destruct Hs as (Ha & Hb & D1 & D2 & I & P1 & P2 & Hc & Hs & Hd & R1 & R2). rewrite Hpb, Hs, iset_eqb_refl. cbn [andb require bind]. rewrite E1. cbn [bind]. rewrite E2. cbn [bind]. fold (dot (s_coeffs vec) (s_coeffs vec)).
  destruct Hav as (Ha' & Hb' & D1' & D2' & I' & P1' & P2' & Hc' & Hs' & Hd' & R1' & R2'). assert (Vv := Hb'). destruct Vv as [(V1 & V2 & V3) V4].
  unfold series_div. rewrite (series_init_ok N E e_1 _ (s_pos vec) (Some (s_factor vec)) (s_set vec) (length d) (s_degree vec)); [|repeat (split; try assumption)|rewrite map_length; exact V4|left; discriminate]. cbn [given bind]. rewrite recovered_id by assumption. fold v.
  set (vec' := Ser v (s_pos vec) (s_set vec) (s_degree vec) (s_factor vec)).
  assert (Lv : length v = length (points (s_set vec) (length d) (s_degree vec))) by (unfold v; rewrite map_length; exact V4).
  assert (Hb2 : series_ok vec' (length d)) by (split; [repeat (split; try assumption)|exact Lv]).
  assert (Hav2 : on_same a vec' d) by (split; [exact Ha'|]; split; [exact Hb2|]; repeat (split; [assumption|]); assumption).
  destruct (call_spec N E e_1 pos_eqb a vec' (length d) Ha' Hb2 Hpv Hs' Hd') as (img & E3 & _). rewrite E3. cbn [bind]. destruct (call_fields a vec' d img Hav2 E3 Hpv) as (K1 & K2 & K3 & K4 & K5).
  assert (Hvi : multipliable vec' img d d). { split; [exact Hb2|]. split; [exact K1|]. split; [exact D2'|]. split; [rewrite K2; exact D1'|]. split; [exact I|]. split; [exact I|]. split; [exact P2'|]. split; [rewrite K2; exact P1'|]. split; [rewrite K2; exact Hc'|]. split; [rewrite K3; symmetry; exact Hs'|symmetry; exact K5]. }
  destruct (mul_float N L far far_diag E e_mul e_div e_1 add_args mul_args free_vars sym_eqb vec' img d p q Hvi) as (e & E4 & E5); [exact Ep|rewrite K4; exact Eq|exact Hpq|rewrite K4; exact F2|]. rewrite E4. cbn [bind]. rewrite E5. cbn [bind].
  destruct Ha as [(A1 & A2 & A3) A4]. assert (Wf := A4). unfold mat_for in Wf. cbn [s_coeffs vec'].
  rewrite (border_ok (v_mat a) v _ Wf) by (rewrite Hs', Hd'; exact Lv). cbn [bind]. fold (bordered_matrix (v_mat a) v). rewrite Hsol. cbn [bind].
  destruct (solver _ _ _ Hsol) as [Ls Es]. set (n := length (points (v_set a) (length d) (v_degree a))) in *.
  destruct (bordered_solution (v_mat a) v (s_coeffs b) sol n Wf) as (B1 & (lam & B2 & B3) & B4); [rewrite Lv; unfold n; rewrite Hs', Hd'; reflexivity|destruct Hb as [_ Hb]; unfold vec_for in Hb; rewrite Hb; unfold n; rewrite Hs, Hd; reflexivity| |exact Es|].
  { rewrite Ls. unfold bordered_matrix. rewrite app_length, map_length, combine_length. destruct Wf as [Wf _]. rewrite Wf, Lv, <- Hs', <- Hd'. fold n. cbn. lia. }
  rewrite <- Hs. rewrite (series_init_ok N E e_1 (removelast sol) (v_pos a) (Some (v_factor a)) (v_set a) (length d) (v_degree a)); [|repeat (split; try assumption)|exact B1|left; discriminate].
  cbn [given]. rewrite recovered_id by (rewrite Hs, Hd; assumption). eexists. exists lam. split; [reflexivity|]. cbn [s_coeffs s_pos s_set s_factor]. split; [split; cbn [s_pos s_set s_degree s_coeffs]; [repeat (split; try assumption)|exact B1]|].
  repeat (split; [first [reflexivity | assumption]|]). exact B4.
Qed.

(** with remove0: the eigenvector is used as it is *)
Theorem solve_remove0 : forall a b d v sol, on_same a b d -> pos_eqb (v_pos a) (s_pos b) = true -> small_eig (v_mat a) = Ok v -> length v = length (v_mat a) ->
  lin_solve (bordered_matrix (v_mat a) v) (s_coeffs b ++ [n0]) = Ok sol ->
  exists f lam, varf_solve a b Remove0 = Ok f /\ series_ok f (length d) /\ s_pos f = v_pos a /\ s_set f = v_set a /\ s_factor f = v_factor a /\ sol = s_coeffs f ++ [lam] /\
    lincomb n1 lam (matvec (v_mat a) (s_coeffs f)) v = s_coeffs b /\ dot v (s_coeffs f) = n0.
Proof.
  intros a b d v sol Hab Hpb Hv Lv Hsol. unfold SolveModel.varf_solve. destruct Hab as (Ha & Hb & D1 & D2 & I & P1 & P2 & Hc & Hs & Hd & R1 & R2). rewrite Hpb, Hs, iset_eqb_refl. cbn [andb require bind]. rewrite Hv. cbn [bind].
  destruct Ha as [(A1 & A2 & A3) A4]. assert (Wf := A4). unfold mat_for in Wf. rewrite <- Hs. set (n := length (points (v_set a) (length d) (v_degree a))) in *. assert (Ln : length v = n) by (rewrite Lv; apply Wf).
  rewrite (series_init_ok N E e_1 v (v_pos a) (Some (v_factor a)) (v_set a) (length d) (v_degree a)); [|repeat (split; try assumption)|exact Ln|left; discriminate]. cbn [given bind s_coeffs].
  rewrite (border_ok (v_mat a) v n Wf Ln). cbn [bind]. fold (bordered_matrix (v_mat a) v). rewrite Hsol. cbn [bind]. destruct (solver _ _ _ Hsol) as [Ls Es].
  destruct (bordered_solution (v_mat a) v (s_coeffs b) sol n Wf) as (B1 & (lam & B2 & B3) & B4); [exact Ln|destruct Hb as [_ Hb]; unfold vec_for in Hb; rewrite Hb; unfold n; rewrite Hs, Hd; reflexivity| |exact Es|].
  { rewrite Ls. unfold bordered_matrix. rewrite app_length, map_length, combine_length. destruct Wf as [Wf _]. rewrite Wf, Ln. cbn. lia. }
  rewrite (series_init_ok N E e_1 (removelast sol) (v_pos a) (Some (v_factor a)) (v_set a) (length d) (v_degree a)); [|repeat (split; try assumption)|exact B1|left; discriminate].
  cbn [given]. rewrite recovered_id by (rewrite Hs, Hd; assumption). eexists. exists lam. split; [reflexivity|]. cbn [s_coeffs s_pos s_set s_factor]. split; [split; cbn [s_pos s_set s_degree s_coeffs]; [repeat (split; try assumption)|exact B1]|].
  repeat (split; [first [reflexivity | assumption]|]). exact B4.
Qed.

(** a position or an index set that differs *)
Theorem solve_raises : forall a b rem, pos_eqb (v_pos a) (s_pos b) = false \/ v_set a <> s_set b -> varf_solve a b rem = Throw "ValueError".
Proof.
  intros a b rem H. unfold SolveModel.varf_solve. destruct (pos_eqb (v_pos a) (s_pos b)) eqn:E1; [|reflexivity]. destruct (iset_eqb (v_set a) (s_set b)) eqn:E2; [|reflexivity]. apply iset_eqb_eq in E2. destruct H; [discriminate|contradiction].
Qed.
End Solve.

(** * With the reals *)
Section Real.
Notation RN := num_R.
Local Open Scope R_scope.
Ltac toR := cbn [nadd nmul nopp n0 n1 num_R carrier]; match goal with |- @eq _ ?a ?b => change (@eq R a b); apply Rminus_diag_uniq end.

Lemma lincomb_length : forall (N : num) a b (v w : list N), length v = length w -> length (lincomb a b v w) = length v.
Proof. intros N a b v w H. unfold lincomb. rewrite map_length, combine_length, <- H. apply Nat.min_id. Qed.

Lemma unit_norm : forall c : list RN, dot c c <> 0 -> let v := map (fun x => x / sqrt (dot c c)) c in dot (N := RN) v v = 1.
Proof.
  intros c Hc v. assert (Hn : 0 <= dot (N := RN) c c). { clear. induction c as [|x c IH]; [cbn; lra|]. rewrite (dot_cons RN num_R_laws). cbn [nadd nmul RN]. nra. }
  set (s := sqrt (dot c c)) in *. assert (Hs : s * s = dot c c) by (apply sqrt_sqrt; exact Hn). assert (Hs0 : s <> 0) by (intros G; rewrite G in Hs; apply Hc; rewrite <- Hs; toR; ring).
  assert (G : forall l : list RN, dot (N := RN) (map (fun x => x / s) l) (map (fun x => x / s) l) = dot (N := RN) l l / (s * s)).
  { induction l as [|x l IH]; [unfold dot; cbn; toR; field; exact Hs0|]. cbn [map]. rewrite !(dot_cons RN num_R_laws), IH. toR; field. exact Hs0. }
  unfold v. rewrite G, Hs. toR; field. exact Hc.
Qed.

Lemma minus_eq : forall lam (u v b : list RN), length u = length v -> lincomb (N := RN) 1 lam u v = b -> u = lincomb (N := RN) 1 (- lam) b v.
Proof.
  intros lam. induction u as [|x u IH]; intros [|y v] b H <-; try discriminate H; [reflexivity|]. unfold lincomb. cbn [combine map]. f_equal; [toR; ring|]. apply IH; [injection H; auto|reflexivity].
Qed.

Lemma left_kernel : forall (A : list (list RN)) x v b lam, length A = length v -> dot (N := RN) v v = 1 -> dot v (matvec A x) = 0 -> lincomb (N := RN) 1 lam (matvec A x) v = b ->
  matvec A x = lincomb (N := RN) 1 (- dot v b) b v.
Proof.
  intros A x v b lam Hl Hv Hk Hb. assert (Hm : length (matvec A x) = length v) by (unfold matvec; rewrite map_length; exact Hl).
  assert (El : dot v b = lam). { rewrite <- Hb, (dot_comm RN num_R_laws), (dot_lincomb RN num_R_laws) by exact Hm. rewrite (dot_comm RN num_R_laws (matvec A x) v), Hk, Hv. toR; ring. }
  rewrite El. apply minus_eq; assumption.
Qed.

Lemma lincomb_0 : forall (u v : list RN) c, length u = length v -> c = 0 -> lincomb (N := RN) 1 c u v = u.
Proof. induction u as [|x u IH]; intros [|y v] c H ->; try discriminate H; [reflexivity|]. unfold lincomb. cbn [combine map]. f_equal; [toR; ring|]. apply IH; [injection H; auto|reflexivity]. Qed.

Lemma matvec_lincomb : forall (A : list (list RN)) a b (y v : list RN), length y = length v -> matvec A (lincomb a b y v) = lincomb a b (matvec A y) (matvec A v).
Proof.
  intros A a b y v H. induction A as [|row A IH]; [reflexivity|].
  change (dot row (lincomb a b y v) :: matvec A (lincomb a b y v) = nadd (nmul a (dot row y)) (nmul b (dot row v)) :: lincomb a b (matvec A y) (matvec A v)). f_equal; [|exact IH].
  rewrite (dot_comm RN num_R_laws), (dot_lincomb RN num_R_laws) by exact H. rewrite !(dot_comm RN num_R_laws _ row). reflexivity.
Qed.

Lemma right_kernel : forall (A : list (list RN)) x v b lam y n, mat_wf n n A -> length v = n -> length y = n -> dot (N := RN) v v = 1 -> matvec A v = repeat 0 n -> matvec A y = b ->
  (forall z, length z = S n -> matvec (bordered_matrix (N := RN) A v) z = b ++ [0] -> z = x ++ [lam]) -> matvec A x = b.
Proof.
  intros A x v b lam y n [W1 W2] Lv Ly Hv Hk Hy Hu. set (y' := lincomb (N := RN) 1 (- dot v y) y v).
  assert (L' : length y' = n) by (unfold y'; rewrite lincomb_length; lia).
  assert (Ay : matvec A y' = b). { unfold y'. rewrite matvec_lincomb by lia. rewrite Hy, Hk. assert (Lb : length b = n) by (rewrite <- Hy; unfold matvec; rewrite map_length; exact W1). clear - Lb. revert b Lb. induction n as [|n IH]; intros [|z b] H; try discriminate H; [reflexivity|]. cbn [repeat]. unfold lincomb. cbn [combine map]. f_equal; [toR; ring|]. apply IH. injection H; auto. }
  assert (Dy : dot v y' = 0). { unfold y'. rewrite (dot_comm RN num_R_laws), (dot_lincomb RN num_R_laws) by lia. rewrite Hv, (dot_comm RN num_R_laws y v). toR; ring. }
  assert (Hz : matvec (bordered_matrix (N := RN) A v) (y' ++ [0]) = b ++ [0]).
  { unfold bordered_matrix, matvec. rewrite map_app. cbn [map]. f_equal.
    - rewrite <- Ay. assert (Lav : length A = length v) by lia. clearbody y'. clear - W2 L' Lav. revert v Lav. induction A as [|row A IH]; intros [|z v] Lav; try discriminate Lav; [reflexivity|]. inversion W2; subst. cbn [combine map matvec]. f_equal; [|apply IH; [assumption|injection Lav; auto]].
      rewrite (dot_snoc RN num_R_laws) by lia. toR; ring.
    - f_equal. rewrite (dot_snoc RN num_R_laws) by lia. rewrite Dy. toR; ring. }
  assert (Lz : length (y' ++ [0]) = S n) by (rewrite app_length, L'; apply Nat.add_1_r).
  specialize (Hu (y' ++ [0]) Lz Hz). apply app_inj_tail in Hu as [<- _]. exact Ay.
Qed.

Section Api.
Variable far : list (list RN) -> bool.
Hypothesis far_diag : forall l, far (diag_mat RN l) = false.
Variable E : Type.
Variable e_mul e_div : E -> E -> E.
Variable e_1 : E.
Variable add_args mul_args : E -> list E.
Variable free_vars : E -> fset.
Variable sym_eqb : E -> E -> bool.
Variable pos_eqb : position RN -> position RN -> bool.
Variable lin_solve : list (list RN) -> list RN -> res (list RN).
Variable small_eig : list (list RN) -> res (list RN).
Hypothesis solver : solves lin_solve.
Notation varf_solve := (varf_solve RN far E e_mul e_div e_1 add_args mul_args free_vars sym_eqb pos_eqb Rdiv sqrt lin_solve small_eig).

Lemma dot_scaled : forall s (c w : list RN), s <> 0 -> dot (N := RN) (map (fun x => x / s) c) w = dot c w / s.
Proof.
  intros s. induction c as [|x c IH]; intros [|y w] Hs; try (unfold dot; cbn; toR; field; exact Hs). cbn [map]. rewrite !(dot_cons RN num_R_laws), IH by exact Hs. toR; field. exact Hs.
Qed.

Theorem solve_left_kernel : forall a b vec d sol, on_same a b d -> on_same a vec d -> pos_eqb (v_pos a) (s_pos b) = true -> pos_eqb (v_pos a) (s_pos vec) = true ->
  factors_match e_mul e_div e_1 add_args mul_args free_vars sym_eqb vec a d -> dot (s_coeffs vec) (s_coeffs vec) <> 0 ->
  (forall y, length y = length (v_mat a) -> dot (s_coeffs vec) (matvec (v_mat a) y) = 0) ->
  let v : list RN := map (fun c : RN => c / sqrt (dot (s_coeffs vec) (s_coeffs vec))) (s_coeffs vec) in
  lin_solve (bordered_matrix (N := RN) (v_mat a) v) (s_coeffs b ++ [0]) = Ok sol ->
  exists f, varf_solve a b (RemoveVec vec) = Ok f /\ matvec (v_mat a) (s_coeffs f) = lincomb (N := RN) 1 (- dot v (s_coeffs b)) (s_coeffs b) v /\ dot v (s_coeffs f) = 0.
Proof.
  intros a b vec d sol Hab Hav H1 H2 Hf Hnz Hk v Hsol.
  destruct (solve_remove RN num_R_laws far far_diag E e_mul e_div e_1 add_args mul_args free_vars sym_eqb pos_eqb Rdiv sqrt lin_solve small_eig solver a b vec d sol Hab Hav H1 H2 Hf Hsol) as (f & lam & E1 & F1 & _ & F2 & _ & Es & B1 & B2).
  exists f. split; [exact E1|]. split; [|exact B2].
  destruct Hav as (Ha & Hv & _ & _ & _ & _ & _ & _ & Hs & Hd & _). destruct Ha as [_ [Ha1 _]]. destruct Hv as [_ Hv1]. unfold vec_for in Hv1.
  assert (Hs0 : sqrt (dot (s_coeffs vec) (s_coeffs vec)) <> 0). { intros G. apply Hnz. apply sqrt_eq_0 in G; [exact G|]. clear. induction (s_coeffs vec) as [|x c IH]; [cbn; lra|]. rewrite (dot_cons RN num_R_laws). cbn [nadd nmul RN]. nra. }
  apply left_kernel with (lam := lam); [unfold v; rewrite map_length, Ha1, Hv1, Hs, Hd; reflexivity|apply unit_norm; exact Hnz| |exact B1].
  unfold v. rewrite dot_scaled by exact Hs0. rewrite Hk; [toR; field; exact Hs0|]. destruct F1 as [_ F1]. unfold vec_for in F1. rewrite F1, Ha1, F2.
  assert (Ed : length (points (v_set a) (length d) (s_degree f)) = length (s_coeffs f)) by (rewrite F1, F2; reflexivity).
  destruct (solver _ _ _ Hsol) as [Ls _]. rewrite Es in Ls. rewrite app_length in Ls. unfold bordered_matrix in Ls. rewrite app_length, map_length, combine_length in Ls. unfold v in Ls. rewrite map_length, Ha1, Hv1, Hs, Hd, Nat.min_id in Ls. cbn [length] in Ls.
  rewrite Ed, Hs, Hd. lia.
Qed.

Theorem solve_right_kernel : forall a b vec d sol y, on_same a b d -> on_same a vec d -> pos_eqb (v_pos a) (s_pos b) = true -> pos_eqb (v_pos a) (s_pos vec) = true ->
  factors_match e_mul e_div e_1 add_args mul_args free_vars sym_eqb vec a d -> dot (s_coeffs vec) (s_coeffs vec) <> 0 ->
  matvec (v_mat a) (s_coeffs vec) = repeat 0 (length (v_mat a)) -> length y = length (v_mat a) -> matvec (v_mat a) y = s_coeffs b ->
  let v : list RN := map (fun c : RN => c / sqrt (dot (s_coeffs vec) (s_coeffs vec))) (s_coeffs vec) in
  lin_solve (bordered_matrix (N := RN) (v_mat a) v) (s_coeffs b ++ [0]) = Ok sol ->
  (forall z, length z = length sol -> matvec (bordered_matrix (N := RN) (v_mat a) v) z = s_coeffs b ++ [0] -> z = sol) ->
  exists f, varf_solve a b (RemoveVec vec) = Ok f /\ matvec (v_mat a) (s_coeffs f) = s_coeffs b /\ dot v (s_coeffs f) = 0.
Proof.
  intros a b vec d sol y Hab Hav H1 H2 Hf Hnz Hk Ly Hy v Hsol Hu.
  destruct (solve_remove RN num_R_laws far far_diag E e_mul e_div e_1 add_args mul_args free_vars sym_eqb pos_eqb Rdiv sqrt lin_solve small_eig solver a b vec d sol Hab Hav H1 H2 Hf Hsol) as (f & lam & E1 & F1 & _ & F2 & _ & Es & B1 & B2).
  exists f. split; [exact E1|]. split; [|exact B2].
  destruct Hav as (Ha & Hv & _ & _ & _ & _ & _ & _ & Hs & Hd & _). destruct Ha as [_ [Ha1 Ha2]]. destruct Hv as [_ Hv1]. unfold vec_for in Hv1.
  assert (Hs0 : sqrt (dot (s_coeffs vec) (s_coeffs vec)) <> 0). { intros G. apply Hnz. apply sqrt_eq_0 in G; [exact G|]. clear. induction (s_coeffs vec) as [|x c IH]; [cbn; lra|]. rewrite (dot_cons RN num_R_laws). cbn [nadd nmul RN]. nra. }
  assert (Lv : length v = length (v_mat a)) by (unfold v; rewrite map_length, Hv1, Ha1, Hs, Hd; reflexivity).
  apply (right_kernel (v_mat a) (s_coeffs f) v (s_coeffs b) lam y (length (v_mat a))); [split; [reflexivity|rewrite Ha1; exact Ha2]|exact Lv|exact Ly|apply unit_norm; exact Hnz| |exact Hy|].
  - unfold v. assert (G : forall A : list (list RN), matvec A (s_coeffs vec) = repeat 0 (length A) -> matvec A (map (fun c => c / sqrt (dot (s_coeffs vec) (s_coeffs vec))) (s_coeffs vec)) = repeat 0 (length A)).
    { induction A as [|row A IH]; intros G; [reflexivity|]. cbn [length repeat]. change (matvec (row :: A) (s_coeffs vec)) with (dot row (s_coeffs vec) :: matvec A (s_coeffs vec)) in G. cbn [length repeat] in G. injection G as G1 G2.
      change (dot row (map (fun c => c / sqrt (dot (s_coeffs vec) (s_coeffs vec))) (s_coeffs vec)) :: matvec A (map (fun c => c / sqrt (dot (s_coeffs vec) (s_coeffs vec))) (s_coeffs vec)) = 0 :: repeat 0 (length A)). f_equal; [|apply IH; exact G2].
      rewrite (dot_comm RN num_R_laws), dot_scaled by exact Hs0. rewrite (dot_comm RN num_R_laws _ row), G1. toR; field. exact Hs0. }
    apply G. exact Hk.
  - intros z Lz Hz. rewrite <- Es. apply Hu; [|exact Hz]. rewrite Lz. destruct (solver _ _ _ Hsol) as [Ls _]. rewrite Ls. unfold bordered_matrix. rewrite app_length, map_length, combine_length, Lv, Nat.min_id. cbn [length]. lia.
Qed.
End Api.
End Real.

(** the samples *)
Lemma knows_solves : forall (N : num) dec A0 (b0 x0 : list N), length x0 = length A0 -> matvec A0 x0 = b0 -> solves (knows dec A0 b0 x0).
Proof.
  intros N dec A0 b0 x0 H1 H2 A b x. unfold knows. destruct (list_eq_dec (list_eq_dec dec) A A0) as [->|]; [|intros H; discriminate H]. destruct (list_eq_dec dec b b0) as [->|]; [|intros H; discriminate H].
  intros H. injection H as <-. split; assumption.
Qed.
Lemma knows_self : forall (N : num) dec A0 (b0 x0 : list N), knows dec A0 b0 x0 A0 b0 = Ok x0.
Proof. intros. unfold knows. destruct (list_eq_dec (list_eq_dec dec) A0 A0) as [_|H]; [|destruct H; reflexivity]. destruct (list_eq_dec dec b0 b0) as [_|H]; [reflexivity|destruct H; reflexivity]. Qed.
Lemma x_on_same : forall (N : num), num_laws N -> forall d f1 f2 (A : list (list N)) c, increasing d -> 1 <= length d <= 4 -> mat_for Triangle (length d) 1 A -> length c = length (points Triangle (length d) 1) ->
  on_same (varf_x d f1 A) (ser_x d f2 c) d.
Proof.
  intros N L d f1 f2 A c Hd Hl HA Hc. split; [split; [|exact HA]; split; [reflexivity|]; split; [apply repeat_length|]; apply (usable_dim4 Triangle (length d) 1); lia|]. split; [apply ser_x_ok; assumption|].
  split; [reflexivity|]. split; [reflexivity|]. split; [exact Hd|]. split; [apply std_pos_ok; exact Hd|]. split; [apply std_pos_ok; exact Hd|]. split; [apply (std_no_conflict N L)|].
  split; [reflexivity|]. split; [reflexivity|]. split; intros G; discriminate G.
Qed.
(** equality of lists of reals *)
Ltac rlist := cbn; repeat first [reflexivity | apply (f_equal2 (@cons R)) | apply (f_equal2 (@cons num_R)); [match goal with |- ?a = ?b => change (@eq R a b) end|]]; try (match goal with |- ?a = ?b => change (@eq R a b) end; ring).
