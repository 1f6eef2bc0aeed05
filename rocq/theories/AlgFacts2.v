(** Lemmas for C108: quadratures. *)
From Coq Require Import String List Bool Arith Sorted Lia.
From Verif Require Import Base Lists Num Fnum LinSpec PyBase PosModel PosSpec PosFacts CalcModel SeriesModel PartModel PartSpec PartFacts SplitModel SplitSpec SplitFacts MulModel Facts2 Facts4 PyQuadModel PyQuadSpec PyQuadFacts AlgModel AlgSpec AlgFacts.
Import ListNotations.
Local Open Scope string_scope. Local Open Scope list_scope. Local Open Scope nat_scope.

Section Quads.
Variable F : fnum.
Hypothesis L : num_laws F.
Variable far : list (list F) -> bool.
Hypothesis Hfar : forall l, far (diag_mat F l) = false.
Variable E : Type.
Variable eval : E -> (nat -> F) -> F.
Variable e_mul : E -> E -> E.
Variable e_1 : E.
Variable add_args mul_args : E -> list E.
Variable free_vars : E -> list nat.
Hypothesis OK : sympy_ok eval e_mul e_1 add_args mul_args free_vars.
Hypothesis V : sympy_vars e_mul e_1 add_args mul_args free_vars.
Notation tensorize := (quad_tensorize F far E e_mul e_1 free_vars).
Notation fine := (quad_fine free_vars).
Implicit Types a b q r : quad F E.

(** All the rules in one list. *)
Definition big (args : list (quad F E)) : quad F E :=
  Qd (concat (map q_nodes args)) (concat (map q_weights args)) (Pos (N := F) (concat (map (fun a => p_dirs (q_pos a)) args)) [] [] [] true) (Fn e_1 []).

Lemma nth_error_split_app : forall A (l l' : list A) i x, nth_error (l ++ l') i = Some x -> (i < length l /\ nth_error l i = Some x) \/ (length l <= i /\ nth_error l' (i - length l) = Some x).
Proof using Type. intros A l l' i x H. destruct (Nat.lt_ge_cases i (length l)) as [Hi|Hi]; [left; rewrite nth_error_app1 in H by exact Hi|right; rewrite nth_error_app2 in H by exact Hi]; split; assumption. Qed.

Lemma big_rule : forall args, Forall quad_ok args -> forall d xs ws, rule_of (big args) d xs ws <-> exists a, In a args /\ rule_of a d xs ws.
Proof using Type.
  intros args H. induction H as [|a args Ha H IH]; intros d xs ws.
  - split; [intros (i & Hi & _); destruct i; discriminate Hi|intros (a & [] & _)].
  - destruct Ha as (_ & _ & L1 & L2 & _). unfold rule_of, big in *. cbn [map concat q_pos p_dirs q_nodes q_weights] in *. split.
    + intros (i & A1 & A2 & A3). apply nth_error_split_app in A1 as [(B1 & B2)|(B1 & B2)].
      * exists a. split; [left; reflexivity|]. exists i. rewrite nth_error_app1 in A2, A3 by lia. auto.
      * destruct (proj1 (IH d xs ws)) as (b & Hb & R); [|exists b; split; [right; exact Hb|exact R]]. rewrite nth_error_app2 in A2, A3 by lia. rewrite L1 in A2. rewrite L2 in A3. exists (i - length (p_dirs (q_pos a))). auto.
    + intros (b & [<-|Hb] & R).
      * destruct R as (i & A1 & A2 & A3). exists i. assert (i < length (p_dirs (q_pos a))) by (apply nth_error_Some; rewrite A1; discriminate). rewrite !nth_error_app1 by lia. auto.
      * destruct (proj2 (IH d xs ws) (ex_intro _ b (conj Hb R))) as (i & A1 & A2 & A3). exists (length (p_dirs (q_pos a)) + i). rewrite !nth_error_app2 by lia. rewrite L1, L2. replace (length (p_dirs (q_pos a)) + i - length (p_dirs (q_pos a))) with i by lia. auto.
Qed.

Lemma same_lengths_ok : forall m (l : list (list F)), Forall (fun xs => length xs = m) l -> same_lengths F l = true.
Proof using Type.
  intros m l Hl. unfold same_lengths. apply forallb_forall. intros x Hx. apply Nat.eqb_eq. destruct l as [|y l]; [destruct Hx|]. cbn [hd]. rewrite Forall_forall in Hl. rewrite (Hl x Hx). symmetry. apply Hl. left. reflexivity.
Qed.
Lemma same_lengths_iff : forall l : list (list F), same_lengths F l = true <-> forall x y, In x l -> In y l -> length x = length y.
Proof using Type.
  intros l. unfold same_lengths. rewrite forallb_forall. destruct l as [|z l]; [split; [intros _ x y []|intros _ x []]|]. cbn [hd]. split.
  - intros H x y Hx Hy. apply H, Nat.eqb_eq in Hx. apply H, Nat.eqb_eq in Hy. congruence.
  - intros H x Hx. apply Nat.eqb_eq. apply H; [exact Hx|left; reflexivity].
Qed.

(** The positions of quadratures in different directions. *)
Lemma pos_tens : forall args, args <> [] -> Forall quad_ok args -> (forall d, owners (map q_pos args) d <= 1) ->
  exists p, pos_tensorize F far (map q_pos args) = Ok p /\ pos_ok p /\ increasing (p_dirs p) /\ (forall d, In d (p_dirs p) <-> exists a, In a args /\ In d (p_dirs (q_pos a))) /\
    (forall a d m v t, In a args -> records (q_pos a) d m v t -> records p d m v t).
Proof using Hfar.
  intros args Hne Hok Hown.
  assert (Hpos : Forall pos_ok (map q_pos args)) by (apply Forall_map; eapply Forall_impl; [|exact Hok]; intros a Ha; apply Ha).
  assert (Hpne : map q_pos args <> []) by (intros H; apply map_eq_nil in H; contradiction).
  destruct (tensorize_spec F far Hfar (map q_pos args) Hpne Hpos) as [(r & R1 & R2 & R3 & R4 & R5 & _)|[_ [(d & H)|(i & j & a & b & d & m & v & t & m' & v' & t' & H1 & H2 & H3 & H4 & H5 & _)]]].
  2: { specialize (Hown d). lia. }
  2: { exfalso. pose proof (two_owners _ _ i j a b d H1 H2 H3 (records_dir _ _ _ _ _ _ H4) (records_dir _ _ _ _ _ _ H5)) as H. specialize (Hown d). lia. }
  assert (D : forall d, In d (p_dirs r) <-> exists a, In a args /\ In d (p_dirs (q_pos a))).
  { intros d. rewrite R4. split.
    - intros H. assert (H' : In d (concat (map p_dirs (map q_pos args)))) by (apply (count_occ_In Nat.eq_dec); unfold owners in H; lia). apply in_concat in H' as (l & H1 & H2). rewrite map_map in H1. apply in_map_iff in H1 as (a & <- & Ha). exists a. auto.
    - intros (a & H1 & H2). specialize (Hown d). assert (H' : In d (concat (map p_dirs (map q_pos args)))) by (apply in_concat; exists (p_dirs (q_pos a)); split; [rewrite map_map; apply in_map_iff; exists a; auto|exact H2]). apply (count_occ_In Nat.eq_dec) in H'. unfold owners in *. lia. }
  exists r. split; [exact R1|]. split; [exact R2|]. split; [|split; [exact D|]].
  - destruct args as [|a [|b args]]; [contradiction|clear R3|apply R3; cbn; lia]. cbn [map] in R1. unfold pos_tensorize in R1. inversion Hok as [|? ? Ha _]; subst.
    match type of R1 with bind ?x _ = _ => destruct x; cbn [bind] in R1; try discriminate R1 end. cbn [fold_left for_in] in R1. injection R1 as <-. apply Ha.
  - intros a d m v t Ha HR. apply (R5 (q_pos a)); [apply in_map; exact Ha| |exact HR]. apply D. exists a. split; [exact Ha|]. eapply records_dir. exact HR.
Qed.

(** The loop. *)
Lemma quad_loop : forall args p, Forall fine args -> (forall d, owners (map q_pos args) d <= 1) -> pos_ok p -> (forall d, In d (p_dirs p) <-> exists a, In a args /\ In d (p_dirs (q_pos a))) -> increasing (p_dirs p) -> args <> [] -> pos_tensorize F far (map q_pos args) = Ok p ->
  exists nodes weights e, tensorize args = (_ <- require (same_lengths F nodes && same_lengths F weights) "ValueError" ;; Ok (Qd nodes weights p (Fn e (p_dirs p)))) /\ length nodes = length (p_dirs p) /\ length weights = length (p_dirs p) /\
    (forall d xs ws, rule_of (Qd nodes weights p (Fn e (p_dirs p))) d xs ws <-> exists a, In a args /\ rule_of a d xs ws) /\
    (forall env, eval e env = nprod (map (fun a => eval (f_sym (q_factor a)) env) args)) /\ incl (free_vars e) (p_dirs p).
Proof using L OK V.
  intros args p Hf Hown Hp D Hinc Hne EP. assert (Hok : Forall quad_ok args) by (eapply Forall_impl; [|exact Hf]; intros a Ha; apply Ha).
  unfold PyQuadModel.quad_tensorize. replace (0 <? length args) with true by (symmetry; apply Nat.ltb_lt; destruct args; [contradiction|cbn; lia]). cbn [require bind]. rewrite EP. cbn [bind]. cbv zeta.
  destruct (fill_all F L E eval e_mul e_1 add_args mul_args free_vars OK V (big args) (p_dirs p) (proj1 Hp) args (fun _ => False) (repeat [] (length (p_dirs p))) (repeat [] (length (p_dirs p))) e_1) as (nodes & weights & e & F1 & (F2 & F3 & F4) & F5 & F6).
  { split; [apply repeat_length|]. split; [apply repeat_length|]. intros k d _ []. }
  { intros a Ha. rewrite Forall_forall in Hok. pose proof (Hok a Ha) as Ka. pose proof Ka as (K1 & _ & K3 & K4 & _). split; [|intros d Hd; apply D; exists a; auto]. split; [exact K1|]. split; [intros d m v t _ (i & row & _ & X & _); destruct i; discriminate X|].
    intros i d Hi. assert (Hl : i < length (p_dirs (q_pos a))) by (apply nth_error_Some; rewrite Hi; discriminate). destruct (nth_error (q_nodes a) i) as [xs|] eqn:E1; [|apply nth_error_None in E1; lia]. destruct (nth_error (q_weights a) i) as [ws|] eqn:E2; [|apply nth_error_None in E2; lia].
    exists xs, ws. split; [reflexivity|]. split; [reflexivity|]. apply big_rule; [apply Forall_forall; exact Hok|]. exists a. split; [exact Ha|]. exists i. auto. }
  cbv zeta in F1. rewrite F1. cbn [bind].
  assert (Hfree : incl (free_vars e) (p_dirs p)). { intros x Hx. apply F6 in Hx as [Hx|(a & Ha & Hx)]; [rewrite (vars_1 _ _ _ _ _ V) in Hx; destruct Hx|]. apply D. exists a. split; [exact Ha|]. rewrite Forall_forall in Hf. apply (Hf a Ha). exact Hx. }
  unfold function_init. rewrite (proj2 (nats_eqb_eq _ _)) by (symmetry; apply py_sorted_id, increasing_sorted; exact Hinc). cbn [require bind].
  replace (subset (free_vars e) (p_dirs p)) with true by (symmetry; unfold subset; apply forallb_forall; intros x Hx; apply py_in_iff, Hfree, Hx). cbn [require bind].
  exists nodes, weights, e. split; [reflexivity|]. split; [exact F2|]. split; [exact F3|]. split; [|split; [|exact Hfree]].
  - assert (NDc : NoDup (p_dirs (q_pos (big args)))). { cbn [big q_pos p_dirs]. rewrite <- (map_map q_pos p_dirs). apply (NoDup_count_occ Nat.eq_dec). exact Hown. }
    intros d xs ws. split.
    + intros (j & J1 & J2 & J3). cbn [q_pos q_nodes q_weights] in J1, J2, J3. destruct (F4 j d J1) as (xs' & ws' & X1 & X2 & X3); [right; apply in_concat; pose proof (nth_error_In _ _ J1) as Hd; apply D in Hd as (a & A1 & A2); exists (p_dirs (q_pos a)); split; [apply in_map_iff; exists a; auto|exact A2]|].
      rewrite X1 in J2. rewrite X2 in J3. injection J2 as <-. injection J3 as <-. apply big_rule in X3; assumption.
    + intros (a & Ha & R). pose proof R as (i & I1 & _). assert (Hd : In d (p_dirs p)) by (apply D; exists a; split; [exact Ha|apply (nth_error_In _ _ I1)]). apply In_nth_error in Hd as (j & J). destruct (F4 j d J) as (xs' & ws' & X1 & X2 & X3); [right; apply in_concat; exists (p_dirs (q_pos a)); split; [apply in_map_iff; exists a; auto|apply (nth_error_In _ _ I1)]|].
      assert (R' : rule_of (big args) d xs ws) by (apply big_rule; [exact Hok|exists a; auto]). destruct (rule_unique _ _ _ _ _ _ _ _ NDc R' X3) as (-> & ->). exists j. auto.
  - intros env. rewrite F5, (ok_1 _ _ _ _ _ _ _ _ OK), (law_mul_1 F L). reflexivity.
Qed.

Lemma rules_in : forall q, length (q_nodes q) = length (p_dirs (q_pos q)) -> length (q_weights q) = length (p_dirs (q_pos q)) ->
  (forall xs, In xs (q_nodes q) <-> exists d ws, rule_of q d xs ws) /\ (forall ws, In ws (q_weights q) <-> exists d xs, rule_of q d xs ws).
Proof using Type.
  intros q L1 L2. assert (G : forall A B C (l : list A) (l1 : list B) (l2 : list C) x, length l = length l1 -> length l = length l2 -> In x l -> exists i y z, nth_error l i = Some x /\ nth_error l1 i = Some y /\ nth_error l2 i = Some z).
  { clear. intros A B C l l1 l2 x H1 H2 H. apply In_nth_error in H as (i & Hi). assert (i < length l) by (apply nth_error_Some; rewrite Hi; discriminate). destruct (nth_error l1 i) as [y|] eqn:Ey; [|apply nth_error_None in Ey; lia]. destruct (nth_error l2 i) as [z|] eqn:Ez; [|apply nth_error_None in Ez; lia]. exists i, y, z. auto. }
  split; intros x; split.
  - intros H. apply (G _ _ _ _ (p_dirs (q_pos q)) (q_weights q)) in H as (i & d & ws & A & B & C); [|exact L1|lia]. exists d, ws, i. auto.
  - intros (d & ws & i & _ & H & _). apply (nth_error_In _ _ H).
  - intros H. apply (G _ _ _ _ (p_dirs (q_pos q)) (q_nodes q)) in H as (i & d & xs & A & B & C); [|exact L2|lia]. exists d, xs, i. auto.
  - intros (d & xs & i & _ & _ & H). apply (nth_error_In _ _ H).
Qed.
Lemma rules_each : forall q n k, length (q_nodes q) = length (p_dirs (q_pos q)) -> length (q_weights q) = length (p_dirs (q_pos q)) -> (points_each n k q <-> forall d xs ws, rule_of q d xs ws -> length xs = n /\ length ws = k).
Proof using Type.
  intros q n k L1 L2. destruct (rules_in q L1 L2) as (A & B). unfold points_each. rewrite !Forall_forall. split.
  - intros (H1 & H2) d xs ws R. split; [apply H1, A|apply H2, B]; eauto.
  - intros H. split; [intros xs Hx; apply A in Hx as (d & ws & R)|intros ws Hw; apply B in Hw as (d & xs & R)]; apply (H _ _ _ R).
Qed.

(** Quadratures in different directions with the same numbers of points. *)
Lemma quad_tens : forall args n k, args <> [] -> Forall fine args -> Forall (points_each n k) args -> (forall d, owners (map q_pos args) d <= 1) ->
  exists r, tensorize args = Ok r /\ fine r /\ points_each n k r /\ pos_tensorize F far (map q_pos args) = Ok (q_pos r) /\ (forall d, In d (p_dirs (q_pos r)) <-> exists a, In a args /\ In d (p_dirs (q_pos a))) /\
    (forall d xs ws, rule_of r d xs ws <-> exists a, In a args /\ rule_of a d xs ws) /\ (forall a d m v t, In a args -> records (q_pos a) d m v t -> records (q_pos r) d m v t) /\
    forall env, eval (f_sym (q_factor r)) env = nprod (map (fun a => eval (f_sym (q_factor a)) env) args).
Proof using L OK V Hfar.
  intros args n k Hne Hf Hn Hown. assert (Hok : Forall quad_ok args) by (eapply Forall_impl; [|exact Hf]; intros a Ha; apply Ha).
  destruct (pos_tens args Hne Hok Hown) as (p & EP & Hp & Hinc & D & R). destruct (quad_loop args p Hf Hown Hp D Hinc Hne EP) as (nodes & weights & e & ET & L1 & L2 & HR & He & Hv).
  assert (PE : points_each n k (Qd nodes weights p (Fn e (p_dirs p)))). { apply rules_each; [exact L1|exact L2|]. intros d xs ws HR'. apply HR in HR' as (a & Ha & Ra). rewrite Forall_forall in Hn, Hok. destruct (Hok a Ha) as (_ & _ & K1 & K2 & _). apply (proj1 (rules_each a n k K1 K2) (Hn a Ha) d xs ws Ra). }
  exists (Qd nodes weights p (Fn e (p_dirs p))). rewrite ET. rewrite (same_lengths_ok n nodes (proj1 PE)), (same_lengths_ok k weights (proj2 PE)). split; [reflexivity|]. split; [|split; [exact PE|]].
  - split; [|exact Hv]. split; [exact Hp|]. split; [exact Hinc|]. split; [exact L1|]. split; [exact L2|]. split; [exists n; apply PE|]. split; [exists k; apply PE|reflexivity].
  - split; [exact EP|]. split; [exact D|]. split; [exact HR|]. split; [exact R|exact He].
Qed.

(** Different numbers of points. *)
Lemma quad_ragged : forall args a b d d' xs ws xs' ws', Forall fine args -> (forall d, owners (map q_pos args) d <= 1) -> In a args -> In b args -> rule_of a d xs ws -> rule_of b d' xs' ws' -> (length xs <> length xs' \/ length ws <> length ws') -> tensorize args = Throw "ValueError".
Proof using L OK V Hfar.
  intros args a b d d' xs ws xs' ws' Hf Hown Ha Hb Ra Rb Hne. assert (Hn : args <> []) by (intros ->; destruct Ha). assert (Hok : Forall quad_ok args) by (eapply Forall_impl; [|exact Hf]; intros c Hc; apply Hc).
  destruct (pos_tens args Hn Hok Hown) as (p & EP & Hp & Hinc & D & R). destruct (quad_loop args p Hf Hown Hp D Hinc Hn EP) as (nodes & weights & e & ET & L1 & L2 & HR & He & Hv). rewrite ET.
  assert (X : same_lengths F nodes && same_lengths F weights = false); [|rewrite X; reflexivity]. destruct (same_lengths F nodes && same_lengths F weights) eqn:S; [exfalso|reflexivity]. apply andb_true_iff in S as (S1 & S2).
  destruct (proj2 (HR d xs ws) (ex_intro _ a (conj Ha Ra))) as (i & _ & I1 & I2). destruct (proj2 (HR d' xs' ws') (ex_intro _ b (conj Hb Rb))) as (j & _ & J1 & J2). cbn [q_nodes q_weights] in *.
  destruct Hne as [H|H]; apply H; [apply (proj1 (same_lengths_iff nodes) S1)|apply (proj1 (same_lengths_iff weights) S2)]; eapply nth_error_In; eassumption.
Qed.

(** A direction in two quadratures. *)
Lemma quad_shared : forall args a b i j d, Forall fine args -> i < j -> nth_error args i = Some a -> nth_error args j = Some b -> In d (p_dirs (q_pos a)) -> In d (p_dirs (q_pos b)) -> tensorize args = Throw "ValueError".
Proof using Hfar.
  intros args a b i j d Hf Hij Hi Hj Ha Hb. assert (Hn : args <> []) by (intros ->; destruct i; discriminate Hi). assert (Hok : Forall quad_ok args) by (eapply Forall_impl; [|exact Hf]; intros c Hc; apply Hc).
  unfold PyQuadModel.quad_tensorize. replace (0 <? length args) with true by (symmetry; apply Nat.ltb_lt; destruct args; [contradiction|cbn; lia]). cbn [require bind].
  assert (Hpos : Forall pos_ok (map q_pos args)) by (apply Forall_map; eapply Forall_impl; [|exact Hok]; intros c Hc; apply Hc). assert (Hpne : map q_pos args <> []) by (intros H; apply map_eq_nil in H; contradiction).
  assert (Ow : 2 <= owners (map q_pos args) d) by (apply (two_owners _ _ i j (q_pos a) (q_pos b)); try assumption; apply map_nth_error; assumption).
  destruct (tensorize_spec F far Hfar (map q_pos args) Hpne Hpos) as [(r & R1 & R2 & R3 & R4 & _)|[ET _]]; [|rewrite ET; reflexivity]. rewrite R1. cbn [bind]. cbv zeta.
  assert (Hd : ~ In d (p_dirs r)) by (intros H; apply R4 in H; lia).
  assert (One : forall (c : quad F E) (pairs : list (nat * nat)) (nodes weights : list (list F)), length nodes = length (p_dirs r) -> length weights = length (p_dirs r) -> (forall k x, In (k, x) pairs -> k < length (q_nodes c) /\ k < length (q_weights c)) ->
    let run := for_in (fun '(i, d) '(nodes, weights) => k <- py_index (p_dirs r) d ;; x <- py_get (q_nodes c) i ;; nodes <- py_set nodes k x ;; w <- py_get (q_weights c) i ;; weights <- py_set weights k w ;; Ok (nodes, weights)) pairs (nodes, weights) in
    (exists nodes' weights', run = Ok (nodes', weights') /\ length nodes' = length (p_dirs r) /\ length weights' = length (p_dirs r) /\ forall x, In x (map snd pairs) -> In x (p_dirs r)) \/ run = Throw "ValueError").
  { intros c pairs. induction pairs as [|(k, x) pairs IH]; intros nodes weights N1 N2 HP run; subst run; cbn [for_in].
    - left. exists nodes, weights. split; [reflexivity|]. split; [exact N1|]. split; [exact N2|]. intros x [].
    - destruct (in_dec Nat.eq_dec x (p_dirs r)) as [Hx|Hx]; [|right; rewrite py_index_throw by exact Hx; reflexivity].
      destruct (py_index_in _ _ Hx) as (k' & K1 & K2). rewrite K1. cbn [bind]. destruct (HP k x (or_introl eq_refl)) as (P1 & P2). assert (k' < length (p_dirs r)) by (apply nth_error_Some; rewrite K2; discriminate).
      destruct (nth_error (q_nodes c) k) as [xs|] eqn:E1; [|apply nth_error_None in E1; lia]. destruct (nth_error (q_weights c) k) as [ws|] eqn:E2; [|apply nth_error_None in E2; lia].
      rewrite (py_get_ok _ _ _ _ E1), (py_get_ok _ _ _ _ E2). cbn [bind]. rewrite !py_set_ok by lia. cbn [bind].
      destruct (IH (upd nodes k' xs) (upd weights k' ws)) as [(n' & w' & I1 & I2 & I3 & I4)|I1]; [rewrite upd_length; exact N1|rewrite upd_length; exact N2|intros k0 x0 H0; apply (HP k0 x0); right; exact H0| |right; exact I1].
      left. exists n', w'. split; [exact I1|]. split; [exact I2|]. split; [exact I3|]. intros y [<-|Hy]; [exact Hx|apply I4; exact Hy]. }
  match goal with |- bind (for_in ?body _ _) _ = _ => set (f := body) end.
  assert (All : forall (l : list (quad F E)) nodes weights e, Forall quad_ok l -> length nodes = length (p_dirs r) -> length weights = length (p_dirs r) ->
    (exists out, for_in f l (nodes, weights, e) = Ok out /\ forall c x, In c l -> In x (p_dirs (q_pos c)) -> In x (p_dirs r)) \/ for_in f l (nodes, weights, e) = Throw "ValueError").
  { induction l as [|c l IH]; intros nodes weights e Hl N1 N2; cbn [for_in]; [left; eexists; split; [reflexivity|intros c x []]|]. inversion Hl as [|c0 l0 Hc Hl']; subst. destruct Hc as (_ & _ & K1 & K2 & _). unfold f at 1 3.
    destruct (One c (combine (seq 0 (length (p_dirs (q_pos c)))) (p_dirs (q_pos c))) nodes weights N1 N2) as [(n' & w' & O1 & O2 & O3 & O4)|O1].
    { intros k x H. apply in_combine_l, in_seq in H. lia. }
    - rewrite O1. cbn [bind]. destruct (IH n' w' (e_mul e (f_sym (q_factor c))) Hl' O2 O3) as [(out & I1 & I2)|I1]; [left; exists out; split; [exact I1|]|right; exact I1]. intros c0 x [<-|Hc0] Hx; [|apply (I2 c0 x Hc0 Hx)]. apply O4.
      assert (G : forall (l : list nat) s, map snd (combine (seq s (length l)) l) = l) by (clear; induction l as [|y l IH]; intros s; [reflexivity|]; cbn [length seq combine map snd]; rewrite IH; reflexivity). rewrite G. exact Hx.
    - right. rewrite O1. reflexivity. }
  destruct (All args (repeat [] (length (p_dirs r))) (repeat [] (length (p_dirs r))) e_1 Hok (repeat_length _ _) (repeat_length _ _)) as [(out & _ & A)|A]; [|rewrite A; reflexivity]. exfalso. apply Hd, (A a d (nth_error_In _ _ Hi) Ha).
Qed.

(** Two quadratures without a common direction. *)
Lemma apart_owners : forall a b, quad_ok a -> quad_ok b -> apart a b -> forall d, owners (map q_pos [a; b]) d <= 1.
Proof using Type.
  intros a b Ha Hb H d. unfold owners. cbn [map concat]. rewrite app_nil_r, count_occ_app. pose proof (proj1 (NoDup_count_occ Nat.eq_dec _) (proj1 (proj1 Ha)) d). pose proof (proj1 (NoDup_count_occ Nat.eq_dec _) (proj1 (proj1 Hb)) d).
  destruct (in_dec Nat.eq_dec d (p_dirs (q_pos a))) as [Hd|Hd]; [apply H in Hd|]; apply (count_occ_not_In Nat.eq_dec) in Hd; lia.
Qed.
Lemma rules_ext : forall a b, quad_ok a -> quad_ok b -> q_pos a = q_pos b -> (forall d xs ws, rule_of a d xs ws -> rule_of b d xs ws) -> q_nodes a = q_nodes b /\ q_weights a = q_weights b.
Proof using Type.
  intros a b (A0 & _ & A1 & A2 & _) (_ & _ & B1 & B2 & _) EP H. assert (G : forall i, nth_error (q_nodes a) i = nth_error (q_nodes b) i /\ nth_error (q_weights a) i = nth_error (q_weights b) i).
  { intros i. destruct (nth_error (p_dirs (q_pos a)) i) as [d|] eqn:Ed.
    - assert (Hl : i < length (p_dirs (q_pos a))) by (apply nth_error_Some; rewrite Ed; discriminate). destruct (nth_error (q_nodes a) i) as [xs|] eqn:E1; [|apply nth_error_None in E1; lia]. destruct (nth_error (q_weights a) i) as [ws|] eqn:E2; [|apply nth_error_None in E2; lia].
      destruct (H d xs ws (ex_intro _ i (conj Ed (conj E1 E2)))) as (j & J1 & J2 & J3). rewrite <- EP in J1. assert (i = j) as <- by (apply (proj1 (NoDup_nth_error _) (proj1 A0)); [exact Hl|congruence]). split; congruence.
    - apply nth_error_None in Ed. rewrite <- EP in B1, B2. rewrite !(proj2 (nth_error_None _ _)) by lia. split; reflexivity. }
  split; apply nth_error_ext; intros i; apply G.
Qed.
Lemma apart_consistent : forall a b, apart a b -> consistent (q_pos a) (q_pos b).
Proof using Type. intros a b H d m v t m' v' t' A B. exfalso. apply (H d); eapply records_dir; eassumption. Qed.

Lemma quad_mul_spec : forall a b n k, fine a -> fine b -> points_each n k a -> points_each n k b -> apart a b ->
  exists r, quad_mul F far E e_mul e_1 free_vars a b = Ok r /\ fine r /\ points_each n k r /\ pos_mul F far (q_pos a) (q_pos b) = Ok (q_pos r) /\ (forall d, In d (p_dirs (q_pos r)) <-> In d (p_dirs (q_pos a)) \/ In d (p_dirs (q_pos b))) /\
    (forall d xs ws, rule_of r d xs ws <-> rule_of a d xs ws \/ rule_of b d xs ws) /\ forall env, eval (f_sym (q_factor r)) env = nmul (eval (f_sym (q_factor a)) env) (eval (f_sym (q_factor b)) env).
Proof using L OK V Hfar.
  intros a b n k Ha Hb Na Nb H. destruct (quad_tens [a; b] n k) as (r & E1 & E2 & E3 & E4 & E5 & E6 & _ & E7); [discriminate|constructor; [exact Ha|constructor; [exact Hb|constructor]]|constructor; [exact Na|constructor; [exact Nb|constructor]]|apply apart_owners; [apply Ha|apply Hb|exact H]|].
  exists r. split; [exact E1|]. split; [exact E2|]. split; [exact E3|]. split; [exact E4|]. split; [|split].
  - intros d. rewrite E5. split; [intros (c & [<-|[<-|[]]] & Hc); auto|intros [Hc|Hc]; [exists a|exists b]; cbn; auto].
  - intros d xs ws. rewrite E6. split; [intros (c & [<-|[<-|[]]] & Hc); auto|intros [Hc|Hc]; [exists a|exists b]; cbn; auto].
  - intros env. rewrite E7. unfold nprod. cbn [map fold_left fold_right]. try rewrite (law_mul_comm F L _ n1). rewrite ?(law_mul_1 F L). reflexivity.
Qed.

Lemma quad_mul_comm : forall a b n k, fine a -> fine b -> points_each n k a -> points_each n k b -> apart a b ->
  exists r r', quad_mul F far E e_mul e_1 free_vars a b = Ok r /\ quad_mul F far E e_mul e_1 free_vars b a = Ok r' /\ same_quad eval r r'.
Proof using L OK V Hfar.
  intros a b n k Ha Hb Na Nb H. destruct (quad_mul_spec a b n k Ha Hb Na Nb H) as (r & A1 & A2 & A3 & A4 & A5 & A6 & A7). destruct (quad_mul_spec b a n k Hb Ha Nb Na) as (r' & B1 & B2 & B3 & B4 & B5 & B6 & B7); [intros d X Y; apply (H d Y X)|].
  exists r, r'. split; [exact A1|]. split; [exact B1|]. assert (EP : q_pos r = q_pos r') by (rewrite (mul_comm F L far Hfar) in A4 by (first [apply Ha|apply Hb]); congruence).
  destruct (rules_ext r r' (proj1 A2) (proj1 B2) EP) as (E1 & E2); [intros d xs ws X; apply B6; apply A6 in X; tauto|]. split; [exact E1|]. split; [exact E2|]. split; [exact EP|]. split.
  - transitivity (p_dirs (q_pos r)); [apply A2|]. rewrite EP. symmetry. apply B2.
  - intros env. rewrite A7, B7. apply (law_mul_comm F L).
Qed.

Lemma quad_mul_assoc : forall a b c n k, fine a -> fine b -> fine c -> points_each n k a -> points_each n k b -> points_each n k c -> apart a b -> apart a c -> apart b c ->
  exists r r', bind (quad_mul F far E e_mul e_1 free_vars a b) (fun ab => quad_mul F far E e_mul e_1 free_vars ab c) = Ok r /\ bind (quad_mul F far E e_mul e_1 free_vars b c) (fun bc => quad_mul F far E e_mul e_1 free_vars a bc) = Ok r' /\ same_quad eval r r'.
Proof using L OK V Hfar.
  intros a b c n k Ha Hb Hc Na Nb Nc Hab Hac Hbc. destruct (quad_mul_spec a b n k Ha Hb Na Nb Hab) as (ab & A1 & A2 & A3 & A4 & A5 & A6 & A7). destruct (quad_mul_spec b c n k Hb Hc Nb Nc Hbc) as (bc & B1 & B2 & B3 & B4 & B5 & B6 & B7).
  destruct (quad_mul_spec ab c n k A2 Hc A3 Nc) as (r & C1 & C2 & C3 & C4 & C5 & C6 & C7); [intros d X Y; apply A5 in X as [X|X]; [apply (Hac d X Y)|apply (Hbc d X Y)]|].
  destruct (quad_mul_spec a bc n k Ha B2 Na B3) as (r' & D1 & D2 & D3 & D4 & D5 & D6 & D7); [intros d X Y; apply B5 in Y as [Y|Y]; [apply (Hab d X Y)|apply (Hac d X Y)]|].
  exists r, r'. rewrite A1, B1. split; [exact C1|]. split; [exact D1|].
  assert (EP : q_pos r = q_pos r'). { destruct (mul_assoc F L far Hfar (q_pos a) (q_pos b) (q_pos c)) as (u & U1 & U2); try (apply apart_consistent; assumption); [apply Ha|apply Hb|apply Hc|]. rewrite A4 in U1. rewrite B4 in U2. cbn [bind] in U1, U2. congruence. }
  destruct (rules_ext r r' (proj1 C2) (proj1 D2) EP) as (E1 & E2); [intros d xs ws X; apply D6; rewrite B6; apply C6 in X; rewrite A6 in X; tauto|]. split; [exact E1|]. split; [exact E2|]. split; [exact EP|]. split.
  - transitivity (p_dirs (q_pos r)); [apply C2|]. rewrite EP. symmetry. apply D2.
  - intros env. rewrite C7, D7, A7, B7. symmetry. apply (law_mul_assoc F L).
Qed.
End Quads.

(** A product of three positions and the product of the list. *)
Lemma mul_chain : forall (N : num) (L : num_laws N) far, (forall l, far (diag_mat N l) = false) -> forall p q r : position N, pos_ok p -> pos_ok q -> pos_ok r -> (forall d, ~ (In d (p_dirs p) /\ In d (p_dirs q) /\ In d (p_dirs r))) ->
  bind (pos_mul N far p q) (fun pq => pos_mul N far pq r) = pos_tensorize N far [p; q; r].
Proof.
  intros N L far Hfar p q r Hp Hq Hr H. unfold pos_tensorize. assert (FA : Forall pos_ok [p; q; r]) by (repeat (constructor; [assumption|]); constructor).
  destruct (dirs_check N [p; q; r] [] FA) as [[E1 _]|[_ (d & Hd)]].
  - rewrite E1. cbn [bind for_in]. rewrite (mul_eq N far p q Hp Hq). destruct (tensorize2_spec N far Hfar p q Hp Hq) as [(pq & E2 & R1 & _)|(E2 & _)]; rewrite E2; cbn [bind]; [|reflexivity]. rewrite (mul_eq N far pq r R1 Hr). destruct (tensorize2 N far pq r); reflexivity.
  - exfalso. cbn [map concat app] in Hd. rewrite app_nil_r, !count_occ_app in Hd. pose proof (proj1 (NoDup_count_occ Nat.eq_dec _) (proj1 Hp) d). pose proof (proj1 (NoDup_count_occ Nat.eq_dec _) (proj1 Hq) d). pose proof (proj1 (NoDup_count_occ Nat.eq_dec _) (proj1 Hr) d).
    apply (H d). repeat split; apply (count_occ_In Nat.eq_dec); lia.
Qed.
