(** Facts about quadratures, C61. *)
From Coq Require Import String List Bool Arith Sorted Lia.
From Verif Require Import Base Lists Num Fnum LinSpec PyBase PosModel PosSpec PosFacts SeriesModel PartModel PartSpec PartFacts SplitModel SplitSpec SplitFacts MulModel Facts2 Facts4 PyQuadModel PyQuadSpec.
Import ListNotations.
Local Open Scope string_scope. Local Open Scope list_scope. Local Open Scope nat_scope.

Section Vars.
Variable E : Type.
Variable e_mul : E -> E -> E.
Variable e_1 : E.
Variable add_args mul_args : E -> list E.
Variable free_vars : E -> list nat.
Hypothesis V : sympy_vars e_mul e_1 add_args mul_args free_vars.
Notation split_arg := (split_arg E e_mul free_vars).
Definition within (d : list (list nat * E)) : Prop := forall k e, In (k, e) d -> incl (free_vars e) k.

Lemma fs_union_in : forall a b x, In x (fs_union a b) <-> In x a \/ In x b.
Proof. intros a b x. unfold fs_union. rewrite in_app_iff. tauto. Qed.

Lemma d_mul_within : forall key v d, within d -> incl (free_vars v) key -> within (d_mul E e_mul key v d).
Proof.
  intros key v d. induction d as [|(k, e) d IH]; intros Hd Hv; cbn [d_mul]; [exact Hd|].
  destruct (fs_eqb key k) eqn:EQ.
  - intros k' e' [H|H]; [|apply Hd; right; exact H]. injection H as <- <-. intros x Hx. apply (vars_mul _ _ _ _ _ V) in Hx as [Hx|Hx]; [apply (Hd k e (or_introl eq_refl)); exact Hx|].
    apply (proj1 (fs_eqb_iff _ _) EQ); apply Hv; exact Hx.
  - intros k' e' [H|H]; [apply Hd; left; exact H|]. apply (IH (fun a b Hab => Hd a b (or_intror Hab)) Hv). exact H.
Qed.
Lemma d_set_within : forall key v d, within d -> incl (free_vars v) key -> within (d_set E key v d).
Proof.
  intros key v d. induction d as [|(k, e) d IH]; intros Hd Hv; cbn [d_set]; [intros k e [H|[]]; injection H as <- <-; exact Hv|].
  destruct (fs_eqb key k) eqn:EQ.
  - intros k' e' [H|H]; [|apply Hd; right; exact H]. injection H as <- <-. intros x Hx. apply (proj1 (fs_eqb_iff _ _) EQ); apply Hv; exact Hx.
  - intros k' e' [H|H]; [apply Hd; left; exact H|]. apply (IH (fun a b Hab => Hd a b (or_intror Hab)) Hv). exact H.
Qed.
Lemma split_arg_within : forall d arg, within d -> within (split_arg d arg).
Proof.
  intros d arg Hd. unfold SplitModel.split_arg. destruct (d_in E (free_vars arg) d); [apply d_mul_within; [exact Hd|apply incl_refl]|].
  assert (G : forall l key value ks, (forall k e, In (k, e) l -> incl (free_vars e) k) -> incl (free_vars value) key ->
    incl (free_vars (snd (fst (fold_left (fun '(key, value, ks) '(existing_key, v) => if fs_meets existing_key key then (fs_union existing_key key, e_mul value v, ks ++ [existing_key]) else (key, value, ks)) l (key, value, ks)))))
         (fst (fst (fold_left (fun '(key, value, ks) '(existing_key, v) => if fs_meets existing_key key then (fs_union existing_key key, e_mul value v, ks ++ [existing_key]) else (key, value, ks)) l (key, value, ks))))).
  { induction l as [|(k, e) l IH]; intros key value ks Hl Hk; cbn [fold_left]; [exact Hk|].
    destruct (fs_meets k key); [|apply IH; [intros; apply Hl; right; assumption|exact Hk]].
    apply IH; [intros; apply Hl; right; assumption|]. intros x Hx. apply fs_union_in. apply (vars_mul _ _ _ _ _ V) in Hx as [Hx|Hx]; [right; apply Hk; exact Hx|left; apply (Hl k e (or_introl eq_refl)); exact Hx]. }
  specialize (G d (free_vars arg) arg [] Hd (incl_refl _)).
  destruct (fold_left _ d _) as ((key, value), ks). cbn [fst snd] in G. apply d_set_within; [|exact G].
  intros k e H. apply filter_In in H as [H _]. apply Hd. exact H.
Qed.
Lemma split_term_within : forall dirs term, within (split_term E e_mul e_1 mul_args free_vars dirs term).
Proof.
  intros dirs term. unfold split_term. assert (H : within (map (fun d => ([d], e_1)) dirs ++ [([], e_1)])).
  { intros k e H. assert (e = e_1) as ->; [|rewrite (vars_1 _ _ _ _ _ V); intros x []]. apply in_app_or in H as [H|[H|[]]]; [|injection H as <- <-; reflexivity]. apply in_map_iff in H as (d & H & _). injection H as <- <-. reflexivity. }
  revert H. generalize (map (fun d => ([d], e_1)) dirs ++ [([], e_1)]). induction (mul_args term) as [|a l IH]; intros d Hd; cbn [fold_left]; [exact Hd|]. apply IH, split_arg_within, Hd.
Qed.
Lemma d_get_within : forall d k e, within d -> d_get E k d = Ok e -> incl (free_vars e) k.
Proof.
  induction d as [|(k', e') d IH]; intros k e Hd H; cbn [d_get] in H; [discriminate H|]. destruct (fs_eqb k k') eqn:EQ.
  - injection H as <-. intros x Hx. apply (proj1 (fs_eqb_iff _ _) EQ). apply (Hd k' e' (or_introl eq_refl)). exact Hx.
  - apply IH; [intros a b Hab; apply Hd; right; exact Hab|exact H].
Qed.
Lemma project_within : forall f A g, fun_project E e_mul e_1 add_args mul_args free_vars f A = Ok g -> incl (free_vars (f_sym g)) A /\ f_dirs g = A.
Proof.
  intros f A g H. unfold fun_project, fun_split in H. destruct (add_args (f_sym f)) as [|t [|t' l]]; cbn [map] in H; try discriminate H.
  pose proof (split_term_within (f_dirs f) t) as W. set (d := split_term _ _ _ _ _ _ _) in *.
  destruct (py_get (f_dirs f) 0) as [first| | | |]; cbn [bind] in H; try discriminate H.
  destruct (if py_in first A then d_get E [] d else Ok e_1) as [r| | | |] eqn:EQ; cbn [bind] in H; try discriminate H.
  assert (Hr : incl (free_vars r) A).
  { destruct (py_in first A); [apply (d_get_within _ _ _ W) in EQ; intros x Hx; destruct (EQ x Hx)|injection EQ as <-; rewrite (vars_1 _ _ _ _ _ V); intros x []]. }
  assert (G : forall l r, (forall k e, In (k, e) l -> incl (free_vars e) k) -> incl (free_vars r) A -> forall r',
    for_in (fun '(v, term) result => if subset v A && negb (fs_eqb v []) then Ok (e_mul result term) else if negb (fs_eqb A []) && subset A v then Throw "ValueError" else Ok result) l r = Ok r' -> incl (free_vars r') A).
  { clear - V. induction l as [|(k, e) l IH]; intros r Hl Hr r' H; cbn [for_in] in H; [injection H as <-; exact Hr|].
    destruct (subset k A && negb (fs_eqb k [])) eqn:EQ; cbn [bind] in H.
    - apply andb_true_iff in EQ as [EQ _]. apply (IH (e_mul r e)); [intros; apply Hl; right; assumption| |exact H]. intros x Hx. apply (vars_mul _ _ _ _ _ V) in Hx as [Hx|Hx]; [apply Hr; exact Hx|].
      apply (Hl k e (or_introl eq_refl)) in Hx. unfold subset in EQ. rewrite forallb_forall in EQ. apply py_in_iff, EQ, Hx.
    - destruct (negb (fs_eqb A []) && subset A k); cbn [bind] in H; [discriminate H|]. apply (IH r); [intros; apply Hl; right; assumption|exact Hr|exact H]. }
  specialize (G d r W Hr). match type of H with bind ?x _ = _ => destruct x as [r'| | | |] end; cbn [bind] in H; try discriminate H. specialize (G r' eq_refl).
  destruct (nats_eqb A (py_sorted A)); cbn [require bind] in H; [|discriminate H]. injection H as <-. split; [exact G|reflexivity].
Qed.
End Vars.

Section C61.
Variable F : fnum.
Hypothesis L : num_laws F.
Variable far : list (list F) -> bool.
Hypothesis far_ok : forall l, far (diag_mat F l) = false.
Variable E : Type.
Variable eval : E -> (nat -> F) -> F.
Variable e_mul : E -> E -> E.
Variable e_1 : E.
Variable add_args mul_args : E -> list E.
Variable free_vars : E -> list nat.
Hypothesis OK : sympy_ok eval e_mul e_1 add_args mul_args free_vars.
Hypothesis V : sympy_vars e_mul e_1 add_args mul_args free_vars.
Notation quad_project := (quad_project F far E e_mul e_1 add_args mul_args free_vars).
Notation quad_tensorize := (quad_tensorize F far E e_mul e_1 free_vars).

(** a product over disjoint groups in which exactly one group counts *)
Lemma one_group : forall (b : list nat -> bool) (x : nat) (v : F) groups, ForallOrdPairs disjoint groups -> (forall g, In g groups -> b g = true -> In x g) -> (exists g, In g groups /\ b g = true) ->
  nprod (map (fun g => if b g then v else n1) groups) = v.
Proof.
  intros b x v groups Hd. induction Hd as [|g groups Hg Hd IH]; intros Hx (g0 & H1 & H2); [destruct H1|]. cbn [map]. rewrite (Facts2.nprod_cons _ L). destruct (b g) eqn:Eb.
  - rewrite (nprod_ones _ L), (law_mul_comm F L), (law_mul_1 F L); [reflexivity|]. intros y Hy. apply in_map_iff in Hy as (h & <- & Hh). destruct (b h) eqn:Eh; [|reflexivity]. exfalso.
    rewrite Forall_forall in Hg. apply (Hg h Hh x); [apply Hx; [left; reflexivity|exact Eb]|apply Hx; [right; exact Hh|exact Eh]].
  - rewrite (law_mul_1 F L). apply IH; [intros h Hh; apply Hx; right; exact Hh|]. exists g0. split; [|exact H2]. destruct H1 as [<-|H1]; [congruence|exact H1].
Qed.
Lemma nprod_mul : forall A (f h : A -> F) l, nprod (map (fun g => nmul (f g) (h g)) l) = nmul (nprod (map f l)) (nprod (map h l)).
Proof.
  intros A f h l. induction l as [|a l IH]; cbn [map]; [unfold nprod; cbn [fold_left]; rewrite (law_mul_1 F L); reflexivity|]. rewrite !(Facts2.nprod_cons _ L), IH.
  rewrite <- !(law_mul_assoc F L). f_equal. rewrite !(law_mul_assoc F L). f_equal. apply (law_mul_comm F L).
Qed.
Lemma product_cons : forall a l env, product eval (a :: l) env = nmul (eval a env) (product eval l env).
Proof. intros a l env. unfold product. cbn [map]. apply (Facts2.nprod_cons _ L). Qed.
Lemma product_constant : forall b args env, nmul (product eval (filter b args) env) (product eval (filter (fun a => negb (b a)) args) env) = product eval args env.
Proof.
  intros b args env. induction args as [|a args IH]; [unfold product, nprod; cbn [map filter fold_left]; apply (law_mul_1 F L)|]. rewrite product_cons, <- IH. cbn [filter]. destruct (b a); cbn [negb]; rewrite product_cons.
  - rewrite (law_mul_assoc F L). reflexivity.
  - rewrite !(law_mul_assoc F L). f_equal. apply (law_mul_comm F L).
Qed.
Lemma inside_incl : forall A a, inside free_vars A a = true <-> constant free_vars a = false /\ incl (free_vars a) A.
Proof.
  intros A a. unfold inside. rewrite andb_true_iff, negb_true_iff, forallb_forall. split; intros [H1 H2]; (split; [exact H1|]).
  - intros x Hx. specialize (H2 x Hx). apply existsb_exists in H2 as (y & Y1 & Y2). apply Nat.eqb_eq in Y2. subst y. exact Y1.
  - intros x Hx. apply existsb_exists. exists x. split; [apply H2; exact Hx|apply Nat.eqb_refl].
Qed.
Lemma groups_inside : forall dirs args groups env, grouping dirs groups -> (forall a, In a args -> incl (free_vars a) dirs) -> (forall g a, In g groups -> In a args -> ~ straddles free_vars g a) ->
  nprod (map (fun g => product eval (filter (inside free_vars g) args) env) groups) = product eval (filter (fun a => negb (constant free_vars a)) args) env.
Proof.
  intros dirs args groups env [[Hp Hd] Hg]. induction args as [|a args IH]; intros Hi Hs.
  - cbn [filter]. unfold product at 2, nprod at 2. cbn [map fold_left]. apply (nprod_ones _ L). intros x Hx. apply in_map_iff in Hx as (g & <- & _). reflexivity.
  - rewrite (map_ext _ (fun g => nmul (if inside free_vars g a then eval a env else n1) (product eval (filter (inside free_vars g) args) env)))
      by (intros g; cbn [filter]; destruct (inside free_vars g a); [apply product_cons|rewrite (law_mul_1 F L); reflexivity]).
    rewrite nprod_mul, IH; [|intros; apply Hi; right; assumption|intros; apply Hs; [assumption|right; assumption]]. cbn [filter].
    destruct (constant free_vars a) eqn:Ec; cbn [negb].
    + rewrite (nprod_ones _ L), (law_mul_1 F L); [reflexivity|]. intros x Hx. apply in_map_iff in Hx as (g & <- & _). unfold inside. rewrite Ec. reflexivity.
    + rewrite product_cons. f_equal. destruct (free_vars a) as [|x l] eqn:Ev; [unfold constant in Ec; rewrite Ev in Ec; discriminate Ec|].
      apply (one_group _ x); [exact Hd| |].
      * intros g _ Hb. apply inside_incl in Hb as [_ Hb]. rewrite Ev in Hb. apply Hb. left. reflexivity.
      * assert (Hx : In x dirs) by (apply (Hi a (or_introl eq_refl)); rewrite Ev; left; reflexivity). apply Hp in Hx as (g & G1 & G2). exists g. split; [exact G1|]. apply inside_incl. split; [exact Ec|].
        intros y Hy. destruct (in_dec Nat.eq_dec y g) as [G|G]; [exact G|]. exfalso. apply (Hs g a G1 (or_introl eq_refl)). split; [exists x; rewrite Ev; split; [left; reflexivity|exact G2]|exists y; split; assumption].
Qed.
Lemma groups_product : forall first rest args groups env, grouping (first :: rest) groups -> (forall a, In a args -> incl (free_vars a) (first :: rest)) -> (forall g a, In g groups -> In a args -> ~ straddles free_vars g a) ->
  nprod (map (fun g => nmul (if existsb (Nat.eqb first) g then product eval (filter (constant free_vars) args) env else n1) (product eval (filter (inside free_vars g) args) env)) groups) = product eval args env.
Proof.
  intros first rest args groups env Hg Hi Hs. rewrite nprod_mul, (groups_inside (first :: rest)) by assumption. destruct Hg as [[Hp Hd] Hg].
  rewrite (one_group _ first); [apply product_constant|exact Hd| |].
  - intros g _ H. apply existsb_exists in H as (y & Y1 & Y2). apply Nat.eqb_eq in Y2. subst y. exact Y1.
  - destruct (proj1 (Hp first) (or_introl eq_refl)) as (g & G1 & G2). exists g. split; [exact G1|]. apply existsb_exists. exists first. split; [exact G2|apply Nat.eqb_refl].
Qed.

(** what a projection is *)
Definition part_of (q a : quad F E) : Prop :=
  pos_ok (q_pos a) /\ (forall d m v t, In d (p_dirs (q_pos a)) -> records (q_pos q) d m v t -> records (q_pos a) d m v t) /\
  (forall i d, nth_error (p_dirs (q_pos a)) i = Some d -> exists xs ws, nth_error (q_nodes a) i = Some xs /\ nth_error (q_weights a) i = Some ws /\ rule_of q d xs ws).

Lemma rule_exists : forall (q : quad F E) d, quad_ok q -> In d (p_dirs (q_pos q)) -> exists xs ws i, py_index (p_dirs (q_pos q)) d = Ok i /\ py_get (q_nodes q) i = Ok xs /\ py_get (q_weights q) i = Ok ws /\ rule_of q d xs ws.
Proof.
  intros q d (_ & _ & H1 & H2 & _) Hd. destruct (py_index_in _ _ Hd) as (i & Hi & Hn).
  assert (Hl : i < length (p_dirs (q_pos q))) by (apply nth_error_Some; rewrite Hn; discriminate).
  destruct (nth_error (q_nodes q) i) as [xs|] eqn:Ex; [|apply nth_error_None in Ex; lia]. destruct (nth_error (q_weights q) i) as [ws|] eqn:Ew; [|apply nth_error_None in Ew; lia].
  exists xs, ws, i. unfold py_get. rewrite Ex, Ew. repeat split; try assumption. exists i. auto.
Qed.
Lemma rule_unique : forall (q : quad F E) d xs ws xs' ws', NoDup (p_dirs (q_pos q)) -> rule_of q d xs ws -> rule_of q d xs' ws' -> xs = xs' /\ ws = ws'.
Proof.
  intros q d xs ws xs' ws' Hn (i & A1 & A2 & A3) (j & B1 & B2 & B3). assert (i = j) as <-; [|split; congruence].
  apply (proj1 (NoDup_nth_error _) Hn); [apply nth_error_Some; rewrite A1; discriminate|congruence].
Qed.
Lemma quad_project_ok : forall (q : quad F E) term first rest g, quad_ok q -> p_dirs (q_pos q) = first :: rest -> incl (free_vars (f_sym (q_factor q))) (p_dirs (q_pos q)) ->
  add_args (f_sym (q_factor q)) = [term] -> increasing g -> g <> [] -> incl g (p_dirs (q_pos q)) -> (forall a, In a (mul_args term) -> ~ straddles free_vars g a) ->
  exists a e, quad_project q g = Ok a /\ part_of q a /\ p_dirs (q_pos a) = g /\ q_factor a = Fn e g /\ incl (free_vars e) g /\
    (forall env, eval e env = nmul (if existsb (Nat.eqb first) g then product eval (filter (constant free_vars) (mul_args term)) env else n1) (product eval (filter (inside free_vars g) (mul_args term)) env)) /\
    length (q_nodes a) = length g /\ length (q_weights a) = length g.
Proof.
  intros q term first rest g Hq Hf Hv Hs Hg Hne Hi Hst. pose proof Hq as (Q1 & Q2 & Q3 & Q4 & (n & Q5) & (n' & Q6) & Q7).
  destruct (project_ok F L E eval e_mul e_mul e_1 add_args mul_args free_vars OK (q_factor q) term first rest g) as (e & E1 & E2); try assumption.
  - rewrite Q7. exact Hf.
  - rewrite Q7. apply Q1.
  - intros a Ha x Hx. rewrite Q7. apply Hv. apply (vars_add_args _ _ _ _ _ V _ term); [rewrite Hs; left; reflexivity|]. apply (vars_mul_args _ _ _ _ _ V _ a Ha). exact Hx.
  - apply increasing_sorted. exact Hg.
  - destruct (project_increasing F far (q_pos q) g far_ok Q1 Hi Hg) as (r & R1 & R2 & R3 & R4).
    assert (G : forall l, incl l (p_dirs (q_pos q)) -> exists xss wss, mapM (fun d => i <- py_index (p_dirs (q_pos q)) d;; py_get (q_nodes q) i) l = Ok xss /\ mapM (fun d => i <- py_index (p_dirs (q_pos q)) d;; py_get (q_weights q) i) l = Ok wss /\
      Forall (fun xs => length xs = n) xss /\ Forall (fun ws => length ws = n') wss /\ length xss = length l /\ length wss = length l /\
      forall i d, nth_error l i = Some d -> exists xs ws, nth_error xss i = Some xs /\ nth_error wss i = Some ws /\ rule_of q d xs ws).
    { induction l as [|d l IH]; intros Hl; [exists [], []; cbn; repeat split; try constructor; intros [|i] d H; discriminate H|].
      destruct (IH (fun x Hx => Hl x (or_intror Hx))) as (xss & wss & I1 & I2 & I3 & I4 & I5 & I6 & I7).
      destruct (rule_exists q d Hq (Hl d (or_introl eq_refl))) as (xs & ws & i & J1 & J2 & J3 & J4).
      exists (xs :: xss), (ws :: wss). cbn [mapM]. rewrite J1. cbn [bind]. rewrite J2, J3. cbn [bind]. rewrite I1, I2. cbn [bind length].
      split; [reflexivity|]. split; [reflexivity|]. destruct J4 as (j & J4 & J5 & J6).
      split; [constructor; [rewrite Forall_forall in Q5; apply Q5; eapply nth_error_In; exact J5|exact I3]|]. split; [constructor; [rewrite Forall_forall in Q6; apply Q6; eapply nth_error_In; exact J6|exact I4]|].
      split; [congruence|]. split; [congruence|]. intros [|k] d0 Hk; cbn [nth_error] in *; [injection Hk as <-; exists xs, ws; repeat split; exists j; auto|apply I7; exact Hk]. }
    destruct (G g Hi) as (xss & wss & G1 & G2 & G3 & G4 & G5 & G6 & G7).
    assert (SL : forall m (l : list (list F)), Forall (fun xs => length xs = m) l -> same_lengths F l = true).
    { intros m l Hl. unfold same_lengths. apply forallb_forall. intros x Hx. apply Nat.eqb_eq. destruct l as [|y l]; [destruct Hx|]. cbn [hd]. rewrite Forall_forall in Hl. rewrite (Hl x Hx). symmetry. apply Hl. left. reflexivity. }
    exists (Qd xss wss r (Fn e g)), e. unfold PyQuadModel.quad_project. rewrite E1. cbn [bind]. rewrite R1. cbn [bind]. rewrite R3, G1. cbn [bind]. rewrite G2. cbn [bind]. unfold quad_init. rewrite (SL n xss G3), (SL n' wss G4). cbn [andb require bind].
    split; [reflexivity|]. split; [split; [exact R2|split; [cbn [q_pos]; rewrite R3; exact R4|cbn [q_pos q_nodes q_weights]; rewrite R3; exact G7]]|].
    split; [exact R3|]. split; [reflexivity|]. split; [apply (project_within E e_mul e_1 add_args mul_args free_vars V _ _ _ E1)|]. split; [exact E2|]. split; assumption.
Qed.

Definition filled (q : quad F E) (dirs : list nat) (seen : nat -> Prop) (nodes weights : list (list F)) : Prop :=
  length nodes = length dirs /\ length weights = length dirs /\
  forall k d, nth_error dirs k = Some d -> seen d -> exists xs ws, nth_error nodes k = Some xs /\ nth_error weights k = Some ws /\ rule_of q d xs ws.

Lemma py_set_ok : forall A (l : list A) i x, i < length l -> py_set l i x = Ok (upd l i x).
Proof. intros A l i x H. unfold py_set, vset. replace (i <? length l) with true by (symmetry; apply Nat.ltb_lt; exact H). reflexivity. Qed.
Lemma upd_length' : forall A (l : list A) i x, length (upd l i x) = length l.
Proof. induction l as [|y l IH]; intros [|i] x; cbn [upd length]; try reflexivity. f_equal. apply IH. Qed.
Lemma upd_at : forall A (l : list A) i x, i < length l -> nth_error (upd l i x) i = Some x.
Proof. induction l as [|y l IH]; intros [|i] x H; cbn [upd length nth_error] in *; try lia; [reflexivity|]. apply IH. lia. Qed.
Lemma upd_other : forall A (l : list A) i j x, j <> i -> nth_error (upd l i x) j = nth_error l j.
Proof. induction l as [|y l IH]; intros [|i] [|j] x H; cbn [upd nth_error]; try reflexivity; [contradiction|]. apply IH. congruence. Qed.

Lemma filled_step : forall q dirs seen nodes weights k d xs ws, NoDup dirs -> filled q dirs seen nodes weights -> nth_error dirs k = Some d -> rule_of q d xs ws ->
  filled q dirs (fun x => seen x \/ x = d) (upd nodes k xs) (upd weights k ws).
Proof.
  intros q dirs seen nodes weights k d xs ws Hn (H1 & H2 & H3) Hk Hr. assert (Hl : k < length dirs) by (apply nth_error_Some; rewrite Hk; discriminate).
  split; [rewrite upd_length'; exact H1|]. split; [rewrite upd_length'; exact H2|]. intros j x Hj Hx. destruct (Nat.eq_dec j k) as [->|Hjk].
  - rewrite Hk in Hj. injection Hj as <-. exists xs, ws. rewrite !upd_at by lia. auto.
  - rewrite !upd_other by exact Hjk. apply H3; [exact Hj|]. destruct Hx as [Hx| ->]; [exact Hx|]. exfalso. apply Hjk. apply (proj1 (NoDup_nth_error _) Hn); [apply nth_error_Some; rewrite Hj; discriminate|congruence].
Qed.

Lemma fill_one : forall q dirs (a : quad F E), NoDup dirs -> forall pairs seen nodes weights, filled q dirs seen nodes weights ->
  (forall i d, In (i, d) pairs -> In d dirs /\ exists xs ws, nth_error (q_nodes a) i = Some xs /\ nth_error (q_weights a) i = Some ws /\ rule_of q d xs ws) ->
  exists nodes' weights', for_in (fun '(i, d) '(nodes, weights) =>
          k <- py_index dirs d ;;
          x <- py_get (q_nodes a) i ;;
          nodes <- py_set nodes k x ;;
          w <- py_get (q_weights a) i ;;
          weights <- py_set weights k w ;;
          Ok (nodes, weights)) pairs (nodes, weights) = Ok (nodes', weights') /\ filled q dirs (fun x => seen x \/ In x (map snd pairs)) nodes' weights'.
Proof.
  intros q dirs a Hn. induction pairs as [|(i, d) pairs IH]; intros seen nodes weights Hf Hp.
  - exists nodes, weights. split; [reflexivity|]. destruct Hf as (H1 & H2 & H3). split; [exact H1|]. split; [exact H2|]. intros k d Hk [H|[]]. apply H3; assumption.
  - destruct (Hp i d (or_introl eq_refl)) as (Hd & xs & ws & X1 & X2 & X3). destruct (py_index_in _ _ Hd) as (k & K1 & K2). cbn [for_in]. rewrite K1. cbn [bind]. rewrite (py_get_ok _ _ _ _ X1), (py_get_ok _ _ _ _ X2). cbn [bind].
    assert (Hl : k < length dirs) by (apply nth_error_Some; rewrite K2; discriminate). pose proof Hf as (F1 & F2 & _). rewrite !py_set_ok by lia. cbn [bind].
    destruct (IH _ _ _ (filled_step _ _ _ _ _ _ _ _ _ Hn Hf K2 X3) (fun i' d' H => Hp i' d' (or_intror H))) as (nodes' & weights' & I1 & I2 & I3 & I4).
    exists nodes', weights'. split; [exact I1|]. split; [exact I2|]. split; [exact I3|]. intros k' d' Hk [H|[H|H]]; apply I4; try exact Hk; cbn [snd] in *; auto.
Qed.

Lemma fill_all : forall q dirs, NoDup dirs -> forall (args : list (quad F E)) seen nodes weights e, filled q dirs seen nodes weights -> (forall a, In a args -> part_of q a /\ incl (p_dirs (q_pos a)) dirs) ->
  exists nodes' weights' e', for_in (fun a '(nodes, weights, factor) =>
      let factor := e_mul factor (f_sym (q_factor a)) in
      '(nodes, weights) <- for_in (fun '(i, d) '(nodes, weights) =>
          k <- py_index dirs d ;;
          x <- py_get (q_nodes a) i ;;
          nodes <- py_set nodes k x ;;
          w <- py_get (q_weights a) i ;;
          weights <- py_set weights k w ;;
          Ok (nodes, weights)) (combine (seq 0 (length (p_dirs (q_pos a)))) (p_dirs (q_pos a))) (nodes, weights) ;;
      Ok (nodes, weights, factor)) args (nodes, weights, e) = Ok (nodes', weights', e') /\
    filled q dirs (fun x => seen x \/ In x (concat (map (fun a => p_dirs (q_pos a)) args))) nodes' weights' /\
    (forall env, eval e' env = nmul (eval e env) (nprod (map (fun a => eval (f_sym (q_factor a)) env) args))) /\
    (forall x, In x (free_vars e') -> In x (free_vars e) \/ exists a, In a args /\ In x (free_vars (f_sym (q_factor a)))).
Proof.
  intros q dirs Hn. induction args as [|a args IH]; intros seen nodes weights e Hf Ha.
  - exists nodes, weights, e. split; [reflexivity|]. split; [destruct Hf as (H1 & H2 & H3); split; [exact H1|]; split; [exact H2|]; intros k d Hk [H|[]]; apply H3; assumption|].
    split; [intros env; unfold nprod; cbn [map fold_left]; rewrite (law_mul_comm F L), (law_mul_1 F L); reflexivity|]. intros x Hx. left. exact Hx.
  - destruct (Ha a (or_introl eq_refl)) as ((A1 & A2 & A3) & A4).
    destruct (fill_one q dirs a Hn (combine (seq 0 (length (p_dirs (q_pos a)))) (p_dirs (q_pos a))) seen nodes weights Hf) as (nodes1 & weights1 & B1 & B2).
    { intros i d Hid. split; [apply A4; apply in_combine_r in Hid; exact Hid|]. apply A3. apply In_nth_error in Hid as (j & Hj).
      assert (G : forall (l : list nat) s j i d, nth_error (combine (seq s (length l)) l) j = Some (i, d) -> i = s + j /\ nth_error l j = Some d).
      { clear. induction l as [|x l IH]; intros s j i d H; [destruct j; discriminate H|]. destruct j as [|j]; cbn [length seq combine nth_error] in H; [injection H as <- <-; split; [lia|reflexivity]|]. apply IH in H as [H1 H2]. split; [lia|exact H2]. }
      apply G in Hj as [-> Hj]. exact Hj. }
    cbn [for_in]. cbv zeta. rewrite B1. cbn [bind].
    destruct (IH _ nodes1 weights1 (e_mul e (f_sym (q_factor a))) B2 (fun b Hb => Ha b (or_intror Hb))) as (nodes' & weights' & e' & C1 & (C2 & C3 & C4) & C5 & C6).
    exists nodes', weights', e'. split; [exact C1|]. split; [split; [exact C2|]; split; [exact C3|]|split].
    + intros k d Hk Hd. apply C4; [exact Hk|]. cbn [map concat] in Hd. destruct Hd as [Hd|Hd]; [left; left; exact Hd|]. apply in_app_or in Hd as [Hd|Hd]; [left; right|right; exact Hd].
      assert (G : forall (l : list nat) s, map snd (combine (seq s (length l)) l) = l) by (clear; induction l as [|x l IH]; intros s; [reflexivity|]; cbn [length seq combine map snd]; rewrite IH; reflexivity). rewrite G. exact Hd.
    + intros env. rewrite C5. cbn [map]. rewrite (Facts2.nprod_cons _ L), (ok_mul _ _ _ _ _ _ _ _ OK), (law_mul_assoc F L). reflexivity.
    + intros x Hx. apply C6 in Hx as [Hx|(b & B3 & B4)]; [|right; exists b; split; [right; exact B3|exact B4]]. apply (vars_mul _ _ _ _ _ V) in Hx as [Hx|Hx]; [left; exact Hx|right; exists a; split; [left; reflexivity|exact Hx]].
Qed.

Lemma nth_error_ext : forall A (l l' : list A), (forall i, nth_error l i = nth_error l' i) -> l = l'.
Proof.
  intros A. induction l as [|x l IH]; intros [|y l'] H; [reflexivity|specialize (H 0); discriminate H|specialize (H 0); discriminate H|].
  pose proof (H 0) as H0. cbn [nth_error] in H0. injection H0 as ->. f_equal. apply IH. intros i. exact (H (S i)).
Qed.
Lemma same_positions : forall p r : position F, pos_ok p -> pos_ok r -> p_dirs r = p_dirs p -> (forall d m v t, records p d m v t -> records r d m v t) ->
  p_mean r = p_mean p /\ p_types r = p_types p /\ forall i v, (exists row, nth_error (p_cov p) i = Some row /\ nth_error row i = Some v) -> exists row, nth_error (p_cov r) i = Some row /\ nth_error row i = Some v.
Proof.
  intros p r (P1 & P2 & P3 & P4 & P5) (R1 & R2 & R3 & R4 & R5) Hd Hr. rewrite Hd in *.
  assert (G : forall i d, nth_error (p_dirs p) i = Some d -> exists m t v row row', nth_error (p_mean p) i = Some m /\ nth_error (p_mean r) i = Some m /\ nth_error (p_types p) i = Some t /\ nth_error (p_types r) i = Some t /\
    nth_error (p_cov p) i = Some row /\ nth_error row i = Some v /\ nth_error (p_cov r) i = Some row' /\ nth_error row' i = Some v).
  { intros i d Hi. assert (Hl : i < length (p_dirs p)) by (apply nth_error_Some; rewrite Hi; discriminate).
    destruct (nth_error (p_mean p) i) as [m|] eqn:E1; [|apply nth_error_None in E1; lia]. destruct (nth_error (p_types p) i) as [t|] eqn:E2; [|apply nth_error_None in E2; lia].
    destruct (nth_error (p_cov p) i) as [row|] eqn:E3; [|apply nth_error_None in E3; destruct P3; lia].
    destruct (nth_error row i) as [v|] eqn:E4; [|apply nth_error_None in E4; destruct P3 as [_ P3]; rewrite Forall_forall in P3; rewrite (P3 row (nth_error_In _ _ E3)) in E4; lia].
    destruct (Hr d m v t) as (j & row' & J1 & J2 & J3 & J4 & J5); [exists i, row; auto|]. rewrite Hd in J1. assert (j = i) as -> by (apply (proj1 (NoDup_nth_error _) P1); [apply nth_error_Some; rewrite J1; discriminate|congruence]).
    exists m, t, v, row, row'. auto 9. }
  split; [|split].
  - apply nth_error_ext. intros i. destruct (nth_error (p_dirs p) i) as [d|] eqn:Ei.
    + destruct (G i d Ei) as (m & t & v & row & row' & -> & -> & _). reflexivity.
    + apply nth_error_None in Ei. rewrite !(proj2 (nth_error_None _ _)) by lia. reflexivity.
  - apply nth_error_ext. intros i. destruct (nth_error (p_dirs p) i) as [d|] eqn:Ei.
    + destruct (G i d Ei) as (m & t & v & row & row' & _ & _ & -> & -> & _). reflexivity.
    + apply nth_error_None in Ei. rewrite !(proj2 (nth_error_None _ _)) by lia. reflexivity.
  - intros i v (row & A1 & A2). destruct (nth_error (p_dirs p) i) as [d|] eqn:Ei.
    + destruct (G i d Ei) as (m & t & v' & row1 & row' & _ & _ & _ & _ & B1 & B2 & B3 & B4). exists row'. split; [exact B3|]. congruence.
    + apply nth_error_None in Ei. assert (nth_error (p_cov p) i = None) by (apply nth_error_None; destruct P3; lia). congruence.
Qed.

Lemma increasing_ext : forall l l', increasing l -> increasing l' -> (forall x, In x l <-> In x l') -> l = l'.
Proof.
  induction l as [|x l IH]; intros [|y l'] Hl Hl' H; [reflexivity|destruct (proj2 (H y) (or_introl eq_refl))|destruct (proj1 (H x) (or_introl eq_refl))|].
  inversion Hl as [|? ? A1 A2]; subst. inversion Hl' as [|? ? B1 B2]; subst. rewrite Forall_forall in A2, B2.
  assert (x = y) as <-.
  { destruct (proj1 (H x) (or_introl eq_refl)) as [E1|E1]; [congruence|]. destruct (proj2 (H y) (or_introl eq_refl)) as [E2|E2]; [congruence|]. specialize (A2 y E2). specialize (B2 x E1). lia. }
  f_equal. apply IH; [assumption|assumption|]. intros z. split; intros Hz.
  - destruct (proj1 (H z) (or_intror Hz)) as [<-|G]; [specialize (A2 x Hz); lia|exact G].
  - destruct (proj2 (H z) (or_intror Hz)) as [<-|G]; [specialize (B2 x Hz); lia|exact G].
Qed.

Lemma disjoint_count : forall groups d, ForallOrdPairs disjoint groups -> Forall (fun g => increasing g /\ g <> []) groups -> count_occ Nat.eq_dec (concat groups) d <= 1.
Proof.
  intros groups d Hd. induction Hd as [|g groups Hg Hd IH]; intros Hi; [cbn; lia|]. inversion Hi as [|? ? [Hg1 _] Hg2]; subst. cbn [concat]. rewrite count_occ_app. specialize (IH Hg2).
  assert (Hn : count_occ Nat.eq_dec g d <= 1). { apply (proj1 (NoDup_count_occ Nat.eq_dec g)). clear - Hg1. induction Hg1 as [|x l Hs IHl Hx]; constructor; [|exact IHl]. intros G. rewrite Forall_forall in Hx. specialize (Hx x G). lia. }
  destruct (in_dec Nat.eq_dec d g) as [G|G]; [|apply (count_occ_not_In Nat.eq_dec) in G; lia].
  assert (~ In d (concat groups)) as G2; [|apply (count_occ_not_In Nat.eq_dec) in G2; lia]. intros G2. apply in_concat in G2 as (h & H1 & H2). rewrite Forall_forall in Hg. apply (Hg h H1 d G H2).
Qed.
Lemma two_owners : forall (args : list (position F)) i j a b d, i < j -> nth_error args i = Some a -> nth_error args j = Some b -> In d (p_dirs a) -> In d (p_dirs b) -> 2 <= owners args d.
Proof.
  induction args as [|p args IH]; intros i j a b d Hij Hi Hj Ha Hb; [destruct i; discriminate Hi|]. destruct j as [|j]; [lia|]. cbn [nth_error] in Hj. unfold owners in *. cbn [map concat]. rewrite count_occ_app.
  destruct i as [|i]; cbn [nth_error] in Hi.
  - injection Hi as ->. apply (count_occ_In Nat.eq_dec) in Ha. assert (G : In d (concat (map p_dirs args))) by (apply in_concat; exists (p_dirs b); split; [apply in_map, (nth_error_In _ _ Hj)|exact Hb]). apply (count_occ_In Nat.eq_dec) in G. lia.
  - specialize (IH i j a b d ltac:(lia) Hi Hj Ha Hb). lia.
Qed.
Lemma records_dir : forall (p : position F) d m v t, records p d m v t -> In d (p_dirs p).
Proof. intros p d m v t (i & row & H & _). eapply nth_error_In. exact H. Qed.

Theorem tensorize_projections : forall (q : quad F E) term groups, quad_ok q -> grouping (p_dirs (q_pos q)) groups -> groups <> [] -> incl (free_vars (f_sym (q_factor q))) (p_dirs (q_pos q)) ->
  add_args (f_sym (q_factor q)) = [term] -> (forall g a, In g groups -> In a (mul_args term) -> ~ straddles free_vars g a) ->
  exists parts r, mapM (quad_project q) groups = Ok parts /\ quad_tensorize parts = Ok r /\
    q_nodes r = q_nodes q /\ q_weights r = q_weights q /\ p_dirs (q_pos r) = p_dirs (q_pos q) /\ p_mean (q_pos r) = p_mean (q_pos q) /\ p_types (q_pos r) = p_types (q_pos q) /\
    (forall d m v t, records (q_pos r) d m v t <-> records (q_pos q) d m v t) /\ f_dirs (q_factor r) = f_dirs (q_factor q) /\
    (forall env, eval (f_sym (q_factor r)) env = eval (f_sym (q_factor q)) env).
Proof.
  intros q term groups Hq Hg Hne Hv Hs Hst. pose proof Hq as (Q1 & Q2 & Q3 & Q4 & (n & Q5) & (n' & Q6) & Q7). pose proof Hg as [[Hp Hdis] Hinc].
  destruct (p_dirs (q_pos q)) as [|first rest] eqn:Hdirs.
  { exfalso. destruct groups as [|g groups]; [contradiction|]. inversion Hinc as [|? ? [_ Hg1] _]; subst. destruct g as [|x g]; [contradiction|]. apply (proj2 (Hp x)). exists (x :: g). split; left; reflexivity. }
  rewrite <- Hdirs in *.
  assert (G : forall l, incl l groups -> exists parts, mapM (quad_project q) l = Ok parts /\ Forall2 (fun g a => part_of q a /\ p_dirs (q_pos a) = g /\ (exists e, q_factor a = Fn e g) /\ incl (free_vars (f_sym (q_factor a))) g /\
    (forall env, eval (f_sym (q_factor a)) env = nmul (if existsb (Nat.eqb first) g then product eval (filter (constant free_vars) (mul_args term)) env else n1) (product eval (filter (inside free_vars g) (mul_args term)) env))) l parts).
  { induction l as [|g l IH]; intros Hl; [exists []; split; [reflexivity|constructor]|]. destruct (IH (fun x Hx => Hl x (or_intror Hx))) as (parts & I1 & I2). rewrite Forall_forall in Hinc. pose proof (Hl g (or_introl eq_refl)) as Hgin. destruct (Hinc g Hgin) as [G1 G2].
    destruct (quad_project_ok q term first rest g Hq Hdirs Hv Hs G1 G2) as (a & e & E1 & E2 & E3 & E4 & E5 & E6 & _); [intros x Hx; apply Hp; exists g; split; assumption|intros a Ha; apply Hst; assumption|].
    exists (a :: parts). cbn [mapM]. rewrite E1, I1. cbn [bind]. split; [reflexivity|]. constructor; [|exact I2]. rewrite E4. cbn [f_sym]. split; [exact E2|]. split; [exact E3|]. split; [exists e; reflexivity|]. split; assumption. }
  destruct (G groups (incl_refl _)) as (parts & G1 & G2). clear G.
  assert (Hpd : map (fun a => p_dirs (q_pos a)) parts = groups). { clear - G2. induction G2 as [|g a l parts (_ & H & _) _ IH]; [reflexivity|]. cbn [map]. rewrite H, IH. reflexivity. }
  assert (Hin : forall a, In a parts -> exists g, In g groups /\ part_of q a /\ p_dirs (q_pos a) = g /\ incl (free_vars (f_sym (q_factor a))) g).
  { clear - G2. induction G2 as [|g a l parts (H1 & H2 & _ & H3 & _) _ IH]; intros b Hb; [destruct Hb|]. destruct Hb as [<-|Hb]; [exists g; split; [left; reflexivity|auto]|]. destruct (IH b Hb) as (h & X1 & X2). exists h. split; [right; exact X1|exact X2]. }
  assert (Hown : forall d, owners (map q_pos parts) d <= 1). { intros d. unfold owners. rewrite map_map, Hpd. apply disjoint_count; assumption. }
  assert (Hpos : Forall pos_ok (map q_pos parts)). { apply Forall_forall. intros p H. apply in_map_iff in H as (a & <- & Ha). destruct (Hin a Ha) as (g & _ & (H & _) & _). exact H. }
  assert (Hpne : map q_pos parts <> []). { intros H. apply map_eq_nil in H. subst parts. apply Hne. rewrite <- Hpd. reflexivity. }
  exists parts. destruct (tensorize_spec F far far_ok (map q_pos parts) Hpne Hpos) as [(r & R1 & R2 & R3 & R4 & R5 & _)|[_ [(d & H)|(i & j & a & b & d & m & v & t & m' & v' & t' & H1 & H2 & H3 & H4 & H5 & _)]]].
  2: { specialize (Hown d). lia. }
  2: { exfalso. pose proof (two_owners _ i j a b d H1 H2 H3 (records_dir _ _ _ _ _ H4) (records_dir _ _ _ _ _ H5)) as H. specialize (Hown d). lia. }
  assert (Hsame : forall d, In d (p_dirs r) <-> In d (p_dirs (q_pos q))).
  { intros d. rewrite R4, Hp. split.
    - intros H. assert (H' : In d (concat groups)) by (rewrite <- Hpd, <- (map_map q_pos p_dirs); apply (count_occ_In Nat.eq_dec); unfold owners in H; lia). apply in_concat in H' as (g & H1 & H2). exists g. auto.
    - intros (g & H1 & H2). specialize (Hown d). assert (H' : In d (concat (map p_dirs (map q_pos parts)))) by (rewrite map_map, Hpd; apply in_concat; exists g; auto). apply (count_occ_In Nat.eq_dec) in H'. unfold owners in *. lia. }
  assert (Hinr : increasing (p_dirs r)).
  { destruct parts as [|a [|b parts]]; [contradiction|clear R3|apply R3; cbn; lia]. cbn [map] in R1. unfold pos_tensorize in R1. inversion G2 as [|g ? l ? (_ & D & _) T]; subst. inversion T; subst.
    rewrite Forall_forall in Hinc. destruct (Hinc _ (or_introl eq_refl)) as [D' _]. cbn [map concat] in R1.
    match type of R1 with bind ?x _ = _ => destruct x; cbn [bind] in R1; try discriminate R1 end. cbn [fold_left for_in] in R1. injection R1 as <-. exact D'. }
  assert (Hdr : p_dirs r = p_dirs (q_pos q)) by (apply increasing_ext; [exact Hinr|exact Q2|exact Hsame]).
  assert (Hrec : forall d m v t, records (q_pos q) d m v t -> records r d m v t).
  { intros d m v t Hr. pose proof (records_dir _ _ _ _ _ Hr) as Hd. destruct (proj1 (Hp d) Hd) as (g & K1 & K2). assert (exists a, In a parts /\ part_of q a /\ p_dirs (q_pos a) = g) as (a & Ha & Pa & Da).
    { clear - G2 K1. induction G2 as [|g' a l parts (H1 & H2 & _) _ IH]; [destruct K1|]. destruct K1 as [->|K1]; [exists a; split; [left; reflexivity|auto]|]. destruct (IH K1) as (b & B1 & B2). exists b. split; [right; exact B1|exact B2]. }
    apply (R5 (q_pos a)); [apply in_map; exact Ha|apply Hsame; exact Hd|]. destruct Pa as (_ & Pa & _). apply Pa; [rewrite Da; exact K2|exact Hr]. }
  unfold PyQuadModel.quad_tensorize. replace (0 <? length parts) with true by (symmetry; apply Nat.ltb_lt; destruct parts; [contradiction|cbn; lia]). cbn [require bind]. rewrite R1. cbn [bind]. cbv zeta.
  destruct (fill_all q (p_dirs r) (proj1 R2) parts (fun _ => False) (repeat [] (length (p_dirs r))) (repeat [] (length (p_dirs r))) e_1) as (nodes & weights & e & F1 & (F2 & F3 & F4) & F5 & F6).
  { split; [apply repeat_length|]. split; [apply repeat_length|]. intros k d _ []. }
  { intros a Ha. destruct (Hin a Ha) as (g & A1 & A2 & A3 & _). split; [exact A2|]. intros d Hd. apply Hsame, Hp. exists g. rewrite <- A3. rewrite A3. split; [exact A1|rewrite <- A3; exact Hd]. }
  cbv zeta in F1. rewrite F1. cbn [bind]. rewrite Hpd in F4.
  assert (Hall : forall k d, nth_error (p_dirs (q_pos q)) k = Some d -> exists xs ws, nth_error nodes k = Some xs /\ nth_error weights k = Some ws /\ nth_error (q_nodes q) k = Some xs /\ nth_error (q_weights q) k = Some ws).
  { intros k d Hk. destruct (F4 k d) as (xs & ws & X1 & X2 & (j & X3 & X4 & X5)); [rewrite Hdr; exact Hk|right; apply in_concat; apply nth_error_In, Hp in Hk; exact Hk|].
    assert (j = k) as -> by (apply (proj1 (NoDup_nth_error _) (proj1 Q1)); [apply nth_error_Some; rewrite X3; discriminate|congruence]). exists xs, ws. auto. }
  rewrite Hdr in F2, F3.
  assert (Hnodes : nodes = q_nodes q). { apply nth_error_ext. intros k. destruct (nth_error (p_dirs (q_pos q)) k) as [d|] eqn:Ek; [destruct (Hall k d Ek) as (xs & ws & -> & _ & -> & _); reflexivity|]. apply nth_error_None in Ek. rewrite !(proj2 (nth_error_None _ _)) by lia. reflexivity. }
  assert (Hweights : weights = q_weights q). { apply nth_error_ext. intros k. destruct (nth_error (p_dirs (q_pos q)) k) as [d|] eqn:Ek; [destruct (Hall k d Ek) as (xs & ws & _ & -> & _ & ->); reflexivity|]. apply nth_error_None in Ek. rewrite !(proj2 (nth_error_None _ _)) by lia. reflexivity. }
  assert (SL : forall m (l : list (list F)), Forall (fun xs => length xs = m) l -> same_lengths F l = true).
  { intros m l Hl. unfold same_lengths. apply forallb_forall. intros x Hx. apply Nat.eqb_eq. destruct l as [|y l]; [destruct Hx|]. cbn [hd]. rewrite Forall_forall in Hl. rewrite (Hl x Hx). symmetry. apply Hl. left. reflexivity. }
  assert (Hfree : incl (free_vars e) (p_dirs r)). { intros x Hx. apply F6 in Hx as [Hx|(a & Ha & Hx)]; [rewrite (vars_1 _ _ _ _ _ V) in Hx; destruct Hx|]. destruct (Hin a Ha) as (g & A1 & _ & _ & A4). apply Hsame, Hp. exists g. split; [exact A1|apply A4; exact Hx]. }
  unfold function_init. rewrite (proj2 (nats_eqb_eq _ _)) by (symmetry; apply py_sorted_id, increasing_sorted; exact Hinr). cbn [require bind].
  replace (subset (free_vars e) (p_dirs r)) with true by (symmetry; unfold subset; apply forallb_forall; intros x Hx; apply py_in_iff, Hfree, Hx). cbn [require bind].
  unfold quad_init. rewrite Hnodes, Hweights, (SL n _ Q5), (SL n' _ Q6). cbn [andb require bind].
  destruct (same_positions _ _ Q1 R2 Hdr Hrec) as (S1 & S2 & _).
  eexists. split; [exact G1|]. split; [reflexivity|]. cbn [q_nodes q_weights q_pos q_factor f_dirs f_sym].
  split; [reflexivity|]. split; [reflexivity|]. split; [exact Hdr|]. split; [exact S1|]. split; [exact S2|]. split; [|split; [rewrite Hdr, Q7; reflexivity|]].
  - intros d m v t. split; [|apply Hrec]. intros Hr. pose proof (records_dir _ _ _ _ _ Hr) as Hd. apply Hsame in Hd. destruct (records_exists _ _ d Q1 Hd) as (m' & v' & t' & Hr').
    pose proof (Hrec _ _ _ _ Hr') as Hr''. destruct (records_unique _ _ _ _ _ _ _ _ _ R2 Hr Hr'') as (-> & -> & ->). exact Hr'.
  - intros env. rewrite F5, (ok_1 _ _ _ _ _ _ _ _ OK), (law_mul_1 F L).
    assert (Hmap : map (fun a => eval (f_sym (q_factor a)) env) parts = map (fun g => nmul (if existsb (Nat.eqb first) g then product eval (filter (constant free_vars) (mul_args term)) env else n1) (product eval (filter (inside free_vars g) (mul_args term)) env)) groups).
    { clear - G2. induction G2 as [|g a l parts (_ & _ & _ & _ & H) _ IH]; [reflexivity|]. cbn [map]. rewrite H, IH. reflexivity. }
    rewrite Hmap, (groups_product first rest); [|rewrite <- Hdirs; exact Hg| |exact Hst].
    + rewrite (ok_add_args _ _ _ _ _ _ _ _ OK (f_sym (q_factor q))), Hs. unfold nsum. cbn [map fold_left]. rewrite (law_add_0 F L), (ok_mul_args _ _ _ _ _ _ _ _ OK term). reflexivity.
    + intros a Ha x Hx. rewrite <- Hdirs. apply Hv. apply (vars_add_args _ _ _ _ _ V _ term); [rewrite Hs; left; reflexivity|]. apply (vars_mul_args _ _ _ _ _ V _ a Ha). exact Hx.
Qed.
End C61.

From Coq Require Import ZArith.

Lemma x_vars : sympy_vars EMul (EInt 1) x_add_args x_mul_args x_free.
Proof.
  split.
  - intros a b x H. apply in_app_or in H. exact H.
  - reflexivity.
  - induction e; intros a Ha; cbn [x_add_args] in Ha; try (destruct Ha as [<-|[]]; apply incl_refl).
    apply in_app_or in Ha as [Ha|Ha]; [apply incl_appl, IHe1, Ha|apply incl_appr, IHe2, Ha].
  - induction e; intros a Ha; cbn [x_mul_args] in Ha; try (destruct Ha as [<-|[]]; apply incl_refl).
    apply in_app_or in Ha as [Ha|Ha]; [apply incl_appl, IHe1, Ha|apply incl_appr, IHe2, Ha].
Qed.
(** |x0 + x1| x2 x3 on directions 0 to 3, with the groups {0, 2} and {1, 3}: the projections are x2 and x3. *)
Definition straddling : quad fnum_Z expr :=
  Qd (F := fnum_Z) [[1; 2]; [3; 4]; [5; 6]; [7; 8]]%Z [[1; 1]; [1; 1]; [1; 1]; [1; 1]]%Z
     (Pos (N := fnum_Z) [0; 1; 2; 3] [0; 0; 0; 0]%Z (diag_mat fnum_Z [1; 1; 1; 1]%Z) ["hermite"; "hermite"; "hermite"; "hermite"] true)
     (Fn (EMul (EAbs (EAdd (EVar 0) (EVar 1))) (EMul (EVar 2) (EVar 3))) [0; 1; 2; 3]).
Lemma straddling_ok : quad_ok straddling /\ grouping [0; 1; 2; 3] [[0; 2]; [1; 3]].
Proof.
  split.
  - split; [apply (Pos_ok num_Z); try reflexivity; repeat constructor; cbn; intuition discriminate|].
    split; [repeat constructor|]. split; [reflexivity|]. split; [reflexivity|]. split; [exists 2; repeat constructor|]. split; [exists 2; repeat constructor|]. reflexivity.
  - split; [|repeat constructor; discriminate]. split; [|repeat constructor; intros x; cbn; lia]. intros x. split.
    + intros [<-|[<-|[<-|[<-|[]]]]]; [exists [0; 2]|exists [1; 3]|exists [0; 2]|exists [1; 3]]; cbn; tauto.
    + intros (b & [<-|[<-|[]]] & Hx); cbn in *; tauto.
Qed.
Lemma tensorize_straddling : ~ forall (q : quad fnum_Z expr) term groups parts r, quad_ok q -> grouping (p_dirs (q_pos q)) groups -> groups <> [] -> incl (x_free (f_sym (q_factor q))) (p_dirs (q_pos q)) ->
  x_add_args (f_sym (q_factor q)) = [term] ->
  mapM (quad_project fnum_Z (fun _ => false) expr EMul (EInt 1) x_add_args x_mul_args x_free q) groups = Ok parts ->
  quad_tensorize fnum_Z (fun _ => false) expr EMul (EInt 1) x_free parts = Ok r ->
  forall env, x_eval (f_sym (q_factor r)) env = x_eval (f_sym (q_factor q)) env.
Proof.
  intros H. destruct straddling_ok as [K1 K2].
  assert (E : match mapM (quad_project fnum_Z (fun _ => false) expr EMul (EInt 1) x_add_args x_mul_args x_free straddling) [[0; 2]; [1; 3]] with
    | Ok parts => match quad_tensorize fnum_Z (fun _ => false) expr EMul (EInt 1) x_free parts with Ok r => x_eval (f_sym (q_factor r)) (fun _ => 1%Z) | _ => 0%Z end | _ => 0%Z end = 1%Z) by (vm_compute; reflexivity).
  destruct (mapM _ _) as [parts| | | |] eqn:E1; try discriminate E. destruct (quad_tensorize _ _ _ _ _ _ parts) as [r| | | |] eqn:E2; try discriminate E. rename E into E3.
  assert (K := H straddling (EMul (EAbs (EAdd (EVar 0) (EVar 1))) (EMul (EVar 2) (EVar 3))) [[0; 2]; [1; 3]] parts r K1 K2).
  specialize (K ltac:(discriminate) ltac:(cbn; intros x Hx; tauto) eq_refl E1 E2 (fun _ => 1%Z)). rewrite E3 in K. cbn in K. discriminate K.
Qed.
