(** Lemmas for C108: positions. *)
From Coq Require Import String List Bool Arith Lia.
From Verif Require Import Base Num Fnum PyBase PosModel PosSpec LinSpec PosFacts CalcModel SeriesModel PartModel SplitModel MulModel PyQuadModel PyQuadSpec PyQuadFacts AlgModel AlgSpec.
Import ListNotations.
Local Open Scope string_scope. Local Open Scope list_scope. Local Open Scope nat_scope.

Section Pos.
Variable N : num.
Hypothesis L : num_laws N.
Variable far : list (list N) -> bool.
Hypothesis Hfar : forall l, far (diag_mat N l) = false.
Implicit Types p q r : position N.

Lemma diag_mat_nil : diag_mat N [] = [].
Proof. reflexivity. Qed.

Lemma normal_ext : forall p r, normal p -> normal r -> (forall d, In d (p_dirs p) <-> In d (p_dirs r)) -> (forall d m v t, records p d m v t -> records r d m v t) -> p = r.
Proof using Type.
  intros p r (P1 & P2 & vs & P3) (R1 & R2 & ws & R3) Hd Hr.
  assert (D : p_dirs p = p_dirs r) by (apply increasing_ext; assumption).
  pose proof P1 as (P4 & P5 & P6 & P7 & P8). pose proof R1 as (R4 & R5 & R6 & R7 & R8). rewrite P3 in P6. rewrite R3 in R6. rewrite <- D in *.
  assert (LV : forall l, length (diag_mat N l) = length l) by (intros l; apply (diag_mat_wf N l)). assert (LV1 := proj1 P6). assert (LV2 := proj1 R6). rewrite LV in LV1, LV2.
  assert (G : forall i, i < length (p_dirs p) -> nth_error (p_mean p) i = nth_error (p_mean r) i /\ nth_error vs i = nth_error ws i /\ nth_error (p_types p) i = nth_error (p_types r) i).
  { intros i Hi. destruct (nth_error (p_dirs p) i) as [d|] eqn:Ed; [|apply nth_error_None in Ed; lia]. destruct (records_exists N p d P1 (nth_error_In _ _ Ed)) as (m & v & t & R). pose proof (Hr d m v t R) as R'.
    destruct R as (j & row & J1 & J2 & J3 & J4 & J5). destruct R' as (k & row' & K1 & K2 & K3 & K4 & K5). rewrite <- D in K1.
    assert (j = i) as -> by (apply (proj1 (NoDup_nth_error _) P4); [apply nth_error_Some; rewrite J1; discriminate|congruence]). assert (k = i) as -> by (apply (proj1 (NoDup_nth_error _) P4); [apply nth_error_Some; rewrite K1; discriminate|congruence]).
    split; [congruence|]. split; [|congruence]. rewrite P3 in J3. rewrite R3 in K3. assert (X : forall l row i (v : N), nth_error (diag_mat N l) i = Some row -> nth_error row i = Some v -> nth_error l i = Some v).
    { intros l row0 i0 v0 A B. destruct (nth_error l i0) as [w|] eqn:Ew; [destruct (diag_mat_entry N l i0 w Ew) as (row1 & C1 & C2); congruence|]. apply nth_error_None in Ew. rewrite <- LV in Ew. apply nth_error_None in Ew. congruence. }
    rewrite (X _ _ _ _ J3 J4), (X _ _ _ _ K3 K4). reflexivity. }
  assert (GE : forall A (l l' : list A), length l = length (p_dirs p) -> length l' = length (p_dirs p) -> (forall i, i < length (p_dirs p) -> nth_error l i = nth_error l' i) -> l = l').
  { intros A l l' H1 H2 H. apply nth_error_ext. intros i. destruct (Nat.lt_ge_cases i (length (p_dirs p))) as [Hi|Hi]; [apply H; exact Hi|]. rewrite !(proj2 (nth_error_None _ _)) by lia. reflexivity. }
  assert (vs = ws) by (apply GE; [assumption|assumption|intros i Hi; apply (G i Hi)]). assert (M : p_mean p = p_mean r) by (apply GE; [assumption|assumption|intros i Hi; apply (G i Hi)]). assert (T : p_types p = p_types r) by (apply GE; [assumption|assumption|intros i Hi; apply (G i Hi)]).
  destruct p, r. cbn in *. congruence.
Qed.

Lemma tensorize2_diag : forall p q r, tensorize2 N far p q = Ok r -> exists vs, p_cov r = diag_mat N vs.
Proof using Type.
  intros p q r H. unfold tensorize2 in H. cbv zeta in H. match type of H with (bind ?x _) = _ => destruct x; cbn [bind] in H; try discriminate H end.
  match type of H with (bind ?x _) = _ => destruct x as [[[mean cov] types]| | | |]; cbn [bind] in H; try discriminate H end. apply init_ok_iff in H as (n & _ & _ & ->). exists cov. reflexivity.
Qed.

(** The product of two positions is tensorize2. *)
Lemma mul_eq : forall p q, pos_ok p -> pos_ok q -> pos_mul N far p q = tensorize2 N far p q.
Proof using Type.
  intros p q Hp Hq. unfold pos_mul, pos_tensorize. assert (F : Forall pos_ok [p; q]) by (constructor; [exact Hp|constructor; [exact Hq|constructor]]).
  destruct (dirs_check N [p; q] [] F) as [[E _]|[_ (d & Hd)]].
  - rewrite E. cbn [bind for_in]. destruct (tensorize2 N far p q); reflexivity.
  - exfalso. cbn [map concat app] in Hd. rewrite app_nil_r, count_occ_app in Hd. pose proof (proj1 (NoDup_count_occ Nat.eq_dec _) (proj1 Hp) d). pose proof (proj1 (NoDup_count_occ Nat.eq_dec _) (proj1 Hq) d). lia.
Qed.

(** What the product records. *)
Lemma mul_ok : forall p q, pos_ok p -> pos_ok q -> consistent p q -> exists r, pos_mul N far p q = Ok r /\ normal r /\
  (forall d, In d (p_dirs r) <-> (In d (p_dirs p) /\ ~ In d (p_dirs q)) \/ (In d (p_dirs q) /\ ~ In d (p_dirs p))) /\ (forall d m v t, In d (p_dirs r) -> records p d m v t \/ records q d m v t -> records r d m v t).
Proof using L Hfar.
  intros p q Hp Hq C. rewrite mul_eq by assumption. destruct (tensorize2_spec N far Hfar p q Hp Hq) as [(r & E & R1 & R2 & R3 & R4 & _)|(_ & d & m & v & t & m' & v' & t' & A & B & X)].
  - exists r. split; [exact E|]. split; [split; [exact R1|]; split; [exact R2|]; eapply tensorize2_diag; exact E|]. split; assumption.
  - exfalso. destruct (C d m v t m' v' t' A B) as (-> & -> & _). rewrite !(proj2 (law_eqb N L _ _) eq_refl) in X. destruct X as [X|X]; discriminate X.
Qed.

Lemma mul_raises : forall p q, pos_ok p -> pos_ok q -> (exists d m v t m' v' t', records p d m v t /\ records q d m' v' t' /\ (m <> m' \/ v <> v')) -> pos_mul N far p q = Throw "ValueError".
Proof using L Hfar.
  intros p q Hp Hq (d & m & v & t & m' & v' & t' & A & B & X). rewrite mul_eq by assumption. destruct (tensorize2_spec N far Hfar p q Hp Hq) as [(r & _ & _ & _ & _ & _ & G)|(E & _)]; [|exact E].
  exfalso. destruct (G _ _ _ _ _ _ _ A B) as (G1 & G2). apply (law_eqb N L) in G1, G2. destruct X; contradiction.
Qed.

(** Commutative, also when it raises. *)
Lemma mul_comm : forall p q, pos_ok p -> pos_ok q -> pos_mul N far p q = pos_mul N far q p.
Proof using L Hfar.
  intros p q Hp Hq. rewrite !mul_eq by assumption. destruct (tensorize2_spec N far Hfar p q Hp Hq) as [(r & E & R1 & R2 & R3 & R4 & R5)|(E & d & m & v & t & m' & v' & t' & A & B & X)];
  destruct (tensorize2_spec N far Hfar q p Hq Hp) as [(r' & E' & S1 & S2 & S3 & S4 & S5)|(E' & d1 & m1 & v1 & t1 & m2 & v2 & t2 & A' & B' & X')].
  - rewrite E, E'. f_equal. assert (N1 : normal r) by (split; [exact R1|]; split; [exact R2|]; eapply tensorize2_diag; exact E). assert (N2 : normal r') by (split; [exact S1|]; split; [exact S2|]; eapply tensorize2_diag; exact E').
    assert (D : forall d, In d (p_dirs r) <-> In d (p_dirs r')) by (intros d; rewrite R3, S3; tauto). apply normal_ext; [exact N1|exact N2|exact D|]. intros d m v t H. pose proof (records_in N _ _ _ _ _ H) as Hd. apply S4; [apply D; exact Hd|].
    pose proof Hd as Hd'. apply R3 in Hd' as [(Hd1 & _)|(Hd1 & _)]; [destruct (records_exists N p d Hp Hd1) as (m' & v' & t' & R)|destruct (records_exists N q d Hq Hd1) as (m' & v' & t' & R)].
    + destruct (records_unique N r d m v t m' v' t' R1 H (R4 _ _ _ _ Hd (or_introl R))) as (-> & -> & ->). right. exact R.
    + destruct (records_unique N r d m v t m' v' t' R1 H (R4 _ _ _ _ Hd (or_intror R))) as (-> & -> & ->). left. exact R.
  - exfalso. destruct (R5 _ _ _ _ _ _ _ B' A') as (G1 & G2). apply (law_eqb N L) in G1, G2. subst. rewrite !(proj2 (law_eqb N L _ _) eq_refl) in X'. destruct X' as [X'|X']; discriminate X'.
  - exfalso. destruct (S5 _ _ _ _ _ _ _ B A) as (G1 & G2). apply (law_eqb N L) in G1, G2. subst. rewrite !(proj2 (law_eqb N L _ _) eq_refl) in X. destruct X as [X|X]; discriminate X.
  - rewrite E, E'. reflexivity.
Qed.

Lemma nowhere_normal : normal (nowhere N).
Proof using Type. split; [repeat split; constructor|]. split; [constructor|]. exists []. reflexivity. Qed.

Lemma mul_unit : forall p, normal p -> pos_mul N far p (nowhere N) = Ok p.
Proof using L Hfar.
  intros p Hp. pose proof Hp as (Hk & _). assert (E0 : forall d m v t, ~ records (nowhere N) d m v t) by (intros d m v t (i & row & H & _); destruct i; discriminate H).
  destruct (mul_ok p (nowhere N) Hk (proj1 nowhere_normal)) as (r & E & R1 & R2 & R3); [intros d m v t m' v' t' _ H; destruct (E0 _ _ _ _ H)|]. rewrite E. f_equal. symmetry. assert (D : forall d, In d (p_dirs p) <-> In d (p_dirs r)) by (intros d; rewrite R2; cbn; tauto).
  apply normal_ext; [exact Hp|exact R1|exact D|]. intros d m v t H. apply R3; [apply D; apply (records_in N _ _ _ _ _ H)|left; exact H].
Qed.

Lemma mul_self : forall p, pos_ok p -> pos_mul N far p p = Ok (nowhere N).
Proof using L Hfar.
  intros p Hp. destruct (mul_ok p p Hp Hp) as (r & E & R1 & R2 & R3); [intros d m v t m' v' t' A B; apply (records_unique N p d); assumption|]. rewrite E. f_equal. apply normal_ext; [exact R1|apply nowhere_normal| |].
  - intros d. rewrite R2. cbn. tauto.
  - intros d m v t H. apply records_in in H. apply R2 in H. tauto.
Qed.

(** The direction [d] of the product comes from one of the two. *)
Lemma mul_from : forall p q r, pos_ok p -> pos_ok q -> consistent p q -> pos_mul N far p q = Ok r -> forall d m v t, records r d m v t -> records p d m v t \/ records q d m v t.
Proof using L Hfar.
  intros p q r Hp Hq C E d m v t H. destruct (mul_ok p q Hp Hq C) as (r' & E' & (R1 & _) & R2 & R3). rewrite E in E'. injection E' as <-. pose proof (records_in N _ _ _ _ _ H) as Hd. pose proof Hd as Hd'.
  apply R2 in Hd' as [(Hd1 & _)|(Hd1 & _)]; [left; destruct (records_exists N p d Hp Hd1) as (m' & v' & t' & R); destruct (records_unique N r d m v t m' v' t' R1 H (R3 _ _ _ _ Hd (or_introl R))) as (-> & -> & ->)|right; destruct (records_exists N q d Hq Hd1) as (m' & v' & t' & R); destruct (records_unique N r d m v t m' v' t' R1 H (R3 _ _ _ _ Hd (or_intror R))) as (-> & -> & ->)]; exact R.
Qed.

Lemma mul_assoc : forall p q r, pos_ok p -> pos_ok q -> pos_ok r -> consistent p q -> consistent p r -> consistent q r ->
  exists u, bind (pos_mul N far p q) (fun pq => pos_mul N far pq r) = Ok u /\ bind (pos_mul N far q r) (fun qr => pos_mul N far p qr) = Ok u.
Proof using L Hfar.
  intros p q r Hp Hq Hr Cpq Cpr Cqr. destruct (mul_ok p q Hp Hq Cpq) as (pq & E1 & N1 & D1 & R1). destruct (mul_ok q r Hq Hr Cqr) as (qr & E2 & N2 & D2 & R2).
  assert (C1 : consistent pq r). { intros d m v t m' v' t' A B. apply (mul_from p q pq Hp Hq Cpq E1) in A as [A|A]; [apply (Cpr d)|apply (Cqr d)]; assumption. }
  assert (C2 : consistent p qr). { intros d m v t m' v' t' A B. apply (mul_from q r qr Hq Hr Cqr E2) in B as [B|B]; [apply (Cpq d)|apply (Cpr d)]; assumption. }
  destruct (mul_ok pq r (proj1 N1) Hr C1) as (u & E3 & N3 & D3 & R3). destruct (mul_ok p qr Hp (proj1 N2) C2) as (w & E4 & N4 & D4 & R4). exists u. rewrite E1, E2. cbn [bind]. split; [exact E3|]. rewrite E4. f_equal. symmetry.
  assert (D : forall d, In d (p_dirs u) <-> In d (p_dirs w)). { intros d. rewrite D3, D4, D1, D2. destruct (in_dec Nat.eq_dec d (p_dirs p)), (in_dec Nat.eq_dec d (p_dirs q)), (in_dec Nat.eq_dec d (p_dirs r)); tauto. }
  apply normal_ext; [exact N3|exact N4|exact D|]. intros d m v t H. pose proof (records_in N _ _ _ _ _ H) as Hd. pose proof (proj1 (D d) Hd) as Hw.
  destruct (records_exists N w d (proj1 N4) Hw) as (m' & v' & t' & W). assert (X : forall x, records x d m v t -> forall y, records y d m' v' t' -> consistent x y -> m = m' /\ v = v' /\ t = t') by (intros x Hx y Hy C; apply (C d); assumption).
  assert (Self : forall x : position N, pos_ok x -> consistent x x) by (intros x Hx d0 m0 v0 t0 m1 v1 t1 A B; apply (records_unique N x d0); assumption).
  assert (Sym : forall x y : position N, consistent x y -> consistent y x) by (intros x y C d0 m0 v0 t0 m1 v1 t1 A B; destruct (C _ _ _ _ _ _ _ B A) as (-> & -> & ->); auto).
  assert (FU : records p d m v t \/ records q d m v t \/ records r d m v t). { apply (mul_from pq r u (proj1 N1) Hr C1 E3) in H as [H|H]; [apply (mul_from p q pq Hp Hq Cpq E1) in H; tauto|tauto]. }
  assert (FW : records p d m' v' t' \/ records q d m' v' t' \/ records r d m' v' t'). { apply (mul_from p qr w Hp (proj1 N2) C2 E4) in W as [W|W]; [tauto|apply (mul_from q r qr Hq Hr Cqr E2) in W; tauto]. }
  assert (Eq : m = m' /\ v = v' /\ t = t') by (destruct FU as [A|[A|A]], FW as [B|[B|B]]; eapply (X _ A _ B); auto). destruct Eq as (-> & -> & ->). exact W.
Qed.
End Pos.
