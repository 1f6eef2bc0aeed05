(** finest_common computes the finest common coarsening. *)
From Coq Require Import String List Bool Arith Permutation Lia.
From Verif Require Import Base PyBase PartModel PartSpec PosFacts.
Import ListNotations.
Local Open Scope string_scope. Local Open Scope list_scope. Local Open Scope nat_scope.

Lemma fs_eqb_iff : forall a b, fs_eqb a b = true <-> (forall x, In x a <-> In x b).
Proof.
  intros a b. unfold fs_eqb. rewrite andb_true_iff, !forallb_forall. split.
  - intros [H1 H2] x. split; intros H; [apply H1 in H|apply H2 in H]; apply py_in_iff in H; exact H.
  - intros H. split; intros x Hx; apply py_in_iff; apply H; exact Hx.
Qed.
Lemma fs_meets_iff : forall a b, fs_meets a b = true <-> exists x, In x a /\ In x b.
Proof. intros a b. unfold fs_meets. rewrite existsb_exists. split; intros (x & H1 & H2); exists x; split; try assumption; apply py_in_iff; assumption. Qed.
Lemma fs_meets_sym : forall a b, fs_meets a b = fs_meets b a.
Proof. intros a b. apply eq_true_iff_eq. rewrite !fs_meets_iff. split; intros (x & H1 & H2); exists x; auto. Qed.
Lemma fs_meets_false : forall a b, fs_meets a b = false -> disjoint a b.
Proof. intros a b H x H1 H2. assert (E : fs_meets a b = true) by (apply fs_meets_iff; exists x; auto). congruence. Qed.
Lemma ps_in_iff : forall b s, ps_in b s = true <-> exists c, In c s /\ (forall x, In x b <-> In x c).
Proof. intros b s. unfold ps_in. rewrite existsb_exists. split; intros (c & H1 & H2); exists c; split; try assumption; apply fs_eqb_iff; assumption. Qed.
Lemma ps_in_In : forall b s, In b s -> ps_in b s = true.
Proof. intros b s H. apply ps_in_iff. exists b. split; [exact H|]. reflexivity. Qed.

Lemma filter_filter : forall A (f g : A -> bool) l, filter f (filter g l) = filter (fun x => g x && f x) l.
Proof. intros A f g. induction l as [|x l IH]; [reflexivity|]. cbn [filter]. destruct (g x); cbn [andb filter]; [destruct (f x)|]; rewrite IH; reflexivity. Qed.
Lemma filter_true : forall A (l : list A), filter (fun _ => true) l = l.
Proof. induction l as [|x l IH]; [reflexivity|]. cbn [filter]. rewrite IH. reflexivity. Qed.
Lemma filter_le : forall A (f g : A -> bool) l, (forall x, In x l -> f x = true -> g x = true) -> length (filter f l) <= length (filter g l).
Proof.
  intros A f g. induction l as [|x l IH]; intros H; [apply le_n|]. assert (IH' := IH (fun y Hy => H y (or_intror Hy))). cbn [filter]. destruct (f x) eqn:E.
  - rewrite (H x (or_introl eq_refl) E). cbn [length]. lia.
  - destruct (g x); cbn [length]; lia.
Qed.
Lemma filter_lt : forall A (f g : A -> bool) l x, In x l -> f x = false -> g x = true -> (forall x, In x l -> f x = true -> g x = true) -> length (filter f l) < length (filter g l).
Proof.
  intros A f g. induction l as [|y l IH]; intros x Hx Hf Hg H; [destruct Hx|]. destruct Hx as [->|Hx].
  - cbn [filter]. rewrite Hf, Hg. cbn [length]. assert (G := filter_le A f g l (fun y Hy => H y (or_intror Hy))). lia.
  - assert (G := IH x Hx Hf Hg (fun y Hy => H y (or_intror Hy))). cbn [filter]. destruct (f y) eqn:E; [rewrite (H y (or_introl eq_refl) E); cbn [length]; lia|]. destruct (g y); cbn [length]; lia.
Qed.
Lemma disj_filter : forall f l, ForallOrdPairs disjoint l -> ForallOrdPairs disjoint (filter f l).
Proof.
  intros f. induction l as [|b l IH]; intros H; [constructor|]. inversion H as [|? ? H1 H2]; subst. cbn [filter]. destruct (f b); [|apply IH; exact H2].
  constructor; [|apply IH; exact H2]. rewrite Forall_forall in *. intros c Hc. apply filter_In in Hc. apply H1. apply Hc.
Qed.
Lemma disj_perm : forall l l', Permutation l l' -> ForallOrdPairs disjoint l -> ForallOrdPairs disjoint l'.
Proof.
  intros l l' H. induction H as [|x l l' H IH|x y l|l l' l'' H1 IH1 H2 IH2]; intros G.
  - constructor.
  - inversion G as [|? ? G1 G2]; subst. constructor; [|apply IH; exact G2]. rewrite Forall_forall in *. intros c Hc. apply G1. apply Permutation_sym in H. eapply Permutation_in; eassumption.
  - inversion G as [|? ? G1 G2]; subst. inversion G2 as [|? ? G3 G4]; subst. inversion G1 as [|? ? G5 G6]; subst. constructor; [constructor; [intros z H1 H2; apply (G5 z H2 H1)|exact G3]|]. constructor; assumption.
  - apply IH2, IH1, G.
Qed.
Lemma disj_same : forall l b c x, ForallOrdPairs disjoint l -> In b l -> In c l -> In x b -> In x c -> b = c.
Proof.
  induction l as [|d l IH]; intros b c x H Hb Hc H1 H2; [destruct Hb|]. inversion H as [|? ? G1 G2]; subst. rewrite Forall_forall in G1.
  destruct Hb as [->|Hb]; destruct Hc as [->|Hc].
  - reflexivity.
  - exfalso. apply (G1 c Hc x H1 H2).
  - exfalso. apply (G1 b Hb x H2 H1).
  - apply (IH b c x); assumption.
Qed.

(** what a block that is absorbed satisfies: it stays within every block that contains it *)
Definition within (R : list fset) (s : fset) : Prop := exists c, In c R /\ incl s c.

Section Part.
Variable order : nat -> list fset -> list fset.
Hypothesis order_perm : forall k l, Permutation (order k l) l.

Lemma absorb_loop : forall l s cur, ForallOrdPairs disjoint l -> incl l cur ->
  exists s' f, for_in (fun b '(s, set) => if fs_meets s b then set <- ps_remove b set ;; Ok (fs_union s b, set) else Ok (s, set)) l (s, cur) = Ok (s', filter f cur) /\
    (forall b, In b cur -> f b = true \/ (incl b s' /\ b <> [])) /\ incl s s' /\ (forall x, In x s' -> In x s \/ exists b, In b cur /\ In x b) /\
    (forall b, In b l -> fs_meets s b = true -> f b = false) /\
    (forall R, ForallOrdPairs disjoint R -> (exists x, In x s) -> within R s -> refines cur R -> within R s').
Proof.
  induction l as [|b l IH]; intros s cur Hd Hi.
  - exists s, (fun _ => true). cbn [for_in]. rewrite filter_true. split; [reflexivity|]. split; [auto|]. split; [apply incl_refl|]. split; [auto|]. split; [intros b []|]. auto.
  - inversion Hd as [|? ? D1 D2]; subst. cbn [for_in]. destruct (fs_meets s b) eqn:Em.
    + assert (Hb : In b cur) by (apply Hi; left; reflexivity). unfold ps_remove. rewrite ps_in_In by exact Hb. cbn [bind].
      apply fs_meets_iff in Em. destruct Em as (x & X1 & X2).
      destruct (IH (fs_union s b) (filter (fun c => negb (fs_eqb b c)) cur) D2) as (s' & f & E & P1 & P2 & P3 & P4 & P5).
      { intros c Hc. apply filter_In. split; [apply Hi; right; exact Hc|]. destruct (fs_eqb b c) eqn:Eq; [|reflexivity]. exfalso. rewrite Forall_forall in D1. apply (D1 c Hc x X2). apply (proj1 (fs_eqb_iff b c) Eq). exact X2. }
      rewrite filter_filter in E. exists s', (fun c => negb (fs_eqb b c) && f c). split; [exact E|].
      assert (Sub : incl s s' /\ incl b s') by (split; intros z Hz; apply P2; apply in_or_app; auto). destruct Sub as [Sub1 Sub2].
      split; [|split; [exact Sub1|split; [|split]]].
      * intros c Hc. destruct (fs_eqb b c) eqn:Eq; cbn [negb andb].
        -- right. assert (Eq' := proj1 (fs_eqb_iff b c) Eq). split; [intros z Hz; apply Sub2; apply Eq'; exact Hz|]. intros ->. apply (Eq' x). exact X2.
        -- apply P1. apply filter_In. rewrite Eq. auto.
      * intros z Hz. destruct (P3 z Hz) as [G|(c & G1 & G2)].
        -- apply in_app_or in G as [G|G]; [auto|]. right. exists b. auto.
        -- right. apply filter_In in G1. exists c. split; [apply G1|exact G2].
      * intros c [<-|Hc] Hm; [|]; [|].
        -- replace (fs_eqb b b) with true by (symmetry; apply fs_eqb_iff; reflexivity). reflexivity.
        -- destruct (fs_eqb b c); [reflexivity|]. cbn [negb andb]. apply P4; [exact Hc|]. apply fs_meets_iff in Hm. destruct Hm as (z & Z1 & Z2). apply fs_meets_iff. exists z. split; [apply in_or_app; auto|exact Z2].
      * intros R HR _ (c & C1 & C2) Href. apply P5; [exact HR|exists x; apply in_or_app; auto| |].
        -- destruct (Href b Hb) as (c' & C3 & C4); [intros ->; destruct X2|]. assert (c = c') by (apply (disj_same R c c' x HR C1 C3); auto). subst c'. exists c. split; [exact C1|]. intros z Hz. apply in_app_or in Hz as [Hz|Hz]; auto.
        -- intros c0 Hc0 Hne. apply filter_In in Hc0. apply Href; [apply Hc0|exact Hne].
    + cbn [bind]. destruct (IH s cur D2) as (s' & f & E & P1 & P2 & P3 & P4 & P5); [intros c Hc; apply Hi; right; exact Hc|].
      exists s', f. split; [exact E|]. split; [exact P1|]. split; [exact P2|]. split; [exact P3|]. split; [|exact P5].
      intros c [<-|Hc] Hm; [congruence|]. apply P4; assumption.
Qed.

Lemma absorb_spec : forall k s cur, ForallOrdPairs disjoint cur ->
  exists s' f, absorb order k s cur = Ok (s', filter f cur) /\
    (forall b, In b cur -> f b = true \/ (incl b s' /\ b <> [])) /\ incl s s' /\ (forall x, In x s' -> In x s \/ exists b, In b cur /\ In x b) /\
    (forall b, In b cur -> fs_meets s b = true -> f b = false) /\
    (forall R, ForallOrdPairs disjoint R -> (exists x, In x s) -> within R s -> refines cur R -> within R s').
Proof.
  intros k s cur Hd. destruct (absorb_loop (order k cur) s cur) as (s' & f & E & P1 & P2 & P3 & P4 & P5).
  - eapply disj_perm; [apply Permutation_sym; apply order_perm|exact Hd].
  - intros b Hb. eapply Permutation_in; [apply order_perm|exact Hb].
  - exists s', f. split; [exact E|]. split; [exact P1|]. split; [exact P2|]. split; [exact P3|]. split; [|exact P5]. intros b Hb. apply P4. eapply Permutation_in; [apply Permutation_sym; apply order_perm|exact Hb].
Qed.

Lemma refines_filter : forall f l R, refines l R -> refines (filter f l) R.
Proof. intros f l R H b Hb. apply filter_In in Hb. apply H. apply Hb. Qed.

Lemma absorb_all_spec : forall fuel k s set1 set2, ForallOrdPairs disjoint set1 -> ForallOrdPairs disjoint set2 -> length set1 + length set2 <= fuel ->
  exists k' s' f1 f2, absorb_all order fuel k s set1 set2 = Ok (k', s', filter f1 set1, filter f2 set2) /\
    (forall b, In b set1 -> f1 b = true \/ (incl b s' /\ b <> [])) /\ (forall b, In b set2 -> f2 b = true \/ (incl b s' /\ b <> [])) /\
    incl s s' /\ (forall x, In x s' -> In x s \/ exists b, (In b set1 \/ In b set2) /\ In x b) /\
    (forall b, In b set1 -> f1 b = true -> disjoint b s') /\ (forall b, In b set2 -> f2 b = true -> disjoint b s') /\
    (forall R, ForallOrdPairs disjoint R -> (exists x, In x s) -> within R s -> refines set1 R -> refines set2 R -> within R s').
Proof.
  induction fuel as [|fuel IH]; intros k s set1 set2 D1 D2 Hl.
  - destruct set1; [|cbn in Hl; lia]. destruct set2; [|cbn in Hl; lia]. cbn. exists k, s, (fun _ => true), (fun _ => true). repeat split; try (intros b []); try apply incl_refl; auto.
  - cbn [absorb_all]. destruct (existsb (fun b => fs_meets b s) set1 || existsb (fun b => fs_meets b s) set2) eqn:Ex.
    + destruct (absorb_spec k s set2 D2) as (s2 & f2 & E2 & A1 & A2 & A3 & A4 & A5). rewrite E2. cbn [bind].
      destruct (absorb_spec (S k) s2 set1 D1) as (s1 & f1 & E1 & B1 & B2 & B3 & B4 & B5). rewrite E1. cbn [bind].
      assert (Hlt : length (filter f1 set1) + length (filter f2 set2) < length set1 + length set2).
      { assert (L1 := filter_le _ f1 (fun _ => true) set1 (fun _ _ _ => eq_refl)). assert (L2 := filter_le _ f2 (fun _ => true) set2 (fun _ _ _ => eq_refl)). rewrite filter_true in L1, L2.
        apply orb_true_iff in Ex as [Ex|Ex]; apply existsb_exists in Ex as (b & Hb & Hm); rewrite fs_meets_sym in Hm.
        - assert (Hf : f1 b = false). { apply B4; [exact Hb|]. apply fs_meets_iff in Hm as (x & X1 & X2). apply fs_meets_iff. exists x. auto. }
          assert (L := filter_lt _ f1 (fun _ => true) set1 b Hb Hf eq_refl (fun _ _ _ => eq_refl)). rewrite filter_true in L. lia.
        - assert (Hf : f2 b = false) by (apply A4; assumption).
          assert (L := filter_lt _ f2 (fun _ => true) set2 b Hb Hf eq_refl (fun _ _ _ => eq_refl)). rewrite filter_true in L. lia. }
      destruct (IH (S (S k)) s1 (filter f1 set1) (filter f2 set2)) as (k' & s' & g1 & g2 & E & C1 & C2 & C3 & C4 & C5 & C6 & C7); [apply disj_filter; exact D1|apply disj_filter; exact D2|lia|].
      rewrite !filter_filter in E. exists k', s', (fun b => f1 b && g1 b), (fun b => f2 b && g2 b). split; [exact E|].
      split; [|split; [|split; [|split; [|split; [|split]]]]].
      * intros b Hb. destruct (B1 b Hb) as [F|[F G]].
        -- rewrite F. apply C1. apply filter_In. auto.
        -- right. split; [|exact G]. intros x Hx. apply C3. apply F. exact Hx.
      * intros b Hb. destruct (A1 b Hb) as [F|[F G]].
        -- rewrite F. apply C2. apply filter_In. auto.
        -- right. split; [|exact G]. intros x Hx. apply C3. apply B2. apply F. exact Hx.
      * intros x Hx. apply C3, B2, A2, Hx.
      * intros x Hx. destruct (C4 x Hx) as [G|(b & G1 & G2)].
        -- destruct (B3 x G) as [G'|(b & G1 & G2)]; [|right; exists b; auto]. destruct (A3 x G') as [G''|(b & G1 & G2)]; [auto|right; exists b; auto].
        -- right. exists b. split; [|exact G2]. destruct G1 as [G1|G1]; apply filter_In in G1; [left|right]; apply G1.
      * intros b Hb F. apply andb_true_iff in F as [F1 F2]. apply C5; [apply filter_In; auto|exact F2].
      * intros b Hb F. apply andb_true_iff in F as [F1 F2]. apply C6; [apply filter_In; auto|exact F2].
      * intros R HR (x & Hx) Hw R1 R2. apply C7; [exact HR|exists x; apply B2, A2, Hx| |apply refines_filter; exact R1|apply refines_filter; exact R2].
        apply B5; [exact HR|exists x; apply A2, Hx| |exact R1]. apply A5; [exact HR|exists x; exact Hx|exact Hw|exact R2].
    + apply orb_false_iff in Ex as [Ex1 Ex2]. exists k, s, (fun _ => true), (fun _ => true). rewrite !filter_true. split; [reflexivity|]. split; [auto|]. split; [auto|]. split; [apply incl_refl|]. split; [auto|].
      assert (G : forall set, existsb (fun b => fs_meets b s) set = false -> forall b, In b set -> disjoint b s). { intros set H b Hb. apply fs_meets_false. destruct (fs_meets b s) eqn:E; [|reflexivity]. assert (existsb (fun b => fs_meets b s) set = true) by (apply existsb_exists; exists b; auto). congruence. }
      split; [intros b Hb _; apply (G set1); assumption|]. split; [intros b Hb _; apply (G set2); assumption|]. auto.
Qed.

(** adding a block that is disjoint from the others *)
Lemma add_in : forall s l b, In b (ps_add s l) -> In b l \/ b = s.
Proof. intros s l b H. unfold ps_add in H. destruct (ps_in s l); [auto|]. apply in_app_or in H as [H|[<-|[]]]; auto. Qed.
Lemma add_old : forall s l b, In b l -> In b (ps_add s l).
Proof. intros s l b H. unfold ps_add. destruct (ps_in s l); [exact H|]. apply in_or_app. auto. Qed.
Lemma add_new : forall s l, exists c, In c (ps_add s l) /\ forall x, In x s <-> In x c.
Proof. intros s l. unfold ps_add. destruct (ps_in s l) eqn:E; [apply ps_in_iff; exact E|]. exists s. split; [apply in_or_app; right; left; reflexivity|reflexivity]. Qed.
Lemma add_disjoint : forall s l, ForallOrdPairs disjoint l -> (forall b, In b l -> disjoint b s) -> ForallOrdPairs disjoint (ps_add s l).
Proof.
  intros s l H Hs. unfold ps_add. destruct (ps_in s l); [exact H|]. induction l as [|b l IH]; [repeat constructor|]. inversion H as [|? ? G1 G2]; subst. cbn [app]. constructor.
  - rewrite Forall_forall in *. intros c Hc. apply in_app_or in Hc as [Hc|[<-|[]]]; [apply G1; exact Hc|]. apply Hs. left. reflexivity.
  - apply IH; [exact G2|]. intros c Hc. apply Hs. right. exact Hc.
Qed.

Lemma part_step : forall X l f s, partition X l -> (forall b, In b l -> f b = true \/ (incl b s /\ b <> [])) -> (forall x, In x s -> X x) -> (forall b, In b l -> f b = true -> disjoint b s) -> partition X (ps_add s (filter f l)).
Proof.
  intros X l f s [H1 H2] Hf Hs Hd. split.
  - intros x. rewrite H1. split.
    + intros (b & Hb & Hx). destruct (Hf b Hb) as [F|[F _]]; [exists b; split; [apply add_old; apply filter_In; auto|exact Hx]|]. destruct (add_new s (filter f l)) as (c & C1 & C2). exists c. split; [exact C1|]. apply C2. apply F. exact Hx.
    + intros (b & Hb & Hx). apply add_in in Hb as [Hb| ->]; [apply filter_In in Hb; exists b; split; [apply Hb|exact Hx]|]. apply H1. apply Hs. exact Hx.
  - apply add_disjoint; [apply disj_filter; exact H2|]. intros b Hb. apply filter_In in Hb. apply Hd; apply Hb.
Qed.

Lemma refines_step : forall P l f s, refines P l -> (forall b, In b l -> f b = true \/ (incl b s /\ b <> [])) -> refines P (ps_add s (filter f l)).
Proof.
  intros P l f s H Hf b Hb Hne. destruct (H b Hb Hne) as (c & C1 & C2). destruct (Hf c C1) as [F|[F _]].
  - exists c. split; [apply add_old; apply filter_In; auto|exact C2].
  - destruct (add_new s (filter f l)) as (d & D1 & D2). exists d. split; [exact D1|]. intros x Hx. apply D2. apply F. apply C2. exact Hx.
Qed.

Definition coarse (X : nat -> Prop) (P Q : list fset) (R : list fset) : Prop := partition X R /\ refines P R /\ refines Q R.

Lemma finest_spec : forall fuel k set1 set2 X P Q, length (ps_diff set1 set2) <= fuel -> partition X set1 -> partition X set2 -> refines P set1 -> refines Q set2 ->
  (forall R, coarse X P Q R -> refines set1 R /\ refines set2 R) ->
  exists r, finest order fuel k set1 set2 = Ok r /\ coarse X P Q r /\ forall R, coarse X P Q R -> refines r R.
Proof.
  induction fuel as [|fuel IH]; intros k set1 set2 X P Q Hl H1 H2 HP HQ Hc.
  - assert (E : ps_diff set1 set2 = []) by (destruct (ps_diff set1 set2); [reflexivity|cbn in Hl; lia]).
    cbn [finest]. rewrite E. assert (E' : order k [] = []) by (apply Permutation_nil; apply Permutation_sym; apply order_perm). rewrite E'. exists set1. split; [reflexivity|].
    split; [|intros R HR; apply (Hc R HR)]. split; [exact H1|]. split; [exact HP|]. intros b Hb Hne. destruct (HQ b Hb Hne) as (c & C1 & C2). destruct b as [|x b]; [contradiction|].
    assert (Hx : X x) by (apply (proj1 H2); exists c; split; [exact C1|apply C2; left; reflexivity]). apply (proj1 H1) in Hx as (d & D1 & D2). exists d. split; [exact D1|].
    assert (Hd : ps_in d set2 = true). { destruct (ps_in d set2) eqn:G; [reflexivity|]. exfalso. assert (In d (ps_diff set1 set2)) by (unfold ps_diff; apply filter_In; rewrite G; auto). rewrite E in H. destruct H. }
    apply ps_in_iff in Hd as (d' & G1 & G2). assert (c = d') by (apply (disj_same set2 c d' x (proj2 H2) C1 G1); [apply C2; left; reflexivity|apply G2; exact D2]). subst d'. intros z Hz. apply G2. apply C2. exact Hz.
  - cbn [finest]. destruct (order k (ps_diff set1 set2)) as [|s rest] eqn:Eo.
    + assert (E : ps_diff set1 set2 = []) by (apply Permutation_nil; rewrite <- Eo; apply order_perm).
      exists set1. split; [reflexivity|].
      split; [|intros R HR; apply (Hc R HR)]. split; [exact H1|]. split; [exact HP|]. intros b Hb Hne. destruct (HQ b Hb Hne) as (c & C1 & C2). destruct b as [|x b]; [contradiction|].
      assert (Hx : X x) by (apply (proj1 H2); exists c; split; [exact C1|apply C2; left; reflexivity]). apply (proj1 H1) in Hx as (d & D1 & D2). exists d. split; [exact D1|].
      assert (Hd : ps_in d set2 = true). { destruct (ps_in d set2) eqn:G; [reflexivity|]. exfalso. assert (In d (ps_diff set1 set2)) by (unfold ps_diff; apply filter_In; rewrite G; auto). rewrite E in H. destruct H. }
      apply ps_in_iff in Hd as (d' & G1 & G2). assert (c = d') by (apply (disj_same set2 c d' x (proj2 H2) C1 G1); [apply C2; left; reflexivity|apply G2; exact D2]). subst d'. intros z Hz. apply G2. apply C2. exact Hz.
    + assert (Hs : In s (ps_diff set1 set2)) by (eapply Permutation_in; [apply (order_perm k)|rewrite Eo; left; reflexivity]).
      unfold ps_diff in Hs. apply filter_In in Hs as [Hs1 Hs2]. unfold ps_remove. rewrite ps_in_In by exact Hs1. cbn [bind]. set (g := fun c => negb (fs_eqb s c)).
      destruct (absorb_all_spec (length (filter g set1) + length set2) (S k) s (filter g set1) set2) as (k' & s' & f1 & f2 & E & A1 & A2 & A3 & A4 & A5 & A6 & A7); [apply disj_filter; apply H1|apply H2|apply le_n|].
      rewrite E. cbn [bind]. rewrite filter_filter.
      assert (Hself : fs_eqb s s = true) by (apply fs_eqb_iff; reflexivity).
      assert (B1 : forall b, In b set1 -> g b && f1 b = true \/ (incl b s' /\ b <> []) \/ (forall x, In x s <-> In x b)).
      { intros b Hb. destruct (g b) eqn:G; [destruct (A1 b) as [F|F]; [apply filter_In; auto|rewrite F; auto|auto]|]. unfold g in G. apply negb_false_iff in G. right. right. apply fs_eqb_iff. exact G. }
      assert (Hin : forall x, In x s' -> X x).
      { intros x Hx. destruct (A4 x Hx) as [G|(b & [G|G] & G')]; [apply (proj1 H1); exists s; auto|apply (proj1 H1); apply filter_In in G; exists b; split; [apply G|exact G']|apply (proj1 H2); exists b; auto]. }
      (* the blocks of set1 equal to s, when s is empty, may be lost; they are empty *)
      assert (P1 : partition X (ps_add s' (filter (fun b => g b && f1 b) set1))).
      { split.
        - intros x. rewrite (proj1 H1 x). split.
          + intros (b & Hb & Hx). destruct (B1 b Hb) as [F|[[F _]|F]]; [exists b; split; [apply add_old; apply filter_In; auto|exact Hx]| |]; destruct (add_new s' (filter (fun b => g b && f1 b) set1)) as (c & C1 & C2); exists c; (split; [exact C1|]); apply C2; [apply F|apply A3; apply F]; exact Hx.
          + intros (b & Hb & Hx). apply add_in in Hb as [Hb| ->]; [apply filter_In in Hb; exists b; split; [apply Hb|exact Hx]|]. apply (proj1 H1). apply Hin. exact Hx.
        - apply add_disjoint; [apply disj_filter; apply H1|]. intros b Hb. apply filter_In in Hb as [Hb F]. apply andb_true_iff in F as [F1 F2]. apply A5; [apply filter_In; auto|exact F2]. }
      assert (P2 : partition X (ps_add s' (filter f2 set2))) by (apply part_step; assumption).
      assert (R1 : refines P (ps_add s' (filter (fun b => g b && f1 b) set1))).
      { intros b Hb Hne. destruct (HP b Hb Hne) as (c & C1 & C2). destruct (B1 c C1) as [F|[[F _]|F]]; [exists c; split; [apply add_old; apply filter_In; auto|exact C2]| |]; destruct (add_new s' (filter (fun b => g b && f1 b) set1)) as (d & D1 & D2); exists d; (split; [exact D1|]); intros x Hx; apply D2; [apply F|apply A3; apply F]; apply C2; exact Hx. }
      assert (R2 : refines Q (ps_add s' (filter f2 set2))) by (apply refines_step; assumption).
      apply (IH k' _ _ X P Q); try assumption.
      * assert (Hlt : length (ps_diff (ps_add s' (filter (fun b => g b && f1 b) set1)) (ps_add s' (filter f2 set2))) < length (ps_diff set1 set2)); [|lia].
        assert (Hin' : ps_in s' (ps_add s' (filter f2 set2)) = true) by (destruct (add_new s' (filter f2 set2)) as (c & C1 & C2); apply ps_in_iff; exists c; auto).
        assert (Ed : ps_diff (ps_add s' (filter (fun b => g b && f1 b) set1)) (ps_add s' (filter f2 set2)) = filter (fun b => (g b && f1 b) && negb (ps_in b (ps_add s' (filter f2 set2)))) set1).
        { unfold ps_diff. set (T := ps_add s' (filter f2 set2)) in *. unfold ps_add. destruct (ps_in s' (filter (fun b => g b && f1 b) set1)); [rewrite filter_filter; reflexivity|]. rewrite filter_app. cbn [filter]. rewrite Hin'. cbn [negb]. rewrite app_nil_r, filter_filter. reflexivity. }
        rewrite Ed. unfold ps_diff. apply (filter_lt _ _ _ set1 s Hs1); [unfold g; rewrite Hself; reflexivity|exact Hs2|].
        intros b Hb F. apply andb_true_iff in F as [F1 F2]. apply negb_true_iff in F2. apply negb_true_iff. destruct (ps_in b set2) eqn:G; [|reflexivity]. exfalso.
        apply ps_in_iff in G as (c & C1 & C2). destruct (A2 c C1) as [F|[F Fne]].
        -- assert (ps_in b (ps_add s' (filter f2 set2)) = true) by (apply ps_in_iff; exists c; split; [apply add_old; apply filter_In; auto|exact C2]). congruence.
        -- destruct c as [|x c]; [contradiction|]. apply andb_true_iff in F1 as [F1 F3]. apply (A5 b ltac:(apply filter_In; auto) F3 x); [apply C2; left; reflexivity|apply F; left; reflexivity].
      * intros R HR. destruct (Hc R HR) as [G1 G2]. assert (Hw : s' <> [] -> exists c, In c R /\ incl s' c).
        { intros Hne. destruct s as [|x s].
          - exfalso. apply Hne. destruct s' as [|x s']; [reflexivity|]. exfalso.
            (* an empty block meets nothing, so nothing was absorbed *)
            assert (Ex : forall fuel k l1 l2, absorb_all order fuel k [] l1 l2 = Ok (k, [], l1, l2)).
            { intros fl kk l1 l2. assert (N : forall l, existsb (fun b => fs_meets b []) l = false). { induction l as [|b l IHl]; [reflexivity|]. cbn [existsb]. rewrite IHl, orb_false_r. unfold fs_meets. induction b as [|y b IHb]; [reflexivity|exact IHb]. } destruct fl; cbn [absorb_all]; rewrite !N; reflexivity. }
            rewrite Ex in E. injection E as _ E _ _. discriminate.
          - apply A7; [apply HR|exists x; left; reflexivity| |apply refines_filter; exact G1|exact G2]. apply G1; [exact Hs1|discriminate]. }
        split; intros b Hb Hne; apply add_in in Hb as [Hb| ->]; try (apply Hw; exact Hne); apply filter_In in Hb as [Hb _]; [apply G1|apply G2]; assumption.
Qed.

Theorem finest_common_ok : forall X P Q, partition X P -> partition X Q ->
  exists r, finest_common order P Q = Ok r /\ partition X r /\ refines P r /\ refines Q r /\ forall R, partition X R -> refines P R -> refines Q R -> refines r R.
Proof.
  intros X P Q HP HQ. assert (Hr : forall l, refines l l) by (intros l b Hb _; exists b; split; [exact Hb|apply incl_refl]).
  destruct (finest_spec (length P) 0 P Q X P Q) as (r & E & (C1 & C2 & C3) & H); try assumption; try apply Hr.
  - unfold ps_diff. assert (L := filter_le _ (fun b => negb (ps_in b Q)) (fun _ => true) P (fun _ _ _ => eq_refl)). rewrite filter_true in L. exact L.
  - intros R (_ & R1 & R2). auto.
  - exists r. split; [exact E|]. split; [exact C1|]. split; [exact C2|]. split; [exact C3|]. intros R R0 R1 R2. apply H. split; [exact R0|]. auto.
Qed.
End Part.

(** the order in which sets are enumerated does not matter *)
Theorem finest_order : forall order1 order2, (forall k l, Permutation (order1 k l) l) -> (forall k l, Permutation (order2 k l) l) -> forall X P Q, partition X P -> partition X Q ->
  exists r1 r2, finest_common order1 P Q = Ok r1 /\ finest_common order2 P Q = Ok r2 /\ forall b, In b r1 -> b <> [] -> exists c, In c r2 /\ forall x, In x b <-> In x c.
Proof.
  intros o1 o2 H1 H2 X P Q HP HQ. destruct (finest_common_ok o1 H1 X P Q HP HQ) as (r1 & E1 & A1 & A2 & A3 & A4). destruct (finest_common_ok o2 H2 X P Q HP HQ) as (r2 & E2 & B1 & B2 & B3 & B4).
  exists r1, r2. split; [exact E1|]. split; [exact E2|]. intros b Hb Hne. destruct (A4 r2 B1 B2 B3 b Hb Hne) as (c & C1 & C2). exists c. split; [exact C1|].
  assert (Hc : c <> []) by (intros ->; apply Hne; destruct b as [|x b]; [reflexivity|destruct (C2 x (or_introl eq_refl))]). destruct (B4 r1 A1 A2 A3 c C1 Hc) as (d & D1 & D2).
  destruct b as [|x b]; [contradiction|]. assert (x :: b = d) as Ed by (apply (disj_same r1 (x :: b) d x (proj2 A1) Hb D1); [left; reflexivity|apply D2, C2; left; reflexivity]).
  intros y. split; [apply C2|rewrite Ed; apply D2].
Qed.
