(** The decorator tensorize_at: the groups of directions and the functions of the groups. *)
From Coq Require Import String List Bool Arith ZArith Lia Sorted Permutation.
From Verif Require Import Base Lists IndexModel Spec Num LinModel LinSpec LinBase MatBase Dirs PyBase PosModel PosSpec PosFacts SeriesModel PartModel PartSpec PartFacts
  SplitModel SplitSpec SplitFacts MulModel MulSpec MulFacts Fnum PyQuadModel PyQuadSpec PyQuadFacts TensQuadModel TensQuadFacts.
Import ListNotations.
Local Open Scope string_scope. Local Open Scope list_scope. Local Open Scope nat_scope.

Lemma fs_list_in : forall s x, In x (fs_list s) <-> In x s.
Proof. intros s x. unfold fs_list. rewrite <- (Permutation_in' (eq_refl x) (py_sorted_perm (nodup Nat.eq_dec s))). apply nodup_In. Qed.
Lemma fs_list_increasing : forall s, increasing (fs_list s).
Proof. intros s. apply py_sorted_increasing, NoDup_nodup. Qed.
Lemma fs_list_nil : forall s, s <> [] -> fs_list s <> [].
Proof. intros [|x s] H; [contradiction|]. intros G. assert (K : In x (fs_list (x :: s))) by (apply fs_list_in; left; reflexivity). rewrite G in K. destruct K. Qed.

(** finest_common returns no empty block if there is none in its first argument. *)
Lemma finest_nonempty : forall order, (forall k l, Permutation (order k l) l) -> forall fuel k set1 set2 r, ForallOrdPairs disjoint set1 -> ForallOrdPairs disjoint set2 ->
  finest order fuel k set1 set2 = Ok r -> Forall (fun b => b <> []) set1 -> Forall (fun b => b <> []) r.
Proof.
  intros order OP. induction fuel as [|fuel IH]; intros k set1 set2 r D1 D2 H N; cbn [finest] in H; destruct (order k (ps_diff set1 set2)) as [|s l] eqn:Eo.
  - injection H as <-. exact N.
  - discriminate H.
  - injection H as <-. exact N.
  - assert (Hs : In s set1). { assert (G : In s (ps_diff set1 set2)) by (eapply Permutation_in; [apply (OP k)|rewrite Eo; left; reflexivity]). apply filter_In in G. apply G. }
    unfold ps_remove in H. rewrite (ps_in_In _ _ Hs) in H. cbn [bind] in H.
    set (set1' := filter (fun c => negb (fs_eqb s c)) set1) in *. assert (D1' : ForallOrdPairs disjoint set1') by (apply disj_filter; exact D1).
    destruct (absorb_all_spec order OP (length set1' + length set2) (S k) s set1' set2 D1' D2 (le_n _)) as (k' & s' & f1 & f2 & A1 & _ & _ & A2 & _ & A3 & A4 & _).
    apply bind_ok in H as ([[[k1 s1] m1] m2] & H0 & H). pose proof (eq_trans (eq_sym A1) H0) as G0. injection G0 as <- <- <- <-.
    assert (Add : forall f l, ForallOrdPairs disjoint l -> (forall b, In b l -> f b = true -> disjoint b s') -> ForallOrdPairs disjoint (ps_add s' (filter f l))).
    { intros f m Dm Hm. unfold ps_add. destruct (ps_in s' (filter f m)); [apply disj_filter; exact Dm|]. apply disj_perm with (l := s' :: filter f m); [apply Permutation_cons_append|]. constructor; [|apply disj_filter; exact Dm].
      apply Forall_forall. intros b Hb. apply filter_In in Hb as [Hb1 Hb2]. intros x X1 X2. exact (Hm b Hb1 Hb2 x X2 X1). }
    eapply IH; [apply (Add f1 set1' D1' A3)|apply (Add f2 set2 D2 A4)|exact H|].
    rewrite Forall_forall in *. intros b Hb. assert (G : In b (filter f1 set1') \/ b = s') by (unfold ps_add in Hb; destruct (ps_in s' (filter f1 set1')); [left; exact Hb|apply in_app_iff in Hb as [Hb|[Hb|[]]]; [left; exact Hb|right; symmetry; exact Hb]]).
    destruct G as [G| ->]; [apply N; apply filter_In in G as [G _]; apply filter_In in G; apply G|].
    specialize (N s Hs). destruct s as [|x s]; [contradiction|]. intros G. specialize (A2 x (or_introl eq_refl)). rewrite G in A2. destruct A2.
Qed.

(** Blocks as increasing lists. *)
Lemma disjoint_lists : forall l, ForallOrdPairs disjoint l -> ForallOrdPairs disjoint (map fs_list l).
Proof.
  induction l as [|s l IH]; intros H; [constructor|]. inversion H as [|? ? H1 H2]; subst. cbn [map]. constructor; [|apply IH; exact H2]. apply Forall_forall. intros t Ht. apply in_map_iff in Ht as (u & <- & Hu).
  rewrite Forall_forall in H1. intros x X1 X2. rewrite fs_list_in in X1, X2. exact (H1 u Hu x X1 X2).
Qed.
Lemma grouping_lists : forall D l, partition (fun x => In x D) l -> Forall (fun b => b <> []) l -> grouping D (map fs_list l).
Proof.
  intros D l [P1 P2] N. split; [split; [|apply disjoint_lists; exact P2]|].
  - intros x. rewrite P1. split; intros (b & B1 & B2); [exists (fs_list b); split; [apply in_map; exact B1|apply fs_list_in; exact B2]|].
    apply in_map_iff in B1 as (c & <- & C). exists c. split; [exact C|apply fs_list_in; exact B2].
  - apply Forall_forall. intros g Hg. apply in_map_iff in Hg as (b & <- & Hb). split; [apply fs_list_increasing|]. rewrite Forall_forall in N. apply fs_list_nil, N, Hb.
Qed.
Lemma grouping_nodup : forall gs, ForallOrdPairs disjoint gs -> Forall (fun g => increasing g /\ g <> []) gs -> NoDup (concat gs).
Proof.
  induction gs as [|g gs IH]; intros H1 H2; [constructor|]. inversion H1 as [|? ? A1 A2]; subst. inversion H2 as [|? ? B1 B2]; subst. cbn [concat]. apply nodup_app; [apply increasing_NoDup, B1|apply IH; assumption|].
  intros x X1 X2. apply in_concat in X2 as (h & X2 & X3). rewrite Forall_forall in A1. exact (A1 h X2 x X1 X3).
Qed.
Lemma grouping_perm : forall D gs, NoDup D -> grouping D gs -> Permutation D (concat gs).
Proof.
  intros D gs HD [[P1 P2] P3]. apply NoDup_Permutation; [exact HD|apply grouping_nodup; assumption|]. intros x. rewrite P1, in_concat. tauto.
Qed.
Lemma partition_perm : forall X l l', Permutation l l' -> partition X l -> partition X l'.
Proof.
  intros X l l' HP [P1 P2]. split; [|eapply disj_perm; eassumption]. intros x. rewrite P1. split; intros (b & B1 & B2); exists b; (split; [|exact B2]).
  - eapply Permutation_in; eassumption.
  - eapply Permutation_in; [apply Permutation_sym; exact HP|exact B1].
Qed.

Section Products.
Variable N : num.
Hypothesis L : num_laws N.

(** Every item belongs to exactly one of the blocks. *)
Lemma prod_blocks : forall A B (P : B -> A -> bool) (v : A -> N) (items : list A) (blocks : list B),
  (forall a, In a items -> exists l1 b l2, blocks = l1 ++ b :: l2 /\ P b a = true /\ forall b', In b' (l1 ++ l2) -> P b' a = false) ->
  nprod (map (fun b => nprod (map v (filter (P b) items))) blocks) = nprod (map v items).
Proof.
  intros A B P v. assert (N1 : nprod (N := N) [] = n1) by reflexivity. induction items as [|a items IH]; intros blocks H.
  - cbn [filter map]. rewrite N1. induction blocks as [|b blocks IHb]; [exact N1|]. cbn [map]. rewrite (nprod_cons N L). rewrite (law_mul_1 N L). apply IHb. intros a [].
  - cbn [map]. rewrite (nprod_cons N L), <- (IH blocks) by (intros b Hb; apply H; right; exact Hb). destruct (H a (or_introl eq_refl)) as (l1 & b & l2 & -> & Hb & Hn). clear H IH.
    assert (Same : forall l, (forall b', In b' l -> P b' a = false) -> map (fun b => nprod (map v (filter (P b) (a :: items)))) l = map (fun b => nprod (map v (filter (P b) items))) l).
    { intros l Hl. apply map_ext_in. intros c Hc. cbn [filter]. rewrite (Hl c Hc). reflexivity. }
    rewrite !map_app. cbn [map]. rewrite (Same l1), (Same l2) by (intros c Hc; apply Hn, in_app_iff; auto). cbn [filter]. rewrite Hb. cbn [map].
    rewrite !(nprod_app N L), !(nprod_cons N L). generalize (nprod (map (fun b => nprod (map v (filter (P b) items))) l1)) (nprod (map (fun b => nprod (map v (filter (P b) items))) l2)) (nprod (map v (filter (P b) items))) (v a).
    intros x y z w. rewrite !(law_mul_assoc N L). f_equal. rewrite <- (law_mul_assoc N L). rewrite (law_mul_comm N L x (nmul w z)). rewrite (law_mul_comm N L (nmul w x) z). rewrite (law_mul_comm N L w z), (law_mul_assoc N L). reflexivity.
Qed.
End Products.

Section Groups.
Variable F : fnum.
Hypothesis L : num_laws F.
Variable E : Type.
Variable eval : E -> (nat -> F) -> F.
Variable e_mul : E -> E -> E.
Variable e_1 : E.
Variable add_args mul_args : E -> list E.
Variable free_vars : E -> fset.
Hypothesis OK : sympy_ok eval e_mul e_1 add_args mul_args free_vars.
Hypothesis V : sympy_vars e_mul e_1 add_args mul_args free_vars.
Notation func := (func E).
Notation dict := (dict E).
Notation split_term := (split_term E e_mul e_1 mul_args free_vars).
Notation keys := (map (@fst fset E)).

(** The function of the group [s]. *)
Definition gf (s : fset) (add : dict) (f : func) : func :=
  fold_left (fun f '(k, e) => if subset k s then Fn (e_mul (f_sym f) e) (fs_list s) else f) add f.

Lemma gf_vars : forall s add f, (forall k e, In (k, e) add -> incl (free_vars e) k) -> incl (free_vars (f_sym f)) s -> incl (free_vars (f_sym (gf s add f))) s.
Proof using V.
  intros s. unfold gf. induction add as [|(k, e) add IH]; intros f Ha Hf; cbn [fold_left]; [exact Hf|]. apply IH; [intros k' e' H; apply Ha; right; exact H|]. destruct (subset k s) eqn:Es; [|exact Hf].
  cbn [f_sym]. intros x Hx. apply (vars_mul _ _ _ _ _ V) in Hx as [Hx|Hx]; [exact (Hf x Hx)|]. apply subset_incl in Es. apply Es, (Ha k e (or_introl eq_refl)), Hx.
Qed.
Lemma gf_eval : forall s add f env, eval (f_sym (gf s add f)) env = nmul (eval (f_sym f) env) (nprod (map (fun '(_, e) => eval e env) (filter (fun '(k, _) => subset k s) add))).
Proof using L OK.
  intros s. unfold gf. induction add as [|(k, e) add IH]; intros f env; cbn [fold_left filter]; [symmetry; apply (nmul_1_r F L)|]. rewrite IH. destruct (subset k s); [|reflexivity].
  cbn [f_sym map]. rewrite (ok_mul _ _ _ _ _ _ _ _ OK), (nprod_cons F L). symmetry. apply (law_mul_assoc F L).
Qed.
Lemma gf_dirs : forall s add f, f_dirs f = fs_list s \/ (exists k e, In (k, e) add /\ incl k s) -> f_dirs (gf s add f) = fs_list s.
Proof using.
  intros s. unfold gf. induction add as [|(k, e) add IH]; intros f H; cbn [fold_left]; [destruct H as [H|(k & e & [] & _)]; exact H|]. apply IH.
  destruct (subset k s) eqn:Es; [left; reflexivity|]. destruct H as [H|(k' & e' & [H|H] & H2)]; [left; exact H| |right; exists k', e'; auto].
  injection H as -> ->. apply subset_incl in H2. congruence.
Qed.

Lemma group_loop : forall add (m : list (fset * func)), (forall k e, In (k, e) add -> incl (free_vars e) k) -> Forall (fun '(s, f) => incl (free_vars (f_sym f)) s) m ->
  for_in (fun '(dirs, term) new_add => mapM (fun '(s, f) => if subset dirs s then f <- function_init E free_vars (e_mul (f_sym f) term) (fs_list s) ;; Ok (s, f) else Ok (s, f)) new_add) add m =
  Ok (map (fun '(s, f) => (s, gf s add f)) m).
Proof using V.
  induction add as [|(k, e) add IH]; intros m Ha Hm; cbn [for_in].
  - unfold gf. cbn [fold_left]. apply f_equal. rewrite <- (map_id m) at 1. apply map_ext. intros (s, f). reflexivity.
  - rewrite mapM_Ok_map with (g := fun '(s, f) => (s, if subset k s then Fn (e_mul (f_sym f) e) (fs_list s) else f)).
    + cbn [bind]. rewrite IH.
      * apply f_equal. rewrite map_map. apply map_ext. intros (s, f). reflexivity.
      * intros k' e' H. apply Ha. right. exact H.
      * rewrite Forall_forall in *. intros x Hx. apply in_map_iff in Hx as ((s, f) & <- & Hx). exact (gf_vars s [(k, e)] f (fun k' e' H => Ha k' e' (match H with or_introl G => or_introl G | or_intror G => match G with end end)) (Hm _ Hx)).
    + intros (s, f) Hx. destruct (subset k s) eqn:Es; [|reflexivity]. unfold function_init. rewrite py_sorted_id by apply increasing_sorted, fs_list_increasing. rewrite (proj2 (nats_eqb_eq _ _) eq_refl). cbn [require bind].
      assert (G : incl (free_vars (e_mul (f_sym f) e)) (fs_list s)).
      { rewrite Forall_forall in Hm. intros x Hx2. apply fs_list_in. apply (vars_mul _ _ _ _ _ V) in Hx2 as [Hx2|Hx2]; [exact (Hm _ Hx x Hx2)|]. apply subset_incl in Es. apply Es, (Ha k e (or_introl eq_refl)), Hx2. }
      rewrite (proj2 (subset_incl _ _) G). reflexivity.
Qed.

(** The constant of a term and the other entries of its dictionary. *)
Lemma const_split : forall d : dict, ForallOrdPairs apart (keys d) -> In [] (keys d) ->
  exists c, d_get E [] d = Ok c /\ In ([], c) d /\ forall env, nprod (map (fun '(_, e) => eval e env) d) = nmul (eval c env) (nprod (map (fun '(_, e) => eval e env) (filter (fun '(key, _) => negb (fs_eqb [] key)) d))).
Proof using L.
  assert (Z : forall k : fset, fs_eqb [] k = true <-> k = []). { intros k. rewrite fs_eqb_iff. split; [|intros ->; tauto]. intros H. destruct k as [|x k]; [reflexivity|]. destruct (proj2 (H x) (or_introl eq_refl)). }
  induction d as [|(k, v) d IH]; intros Ha Hi; [destruct Hi|]. cbn [map fst] in Ha. inversion Ha as [|? ? H1 H2]; subst. cbn [d_get filter]. destruct (fs_eqb [] k) eqn:Ek.
  - apply Z in Ek. subst k. exists v. split; [reflexivity|]. split; [left; reflexivity|]. intros env. cbn [map negb]. rewrite (nprod_cons F L). f_equal. f_equal. f_equal. symmetry.
    assert (G : forall l : dict, Forall (apart []) (keys l) -> filter (fun '(key, _) => negb (fs_eqb [] key)) l = l).
    { induction l as [|(k, w) l IHl]; intros G; [reflexivity|]. cbn [map fst] in G. inversion G as [|? ? G1 G2]; subst. cbn [filter]. destruct (fs_eqb [] k) eqn:Ek; [apply Z in Ek; subst k; destruct G1 as [_ [G1|G1]]; contradiction|]. cbn [negb]. rewrite (IHl G2). reflexivity. }
    exact (G d H1).
  - cbn [negb]. destruct Hi as [Hi|Hi]; [cbn [fst] in Hi; subst k; discriminate Ek|]. destruct (IH H2 Hi) as (c & C1 & C2 & C3). exists c. split; [exact C1|]. split; [right; exact C2|]. intros env. cbn [map]. rewrite !(nprod_cons F L), C3.
    rewrite !(law_mul_assoc F L). rewrite (law_mul_comm F L (eval v env)). reflexivity.
Qed.

Variable order : nat -> list fset -> list fset.
Hypothesis order_perm : forall k l, Permutation (order k l) l.
Variable enum : list fset -> list fset.
Hypothesis enum_perm : forall l, Permutation (enum l) l.

Lemma term_groups : forall D term ft, NoDup D -> D <> [] -> (forall a, In a (mul_args term) -> incl (free_vars a) D) -> (forall a, In a (mul_args ft) -> incl (free_vars a) D) ->
  exists c division fs, d_get E [] (split_term D term) = Ok c /\
    finest_common order (keys (filter (fun '(key, _) => negb (fs_eqb [] key)) (split_term D term))) (keys (split_term D ft)) = Ok division /\
    group_functions E e_mul e_1 free_vars (enum division) (filter (fun '(key, _) => negb (fs_eqb [] key)) (split_term D term)) = Ok (combine (enum division) fs) /\
    grouping D (map fs_list (enum division)) /\ (forall g a, In g (map fs_list (enum division)) -> In a (mul_args ft) -> ~ straddles free_vars g a) /\
    Forall2 (fun g f => f_dirs f = g /\ incl (free_vars (f_sym f)) g) (map fs_list (enum division)) fs /\
    (forall env env0, eval term env = nmul (eval c env0) (nprod (map (fun f => eval (f_sym f) env) fs))) /\
    Forall2 (fun g f => forall env, eval (f_sym f) env = product eval (filter (inside free_vars g) (mul_args term)) env) (map fs_list (enum division)) fs.
Proof using L OK V order_perm enum_perm.
  intros D term ft HD HD0 Ht Hft. set (d := split_term D term). set (add := filter (fun '(key, _) => negb (fs_eqb [] key)) d). set (df := split_term D ft).
  assert (Z : forall k : fset, fs_eqb [] k = true <-> k = []). { intros k. rewrite fs_eqb_iff. split; [|intros ->; tauto]. intros H. destruct k as [|x k]; [reflexivity|]. destruct (proj2 (H x) (or_introl eq_refl)). }
  assert (Hadd : forall k e, In (k, e) add <-> In (k, e) d /\ k <> []).
  { intros k e. unfold add. rewrite filter_In. split; intros [G1 G2]; (split; [exact G1|]).
    - intros ->. discriminate G2.
    - apply negb_true_iff. destruct (fs_eqb [] k) eqn:Ek; [apply Z in Ek; contradiction|reflexivity]. }
  destruct (split_term_ok F L E eval e_mul e_1 add_args mul_args free_vars OK D term HD Ht) as ((A1 & A2 & A3 & A4) & A5 & _). fold d in A1, A2, A3, A4, A5.
  destruct (split_term_ok F L E eval e_mul e_1 add_args mul_args free_vars OK D ft HD Hft) as ((B1 & B2 & B3 & B4) & B5 & _). fold df in B1, B2, B3, B4, B5.
  destruct (const_split d A1 A2) as (c & C1 & C2 & C3). fold add in C3.
  assert (Pa : partition (fun x => In x D) (keys add)).
  { split.
    - intros x. rewrite A3. split; intros (k & K1 & K2); exists k; (split; [|exact K2]); apply in_map_iff in K1 as ((k', e) & <- & K1); apply in_map_iff; exists (k', e); (split; [reflexivity|]); [apply Hadd; split; [exact K1|]; intros E0; cbn in K2; rewrite E0 in K2; destruct K2|apply Hadd in K1; apply K1].
    - apply apart_disjoint. unfold add. clear - A1. induction d as [|(k, e) l IH]; [constructor|]. cbn [map fst] in A1. inversion A1 as [|? ? G1 G2]; subst. cbn [filter]. destruct (negb _); [|exact (IH G2)]. cbn [map fst]. constructor; [|exact (IH G2)].
      rewrite Forall_forall in *. intros y Hy. apply G1. apply in_map_iff in Hy as (z & <- & Hz). apply filter_In in Hz. apply in_map. apply Hz. }
  assert (Pf : partition (fun x => In x D) (keys df)) by (split; [exact B3|apply apart_disjoint; exact B1]).
  destruct (finest_common_ok order order_perm (fun x => In x D) (keys add) (keys df) Pa Pf) as (r & R1 & R2 & R3 & R4 & _).
  assert (Rn : Forall (fun b => b <> []) r).
  { eapply (finest_nonempty order order_perm); [apply Pa|apply Pf|exact R1|]. apply Forall_forall. intros b Hb. apply in_map_iff in Hb as ((k, e) & <- & Hb). apply Hadd in Hb. apply Hb. }
  assert (En : Forall (fun b => b <> []) (enum r)) by (eapply Permutation_Forall; [apply Permutation_sym, enum_perm|exact Rn]).
  assert (Ep : partition (fun x => In x D) (enum r)) by (eapply partition_perm; [apply Permutation_sym, enum_perm|exact R2]).
  assert (Ei : forall b, In b (enum r) <-> In b r) by (intros b; split; intros H; [eapply Permutation_in; [apply enum_perm|exact H]|eapply Permutation_in; [apply Permutation_sym, enum_perm|exact H]]).
  assert (Hw : forall k e, In (k, e) add -> incl (free_vars e) k).
  { intros k e H. apply Hadd in H as [H _]. exact (split_term_within E e_mul e_1 add_args mul_args free_vars V D term k e H). }
  exists c, r, (map (fun s => gf s add (Fn e_1 [])) (enum r)). split; [exact C1|]. split; [exact R1|]. split; [|split; [|split; [|split; [|split]]]].
  - unfold group_functions. rewrite group_loop; [|exact Hw|].
    + apply f_equal. rewrite map_map. clear. induction (enum r) as [|b l IH]; [reflexivity|]. cbn [map combine]. rewrite <- IH. reflexivity.
    + apply Forall_forall. intros x Hx. apply in_map_iff in Hx as (s & <- & _). cbn [f_sym]. rewrite (vars_1 _ _ _ _ _ V). intros y [].
  - apply grouping_lists; assumption.
  - intros g a Hg Ha ((x & X1 & X2) & (y & Y1 & Y2)). apply in_map_iff in Hg as (b & <- & Hb). rewrite fs_list_in in X2, Y2.
    destruct (key_of_factor F L E eval e_mul e_1 add_args mul_args free_vars OK D ft a HD Hft Ha) as (k & e & K1 & K2). fold df in K1.
    destruct (R4 k) as (b' & B6 & B7); [apply in_map_iff; exists (k, e); auto|intros ->; destruct (K2 x X1)|].
    assert (b = b') as <- by (apply (disj_same (enum r) b b' x); [apply Ep|exact Hb|apply Ei; exact B6|exact X2|apply B7, K2, X1]). apply Y2, B7, K2, Y1.
  - assert (G : forall b, In b (enum r) -> (exists k e, In (k, e) add /\ incl k b)).
    { intros b Hb. rewrite Forall_forall in En. assert (Hx0 : exists x, In x b) by (specialize (En _ Hb); destruct b as [|x b0]; [destruct (En eq_refl)|exists x; left; reflexivity]). destruct Hx0 as (x & Hx0). assert (Hx : In x D) by (apply R2; exists b; split; [apply Ei; exact Hb|exact Hx0]).
      apply (proj1 Pa) in Hx as (k & K1 & K2). pose proof K1 as K3. apply in_map_iff in K3 as ((k', e) & K3 & K4). cbn [fst] in K3. subst k'. destruct (R3 k K1) as (b' & B6 & B7); [intros ->; destruct K2|].
      exists k, e. split; [exact K4|]. assert (b = b') as -> by (apply (disj_same (enum r) b b' x); [apply Ep|exact Hb|apply Ei; exact B6|exact Hx0|apply B7, K2]). exact B7. }
    clear - G V Hw. induction (enum r) as [|b l IH]; cbn [map]; [constructor|]. constructor; [|apply IH; intros b' Hb'; apply G; right; exact Hb'].
    split; [apply gf_dirs; right; apply G; left; reflexivity|]. intros x Hx. apply fs_list_in. revert x Hx. apply gf_vars; [exact Hw|]. cbn [f_sym]. rewrite (vars_1 _ _ _ _ _ V). intros y [].
  - intros env env0. rewrite <- A5, C3. rewrite (A4 [] c C2 env env0) by (intros x []). f_equal. rewrite map_map.
    rewrite (map_ext _ (fun s => nprod (map (fun '(_, e) => eval e env) (filter (fun '(k, _) => subset k s) add)))) by (intros s; rewrite gf_eval; etransitivity; [apply (f_equal (fun z => nmul z _)), (ok_1 _ _ _ _ _ _ _ _ OK)|apply (law_mul_1 F L)]).
    symmetry. apply (prod_blocks F L (fset * E) fset (fun s '(k, _) => subset k s) (fun '(_, e) => eval e env)).
    intros (k, e) Hk. pose proof (proj1 (Hadd k e) Hk) as [_ Hk2]. destruct (R3 k) as (b & B6 & B7); [apply in_map_iff; exists (k, e); auto|exact Hk2|].
    apply Ei in B6. destruct (in_split _ _ B6) as (l1 & l2 & El). exists l1, b, l2. split; [exact El|]. split; [apply subset_incl; exact B7|]. intros b' Hb'. destruct (subset k b') eqn:Es; [|reflexivity]. exfalso. apply subset_incl in Es.
    destruct Ep as [_ Ed]. rewrite El in Ed. apply (disj_perm _ (b :: l1 ++ l2)) in Ed; [|symmetry; apply Permutation_middle]. inversion Ed as [|? ? G1 G2]; subst. rewrite Forall_forall in G1. destruct k as [|x k]; [contradiction|].
    exact (G1 b' Hb' x (B7 x (or_introl eq_refl)) (Es x (or_introl eq_refl))).
  - assert (G : forall b, In b (enum r) -> forall a, In a (mul_args term) -> incl (free_vars a) D /\ hom b (free_vars a)).
    { intros b Hb a Ha. split; [exact (Ht a Ha)|]. apply (not_straddles_hom E free_vars). intros ((x & X1 & X2) & (y & Y1 & Y2)).
      destruct (key_of_factor F L E eval e_mul e_1 add_args mul_args free_vars OK D term a HD Ht Ha) as (k & e & K1 & K2). fold d in K1. assert (K0 : k <> []) by (intros ->; destruct (K2 x X1)).
      destruct (R3 k) as (b' & B6 & B7); [apply in_map_iff; exists (k, e); split; [reflexivity|apply Hadd; auto]|exact K0|].
      assert (b = b') as <- by (apply (disj_same (enum r) b b' x); [apply Ep|exact Hb|apply Ei; exact B6|exact X2|apply B7, K2, X1]). apply Y2, B7, K2, Y1. }
    assert (W : forall b, (forall a, In a (mul_args term) -> incl (free_vars a) D /\ hom b (free_vars a)) -> forall env, eval (f_sym (gf b add (Fn e_1 []))) env = product eval (filter (inside free_vars (fs_list b)) (mul_args term)) env).
    { intros b Hb env. rewrite gf_eval. etransitivity; [apply (f_equal (fun z => nmul z _)), (ok_1 _ _ _ _ _ _ _ _ OK)|]. rewrite (law_mul_1 F L).
      destruct (split_term_kind F L E eval e_mul e_1 add_args mul_args free_vars OK D b 1 env term HD Hb) as [S _]. fold d in S. unfold vals, of_kind in S.
      transitivity (nprod (map (fun '(_, e) => eval e env) (filter (fun p => kind b (fst p) =? 1) d))).
      - apply (f_equal (fun z => nprod (map (fun '(_, e) => eval e env) z))). unfold add. rewrite filter_filter. apply filter_ext. intros (k, e). cbn [fst]. apply eq_true_iff_eq. rewrite andb_true_iff, negb_true_iff, Nat.eqb_eq, (kind_1 E e_mul e_1), subset_incl.
        destruct (fs_eqb [] k) eqn:Ek.
        + apply Z in Ek. subst k. split; intros [G1 G2]; [discriminate G1|destruct (G1 eq_refl)].
        + split; intros [G1 G2]; (split; [|exact G2]); [intros E0; rewrite E0 in Ek; discriminate Ek|reflexivity].
      - etransitivity; [exact S|]. apply (f_equal (fun z => product eval z env)). apply filter_ext. intros a. rewrite (kind_inside E e_mul e_1 free_vars b a). unfold inside. f_equal. apply eq_true_iff_eq. rewrite !forallb_forall.
        split; intros G0 x Hx; specialize (G0 x Hx); apply existsb_exists in G0 as (y & Y1 & Y2); apply existsb_exists; exists y; (split; [|exact Y2]); apply fs_list_in; exact Y1. }
    clear - G W. induction (enum r) as [|b l IH]; cbn [map]; [constructor|]. constructor; [apply W, G; left; reflexivity|apply IH; intros b' Hb'; apply G; right; exact Hb'].
Qed.
End Groups.

Section Terms.
Variable E : Type.
Variable e_mul : E -> E -> E.
Variable e_1 : E.
Variable add_args mul_args : E -> list E.
Variable free_vars : E -> fset.
Variable P : E -> Prop.
Hypothesis P1 : P e_1.
Hypothesis PM : forall a b, P a -> P b -> P (e_mul a b).
Let all (d : dict E) : Prop := forall k e, In (k, e) d -> P e.

Lemma d_mul_all : forall key v d, all d -> P v -> all (d_mul E e_mul key v d).
Proof.
  intros key v d. induction d as [|(k, e) d IH]; intros Hd Hv; cbn [d_mul]; [exact Hd|]. destruct (fs_eqb key k); intros k' e' [H|H].
  - injection H as <- <-. apply PM; [exact (Hd k e (or_introl eq_refl))|exact Hv].
  - exact (Hd k' e' (or_intror H)).
  - exact (Hd k' e' (or_introl H)).
  - exact (IH (fun a b Hab => Hd a b (or_intror Hab)) Hv k' e' H).
Qed.
Lemma d_set_all : forall key v d, all d -> P v -> all (d_set E key v d).
Proof.
  intros key v d. induction d as [|(k, e) d IH]; intros Hd Hv; cbn [d_set]; [intros k e [H|[]]; injection H as <- <-; exact Hv|]. destruct (fs_eqb key k); intros k' e' [H|H].
  - injection H as <- <-. exact Hv.
  - exact (Hd k' e' (or_intror H)).
  - exact (Hd k' e' (or_introl H)).
  - exact (IH (fun a b Hab => Hd a b (or_intror Hab)) Hv k' e' H).
Qed.
Lemma split_arg_all : forall d arg, all d -> P arg -> all (split_arg E e_mul free_vars d arg).
Proof.
  intros d arg Hd Ha. unfold split_arg. destruct (d_in E (free_vars arg) d); [apply d_mul_all; assumption|].
  assert (G : forall l key value ks, all l -> P value ->
    P (snd (fst (fold_left (fun '(key, value, ks) '(existing_key, v) => if fs_meets existing_key key then (fs_union existing_key key, e_mul value v, ks ++ [existing_key]) else (key, value, ks)) l (key, value, ks))))).
  { induction l as [|(k, e) l IH]; intros key value ks Hl Hk; cbn [fold_left]; [exact Hk|]. destruct (fs_meets k key); (apply IH; [intros k' e' H; exact (Hl k' e' (or_intror H))|]); [apply PM; [exact Hk|exact (Hl k e (or_introl eq_refl))]|exact Hk]. }
  specialize (G d (free_vars arg) arg [] Hd Ha). destruct (fold_left _ d _) as ((key, value), ks). cbn [fst snd] in G. apply d_set_all; [|exact G]. intros k e H. apply filter_In in H as [H _]. exact (Hd k e H).
Qed.
Lemma split_term_all : forall dirs term, (forall a, In a (mul_args term) -> P a) -> all (split_term E e_mul e_1 mul_args free_vars dirs term).
Proof.
  intros dirs term Ht. unfold split_term. assert (H : all (map (fun d => ([d], e_1)) dirs ++ [([], e_1)])).
  { intros k e H. apply in_app_or in H as [H|[H|[]]]; [|injection H as <- <-; exact P1]. apply in_map_iff in H as (d & H & _). injection H as <- <-. exact P1. }
  revert H. generalize (map (fun d => ([d], e_1)) dirs ++ [([], e_1)]). induction (mul_args term) as [|a l IH]; intros d Hd; cbn [fold_left]; [exact Hd|].
  apply IH; [intros b Hb; apply Ht; right; exact Hb|]. apply split_arg_all; [exact Hd|apply Ht; left; reflexivity].
Qed.
Lemma d_get_all : forall d k e, all d -> d_get E k d = Ok e -> P e.
Proof.
  induction d as [|(k', e') d IH]; intros k e Hd H; cbn [d_get] in H; [discriminate H|]. destruct (fs_eqb k k'); [injection H as <-; exact (Hd k' e' (or_introl eq_refl))|].
  apply (IH k e); [intros a b Hab; exact (Hd a b (or_intror Hab))|exact H].
Qed.
Lemma project_all : forall f A g, (forall t a, add_args (f_sym f) = [t] -> In a (mul_args t) -> P a) -> fun_project E e_mul e_1 add_args mul_args free_vars f A = Ok g -> P (f_sym g).
Proof.
  intros f A g Ht H. unfold fun_project, fun_split in H. destruct (add_args (f_sym f)) as [|t [|t' l]]; cbn [map] in H; try discriminate H.
  pose proof (split_term_all (f_dirs f) t (fun a => Ht t a eq_refl)) as W. set (d := split_term _ _ _ _ _ _ _) in *.
  apply bind_ok in H as (first & _ & H). apply bind_ok in H as (r & Hr & H). apply bind_ok in H as (r' & Hr' & H). apply bind_ok in H as (u & _ & H). injection H as <-. cbn [f_sym].
  assert (R0 : P r) by (destruct (py_in first A); [exact (d_get_all d [] r W Hr)|injection Hr as <-; exact P1]). clear Hr. revert r R0 r' Hr'.
  induction d as [|(k, e) d IH]; intros r R0 r' H; cbn [for_in] in H; [injection H as <-; exact R0|]. apply bind_ok in H as (r1 & H1 & H2). apply (IH (fun k' e' G => W k' e' (or_intror G)) r1); [|exact H2].
  destruct (subset k A && negb (fs_eqb k [])); [injection H1 as <-; apply PM; [exact R0|exact (W k e (or_introl eq_refl))]|]. destruct (negb (fs_eqb A []) && subset A k); [discriminate H1|injection H1 as <-; exact R0].
Qed.
End Terms.
