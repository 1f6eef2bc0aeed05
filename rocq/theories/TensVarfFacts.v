(** Varf.tensorize. *)
From Coq Require Import String List Bool Arith ZArith Lia Sorted Permutation.
From Verif Require Import Base Lists IndexModel Spec Num LinModel LinSpec LinBase MatBase Dirs Degree Facts2 Facts3 PyBase PosModel PosSpec PosFacts SeriesModel SeriesSpec SeriesFacts SeriesFacts3 PartModel PartSpec PartFacts
  SplitModel SplitSpec SplitFacts MulModel MulSpec MulFacts PyQuadModel PyQuadSpec PyQuadFacts TensQuadModel TensQuadSpec TensQuadFacts2 TensVarfModel TensVarfSpec.
Import ListNotations.
Local Open Scope string_scope. Local Open Scope list_scope. Local Open Scope nat_scope.

Lemma nodup_tail : forall A (l l' : list A), NoDup (l ++ l') -> NoDup l'.
Proof. intros A. induction l as [|x l IH]; intros l' H; [exact H|]. inversion H; subst. apply IH. assumption. Qed.
Lemma fs_list_inc : forall d, increasing d -> fs_list d = d.
Proof.
  intros d H. unfold fs_list. rewrite nodup_fixed_point by (apply increasing_NoDup; exact H). apply py_sorted_id. apply increasing_sorted. exact H.
Qed.
Lemma d_set_new : forall A (d : list (fset * A)) k v, (forall k', In k' (map fst d) -> fs_eqb k k' = false) -> d_set A k v d = d ++ [(k, v)].
Proof.
  intros A. induction d as [|(k', v') d IH]; intros k v H; cbn [d_set app]; [reflexivity|]. rewrite (H k') by (left; reflexivity). rewrite IH; [reflexivity|]. intros k0 H0. apply H. right. exact H0.
Qed.
Lemma owners_le1 : forall (N : num) (args : list (position N)) d, NoDup (concat (map p_dirs args)) -> owners args d <= 1.
Proof. intros N args d H. unfold owners. apply NoDup_count_occ. exact H. Qed.
Lemma records_in : forall (N : num) (p : position N) d m v t, records p d m v t -> In d (p_dirs p).
Proof. intros N p d m v t (i & row & H & _). eapply nth_error_In. exact H. Qed.
Lemma no_conflict : forall (N : num) (args : list (position N)), NoDup (concat (map p_dirs args)) -> ~ conflict args.
Proof.
  intros N args H (i & j & a & b & x & m & v & t & m' & v' & t' & Hij & A1 & A2 & R1 & R2 & _). apply records_in in R1, R2.
  apply nth_error_split in A1 as (l1 & l2 & -> & L1). rewrite nth_error_app2 in A2 by lia. replace (j - length l1) with (S (j - length l1 - 1)) in A2 by lia. cbn [nth_error] in A2. apply nth_error_In in A2.
  rewrite map_app, concat_app in H. cbn [map concat] in H. apply nodup_tail in H. assert (G : In x (concat (map p_dirs l2))) by (apply in_concat; exists (p_dirs b); split; [apply in_map; exact A2|exact R2]).
  apply (in_split x) in R1 as (u & w & E1). rewrite E1 in H. rewrite <- app_assoc in H. cbn [app] in H. apply nodup_tail in H. inversion H as [|? ? H1 _]; subst. apply H1. apply in_or_app. right. exact G.
Qed.

Section Tensorize.
Variable N : num.
Hypothesis L : num_laws N.
Variable far : list (list N) -> bool.
Hypothesis far_ok : forall l, far (diag_mat N l) = false.
Variable E : Type.
Variable eval : E -> (nat -> N) -> N.
Variable e_mul : E -> E -> E.
Variable e_1 : E.
Variable free_vars : E -> fset.
Hypothesis E_mul : forall a b env, eval (e_mul a b) env = nmul (eval a env) (eval b env).
Hypothesis E_1 : forall env, eval e_1 env = n1.
Hypothesis V_mul : forall a b x, In x (free_vars (e_mul a b)) -> In x (free_vars a) \/ In x (free_vars b).
Hypothesis V_1 : free_vars e_1 = [].
Notation varf := (varf N E).
Notation vt := (varf_tensorize N far E e_mul e_1 free_vars).
Notation form_on := (form_on free_vars).

Lemma vt_loop : forall s degree (gs : list (list nat)) (vs : list varf), Forall2 (fun g v => form_on v g) gs vs -> Forall (fun v => v_set v = s /\ v_degree v = degree) vs ->
  forall (a0 : varf) mats e, v_set a0 = s -> v_degree a0 = degree -> NoDup (concat (map fst mats) ++ concat gs) ->
  for_in (fun (a : varf) '(mats, factor) =>
          _ <- require (iset_eqb (v_set a) (v_set a0) && (v_degree a =? v_degree a0)) "ValueError" ;;
          Ok (d_set (list (list N)) (p_dirs (v_pos a)) (v_mat a) mats, e_mul factor (f_sym (v_factor a)))) vs (mats, e) =
  Ok (mats ++ combine gs (map v_mat vs), fold_left e_mul (map (fun v => f_sym (v_factor v)) vs) e).
Proof using.
  intros s degree gs vs H. induction H as [|g v gs vs Hv H IH]; intros HA a0 mats e H1 H2 Hn; cbn [for_in map combine fold_left]; [rewrite app_nil_r; reflexivity|].
  pose proof (Forall_inv HA) as [A1 A2]. pose proof (Forall_inv_tail HA) as HA'. rewrite A1, H1, A2, H2, Nat.eqb_refl, iset_eqb_refl. cbn [andb require bind]. destruct Hv as (_ & E1 & _ & E2 & _). rewrite E1.
  rewrite d_set_new.
  - match goal with |- for_in _ _ (?m, ?e') = _ => pose proof (IH HA' a0 m e' H1 H2) as G end. rewrite H1, H2 in G. etransitivity; [apply G|].
    + rewrite map_app, concat_app. cbn [map concat fst]. rewrite app_nil_r, <- app_assoc. exact Hn.
    + rewrite <- app_assoc. reflexivity.
  - intros k Hk. destruct (fs_eqb g k) eqn:Ek; [|reflexivity]. exfalso. rewrite fs_eqb_iff in Ek. cbn [concat] in Hn. destruct g as [|x g]; [contradiction|].
    assert (Hx : In x (concat (map fst mats))) by (apply in_concat; exists k; split; [exact Hk|apply Ek; left; reflexivity]).
    apply in_split in Hx as (u & w & Eu). rewrite Eu, <- app_assoc in Hn. cbn [app] in Hn. apply nodup_tail in Hn. inversion Hn as [|? ? Hn1 _]; subst. apply Hn1. apply in_or_app. right. left. reflexivity.
Qed.

Lemma fold_mul_eval : forall l e env, eval (fold_left e_mul l e) env = nmul (eval e env) (nprod (map (fun a => eval a env) l)).
Proof using L E_mul.
  induction l as [|a l IH]; intros e env; cbn [fold_left map]; [symmetry; apply (nmul_1_r N L)|]. rewrite IH, E_mul, (nprod_cons N L). symmetry. apply (law_mul_assoc N L).
Qed.
Lemma fold_mul_vars : forall l e x, In x (free_vars (fold_left e_mul l e)) -> In x (free_vars e) \/ exists a, In a l /\ In x (free_vars a).
Proof using V_mul.
  induction l as [|a l IH]; intros e x H; cbn [fold_left] in H; [left; exact H|]. apply IH in H as [H|(b & H1 & H2)]; [|right; exists b; split; [right; exact H1|exact H2]].
  apply V_mul in H as [H|H]; [left; exact H|right; exists a; split; [left; reflexivity|exact H]].
Qed.

Theorem tensorize_forms : forall s degree gs (vs : list varf) d, Forall2 (fun g v => form_on v g) gs vs -> Forall (fun v => v_set v = s /\ v_degree v = degree) vs -> vs <> [] ->
  increasing d -> Permutation d (concat gs) -> usable s (length d) degree ->
  exists r, vt vs = Ok r /\ form_on r d /\ v_set r = s /\ (recovered s degree = degree -> v_degree r = degree) /\ (forall m, varf_index r m <-> index_of s (length d) degree m) /\
    (forall env, eval (f_sym (v_factor r)) env = nprod (map (fun v => eval (f_sym (v_factor v)) env) vs)) /\
    (forall a x m v t, In a (map v_pos vs) -> records a x m v t -> records (v_pos r) x m v t) /\
    forall i j, index_of s (length d) degree i -> index_of s (length d) degree j -> varf_at r i j = entries_product d gs vs i j.
Proof using L far_ok E_mul E_1 V_mul V_1.
  intros s degree gs vs d H HA H0 Hd HP Hu.
  assert (Hn : NoDup (concat gs)) by (eapply Permutation_NoDup; [exact HP|apply increasing_NoDup; exact Hd]).
  destruct vs as [|v0 [|v1 vr]]; [contradiction| |].
  - inversion H as [|g ? gs' ? Hv H']; subst. inversion H'; subst. cbn [concat] in HP. rewrite app_nil_r in HP.
    assert (Eg : d = g). { apply increasing_ext; [exact Hd|apply Hv|]. intros x. split; apply Permutation_in; [exact HP|symmetry; exact HP]. } subst g.
    inversion HA as [|? ? [A1 A2] _]; subst. exists v0. split; [reflexivity|]. split; [exact Hv|]. split; [reflexivity|]. split; [reflexivity|]. destruct Hv as (V1 & V2 & _).
    split; [intros m; unfold varf_index; rewrite V2; reflexivity|].
    split; [intros env; cbn [map]; rewrite (nprod_cons N L); symmetry; apply (nmul_1_r N L)|]. split; [intros a x m v t [<-|[]] Hr; exact Hr|].
    intros i j Hi Hj. unfold entries_product. cbn [combine map]. rewrite (nprod_cons N L). rewrite !reindex_id; try (apply increasing_NoDup; exact Hd); [symmetry; apply (nmul_1_r N L)|apply Hj|apply Hi].
  - pose proof (Forall_inv HA) as Hs0. remember (v0 :: v1 :: vr) as ws eqn:Ews. destruct Hs0 as [Hs0 Hd0].
    assert (Hgs : Forall (fun dj => increasing dj /\ dj <> []) gs) by (clear - H; induction H as [|g v gs vs Hv H IH]; constructor; [split; apply Hv|exact IH]).
    assert (Hdirs : map p_dirs (map v_pos ws) = gs) by (clear - H; induction H as [|g v gs vs Hv H IH]; [reflexivity|]; cbn [map]; rewrite IH; f_equal; apply Hv).
    assert (Hm : Forall2 (fun dj A => mat_for s (length dj) degree A) gs (map v_mat ws)).
    { clear - H HA. revert HA. induction H as [|g v gs vs Hv H IH]; intros HA; cbn [map]; constructor; inversion HA as [|? ? [A1 A2] HA']; subst; [|apply IH; exact HA']. destruct Hv as ((_ & Hv) & _). exact Hv. }
    destruct (tensorize_mat_entry N L s degree gs (map v_mat ws) d Hd HP Hu Hgs Hm) as (C & C1 & C2 & C3).
    assert (Hpo : Forall pos_ok (map v_pos ws)) by (clear - H; induction H as [|g v gs vs Hv H IH]; cbn [map]; constructor; [apply Hv|exact IH]).
    assert (Hnp : NoDup (concat (map p_dirs (map v_pos ws)))) by (rewrite Hdirs; exact Hn).
    destruct (tensorize_ok N far (map v_pos ws) far_ok ltac:(rewrite Ews; cbn; lia) Hpo) as (pos & P1 & P2 & P3 & P4 & P5); [intros x; apply le_S, owners_le1; exact Hnp|apply no_conflict; exact Hnp|].
    assert (Ed : p_dirs pos = d).
    { apply increasing_ext; [exact P3|exact Hd|]. intros x. rewrite P4. unfold owners. rewrite Hdirs. rewrite (NoDup_count_occ' Nat.eq_dec) in Hn. split.
      - intros G. apply (Permutation_in _ (Permutation_sym HP)). apply (count_occ_In Nat.eq_dec). lia.
      - intros G. apply Hn. apply (Permutation_in _ HP). exact G. }
    set (fac := fold_left e_mul (map (fun v => f_sym (v_factor v)) ws) e_1).
    assert (Hfv : incl (free_vars fac) d).
    { intros x Hx. apply fold_mul_vars in Hx as [Hx|(a & Ha & Hx)]; [rewrite V_1 in Hx; destruct Hx|]. apply in_map_iff in Ha as (v & <- & Hv). apply (Permutation_in _ (Permutation_sym HP)). clear - H Hv Hx.
      induction H as [|g w gs vs Hw H IH]; [destruct Hv|]. cbn [concat]. apply in_or_app. destruct Hv as [->|Hv]; [left; apply Hw; exact Hx|right; apply IH; exact Hv]. }
    assert (Pd : pos_dim pos s (length d) degree) by (split; [rewrite Ed; reflexivity|]; split; [destruct P2 as (_ & P2 & _); rewrite P2, Ed; reflexivity|exact Hu]).
    assert (Run : vt ws = Ok (Vf C pos s (recovered s degree) (Fn fac d))).
    { assert (U : vt ws = ('(mats, factor) <- for_in (fun (a : varf) '(mats, factor) => _ <- require (iset_eqb (v_set a) (v_set v0) && (v_degree a =? v_degree v0)) "ValueError" ;;
          Ok (d_set (list (list N)) (p_dirs (v_pos a)) (v_mat a) mats, e_mul factor (f_sym (v_factor a)))) ws ([], e_1) ;;
        matrix <- core_tensorize N mats (v_set v0) ;; position <- pos_tensorize N far (map v_pos ws) ;; factor <- function_init E free_vars factor (p_dirs position) ;; varf_init N E e_1 matrix position (Some factor) (v_set v0)))
        by (rewrite Ews; reflexivity).
      rewrite U. pose proof (vt_loop s degree gs ws H HA v0 [] e_1 Hs0 Hd0 Hn) as G. match type of G with _ = ?y => match goal with |- bind ?x _ = _ => replace x with y by (symmetry; exact G) end end. cbn [bind app]. rewrite Hs0. unfold core_tensorize.
      assert (G1 : map snd (combine gs (map v_mat ws)) = map v_mat ws /\ map (fun '(k, _) => fs_list k) (combine gs (map v_mat ws)) = gs).
      { clear - Hm Hgs. revert Hgs. induction Hm as [|g A gs As Hg Hm IH]; intros Hgs; [split; reflexivity|]. inversion Hgs as [|? ? [I1 _] Hgs']; subst. cbn [combine map snd]. destruct (IH Hgs') as [-> ->]. rewrite (fs_list_inc g I1). split; reflexivity. }
      destruct G1 as [G1 G2]. match goal with |- bind ?x _ = _ => replace x with (Ok C) by (symmetry; etransitivity; [exact (f_equal2 (tensorize_mats N s) G1 G2)|exact C1]) end. cbn [bind]. rewrite P1. cbn [bind]. rewrite Ed. unfold function_init. rewrite py_sorted_id by (apply increasing_sorted; exact Hd). rewrite (proj2 (nats_eqb_eq d d) eq_refl). cbn [require bind].
      fold fac. rewrite (proj2 (subset_incl _ _) Hfv). cbn [require bind]. rewrite (varf_init_ok N E e_1 C pos (Some (Fn fac d)) s (length d) degree Pd (proj1 C2)) by (left; discriminate). reflexivity. }
    exists (Vf C pos s (recovered s degree) (Fn fac d)). split; [exact Run|].
    assert (Nd : d <> []) by (intros ->; destruct Hu; cbn in *; lia).
    split; [|split; [reflexivity|split; [intros ->; reflexivity|split; [|split; [|split]]]]].
    + split; [split; cbn [v_set v_pos v_degree v_mat]; [destruct Pd as (B1 & B2 & B3); split; [exact B1|split; [exact B2|apply usable_recovered, Hu]]|unfold mat_for; rewrite points_recovered by exact Hu; exact C2]|].
      cbn [v_pos v_factor f_dirs f_sym]. split; [exact Ed|]. split; [exact Hd|]. split; [exact Nd|]. split; [exact P2|]. split; [reflexivity|exact Hfv].
    + intros m. unfold varf_index. cbn [v_set v_pos v_degree]. rewrite Ed. apply index_of_recovered.
    + intros env. cbn [v_factor f_sym]. unfold fac. rewrite fold_mul_eval, E_1, (law_mul_1 N L), map_map. reflexivity.
    + intros a x m v t Ha Hr. cbn [v_pos]. apply (P5 a); [exact Ha| |exact Hr]. rewrite Ed. apply (Permutation_in _ (Permutation_sym HP)). rewrite <- Hdirs. apply in_concat. exists (p_dirs a). split; [apply in_map; exact Ha|exact (records_in _ _ _ _ _ _ Hr)].
    + intros i j Hi Hj. unfold varf_at. cbn [v_set v_pos v_degree v_mat]. rewrite Ed. unfold entry. rewrite points_recovered by exact Hu. etransitivity; [exact (C3 i j Hi Hj)|].
      unfold mproduct, entries_product. f_equal. clear - H HA. revert HA. induction H as [|g v gs vs Hv H IH]; intros HA; [reflexivity|]. cbn [map combine]. inversion HA as [|? ? [A1 A2] HA']; subst. rewrite (IH HA'). f_equal.
      unfold varf_at. destruct Hv as (_ & -> & _). reflexivity.
Qed.
End Tensorize.
