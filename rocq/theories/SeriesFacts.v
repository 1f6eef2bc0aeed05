(** Proofs about Series and Varf. *)
From Coq Require Import String List Bool Arith ZArith Lia Sorted.
From Verif Require Import Base Lists IndexModel Spec Triangle Cross CrossNc IndexSet Degree Facts1 Num LinModel LinSpec LinBase MatBase Facts2 InnerSum CalcReal NdFacts PyBase PosModel PosSpec PosFacts SeriesModel SeriesSpec.
Import ListNotations.
Local Open Scope string_scope. Local Open Scope list_scope. Local Open Scope nat_scope.

(** values and prefixes *)
Lemma value_app_in : forall A (d : A) l l' v v' m, length v = length l -> In m l -> value d (l ++ l') (v ++ v') m = value d l v m.
Proof.
  intros A d. induction l as [|x l IH]; intros l' v v' m Hl Hin; [destruct Hin|]. destruct v as [|c v]; [discriminate|]. cbn [app value].
  destruct (mi_eqb x m) eqn:E; [reflexivity|]. apply IH; [injection Hl as Hl; exact Hl|]. destruct Hin as [->|Hin]; [|exact Hin]. exfalso.
  assert (mi_eqb m m = true) by (clear; induction m; [reflexivity|]; cbn [mi_eqb]; rewrite Nat.eqb_refl; assumption). congruence.
Qed.
Lemma value_app_out : forall A (d : A) l l' v v' m, length v = length l -> ~ In m l -> value d (l ++ l') (v ++ v') m = value d l' v' m.
Proof.
  intros A d. induction l as [|x l IH]; intros l' v v' m Hl Hin; destruct v as [|c v]; try discriminate; [reflexivity|]. cbn [app value].
  destruct (mi_eqb x m) eqn:E; [|apply IH; [injection Hl as Hl; exact Hl|intros G; apply Hin; right; exact G]]. exfalso. apply Hin. left.
  clear -E. revert m E. induction x as [|a x IH]; intros [|b m] E; try discriminate; [reflexivity|]. cbn [mi_eqb] in E. apply andb_true_iff in E as [E1 E2]. apply Nat.eqb_eq in E1. subst. f_equal. apply IH. exact E2.
Qed.
Lemma value_repeat : forall A (d : A) l n m, value d l (repeat d n) m = d.
Proof. intros A d. induction l as [|x l IH]; intros n m; [reflexivity|]. destruct n; cbn [repeat value]; [reflexivity|]. destruct (mi_eqb x m); [reflexivity|apply IH]. Qed.

Lemma usable_degree : forall s dim degree degree', usable s dim degree -> degree' <= 250 -> usable s dim degree'.
Proof. intros s dim degree degree' (H1 & H2 & H3 & H4) H. repeat split; assumption. Qed.
Lemma recovered_le : forall s degree, degree <= 250 -> recovered s degree <= 250.
Proof. intros [] degree H; cbn [recovered]; try lia. destruct (degree =? 1); lia. Qed.
Lemma usable_recovered : forall s dim degree, usable s dim degree -> usable s dim (recovered s degree).
Proof. intros s dim degree H. eapply usable_degree; [exact H|]. apply recovered_le. apply H. Qed.
Lemma points_recovered : forall s dim degree, usable s dim degree -> points s dim (recovered s degree) = points s dim degree.
Proof.
  intros s dim degree H. destruct (dim_S dim (proj1 H)) as [d ->]. rewrite !points_spec by (try apply usable_recovered; assumption). apply spec_list_recovered.
Qed.
Lemma points_u32 : forall s dim degree, usable s dim degree -> (Z.of_nat (length (points s dim degree)) < 2 ^ 32)%Z.
Proof. intros s dim degree H. destruct (dim_S dim (proj1 H)) as [d ->]. rewrite points_spec by assumption. apply usable_length. exact H. Qed.

Lemma py_get_degree_ok : forall s dim degree n, usable s dim degree -> n = length (points s dim degree) -> py_get_degree dim n s = Ok (recovered s degree).
Proof.
  intros s dim degree n H ->. unfold py_get_degree. pose proof (points_u32 s dim degree H) as L. apply Z.ltb_lt in L. rewrite L. apply Z.ltb_lt in L.
  destruct (dim_S dim (proj1 H)) as [d ->]. rewrite points_spec in * by exact H. pose proof (usable_get_degree s d degree H) as E. rewrite u32_of_small in E by exact L. exact E.
Qed.
Lemma py_size_ok : forall s dim degree, usable s dim degree -> py_size dim degree s = Ok (length (points s dim degree)).
Proof.
  intros s dim degree H. unfold py_size. destruct (dim_S dim (proj1 H)) as [d ->]. rewrite s_size_Ok; [|apply usable_set_ok; exact H|apply usable_length; exact H]. cbn [bind]. rewrite Nat2Z.id, points_spec by exact H. reflexivity.
Qed.
Lemma n_indices_ok : forall s dim degree, usable s dim degree -> n_indices dim degree s = Ok (length (points s dim degree)).
Proof.
  intros s dim degree H. unfold n_indices. destruct (dim_S dim (proj1 H)) as [d ->]. cbn [Nat.eqb]. rewrite points_list by exact H. reflexivity.
Qed.
Lemma points_prefix : forall s dim x y, s <> CrossNc -> x <= y -> usable s dim y -> exists l, points s dim y = points s dim x ++ l.
Proof.
  intros s dim x y Hs Hxy H. assert (Hx : usable s dim x) by (eapply usable_degree; [exact H|]; destruct H as (_ & ? & _); lia).
  destruct (dim_S dim (proj1 H)) as [d ->]. rewrite !points_spec by assumption. apply spec_list_prefix; assumption.
Qed.

Lemma pos_bissect_le : forall image f g max x, (forall x, x <= max -> f x = Ok (g x)) -> pos_bissect image f max = Ok x -> x <= max /\ g x = image.
Proof. intros image f g max x Hf E. destruct (pos_bissect_total image f g max Hf) as [(y & E' & H & G)|[E'|E']]; [|congruence|congruence]. rewrite E in E'. injection E' as <-. split; assumption. Qed.
Lemma usable_sizes : forall s d degree, usable s (S d) degree -> forall x, x <= 250 -> s_size s (S d) x = Ok (Z.of_nat (length (spec_list s d x))).
Proof. intros s d degree H x Hx. apply s_size_Ok; [apply usable_set_ok|apply usable_length]; eapply usable_degree; eassumption. Qed.

Lemma in_firstn : forall A n (l : list A) x, In x (firstn n l) -> In x l.
Proof. intros A n l x H. rewrite <- (firstn_skipn n l). apply in_or_app. left. exact H. Qed.

Lemma index_of_recovered : forall s dim degree m, index_of s dim (recovered s degree) m <-> index_of s dim degree m.
Proof.
  intros s dim degree m. unfold index_of. destruct s; cbn [recovered in_set]; try tauto.
  - replace (Nat.max 1 (Nat.max 1 degree)) with (Nat.max 1 degree) by lia. tauto.
  - destruct (Nat.eqb_spec degree 1) as [->|]; [cbn; tauto|tauto].
Qed.

Section Series.
Variable N : num.
Variable Sym : Type.
Variable sym_eqb : Sym -> Sym -> bool.
Variable sym_1 : Sym.
Variable pos_eqb : position N -> position N -> bool.
Notation series := (series N Sym).
Notation varf := (varf N Sym).
Notation series_init := (series_init N Sym sym_1).
Notation varf_init := (varf_init N Sym sym_1).

(** the factor argument is accepted *)
Lemma factor_init_ok : forall factor dirs, factor_ok factor dirs -> factor_init Sym sym_1 factor dirs = Ok (given factor (Fn sym_1 dirs)).
Proof.
  intros [f|] dirs H; cbn [factor_init given]; [reflexivity|]. destruct H as [H|H]; [contradiction|]. rewrite (py_sorted_id dirs H).
  replace (nats_eqb dirs dirs) with true by (symmetry; apply nats_eqb_eq; reflexivity). reflexivity.
Qed.

Lemma series_init_ok : forall coeffs pos factor s dim degree, pos_dim pos s dim degree -> length coeffs = length (points s dim degree) -> factor_ok factor (p_dirs pos) ->
  series_init coeffs pos factor s = Ok (Ser coeffs pos s (recovered s degree) (given factor (Fn sym_1 (p_dirs pos)))).
Proof.
  intros coeffs pos factor s dim degree (H1 & H2 & H3) Hc Hf. unfold SeriesModel.series_init, p_dim. rewrite H2.
  destruct (p_dirs pos) as [|x l] eqn:Ed; [destruct H3; cbn in H1; lia|]. rewrite <- Ed.
  rewrite (py_get_degree_ok s dim degree) by assumption. cbn [bind]. rewrite n_indices_ok by (apply usable_recovered; exact H3). cbn [bind].
  rewrite points_recovered, Hc, Nat.eqb_refl by exact H3. cbn [require bind]. rewrite factor_init_ok by (rewrite Ed; exact Hf). reflexivity.
Qed.

Lemma varf_init_ok : forall mat pos factor s dim degree, pos_dim pos s dim degree -> length mat = length (points s dim degree) -> factor_ok factor (p_dirs pos) ->
  varf_init mat pos factor s = Ok (Vf mat pos s (recovered s degree) (given factor (Fn sym_1 (p_dirs pos)))).
Proof.
  intros mat pos factor s dim degree (H1 & H2 & H3) Hc Hf. unfold SeriesModel.varf_init, p_dim. rewrite H2.
  rewrite (py_get_degree_ok s dim degree) by assumption. cbn [bind]. rewrite points_list by (apply usable_recovered; exact H3). cbn [bind].
  rewrite points_recovered, Hc, Nat.eqb_refl by exact H3. cbn [require bind]. rewrite factor_init_ok by exact Hf. reflexivity.
Qed.

(** C50 *)
Theorem series_accepts : forall coeffs pos factor s dim, pos_dim pos s dim 0 -> factor_ok factor (p_dirs pos) ->
  (exists f, series_init coeffs pos factor s = Ok f) <-> exists degree, degree <= 250 /\ length coeffs = length (points s dim degree).
Proof.
  intros coeffs pos factor s dim (H1 & H2 & H3) Hf. split.
  - intros [f E]. unfold SeriesModel.series_init, p_dim in E. rewrite H2 in E. destruct (p_dirs pos) as [|x l] eqn:Ed; [destruct H3; cbn in H1; lia|].
    unfold py_get_degree in E. destruct (Z.of_nat (length coeffs) <? 2 ^ 32)%Z eqn:L; [|discriminate].
    destruct (s_get_degree s dim (Z.of_nat (length coeffs))) as [degree| | | |] eqn:E1; try discriminate. cbn [bind] in E.
    assert (Hd : degree <= 250).
    { destruct (dim_S dim (proj1 H3)) as [d ->]. destruct s; cbn [s_get_degree] in E1; cycle 2.
      - unfold DEGREE_BISSECT_MAX in E1. rewrite (iterator_list_Ok Cross d 250 I) in E1. cbn [bind] in E1. destruct (Z.of_nat (length coeffs) <=? 0)%Z; [discriminate|].
        unfold vget at 1 in E1. destruct (nth_error (spec_list Cross d 250) (Z.to_nat (Z.of_nat (length coeffs)) - 1)) as [m|] eqn:En; [|discriminate]. cbn [bind] in E1.
        apply nth_error_In in En. apply in_spec_list in En as [_ Em]. cbn [in_set] in Em. unfold vget in E1. destruct (nth_error m 0) as [y|] eqn:Ey; [|discriminate]. injection E1 as <-.
        apply nth_error_In in Ey. apply entry_le_cross in Ey. lia.
      - eapply pos_bissect_le in E1; [apply E1|apply (usable_sizes _ d 0 H3)].
      - eapply pos_bissect_le in E1; [apply E1|apply (usable_sizes _ d 0 H3)].
      - eapply pos_bissect_le in E1; [apply E1|apply (usable_sizes _ d 0 H3)].
      - eapply pos_bissect_le in E1; [apply E1|apply (usable_sizes _ d 0 H3)]. }
    exists degree. split; [exact Hd|]. assert (Hu : usable s dim degree) by (eapply usable_degree; eassumption).
    rewrite n_indices_ok in E by exact Hu. cbn [bind] in E. destruct (length (points s dim degree) =? length coeffs) eqn:El; [|discriminate]. apply Nat.eqb_eq in El. symmetry. exact El.
  - intros (degree & Hd & Hl). eexists. apply (series_init_ok coeffs pos factor s dim degree); try assumption. repeat split; try assumption; apply H3.
Qed.

Theorem series_init_result : forall coeffs pos factor s dim f, pos_dim pos s dim 0 -> factor_ok factor (p_dirs pos) -> series_init coeffs pos factor s = Ok f ->
  series_ok f dim /\ s_coeffs f = coeffs /\ s_pos f = pos /\ s_set f = s /\ s_factor f = given factor (Fn sym_1 (p_dirs pos)).
Proof.
  intros coeffs pos factor s dim f Hp Hf E. destruct (proj1 (series_accepts coeffs pos factor s dim Hp Hf)) as (degree & Hd & Hl); [exists f; exact E|].
  destruct Hp as (P1 & P2 & P3). assert (Hu : usable s dim degree) by (eapply usable_degree; eassumption).
  rewrite (series_init_ok coeffs pos factor s dim degree) in E by (try assumption; repeat split; try assumption; apply Hu). injection E as <-.
  cbn [s_coeffs s_pos s_set s_factor]. split; [|auto]. split; cbn [s_coeffs s_pos s_set s_degree]; [split; [exact P1|]; split; [exact P2|]; apply usable_recovered; exact Hu|]. unfold vec_for. rewrite points_recovered by exact Hu. exact Hl.
Qed.

Theorem series_rejects_exit : forall coeffs pos factor s dim, pos_dim pos s dim 0 -> s <> Cross -> (Z.of_nat (length coeffs) < 2 ^ 32)%Z ->
  (forall degree, degree <= 250 -> length coeffs <> length (points s dim degree)) -> series_init coeffs pos factor s = Exit 0 \/ series_init coeffs pos factor s = Exit 1.
Proof.
  intros coeffs pos factor s dim (H1 & H2 & H3) Hs L Hn. unfold SeriesModel.series_init, p_dim. rewrite H2. destruct (p_dirs pos) as [|x l] eqn:Ed; [destruct H3; cbn in H1; lia|].
  unfold py_get_degree. apply Z.ltb_lt in L. rewrite L. destruct (dim_S dim (proj1 H3)) as [d ->].
  assert (E : s_get_degree s (S d) (Z.of_nat (length coeffs)) = pos_bissect (Z.of_nat (length coeffs)) (s_size s (S d)) 250) by (destruct s; try reflexivity; contradiction).
  rewrite E. destruct (pos_bissect_total (Z.of_nat (length coeffs)) _ _ 250 (usable_sizes s d 0 H3)) as [(y & _ & Hy & G)|[-> | ->]]; [|left; reflexivity|right; reflexivity].
  exfalso. apply (Hn y Hy). rewrite points_spec by (eapply usable_degree; eassumption). lia.
Qed.

Theorem series_rejects_cross : forall coeffs pos factor dim, pos_dim pos Cross dim 0 -> (Z.of_nat (length coeffs) < 2 ^ 32)%Z -> (forall degree, degree <= 250 -> length coeffs <> length (points Cross dim degree)) ->
  series_init coeffs pos factor Cross = if (1 <=? length coeffs) && (length coeffs <=? length (points Cross dim 250)) then Throw "ValueError" else Ub.
Proof.
  intros coeffs pos factor dim (H1 & H2 & H3) L Hn. unfold SeriesModel.series_init, p_dim. rewrite H2. destruct (p_dirs pos) as [|x l] eqn:Ed; [destruct H3; cbn in H1; lia|].
  unfold py_get_degree. apply Z.ltb_lt in L. rewrite L. destruct (dim_S dim (proj1 H3)) as [d ->]. cbn [s_get_degree]. unfold DEGREE_BISSECT_MAX. rewrite (iterator_list_Ok Cross d 250 I). cbn [bind].
  rewrite points_spec by (eapply usable_degree; [eassumption|reflexivity]).
  destruct (Nat.leb_spec 1 (length coeffs)) as [E1|E1]; cbn [andb]; [|replace (_ <=? 0)%Z with true by (symmetry; apply Z.leb_le; lia); reflexivity].
  replace (_ <=? 0)%Z with false by (symmetry; apply Z.leb_gt; lia). rewrite Nat2Z.id. unfold vget at 1.
  destruct (Nat.leb_spec (length coeffs) (length (spec_list Cross d 250))) as [E2|E2].
  - destruct (nth_error (spec_list Cross d 250) (length coeffs - 1)) as [m|] eqn:En; [|apply nth_error_None in En; lia]. cbn [bind]. apply nth_error_In in En. apply in_spec_list in En as [Em Em'].
    destruct m as [|y m]; [discriminate|]. cbn [vget nth_error bind]. cbn [in_set] in Em'. assert (Hy : y <= 250) by (pose proof (entry_le_cross (y :: m) y (or_introl eq_refl)); lia).
    rewrite n_indices_ok by (eapply usable_degree; eassumption). cbn [bind]. replace (_ =? _) with false by (symmetry; apply Nat.eqb_neq; intros G; apply (Hn y Hy); congruence). reflexivity.
  - destruct (nth_error (spec_list Cross d 250) (length coeffs - 1)) as [m|] eqn:En; [|reflexivity]. exfalso. assert (length coeffs - 1 < length (spec_list Cross d 250)) by (apply nth_error_Some; congruence). lia.
Qed.

Theorem series_dim0 : forall coeffs pos factor s, p_dirs pos = [] -> exists f, series_init coeffs pos factor s = Ok f /\ s_coeffs f = coeffs /\ s_degree f = 0.
Proof.
  intros coeffs pos factor s E. unfold SeriesModel.series_init. rewrite E. cbn [bind]. rewrite factor_init_ok by (right; constructor). cbn [bind]. eexists. split; [reflexivity|]. split; reflexivity.
Qed.

(** C46 *)
Lemma given_some : forall A (x d : A), given (Some x) d = x. Proof. reflexivity. Qed.
Lemma not_in_index : forall s dim degree m, usable s dim degree -> ~ index_of s dim degree m -> ~ In m (points s dim degree).
Proof. intros s dim degree m H G G'. apply G. apply points_In; assumption. Qed.

Theorem subdegree_spec : forall (f : series) dim degree, series_ok f dim -> s_set f <> CrossNc -> degree <= 250 ->
  exists g, series_subdegree N Sym sym_1 f degree = Ok g /\ series_ok g dim /\ s_pos g = s_pos f /\ s_set g = s_set f /\ s_factor g = s_factor f /\
    (forall m, series_index g m <-> index_of (s_set f) dim degree m) /\ (forall m, series_index g m -> series_at g m = series_at f m).
Proof.
  intros f dim degree ((P1 & P2 & P3) & Hv) Hs Hd. assert (Hu : usable (s_set f) dim degree) by (eapply usable_degree; eassumption).
  unfold series_subdegree. replace (is_cross_nc (s_set f)) with false by (destruct (s_set f); try reflexivity; contradiction). cbn [negb require bind].
  unfold p_dim. rewrite P2. rewrite py_size_ok by exact Hu. cbn [bind]. unfold vec_for in Hv.
  assert (Hc : exists coeffs, (if degree <=? s_degree f then Ok (firstn (length (points (s_set f) dim degree)) (s_coeffs f))
             else _ <- require (length (s_coeffs f) <=? length (points (s_set f) dim degree)) "ValueError" ;;
                  Ok (s_coeffs f ++ repeat n0 (length (points (s_set f) dim degree) - length (s_coeffs f)))) = Ok coeffs /\ length coeffs = length (points (s_set f) dim degree) /\
       forall m, index_of (s_set f) dim degree m -> value n0 (points (s_set f) dim degree) coeffs m = value n0 (points (s_set f) dim (s_degree f)) (s_coeffs f) m).
  { destruct (Nat.leb_spec degree (s_degree f)) as [E|E].
    - destruct (points_prefix (s_set f) dim degree (s_degree f) Hs E P3) as [l El]. eexists. split; [reflexivity|].
      assert (Hl : length (firstn (length (points (s_set f) dim degree)) (s_coeffs f)) = length (points (s_set f) dim degree)) by (apply firstn_length_le; rewrite Hv, El, app_length; lia).
      split; [exact Hl|]. intros m Hm. apply (points_In _ _ _ _ Hu) in Hm.
      rewrite <- (firstn_skipn (length (points (s_set f) dim degree)) (s_coeffs f)) at 2. rewrite El. rewrite value_app_in by assumption. reflexivity.
    - destruct (points_prefix (s_set f) dim (s_degree f) degree Hs ltac:(lia) Hu) as [l El]. replace (length (s_coeffs f) <=? _) with true by (symmetry; apply Nat.leb_le; rewrite Hv, El, app_length; lia). cbn [require bind].
      eexists. split; [reflexivity|]. split; [rewrite app_length, repeat_length, El, app_length; lia|]. intros m Hm. rewrite El.
      destruct (in_dec (list_eq_dec Nat.eq_dec) m (points (s_set f) dim (s_degree f))) as [Hi|Hi]; [apply value_app_in; [exact Hv|exact Hi]|].
      rewrite value_app_out by assumption. rewrite value_repeat. symmetry. apply value_notin. exact Hi. }
  destruct Hc as (coeffs & -> & Hl & Hval). cbn [bind]. rewrite (series_init_ok coeffs (s_pos f) (Some (s_factor f)) (s_set f) dim degree) by first [exact Hl|left; discriminate|split; [exact P1|split; [exact P2|exact Hu]]].
  rewrite given_some. eexists. split; [reflexivity|]. cbn [s_pos s_set s_factor].
  split; [split; cbn [s_pos s_set s_degree s_coeffs]; [split; [exact P1|]; split; [exact P2|apply usable_recovered; exact Hu]|unfold vec_for; rewrite points_recovered by exact Hu; exact Hl]|].
  split; [reflexivity|]. split; [reflexivity|]. split; [reflexivity|]. unfold series_index, series_at, coef. cbn [s_pos s_set s_degree s_coeffs]. rewrite P1.
  split; [intros m; apply index_of_recovered|]. intros m Hm. apply (proj1 (index_of_recovered _ _ _ _)) in Hm. rewrite points_recovered by exact Hu. apply Hval. exact Hm.
Qed.

Theorem subdegree_nc : forall (f : series) degree, s_set f = CrossNc -> series_subdegree N Sym sym_1 f degree = Throw "ValueError".
Proof. intros f degree E. unfold series_subdegree. rewrite E. reflexivity. Qed.

(** C47 *)
Lemma mvalue_unfold : forall l (A : list (list N)) r c, mvalue l A r c = value n0 l (value [] l A r) c. Proof. reflexivity. Qed.

Theorem varf_subdegree_spec : forall (v : varf) dim degree, varf_ok v dim -> v_set v <> CrossNc -> degree <= v_degree v ->
  exists w, varf_subdegree N Sym sym_1 v degree = Ok w /\ varf_ok w dim /\ v_pos w = v_pos v /\ v_set w = v_set v /\ v_factor w = v_factor v /\
    (forall m, varf_index w m <-> index_of (v_set v) dim degree m) /\ (forall r c, varf_index w r -> varf_index w c -> varf_at w r c = varf_at v r c).
Proof.
  intros v dim degree ((P1 & P2 & P3) & M1 & M2) Hs Hd. assert (Hu : usable (v_set v) dim degree) by (eapply usable_degree; [exact P3|]; destruct P3 as (_ & ? & _); lia).
  unfold varf_subdegree. replace (degree <=? v_degree v) with true by (symmetry; apply Nat.leb_le; exact Hd). cbn [require bind]. unfold p_dim. rewrite P2, py_size_ok by exact Hu. cbn [bind].
  destruct (points_prefix (v_set v) dim degree (v_degree v) Hs Hd P3) as [l El]. set (n := length (points (v_set v) dim degree)).
  assert (Hn : n <= length (points (v_set v) dim (v_degree v))) by (rewrite El, app_length; unfold n; lia).
  assert (Hl : length (map (firstn n) (firstn n (v_mat v))) = n) by (rewrite map_length; apply firstn_length_le; lia).
  rewrite (varf_init_ok _ (v_pos v) (Some (v_factor v)) (v_set v) dim degree) by first [exact Hl|left; discriminate|split; [exact P1|split; [exact P2|exact Hu]]].
  rewrite given_some. eexists. split; [reflexivity|]. cbn [v_pos v_set v_factor].
  split. { split; cbn [v_pos v_set v_degree v_mat]; [split; [exact P1|]; split; [exact P2|apply usable_recovered; exact Hu]|]. unfold mat_for. rewrite points_recovered by exact Hu. split; [exact Hl|].
    apply Forall_forall. intros row Hr. apply in_map_iff in Hr as [row0 [<- Hr]]. apply firstn_length_le. rewrite Forall_forall in M2. rewrite (M2 row0); [exact Hn|]. rewrite <- (firstn_skipn n (v_mat v)). apply in_or_app. left. exact Hr. }
  split; [reflexivity|]. split; [reflexivity|]. split; [reflexivity|]. unfold varf_index, varf_at, entry. cbn [v_pos v_set v_degree v_mat]. rewrite P1.
  split; [intros m; apply index_of_recovered|]. intros r c Hr Hc. apply (proj1 (index_of_recovered _ _ _ _)) in Hr. apply (proj1 (index_of_recovered _ _ _ _)) in Hc. rewrite points_recovered by exact Hu.
  apply (points_In _ _ _ _ Hu) in Hr, Hc. rewrite !mvalue_unfold. rewrite El.
  rewrite <- (firstn_skipn n (v_mat v)) at 2. rewrite value_app_in by first [exact Hr|rewrite firstn_length_le; unfold n in *; lia].
  replace (value [] (points (v_set v) dim degree) (map (firstn n) (firstn n (v_mat v))) r) with (firstn n (value [] (points (v_set v) dim degree) (firstn n (v_mat v)) r)).
  2:{ rewrite <- (value_vmap _ _ [] (firstn n)). rewrite firstn_nil. reflexivity. }
  set (row := value [] (points (v_set v) dim degree) (firstn n (v_mat v)) r).
  assert (Hrow : length row = length (points (v_set v) dim (v_degree v))).
  { unfold row. apply In_nth_error in Hr as [i Hi]. rewrite (value_nth _ _ _ _ i r) by first [exact Hi|apply points_NoDup; exact Hu|rewrite firstn_length_le; [reflexivity|lia]].
    rewrite Forall_forall in M2. apply M2. assert (i < n) by (apply nth_error_Some; congruence). apply (in_firstn _ n). apply nth_In. rewrite firstn_length_le by lia. assumption. }
  rewrite <- (firstn_skipn n row) at 2. rewrite value_app_in by first [exact Hc|rewrite firstn_length_le; [reflexivity|lia]]. reflexivity.
Qed.

Theorem varf_subdegree_high : forall (v : varf) degree, v_degree v < degree -> varf_subdegree N Sym sym_1 v degree = Throw "ValueError".
Proof. intros v degree H. unfold varf_subdegree. replace (degree <=? v_degree v) with false by (symmetry; apply Nat.leb_gt; exact H). reflexivity. Qed.
End Series.
