(** Proofs about to_cross and the linear structure. *)
From Coq Require Import String List Bool Arith ZArith Lia Sorted.
From Verif Require Import Base Lists IndexModel Spec Triangle Cross CrossNc IndexSet Degree Facts1 Num LinModel LinSpec LinBase MatBase Facts2 InnerSum CalcReal NdFacts PyBase PosModel PosSpec PosFacts SeriesModel SeriesSpec SeriesFacts.
Import ListNotations.
Local Open Scope string_scope. Local Open Scope list_scope. Local Open Scope nat_scope.

Lemma usable_triangle_dim : forall dim degree, usable Triangle dim degree -> dim <= 4.
Proof.
  intros dim degree (H1 & _ & _ & H). destruct (dim_S dim H1) as [d ->]. specialize (H _ (s_list_Ok Triangle d 250 I)). destruct (Nat.le_gt_cases 4 d) as [G|G]; [|lia].
  pose proof (tri_big d G) as B. cbn [spec_list] in H. lia.
Qed.
Lemma usable_cross : forall dim degree degree', usable Triangle dim degree -> degree' <= 250 -> usable Cross dim degree'.
Proof. intros dim degree degree' H Hd. apply usable_dim4; [|exact Hd]. split; [apply H|eapply usable_triangle_dim; exact H]. Qed.

Lemma cross_in_points : forall dim degree D m, 1 <= dim -> Nat.max 1 degree + dim <= D + 1 -> index_of Cross dim degree m -> index_of Triangle dim D m.
Proof.
  intros dim degree D m Hd HD [Hl Hm]. split; [exact Hl|]. cbn [in_set] in *. destruct (dim_S dim Hd) as [d ->]. pose proof (cross_in_tri d (Nat.max 1 degree) m Hl Hm). lia.
Qed.

Lemma tri_index_points : forall dim D m, usable Triangle dim D -> In m (points Triangle dim D) -> py_tri_index m = Ok (idx (points Triangle dim D) m).
Proof.
  intros dim D m H Hm. unfold py_tri_index. assert (Hl : length m = dim) by (apply (points_In _ _ _ _ H) in Hm; apply Hm).
  pose proof (idx_lt _ _ Hm) as Hi. pose proof (points_u32 Triangle dim D H) as Hu.
  rewrite (tri_index_ok m D (points Triangle dim D) (idx (points Triangle dim D) m)); [cbn [bind]; rewrite Nat2Z.id; reflexivity|rewrite Hl; apply H|rewrite Hl; apply points_list; exact H|apply idx_nth; exact Hm|lia].
Qed.

Lemma cross_in_triangle_ok : forall dim degree D, usable Triangle dim D -> degree <= 250 -> (forall m, In m (points Cross dim degree) -> In m (points Triangle dim D)) ->
  cross_in_triangle dim degree = Ok (map (idx (points Triangle dim D)) (points Cross dim degree)).
Proof.
  intros dim degree D H Hd Hin. unfold cross_in_triangle. rewrite points_list by (eapply usable_cross; eassumption). cbn [bind]. apply mapM_Ok_map. intros m Hm. apply tri_index_points; [exact H|apply Hin; exact Hm].
Qed.

Lemma py_get_value : forall A (d : A) l v m, NoDup l -> In m l -> length v = length l -> py_get v (idx l m) = Ok (value d l v m).
Proof.
  intros A d l v m Hn Hm Hl. rewrite (value_idx A d l v m) by assumption. unfold py_get. pose proof (idx_lt _ _ Hm). rewrite (nth_error_nth' v d) by lia. reflexivity.
Qed.

Lemma mapM_throw : forall A B (f : A -> res B) e l, (forall x, In x l -> (exists y, f x = Ok y) \/ f x = Throw e) -> (exists x, In x l /\ f x = Throw e) -> mapM f l = Throw e.
Proof.
  intros A B f e. induction l as [|x l IH]; intros H [y [Hy E]]; [destruct Hy|]. cbn [mapM]. destruct (H x (or_introl eq_refl)) as [[z Ez]|Ez]; rewrite Ez; [|reflexivity]. cbn [bind].
  destruct Hy as [->|Hy]; [congruence|]. rewrite IH; [reflexivity|intros w Hw; apply H; right; exact Hw|exists y; split; assumption].
Qed.

Section Series.
Variable N : num.
Variable Sym : Type.
Variable sym_eqb : Sym -> Sym -> bool.
Variable sym_1 : Sym.
Variable pos_eqb : position N -> position N -> bool.
Notation series := (series N Sym).
Notation varf := (varf N Sym).

(** C48 *)
Theorem to_cross_spec : forall (f : series) dim degree, series_ok f dim -> s_set f = Triangle -> degree + dim <= s_degree f + 1 -> (1 <= degree \/ dim <= s_degree f) -> StronglySorted le (p_dirs (s_pos f)) ->
  exists g, series_to_cross N Sym sym_1 f degree = Ok g /\ series_ok g dim /\ s_pos g = s_pos f /\ s_set g = Cross /\ s_degree g = Nat.max 1 degree /\ s_factor g = Fn sym_1 (p_dirs (s_pos f)) /\
    (forall m, series_index g m -> series_index f m /\ series_at g m = series_at f m).
Proof.
  intros f dim degree ((P1 & P2 & P3) & Hv) Hs Hg Hd0 Hsort. rewrite Hs in P3, Hv. unfold vec_for in Hv. unfold series_to_cross. unfold p_dim. rewrite Hs, P2. cbn [is_triangle]. unfold cross_guard.
  replace (degree + dim <=? s_degree f + 1) with true by (symmetry; apply Nat.leb_le; exact Hg). cbn [andb require bind].
  assert (Hd : degree <= 250) by (destruct P3 as (? & ? & _); lia). assert (Hc : usable Cross dim degree) by (eapply usable_cross; eassumption).
  assert (Hin : forall m, index_of Cross dim degree m -> index_of Triangle dim (s_degree f) m) by (intros m; apply cross_in_points; [apply P3|lia]).
  rewrite (cross_in_triangle_ok dim degree (s_degree f)); [|exact P3|exact Hd|intros m Hm; apply points_In; [exact P3|]; apply Hin; apply (points_In _ _ _ _ Hc); exact Hm]. cbn [bind].
  rewrite mapM_map. rewrite (mapM_Ok_map _ _ _ (value n0 (points Triangle dim (s_degree f)) (s_coeffs f))).
  2:{ intros m Hm. apply py_get_value; [apply points_NoDup; exact P3| |exact Hv]. apply points_In; [exact P3|]. apply Hin. apply (points_In _ _ _ _ Hc). exact Hm. }
  cbn [bind]. rewrite (series_init_ok N Sym sym_1 _ (s_pos f) None Cross dim degree); [|split; [exact P1|split; [exact P2|exact Hc]]|apply map_length|right; exact Hsort].
  eexists. split; [reflexivity|]. cbn [s_pos s_set s_degree s_factor given recovered].
  split. { split; cbn [s_pos s_set s_degree s_coeffs]; [split; [exact P1|split; [exact P2|apply usable_recovered in Hc; exact Hc]]|]. unfold vec_for. rewrite map_length. pose proof (points_recovered Cross dim degree Hc) as R. cbn [recovered] in R. rewrite R. reflexivity. }
  split; [reflexivity|]. split; [reflexivity|]. split; [reflexivity|]. split; [reflexivity|]. intros m Hm. unfold series_index, series_at, coef in *. cbn [s_pos s_set s_degree s_coeffs] in *. rewrite P1, Hs in *.
  apply (proj1 (index_of_recovered Cross dim degree m)) in Hm. split; [apply Hin; exact Hm|]. pose proof (points_recovered Cross dim degree Hc) as R. cbn [recovered] in R. rewrite R. apply value_map. apply points_In; assumption.
Qed.

Theorem to_cross_throws : forall (f : series) degree, s_set f <> Triangle \/ s_degree f + 1 < degree + length (p_mean (s_pos f)) -> series_to_cross N Sym sym_1 f degree = Throw "ValueError".
Proof.
  intros f degree H. unfold series_to_cross, cross_guard, p_dim. destruct H as [H|H]; [destruct (s_set f); try reflexivity; contradiction|].
  replace (_ <=? _) with false by (symmetry; apply Nat.leb_gt; exact H). rewrite andb_false_r. reflexivity.
Qed.

Lemma ones_cross : forall dim, index_of Cross dim 0 (repeat 1 dim).
Proof. intros dim. split; [apply repeat_length|]. cbn [in_set]. replace (cross_prod (repeat 1 dim)) with 1; [lia|]. induction dim as [|d IH]; [reflexivity|]. cbn [repeat]. unfold cross_prod in *. cbn [map fold_right]. rewrite <- IH. reflexivity. Qed.
Lemma ones_sum : forall dim, list_sum (repeat 1 dim) = dim.
Proof. induction dim as [|d IH]; [reflexivity|]. cbn [repeat]. change (list_sum (1 :: repeat 1 d)) with (1 + list_sum (repeat 1 d)). rewrite IH. reflexivity. Qed.

(** degree 0: the guard accepts triangles that do not contain the cross *)
Lemma cross0_throws : forall dim D A (v : list A), usable Triangle dim D -> D + 1 = dim -> length v = length (points Triangle dim D) ->
  exists inds, cross_in_triangle dim 0 = Ok inds /\ mapM (py_get v) inds = Throw "IndexError" /\ forall i, In i inds -> (exists x, py_get v i = Ok x) \/ py_get v i = Throw "IndexError".
Proof.
  intros dim D A v H HD Hv. assert (H1 : usable Triangle dim dim). { eapply usable_degree; [exact H|]. pose proof (usable_triangle_dim dim D H). lia. }
  assert (Hc : usable Cross dim 0) by (eapply usable_cross; [exact H|lia]).
  assert (Hin : forall m, In m (points Cross dim 0) -> In m (points Triangle dim dim)).
  { intros m Hm. apply points_In; [exact H1|]. apply (cross_in_points dim 0); [apply H|lia|]. apply (points_In _ _ _ _ Hc). exact Hm. }
  eexists. split; [apply (cross_in_triangle_ok dim 0 dim); [exact H1|lia|exact Hin]|].
  assert (G : forall i, (exists x, py_get v i = Ok x) \/ py_get v i = Throw "IndexError") by (intros i; unfold py_get; destruct (nth_error v i) as [x|]; [left; exists x; reflexivity|right; reflexivity]).
  split; [|intros i _; apply G]. apply mapM_throw; [intros i _; apply G|]. exists (idx (points Triangle dim dim) (repeat 1 dim)).
  assert (Hones : In (repeat 1 dim) (points Cross dim 0)) by (apply points_In; [exact Hc|apply ones_cross]).
  split; [apply in_map; exact Hones|]. unfold py_get. destruct (nth_error v (idx (points Triangle dim dim) (repeat 1 dim))) as [x|] eqn:E; [|reflexivity]. exfalso.
  assert (Hlt : idx (points Triangle dim dim) (repeat 1 dim) < length (points Triangle dim D)) by (rewrite <- Hv; apply nth_error_Some; congruence).
  destruct (points_prefix Triangle dim D dim ltac:(discriminate) ltac:(lia) H1) as [l El]. pose proof (idx_nth _ _ (Hin _ Hones)) as Hn. rewrite El in Hn at 1. rewrite nth_error_app1 in Hn by exact Hlt.
  apply nth_error_In in Hn. apply (points_In _ _ _ _ H) in Hn as [_ Hn]. cbn [in_set] in Hn. rewrite ones_sum in Hn. lia.
Qed.

Theorem to_cross_degree0 : forall (f : series) dim, series_ok f dim -> s_set f = Triangle -> s_degree f + 1 = dim -> series_to_cross N Sym sym_1 f 0 = Throw "IndexError".
Proof.
  intros f dim ((P1 & P2 & P3) & Hv) Hs Hd. rewrite Hs in P3, Hv. unfold series_to_cross, p_dim. rewrite Hs, P2. cbn [is_triangle]. unfold cross_guard. replace (0 + dim <=? s_degree f + 1) with true by (symmetry; apply Nat.leb_le; lia). cbn [andb require bind].
  destruct (cross0_throws dim (s_degree f) N (s_coeffs f) P3 Hd Hv) as (inds & -> & E & _). cbn [bind]. rewrite E. reflexivity.
Qed.

Theorem varf_to_cross_spec : forall (v : varf) dim degree, varf_ok v dim -> v_set v = Triangle -> degree + dim <= v_degree v + 1 -> (1 <= degree \/ dim <= v_degree v) ->
  exists w, varf_to_cross N Sym sym_1 v degree = Ok w /\ varf_ok w dim /\ v_pos w = v_pos v /\ v_set w = Cross /\ v_degree w = Nat.max 1 degree /\ v_factor w = v_factor v /\
    (forall m, varf_index w m -> varf_index v m) /\ (forall r c, varf_index w r -> varf_index w c -> varf_at w r c = varf_at v r c).
Proof.
  intros v dim degree ((P1 & P2 & P3) & Hv) Hs Hg Hd0. rewrite Hs in P3, Hv. unfold mat_for in Hv. unfold varf_to_cross. unfold p_dim. rewrite Hs, P2. cbn [is_triangle]. unfold cross_guard.
  replace (degree + dim <=? v_degree v + 1) with true by (symmetry; apply Nat.leb_le; exact Hg). cbn [andb require bind].
  assert (Hd : degree <= 250) by (destruct P3 as (? & ? & _); lia). assert (Hc : usable Cross dim degree) by (eapply usable_cross; eassumption).
  assert (Hin : forall m, index_of Cross dim degree m -> index_of Triangle dim (v_degree v) m) by (intros m; apply cross_in_points; [apply P3|lia]).
  assert (Hin' : forall m, In m (points Cross dim degree) -> In m (points Triangle dim (v_degree v))) by (intros m Hm; apply points_In; [exact P3|]; apply Hin; apply (points_In _ _ _ _ Hc); exact Hm).
  rewrite (cross_in_triangle_ok dim degree (v_degree v)) by assumption. cbn [bind]. set (lt := points Triangle dim (v_degree v)) in *. set (lc := points Cross dim degree) in *.
  destruct Hv as [V1 V2]. rewrite mapM_map. rewrite (mapM_Ok_map _ _ _ (fun r => map (fun c => mvalue lt (v_mat v) r c) lc)).
  2:{ intros r Hr. rewrite (py_get_value _ [] lt (v_mat v) r) by first [assumption|apply points_NoDup; exact P3|apply Hin'; exact Hr]. cbn [bind]. rewrite mapM_map. apply mapM_Ok_map. intros c Hcc. unfold mvalue.
    apply py_get_value; [apply points_NoDup; exact P3|apply Hin'; exact Hcc|]. rewrite (value_idx _ [] lt (v_mat v) r) by first [assumption|apply points_NoDup; exact P3|apply Hin'; exact Hr].
    rewrite Forall_forall in V2. apply V2. apply nth_In. rewrite V1. apply idx_lt. apply Hin'. exact Hr. }
  cbn [bind]. rewrite (varf_init_ok N Sym sym_1 _ (v_pos v) (Some (v_factor v)) Cross dim degree); [|split; [exact P1|split; [exact P2|exact Hc]]|apply map_length|left; discriminate].
  pose proof (points_recovered Cross dim degree Hc) as R. cbn [recovered] in R. eexists. split; [reflexivity|]. cbn [v_pos v_set v_degree v_factor given recovered].
  split. { split; cbn [v_pos v_set v_degree v_mat]; [split; [exact P1|split; [exact P2|apply usable_recovered in Hc; exact Hc]]|]. unfold mat_for. rewrite R. split; [apply map_length|]. apply Forall_forall. intros row Hrow. apply in_map_iff in Hrow as [r [<- _]]. apply map_length. }
  split; [reflexivity|]. split; [reflexivity|]. split; [reflexivity|]. split; [reflexivity|]. unfold varf_index, varf_at, entry. cbn [v_pos v_set v_degree v_mat]. rewrite P1, Hs, R.
  split; [intros m Hm; apply (proj1 (index_of_recovered Cross dim degree m)) in Hm; apply Hin; exact Hm|].
  intros r c Hr Hcc. apply (proj1 (index_of_recovered Cross dim degree r)) in Hr. apply (proj1 (index_of_recovered Cross dim degree c)) in Hcc. fold lc lt. unfold mvalue at 1.
  rewrite (value_map _ [] lc) by (apply points_In; assumption). apply (value_map _ n0 lc). apply points_In; assumption.
Qed.

Theorem varf_to_cross_degree0 : forall (v : varf) dim, varf_ok v dim -> v_set v = Triangle -> v_degree v + 1 = dim -> varf_to_cross N Sym sym_1 v 0 = Throw "IndexError".
Proof.
  intros v dim ((P1 & P2 & P3) & Hv) Hs Hd. rewrite Hs in P3, Hv. unfold varf_to_cross, p_dim. rewrite Hs, P2. cbn [is_triangle]. unfold cross_guard. replace (0 + dim <=? v_degree v + 1) with true by (symmetry; apply Nat.leb_le; lia). cbn [andb require bind].
  destruct Hv as [V1 V2]. destruct (cross0_throws dim (v_degree v) _ (v_mat v) P3 Hd V1) as (inds & E0 & E & G). rewrite E0. cbn [bind].
  assert (Hr : forall i row, py_get (v_mat v) i = Ok row -> mapM (py_get row) inds = Throw "IndexError").
  { intros i row Hi. unfold py_get in Hi. destruct (nth_error (v_mat v) i) as [row'|] eqn:En; [|discriminate]. injection Hi as ->. apply nth_error_In in En. rewrite Forall_forall in V2. specialize (V2 row En).
    destruct (cross0_throws dim (v_degree v) _ row P3 Hd V2) as (inds' & E0' & E' & _). rewrite E0 in E0'. injection E0' as <-. exact E'. }
  assert (Hne : inds <> []) by (intros ->; discriminate).
  destruct inds as [|i inds]; [contradiction|]. cbn [mapM]. destruct (G i (or_introl eq_refl)) as [[row Er]|Er]; rewrite Er; cbn [bind]; [|reflexivity].
  pose proof (Hr i row Er) as E2. cbn [mapM] in E2. rewrite E2. reflexivity.
Qed.
End Series.
