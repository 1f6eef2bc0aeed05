(** Proofs about the linear structure of Series and Varf. *)
From Coq Require Import String List Bool Arith ZArith Lia Sorted.
From Verif Require Import Base Lists IndexModel Spec IndexSet Degree Facts1 Num LinModel LinSpec LinBase MatBase Facts2 InnerSum CalcReal NdFacts PyBase PosModel PosSpec PosFacts SeriesModel SeriesSpec SeriesFacts SeriesFacts2.
Import ListNotations.
Local Open Scope string_scope. Local Open Scope list_scope. Local Open Scope nat_scope.

Lemma value_map2 : forall A (d : A) (op : A -> A -> A) l v w m, In m l -> length v = length l -> length w = length l ->
  value d l (map (fun '(x, y) => op x y) (combine v w)) m = op (value d l v m) (value d l w m).
Proof.
  intros A d op. induction l as [|x l IH]; intros v w m Hm Hv Hw; [destruct Hm|]. destruct v as [|a v]; [discriminate|]. destruct w as [|b w]; [discriminate|]. cbn [combine map value].
  destruct (mi_eqb x m) eqn:E; [reflexivity|]. apply IH; [|injection Hv as Hv; exact Hv|injection Hw as Hw; exact Hw]. destruct Hm as [->|Hm]; [|exact Hm]. exfalso.
  assert (mi_eqb m m = true) by (clear; induction m; [reflexivity|]; cbn [mi_eqb]; rewrite Nat.eqb_refl; assumption). congruence.
Qed.

Lemma value_map_at : forall A B (d : A) (e : B) (g : A -> B) l v m, In m l -> length v = length l -> value e l (map g v) m = g (value d l v m).
Proof.
  intros A B d e g. induction l as [|x l IH]; intros v m Hm Hv; [destruct Hm|]. destruct v as [|a v]; [discriminate|]. cbn [map value].
  destruct (mi_eqb x m) eqn:E; [reflexivity|]. apply IH; [|injection Hv as Hv; exact Hv]. destruct Hm as [->|Hm]; [|exact Hm]. exfalso.
  assert (mi_eqb m m = true) by (clear; induction m; [reflexivity|]; cbn [mi_eqb]; rewrite Nat.eqb_refl; assumption). congruence.
Qed.

Lemma value_all : forall A (d : A) l v, NoDup l -> length v = length l -> map (value d l v) l = v.
Proof.
  intros A d l v Hn Hv. apply (list_ext_nth _ _ _ d); [rewrite map_length; symmetry; exact Hv|]. intros i Hi. rewrite map_length in Hi.
  destruct (nth_error l i) as [m|] eqn:E; [|apply nth_error_None in E; lia].
  rewrite (nth_map_lt _ _ _ _ _ d []) by exact Hi. rewrite (nth_error_nth _ _ [] E). apply value_nth; assumption.
Qed.
Lemma iset_eqb_refl : forall s, iset_eqb s s = true. Proof. intros []; reflexivity. Qed.
Lemma iset_eqb_eq : forall s t, iset_eqb s t = true -> s = t. Proof. intros [] [] H; try discriminate; reflexivity. Qed.
Lemma combine_self_map : forall A B C (f : A -> B) (g : A -> C) l, combine (map f l) (map g l) = map (fun x => (f x, g x)) l.
Proof. intros A B C f g. induction l as [|x l IH]; [reflexivity|]. cbn [map combine]. rewrite IH. reflexivity. Qed.

Lemma nopp_mul1 : forall N : num, num_laws N -> forall x : N, nmul (nopp n1) x = nopp x.
Proof.
  intros N L x. assert (E : nadd x (nmul (nopp n1) x) = n0).
  { rewrite <- (law_mul_1 N L x) at 1. rewrite <- (law_distr N L), (law_opp N L), (law_mul_0 N L). reflexivity. }
  rewrite <- (law_add_0 N L (nmul (nopp n1) x)). rewrite <- (law_opp N L x), (law_add_comm N L x (nopp x)), <- (law_add_assoc N L), E, (law_add_comm N L), (law_add_0 N L). reflexivity.
Qed.

Section Series.
Variable N : num.
Variable Sym : Type.
Variable sym_eqb : Sym -> Sym -> bool.
Variable sym_1 : Sym.
Variable pos_eqb : position N -> position N -> bool.
Notation series := (series N Sym).
Notation varf := (varf N Sym).
Notation series_add := (series_add N Sym sym_eqb sym_1 pos_eqb).
Notation series_sub := (series_sub N Sym sym_eqb sym_1 pos_eqb).
Notation series_scale := (series_scale N Sym sym_1).
Notation varf_add := (varf_add N Sym sym_eqb sym_1 pos_eqb).
Notation varf_scale := (varf_scale N Sym sym_1).
Notation varf_call := (varf_call N Sym sym_1 pos_eqb).

(** rebuilding a series with new coefficients *)
Lemma rebuild : forall coeffs pos factor s dim degree, pos_dim pos s dim degree -> length coeffs = length (points s dim degree) ->
  exists h : series, series_init N Sym sym_1 coeffs pos (Some factor) s = Ok h /\ series_ok h dim /\ s_pos h = pos /\ s_set h = s /\ s_factor h = factor /\ s_coeffs h = coeffs /\
    (forall m, series_index h m <-> index_of s dim degree m) /\ (forall m, series_at h m = coef s dim degree coeffs m).
Proof.
  intros coeffs pos factor s dim degree (P1 & P2 & P3) Hl. rewrite (series_init_ok N Sym sym_1 coeffs pos (Some factor) s dim degree) by first [exact Hl|left; discriminate|repeat split; try assumption; apply P3].
  eexists. split; [reflexivity|]. cbn [s_pos s_set s_factor s_coeffs given].
  split; [split; cbn [s_pos s_set s_degree s_coeffs]; [split; [exact P1|split; [exact P2|apply usable_recovered; exact P3]]|unfold vec_for; rewrite points_recovered by exact P3; exact Hl]|].
  split; [reflexivity|]. split; [reflexivity|]. split; [reflexivity|]. split; [reflexivity|]. unfold series_index, series_at, coef. cbn [s_pos s_set s_degree s_coeffs]. rewrite P1.
  split; [intros m; apply index_of_recovered|]. intros m. rewrite points_recovered by exact P3. reflexivity.
Qed.

Definition addable (p q : position N) (s t : iset) (f g : func Sym) : bool := pos_eqb p q && iset_eqb s t && func_eqb Sym sym_eqb f g.

Theorem add_spec : forall (f g : series) dim, series_ok f dim -> series_ok g dim -> addable (s_pos f) (s_pos g) (s_set f) (s_set g) (s_factor f) (s_factor g) = true -> s_degree f = s_degree g ->
  exists h, series_add f g = Ok h /\ series_ok h dim /\ s_pos h = s_pos f /\ s_set h = s_set f /\ s_factor h = s_factor f /\
    (forall m, series_index h m <-> series_index f m) /\ (forall m, series_index f m -> series_at h m = nadd (series_at f m) (series_at g m)).
Proof.
  intros f g dim [Hf Vf] [Hg Vg] Ha Hd. unfold SeriesModel.series_add. unfold addable in Ha. rewrite Ha. cbn [require bind].
  apply andb_true_iff in Ha as [Ha _]. apply andb_true_iff in Ha as [_ Ha]. apply iset_eqb_eq in Ha. unfold vec_for in *. rewrite <- Ha, <- Hd in Vg.
  unfold np_add. rewrite Vf, Vg, Nat.eqb_refl. cbn [bind].
  destruct (rebuild (map (fun '(x, y) => nadd x y) (combine (s_coeffs f) (s_coeffs g))) (s_pos f) (s_factor f) (s_set f) dim (s_degree f)) as (h & E & H1 & H2 & H3 & H4 & _ & H5 & H6).
  - exact Hf.
  - rewrite map_length, combine_length, Vf, Vg. apply Nat.min_id.
  - exists h. rewrite E. split; [reflexivity|]. split; [exact H1|]. split; [exact H2|]. split; [exact H3|]. split; [exact H4|]. destruct Hf as (P1 & P2 & P3). destruct Hg as (Q1 & _ & _).
    unfold series_index at 2. rewrite P1. split; [exact H5|]. intros m Hm. rewrite H6. unfold series_index in Hm. unfold series_at, coef. rewrite P1, Q1, <- Ha, <- Hd in *. apply value_map2; try assumption. apply points_In; assumption.
Qed.

Theorem add_raises : forall (f g : series), addable (s_pos f) (s_pos g) (s_set f) (s_set g) (s_factor f) (s_factor g) = false \/
  length (s_coeffs f) <> length (s_coeffs g) /\ length (s_coeffs f) <> 1 /\ length (s_coeffs g) <> 1 -> series_add f g = Throw "ValueError".
Proof.
  intros f g H. unfold SeriesModel.series_add. unfold addable in H. destruct (pos_eqb (s_pos f) (s_pos g) && iset_eqb (s_set f) (s_set g) && func_eqb Sym sym_eqb (s_factor f) (s_factor g)); cbn [require bind]; [|reflexivity].
  destruct H as [H|(H1 & H2 & H3)]; [discriminate|]. unfold np_add. apply Nat.eqb_neq in H1. rewrite H1. destruct (s_coeffs f) as [|x [|y l]]; destruct (s_coeffs g) as [|x' [|y' l']]; cbn [length] in *; try reflexivity; try contradiction; lia.
Qed.

(** a series with one coefficient is broadcast *)
Theorem add_broadcast : forall (f g : series) dim, series_ok f dim -> series_ok g dim -> addable (s_pos g) (s_pos f) (s_set g) (s_set f) (s_factor g) (s_factor f) = true -> length (s_coeffs f) = 1 -> length (s_coeffs g) <> 1 ->
  exists h, series_add g f = Ok h /\ (forall m, series_index h m <-> series_index g m) /\ forall m, series_index g m -> series_at h m = nadd (series_at g m) (nth 0 (s_coeffs f) n0).
Proof.
  intros f g dim [Hf Vf] [Hg Vg] Ha L1 L2. unfold SeriesModel.series_add. unfold addable in Ha. rewrite Ha. cbn [require bind]. unfold np_add. rewrite L1. replace (length (s_coeffs g) =? 1) with false by (symmetry; apply Nat.eqb_neq; exact L2).
  destruct (s_coeffs f) as [|x [|y l]] eqn:Ef; try discriminate.
  assert (E0 : match s_coeffs g with [x0] => Ok (map (nadd x0) [x]) | _ => Ok (map (fun x0 => nadd x0 x) (s_coeffs g)) end = Ok (map (fun x0 => nadd x0 x) (s_coeffs g))) by (destruct (s_coeffs g) as [|a [|b l']]; try reflexivity; contradiction).
  rewrite E0. cbn [bind]. destruct (rebuild (map (fun x0 => nadd x0 x) (s_coeffs g)) (s_pos g) (s_factor g) (s_set g) dim (s_degree g)) as (h & E & H1 & H2 & H3 & H4 & _ & H5 & H6).
  - exact Hg.
  - rewrite map_length. exact Vg.
  - exists h. rewrite E. split; [reflexivity|]. destruct Hg as (P1 & P2 & P3). unfold series_index at 2. rewrite P1. split; [exact H5|]. intros m Hm. rewrite H6. unfold series_index in Hm. unfold series_at, coef. rewrite P1 in *. cbn [nth].
    apply (value_map_at _ _ n0 n0 (fun x0 => nadd x0 x)); [apply points_In; assumption|exact Vg].
Qed.

Theorem scale_spec : forall a (f : series) dim, series_ok f dim ->
  exists h, series_scale a f = Ok h /\ series_ok h dim /\ s_pos h = s_pos f /\ s_set h = s_set f /\ s_factor h = s_factor f /\ length (s_coeffs h) = length (s_coeffs f) /\
    (forall m, series_index h m <-> series_index f m) /\ (forall m, series_index f m -> series_at h m = nmul (series_at f m) a).
Proof.
  intros a f dim [Hf Vf]. unfold SeriesModel.series_scale.
  destruct (rebuild (map (fun x => nmul x a) (s_coeffs f)) (s_pos f) (s_factor f) (s_set f) dim (s_degree f)) as (h & E & H1 & H2 & H3 & H4 & H7 & H5 & H6).
  - exact Hf.
  - rewrite map_length. exact Vf.
  - exists h. rewrite E. split; [reflexivity|]. split; [exact H1|]. split; [exact H2|]. split; [exact H3|]. split; [exact H4|]. split; [rewrite H7; apply map_length|]. destruct Hf as (P1 & P2 & P3). unfold series_index at 2. rewrite P1. split; [exact H5|]. intros m Hm. rewrite H6. unfold series_index in Hm. unfold series_at, coef. rewrite P1 in *.
    apply (value_map_at _ _ n0 n0 (fun x => nmul x a)); [apply points_In; assumption|exact Vf].
Qed.

(** same indices, whatever the degree is called *)
Lemma scale_degree : forall a (f h : series) dim, series_ok f dim -> series_scale a f = Ok h -> s_degree h = recovered (s_set f) (s_degree f).
Proof.
  intros a f h dim [Hf Vf] E. unfold SeriesModel.series_scale in E. rewrite (series_init_ok N Sym sym_1 _ (s_pos f) (Some (s_factor f)) (s_set f) dim (s_degree f)) in E by first [exact Hf|left; discriminate|rewrite map_length; exact Vf]. injection E as <-. reflexivity.
Qed.

Theorem add_gen : forall (f g : series) dim, series_ok f dim -> series_ok g dim -> addable (s_pos f) (s_pos g) (s_set f) (s_set g) (s_factor f) (s_factor g) = true -> points (s_set f) dim (s_degree f) = points (s_set f) dim (s_degree g) ->
  exists h, series_add f g = Ok h /\ series_ok h dim /\ s_pos h = s_pos f /\ s_set h = s_set f /\ s_factor h = s_factor f /\
    (forall m, series_index h m <-> series_index f m) /\ (forall m, series_index f m -> series_at h m = nadd (series_at f m) (series_at g m)).
Proof.
  intros f g dim [Hf Vf] [Hg Vg] Ha Hd. unfold SeriesModel.series_add. unfold addable in Ha. rewrite Ha. cbn [require bind].
  apply andb_true_iff in Ha as [Ha _]. apply andb_true_iff in Ha as [_ Ha]. apply iset_eqb_eq in Ha. unfold vec_for in *. rewrite <- Ha, <- Hd in Vg.
  unfold np_add. rewrite Vf, Vg, Nat.eqb_refl. cbn [bind].
  destruct (rebuild (map (fun '(x, y) => nadd x y) (combine (s_coeffs f) (s_coeffs g))) (s_pos f) (s_factor f) (s_set f) dim (s_degree f)) as (h & E & H1 & H2 & H3 & H4 & _ & H5 & H6).
  - exact Hf.
  - rewrite map_length, combine_length, Vf, Vg. apply Nat.min_id.
  - exists h. rewrite E. split; [reflexivity|]. split; [exact H1|]. split; [exact H2|]. split; [exact H3|]. split; [exact H4|]. destruct Hf as (P1 & P2 & P3). destruct Hg as (Q1 & _ & _).
    unfold series_index at 2. rewrite P1. split; [exact H5|]. intros m Hm. rewrite H6. unfold series_index in Hm. unfold series_at, coef. rewrite P1, Q1, <- Ha, <- Hd in *. apply value_map2; try assumption. apply points_In; assumption.
Qed.

Theorem sub_spec : num_laws N -> forall (f g : series) dim, series_ok f dim -> series_ok g dim -> addable (s_pos f) (s_pos g) (s_set f) (s_set g) (s_factor f) (s_factor g) = true -> s_degree f = s_degree g ->
  exists h, series_sub f g = Ok h /\ series_ok h dim /\ s_pos h = s_pos f /\ s_set h = s_set f /\ s_factor h = s_factor f /\
    (forall m, series_index h m <-> series_index f m) /\ (forall m, series_index f m -> series_at h m = nadd (series_at f m) (nopp (series_at g m))).
Proof.
  intros L f g dim Hf Hg Ha Hd. destruct (scale_spec (nopp n1) g dim Hg) as (k & E & K1 & K2 & K3 & K4 & _ & K5 & K6). unfold SeriesModel.series_sub. fold (series_scale (nopp n1) g). rewrite E. cbn [bind].
  assert (Es : s_set f = s_set g) by (unfold addable in Ha; apply andb_true_iff in Ha as [Ha _]; apply andb_true_iff in Ha as [_ Ha]; apply iset_eqb_eq; exact Ha).
  destruct (add_gen f k dim Hf K1) as (h & E2 & H1 & H2 & H3 & H4 & H5 & H6).
  - rewrite K2, K3, K4. exact Ha.
  - rewrite (scale_degree _ _ _ _ Hg E), Es, Hd. symmetry. apply points_recovered. apply Hg.
  - exists h. split; [exact E2|]. split; [exact H1|]. split; [exact H2|]. split; [exact H3|]. split; [exact H4|]. split; [exact H5|]. intros m Hm. rewrite H6 by exact Hm. rewrite K6.
    + f_equal. rewrite (law_mul_comm N L). apply nopp_mul1. exact L.
    + unfold series_index in *. destruct Hf as ((P1 & _) & _). destruct Hg as ((Q1 & _) & _). rewrite Q1, <- Es, <- Hd. rewrite P1 in Hm. exact Hm.
Qed.

(** the product of a variational form with a series *)
Theorem call_spec : forall (v : varf) (f : series) dim, varf_ok v dim -> series_ok f dim -> pos_eqb (v_pos v) (s_pos f) = true -> v_set v = s_set f -> v_degree v = s_degree f ->
  exists h, varf_call v f = Ok h /\ series_ok h dim /\ s_pos h = v_pos v /\ s_set h = v_set v /\ s_factor h = v_factor v /\ (forall m, series_index h m <-> series_index f m) /\
    (forall r, series_index f r -> series_at h r = nsum (map (fun c => nmul (varf_at v r c) (series_at f c)) (points (s_set f) dim (s_degree f)))).
Proof.
  intros v f dim [Hv [M1 M2]] [Hf Vf] Hp Hs Hd. unfold SeriesModel.varf_call. rewrite Hp, Hs, iset_eqb_refl. cbn [andb require bind].
  unfold vec_for in Vf. rewrite Hs, Hd in M1, M2. set (l := points (s_set f) dim (s_degree f)) in *. destruct Hf as (P1 & P2 & P3). assert (Hn : NoDup l) by (apply points_NoDup; exact P3).
  assert (E0 : np_dot N (v_mat v) (s_coeffs f) = Ok (map (fun r => row_dot N (value [] l (v_mat v) r) (s_coeffs f)) l)).
  { unfold np_dot. rewrite <- (value_all _ [] l (v_mat v) Hn M1) at 1. rewrite mapM_map. apply mapM_Ok_map. intros r Hr.
    assert (Hrow : length (value [] l (v_mat v) r) = length l). { rewrite (value_idx _ [] l (v_mat v) r Hn Hr M1). rewrite Forall_forall in M2. apply M2. apply nth_In. rewrite M1. apply idx_lt. exact Hr. }
    rewrite Hrow, Vf, Nat.eqb_refl. reflexivity. }
  rewrite E0. cbn [bind]. destruct Hv as (Q1 & Q2 & Q3). rewrite Hs, Hd in Q3.
  destruct (rebuild (map (fun r => row_dot N (value [] l (v_mat v) r) (s_coeffs f)) l) (v_pos v) (v_factor v) (s_set f) dim (s_degree f)) as (h & E & H1 & H2 & H3 & H4 & _ & H5 & H6).
  - split; [exact Q1|]. split; [exact Q2|exact Q3].
  - apply map_length.
  - exists h. rewrite E. split; [reflexivity|]. split; [exact H1|]. split; [exact H2|]. split; [exact H3|]. split; [exact H4|]. unfold series_index at 2. rewrite P1. split; [exact H5|].
    intros r Hr. rewrite H6. unfold coef. fold l. unfold series_index in Hr. rewrite P1 in Hr. apply (points_In _ _ _ _ P3) in Hr. rewrite value_map by exact Hr.
    unfold row_dot, nsum. f_equal. assert (Hrow : length (value [] l (v_mat v) r) = length l). { rewrite (value_idx _ [] l (v_mat v) r Hn Hr M1). rewrite Forall_forall in M2. apply M2. apply nth_In. rewrite M1. apply idx_lt. exact Hr. }
    rewrite <- (value_all _ n0 l _ Hn Hrow) at 1. rewrite <- (value_all _ n0 l _ Hn Vf) at 1. rewrite combine_self_map, map_map. apply map_ext_in. intros c Hc. unfold varf_at, series_at, entry, coef. rewrite Q1, P1, Hs, Hd. reflexivity.
Qed.

Theorem call_raises : forall (v : varf) (f : series) dim, varf_ok v dim -> pos_eqb (v_pos v) (s_pos f) = false \/ v_set v <> s_set f \/ length (points (v_set v) dim (v_degree v)) <> length (s_coeffs f) -> varf_call v f = Throw "ValueError".
Proof.
  intros v f dim [Hv [M1 M2]] H. unfold SeriesModel.varf_call. destruct (pos_eqb (v_pos v) (s_pos f)); cbn [andb require bind]; [|reflexivity]. destruct H as [H|H]; [discriminate|].
  destruct (iset_eqb (v_set v) (s_set f)) eqn:Es; cbn [require bind]; [|reflexivity]. apply iset_eqb_eq in Es. destruct H as [H|H]; [contradiction|].
  unfold np_dot. destruct (v_mat v) as [|row rest] eqn:Em.
  - exfalso. cbn in M1. destruct Hv as (_ & _ & Q3). destruct (dim_S dim (proj1 Q3)) as [d ->]. rewrite points_spec in M1 by exact Q3. pose proof (spec_list_hd (v_set v) d (v_degree v)) as G.
    assert (Hz : In (repeat 0 (S d)) (spec_list (v_set v) d (v_degree v))). { apply in_spec_list. split; [apply repeat_length|]. destruct (v_set v); cbn [in_set].
      - assert (Z : forall n, list_sum (repeat 0 n) = 0) by (induction n; [reflexivity|exact IHn]). rewrite Z. lia.
      - apply Forall_forall. intros x Hx. apply repeat_spec in Hx. lia.
      - assert (Z : forall n, cross_prod (repeat 0 n) = 1) by (induction n; [reflexivity|]; unfold cross_prod in *; cbn [repeat map fold_right]; rewrite IHn; reflexivity). rewrite Z. lia.
      - assert (Z : forall n, cross_prod (repeat 0 n) = 1) by (induction n; [reflexivity|]; unfold cross_prod in *; cbn [repeat map fold_right]; rewrite IHn; reflexivity). rewrite Z. lia.
      - cbn [repeat]. split; [lia|]. apply Forall_forall. intros x Hx. apply repeat_spec in Hx. lia. }
    destruct (spec_list (v_set v) d (v_degree v)); [destruct Hz|discriminate].
  - cbn [mapM]. inversion M2 as [|? ? Hr _]; subst. rewrite Hr. replace (_ =? _) with false by (symmetry; apply Nat.eqb_neq; exact H). reflexivity.
Qed.

(** rebuilding a variational form *)
Lemma vrebuild : forall mat pos factor s dim degree, pos_dim pos s dim degree -> mat_wf (length (points s dim degree)) (length (points s dim degree)) mat ->
  exists h : varf, varf_init N Sym sym_1 mat pos (Some factor) s = Ok h /\ varf_ok h dim /\ v_pos h = pos /\ v_set h = s /\ v_factor h = factor /\ v_degree h = recovered s degree /\
    (forall m, varf_index h m <-> index_of s dim degree m) /\ (forall r c, varf_at h r c = entry s dim degree mat r c).
Proof.
  intros mat pos factor s dim degree (P1 & P2 & P3) [Hl Hw]. rewrite (varf_init_ok N Sym sym_1 mat pos (Some factor) s dim degree) by first [exact Hl|left; discriminate|repeat split; try assumption; apply P3].
  eexists. split; [reflexivity|]. cbn [v_pos v_set v_factor v_mat v_degree given].
  split; [split; cbn [v_pos v_set v_degree v_mat]; [split; [exact P1|split; [exact P2|apply usable_recovered; exact P3]]|unfold mat_for; rewrite points_recovered by exact P3; split; assumption]|].
  split; [reflexivity|]. split; [reflexivity|]. split; [reflexivity|]. split; [reflexivity|]. unfold varf_index, varf_at, entry. cbn [v_pos v_set v_degree v_mat]. rewrite P1.
  split; [intros m; apply index_of_recovered|]. intros r c. rewrite points_recovered by exact P3. reflexivity.
Qed.

Lemma value_row : forall l (A : list (list N)) r, NoDup l -> In r l -> mat_wf (length l) (length l) A -> length (value [] l A r) = length l.
Proof. intros l A r Hn Hr [M1 M2]. rewrite (value_idx _ [] l A r Hn Hr M1). rewrite Forall_forall in M2. apply M2. apply nth_In. rewrite M1. apply idx_lt. exact Hr. Qed.

Theorem vadd_full : forall (v w : varf) dim, varf_ok v dim -> varf_ok w dim -> addable (v_pos v) (v_pos w) (v_set v) (v_set w) (v_factor v) (v_factor w) = true -> points (v_set v) dim (v_degree v) = points (v_set v) dim (v_degree w) ->
  exists h, varf_add v w = Ok h /\ varf_ok h dim /\ v_pos h = v_pos v /\ v_set h = v_set v /\ v_factor h = v_factor v /\ v_degree h = recovered (v_set v) (v_degree v) /\
    (forall m, varf_index h m <-> varf_index v m) /\ (forall r c, varf_index v r -> varf_index v c -> varf_at h r c = nadd (varf_at v r c) (varf_at w r c)).
Proof.
  intros v w dim [Hv Mv] [Hw Mw] Ha Hd. unfold SeriesModel.varf_add. unfold addable in Ha. rewrite Ha. cbn [require bind].
  apply andb_true_iff in Ha as [Ha _]. apply andb_true_iff in Ha as [_ Ha]. apply iset_eqb_eq in Ha. unfold mat_for in *. rewrite <- Ha, <- Hd in Mw. set (l := points (v_set v) dim (v_degree v)) in *.
  destruct Hv as (P1 & P2 & P3). destruct Hw as (Q1 & Q2 & Q3). assert (Hn : NoDup l) by (apply points_NoDup; exact P3).
  assert (E0 : np_add_mat N (v_mat v) (v_mat w) = Ok (map (fun r => map (fun '(x, y) => nadd x y) (combine (value [] l (v_mat v) r) (value [] l (v_mat w) r))) l)).
  { unfold np_add_mat. rewrite (proj1 Mv), (proj1 Mw), Nat.eqb_refl. rewrite <- (value_all _ [] l (v_mat v) Hn (proj1 Mv)) at 1. rewrite <- (value_all _ [] l (v_mat w) Hn (proj1 Mw)) at 1. rewrite combine_self_map, mapM_map.
    apply mapM_Ok_map. intros r Hr. unfold np_add. rewrite !value_row, Nat.eqb_refl by assumption. reflexivity. }
  rewrite E0. cbn [bind]. destruct (vrebuild (map (fun r => map (fun '(x, y) => nadd x y) (combine (value [] l (v_mat v) r) (value [] l (v_mat w) r))) l) (v_pos v) (v_factor v) (v_set v) dim (v_degree v)) as (h & E & H1 & H2 & H3 & H4 & H7 & H5 & H6).
  - split; [exact P1|]. split; [exact P2|exact P3].
  - split; [apply map_length|]. apply Forall_forall. intros row Hrow. apply in_map_iff in Hrow as [r [<- Hr]]. rewrite map_length, combine_length, !value_row by assumption. apply Nat.min_id.
  - exists h. rewrite E. split; [reflexivity|]. split; [exact H1|]. split; [exact H2|]. split; [exact H3|]. split; [exact H4|]. split; [exact H7|]. unfold varf_index at 2. rewrite P1. split; [exact H5|].
    intros r c Hr Hc. rewrite H6. unfold varf_index in Hr, Hc. rewrite P1 in Hr, Hc. apply (points_In _ _ _ _ P3) in Hr. apply (points_In _ _ _ _ P3) in Hc. unfold varf_at, entry. rewrite P1, Q1, <- Ha, <- Hd. fold l. unfold mvalue.
    rewrite value_map by exact Hr. apply value_map2; [exact Hc|apply value_row; assumption|apply value_row; assumption].
Qed.
Theorem vadd_gen : forall (v w : varf) dim, varf_ok v dim -> varf_ok w dim -> addable (v_pos v) (v_pos w) (v_set v) (v_set w) (v_factor v) (v_factor w) = true -> points (v_set v) dim (v_degree v) = points (v_set v) dim (v_degree w) ->
  exists h, varf_add v w = Ok h /\ varf_ok h dim /\ v_pos h = v_pos v /\ v_set h = v_set v /\ v_factor h = v_factor v /\
    (forall m, varf_index h m <-> varf_index v m) /\ (forall r c, varf_index v r -> varf_index v c -> varf_at h r c = nadd (varf_at v r c) (varf_at w r c)).
Proof.
  intros v w dim Hv Hw Ha Hd. destruct (vadd_full v w dim Hv Hw Ha Hd) as (h & E & H1 & H2 & H3 & H4 & _ & H5). exists h. auto 8.
Qed.

Theorem vscale_spec : forall a (v : varf) dim, varf_ok v dim ->
  exists h, varf_scale a v = Ok h /\ varf_ok h dim /\ v_pos h = v_pos v /\ v_set h = v_set v /\ v_factor h = v_factor v /\ v_degree h = recovered (v_set v) (v_degree v) /\
    (forall m, varf_index h m <-> varf_index v m) /\ (forall r c, varf_index v r -> varf_index v c -> varf_at h r c = nmul (varf_at v r c) a).
Proof.
  intros a v dim [Hv Mv]. unfold SeriesModel.varf_scale. unfold mat_for in Mv. destruct Hv as (P1 & P2 & P3). set (l := points (v_set v) dim (v_degree v)) in *. assert (Hn : NoDup l) by (apply points_NoDup; exact P3).
  destruct (vrebuild (map (map (fun x => nmul x a)) (v_mat v)) (v_pos v) (v_factor v) (v_set v) dim (v_degree v)) as (h & E & H1 & H2 & H3 & H4 & H7 & H5 & H6).
  - split; [exact P1|]. split; [exact P2|exact P3].
  - split; [rewrite map_length; apply Mv|]. apply Forall_forall. intros row Hrow. apply in_map_iff in Hrow as [r [<- Hr]]. rewrite map_length. destruct Mv as [_ Mv]. rewrite Forall_forall in Mv. apply Mv. exact Hr.
  - exists h. rewrite E. split; [reflexivity|]. split; [exact H1|]. split; [exact H2|]. split; [exact H3|]. split; [exact H4|]. split; [exact H7|]. unfold varf_index at 2. rewrite P1. split; [exact H5|].
    intros r c Hr Hc. rewrite H6. unfold varf_index in Hr, Hc. rewrite P1 in Hr, Hc. apply (points_In _ _ _ _ P3) in Hr. apply (points_In _ _ _ _ P3) in Hc. unfold varf_at, entry. rewrite P1. fold l. unfold mvalue.
    rewrite (value_map_at _ _ [] [] (map (fun x => nmul x a)) l (v_mat v) r Hr (proj1 Mv)). apply (value_map_at _ _ n0 n0 (fun x => nmul x a)); [exact Hc|apply value_row; assumption].
Qed.

(** application is linear, in exact arithmetic *)
Lemma nsum_cons : num_laws N -> forall (x : N) l, nsum (x :: l) = nadd x (nsum l).
Proof.
  intros L x l. unfold nsum. cbn [fold_left]. rewrite (law_add_0 N L). generalize x. clear x. intros x.
  assert (G : forall (l : list N) (a b : N), fold_left nadd l (nadd a b) = nadd a (fold_left nadd l b)).
  { induction l0 as [|y l0 IH]; intros a b; [reflexivity|]. cbn [fold_left]. rewrite <- (law_add_assoc N L). apply IH. }
  rewrite <- (G l x n0). rewrite (law_add_comm N L x n0), (law_add_0 N L). reflexivity.
Qed.
Lemma nsum_linear : num_laws N -> forall B (k f g : B -> N) l, nsum (map (fun c => nmul (k c) (nadd (f c) (g c))) l) = nadd (nsum (map (fun c => nmul (k c) (f c)) l)) (nsum (map (fun c => nmul (k c) (g c)) l)).
Proof.
  intros L B k f g. induction l as [|x l IH]; [symmetry; apply (law_add_0 N L)|]. cbn [map]. rewrite !nsum_cons by exact L. rewrite IH. rewrite (law_mul_comm N L (k x) (nadd _ _)), (law_distr N L), (law_mul_comm N L (f x)), (law_mul_comm N L (g x)).
  rewrite <- !(law_add_assoc N L). f_equal. rewrite !(law_add_assoc N L). f_equal. apply (law_add_comm N L).
Qed.
Lemma nsum_scale : num_laws N -> forall B (k f : B -> N) a l, nsum (map (fun c => nmul (k c) (nmul (f c) a)) l) = nmul (nsum (map (fun c => nmul (k c) (f c)) l)) a.
Proof.
  intros L B k f a. induction l as [|x l IH]; [symmetry; apply (law_mul_0 N L)|]. cbn [map]. rewrite !nsum_cons by exact L. rewrite IH, (law_distr N L), (law_mul_assoc N L). reflexivity.
Qed.

Lemma call_gen : forall (v : varf) (f : series) dim, varf_ok v dim -> series_ok f dim -> pos_eqb (v_pos v) (s_pos f) = true -> v_set v = s_set f -> points (v_set v) dim (v_degree v) = points (v_set v) dim (s_degree f) ->
  exists h, varf_call v f = Ok h /\ (forall m, series_index h m <-> series_index f m) /\
    (forall r, series_index f r -> series_at h r = nsum (map (fun c => nmul (varf_at v r c) (series_at f c)) (points (v_set v) dim (v_degree v)))).
Proof.
  intros v f dim [Hv [M1 M2]] [Hf Vf] Hp Hs Hd. unfold SeriesModel.varf_call. rewrite Hp, Hs, iset_eqb_refl. cbn [andb require bind].
  unfold vec_for in Vf. rewrite Hs in Hd. rewrite Hs, Hd in M1, M2. set (l := points (s_set f) dim (s_degree f)) in *. destruct Hf as (P1 & P2 & P3). assert (Hn : NoDup l) by (apply points_NoDup; exact P3).
  assert (E0 : np_dot N (v_mat v) (s_coeffs f) = Ok (map (fun r => row_dot N (value [] l (v_mat v) r) (s_coeffs f)) l)).
  { unfold np_dot. rewrite <- (value_all _ [] l (v_mat v) Hn M1) at 1. rewrite mapM_map. apply mapM_Ok_map. intros r Hr. rewrite (value_row l (v_mat v) r Hn Hr (conj M1 M2)), Vf, Nat.eqb_refl. reflexivity. }
  rewrite E0. cbn [bind]. destruct Hv as (Q1 & Q2 & Q3).
  destruct (rebuild (map (fun r => row_dot N (value [] l (v_mat v) r) (s_coeffs f)) l) (v_pos v) (v_factor v) (s_set f) dim (s_degree f)) as (h & E & H1 & H2 & H3 & H4 & _ & H5 & H6).
  - split; [exact Q1|]. split; [exact Q2|exact P3].
  - apply map_length.
  - exists h. rewrite E. split; [reflexivity|]. unfold series_index at 2. rewrite P1. split; [exact H5|].
    intros r Hr. rewrite H6. unfold coef. fold l. unfold series_index in Hr. rewrite P1 in Hr. apply (points_In _ _ _ _ P3) in Hr. rewrite value_map by exact Hr. rewrite Hd.
    unfold row_dot, nsum. f_equal. pose proof (value_row l (v_mat v) r Hn Hr (conj M1 M2)) as Hrow.
    rewrite <- (value_all _ n0 l _ Hn Hrow) at 1. rewrite <- (value_all _ n0 l _ Hn Vf) at 1. rewrite combine_self_map, map_map. apply map_ext_in. intros c Hc. unfold varf_at, series_at, entry, coef. rewrite Q1, P1, Hs, Hd. reflexivity.
Qed.

Theorem call_linear : num_laws N -> forall (v : varf) (f g h vf vg vh : series) dim, varf_ok v dim -> series_ok f dim -> series_ok g dim ->
  pos_eqb (v_pos v) (s_pos f) = true -> pos_eqb (v_pos v) (s_pos g) = true -> v_set v = s_set f -> v_degree v = s_degree f -> s_degree f = s_degree g ->
  addable (s_pos f) (s_pos g) (s_set f) (s_set g) (s_factor f) (s_factor g) = true ->
  series_add f g = Ok h -> varf_call v f = Ok vf -> varf_call v g = Ok vg -> varf_call v h = Ok vh ->
  forall m, series_index f m -> series_at vh m = nadd (series_at vf m) (series_at vg m).
Proof.
  intros L v f g h vf vg vh dim Hv Hf Hg Pf Pg Hs Hd Hd' Ha Eh Ef Eg Evh m Hm.
  assert (Es : s_set f = s_set g) by (unfold addable in Ha; apply andb_true_iff in Ha as [Ha' _]; apply andb_true_iff in Ha' as [_ Ha']; apply iset_eqb_eq; exact Ha').
  destruct (add_spec f g dim Hf Hg Ha Hd') as (h' & E' & K1 & K2 & K3 & K4 & K5 & K6). rewrite Eh in E'. injection E' as <-.
  assert (Dh : points (v_set v) dim (v_degree v) = points (v_set v) dim (s_degree h)).
  { unfold SeriesModel.series_add in Eh. unfold addable in Ha. rewrite Ha in Eh. cbn [require bind] in Eh. unfold np_add in Eh. destruct Hf as [Hf Vf], Hg as [Hg Vg]. unfold vec_for in *. rewrite <- Es, <- Hd' in Vg. rewrite Vf, Vg, Nat.eqb_refl in Eh. cbn [bind] in Eh.
    rewrite (series_init_ok N Sym sym_1 _ (s_pos f) (Some (s_factor f)) (s_set f) dim (s_degree f)) in Eh by first [exact Hf|left; discriminate|rewrite map_length, combine_length, Vf, Vg; apply Nat.min_id]. injection Eh as <-. cbn [s_degree]. rewrite Hs, Hd. symmetry. apply points_recovered. apply Hf. }
  destruct (call_gen v f dim Hv Hf Pf Hs ltac:(rewrite Hd; reflexivity)) as (x & Ex & X1 & X2). rewrite Ef in Ex. injection Ex as <-.
  destruct (call_gen v g dim Hv Hg Pg ltac:(congruence) ltac:(rewrite Hd, Hd'; reflexivity)) as (y & Ey & Y1 & Y2). rewrite Eg in Ey. injection Ey as <-.
  destruct (call_gen v h dim Hv K1 ltac:(rewrite K2; exact Pf) ltac:(congruence) Dh) as (z & Ez & Z1 & Z2). rewrite Evh in Ez. injection Ez as <-.
  assert (Hmg : forall m, series_index f m <-> series_index g m) by (intros k; unfold series_index; destruct Hf as ((-> & _) & _), Hg as ((-> & _) & _); rewrite Es, Hd'; reflexivity).
  rewrite Z2 by (apply K5; exact Hm). rewrite X2 by exact Hm. rewrite Y2 by (apply Hmg; exact Hm). rewrite <- (nsum_linear L). f_equal. apply map_ext_in. intros c Hc. f_equal. apply K6.
  unfold series_index. destruct Hf as ((P1 & _ & P3) & _). rewrite P1. apply (points_In _ _ _ _ P3). rewrite <- Hs, <- Hd. exact Hc.
Qed.

Theorem call_scale : num_laws N -> forall a (v : varf) (f h vf vh : series) dim, varf_ok v dim -> series_ok f dim -> pos_eqb (v_pos v) (s_pos f) = true -> v_set v = s_set f -> v_degree v = s_degree f ->
  series_scale a f = Ok h -> varf_call v f = Ok vf -> varf_call v h = Ok vh -> forall m, series_index f m -> series_at vh m = nmul (series_at vf m) a.
Proof.
  intros L a v f h vf vh dim Hv Hf Pf Hs Hd Eh Ef Evh m Hm. destruct (scale_spec a f dim Hf) as (h' & E' & K1 & K2 & K3 & K4 & _ & K5 & K6). rewrite Eh in E'. injection E' as <-.
  destruct (call_gen v f dim Hv Hf Pf Hs ltac:(rewrite Hd; reflexivity)) as (x & Ex & X1 & X2). rewrite Ef in Ex. injection Ex as <-.
  destruct (call_gen v h dim Hv K1 ltac:(rewrite K2; exact Pf) ltac:(congruence)) as (z & Ez & Z1 & Z2). { rewrite (scale_degree _ _ _ _ Hf Eh), Hs, Hd. symmetry. apply points_recovered. apply Hf. }
  rewrite Evh in Ez. injection Ez as <-. rewrite Z2 by (apply K5; exact Hm). rewrite X2 by exact Hm. rewrite <- (nsum_scale L). f_equal. apply map_ext_in. intros c Hc. f_equal. apply K6.
  unfold series_index. destruct Hf as ((P1 & _ & P3) & _). rewrite P1. apply (points_In _ _ _ _ P3). rewrite <- Hs, <- Hd. exact Hc.
Qed.
End Series.
