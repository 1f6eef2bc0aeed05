(** C46-C50 and C60 in the vocabulary of SeriesSpec, and the witnesses. *)
From Coq Require Import String List Bool Arith ZArith Sorted Lia.
From Verif Require Import Base IndexModel Spec Num LinSpec PyBase PosModel PosSpec PosFacts SeriesModel SeriesSpec SeriesFacts SeriesFacts2 SeriesFacts3 LinBase.
Import ListNotations.
Local Open Scope string_scope. Local Open Scope list_scope. Local Open Scope nat_scope.

Section Series.
Variable N : num.
Variable Sym : Type.
Variable sym_eqb : Sym -> Sym -> bool.
Variable sym_1 : Sym.
Variable pos_eqb : position N -> position N -> bool.
Notation series := (series N Sym).
Notation varf := (varf N Sym).
Notation addable := (addable N Sym sym_eqb pos_eqb).
Notation compatible := (compatible pos_eqb sym_eqb).

Lemma iset_eqb_iff : forall s t, iset_eqb s t = true <-> s = t.
Proof. intros s t. split; [destruct s, t; cbn; congruence|intros <-; destruct s; reflexivity]. Qed.
Lemma addable_iff : forall p q s t f g, addable p q s t f g = true <-> compatible p q s t f g.
Proof.
  intros. unfold SeriesFacts3.addable, SeriesSpec.compatible, func_eqb. rewrite !andb_true_iff, iset_eqb_iff. rewrite nats_eqb_eq. intuition.
Qed.
Lemma addable_not : forall p q s t f g, ~ compatible p q s t f g -> addable p q s t f g = false.
Proof. intros. destruct (addable p q s t f g) eqn:E; [|reflexivity]. apply addable_iff in E. contradiction. Qed.

Definition compat_s (f g : series) := compatible (s_pos f) (s_pos g) (s_set f) (s_set g) (s_factor f) (s_factor g).
Definition compat_v (f g : varf) := compatible (v_pos f) (v_pos g) (v_set f) (v_set g) (v_factor f) (v_factor g).

Theorem add_ok : forall (f g : series) dim, series_ok f dim -> series_ok g dim -> compatible (s_pos f) (s_pos g) (s_set f) (s_set g) (s_factor f) (s_factor g) -> s_degree f = s_degree g ->
  exists h, series_add N Sym sym_eqb sym_1 pos_eqb f g = Ok h /\ series_ok h dim /\ s_pos h = s_pos f /\ s_set h = s_set f /\ s_factor h = s_factor f /\
    (forall m, series_index h m <-> series_index f m) /\ (forall m, series_index f m -> series_at h m = nadd (series_at f m) (series_at g m)).
Proof. intros f g dim Hf Hg Hc. apply add_spec; try assumption. apply addable_iff. exact Hc. Qed.

Theorem sub_ok : num_laws N -> forall (f g : series) dim, series_ok f dim -> series_ok g dim -> compatible (s_pos f) (s_pos g) (s_set f) (s_set g) (s_factor f) (s_factor g) -> s_degree f = s_degree g ->
  exists h, series_sub N Sym sym_eqb sym_1 pos_eqb f g = Ok h /\ series_ok h dim /\ s_pos h = s_pos f /\ s_set h = s_set f /\ s_factor h = s_factor f /\
    (forall m, series_index h m <-> series_index f m) /\ (forall m, series_index f m -> series_at h m = nadd (series_at f m) (nopp (series_at g m))).
Proof. intros L f g dim Hf Hg Hc. apply sub_spec; try assumption. apply addable_iff. exact Hc. Qed.

Theorem add_throws : forall (f g : series), ~ compatible (s_pos f) (s_pos g) (s_set f) (s_set g) (s_factor f) (s_factor g) \/
  length (s_coeffs f) <> length (s_coeffs g) /\ length (s_coeffs f) <> 1 /\ length (s_coeffs g) <> 1 -> series_add N Sym sym_eqb sym_1 pos_eqb f g = Throw "ValueError".
Proof. intros f g [H|H]; apply add_raises; [left; apply addable_not; exact H|right; exact H]. Qed.

Theorem vadd_ok : forall (v w : varf) dim, varf_ok v dim -> varf_ok w dim -> compatible (v_pos v) (v_pos w) (v_set v) (v_set w) (v_factor v) (v_factor w) -> v_degree v = v_degree w ->
  exists h, varf_add N Sym sym_eqb sym_1 pos_eqb v w = Ok h /\ varf_ok h dim /\ v_pos h = v_pos v /\ v_set h = v_set v /\ v_factor h = v_factor v /\
    (forall m, varf_index h m <-> varf_index v m) /\ (forall r c, varf_index v r -> varf_index v c -> varf_at h r c = nadd (varf_at v r c) (varf_at w r c)).
Proof. intros f g dim Hf Hg Hc Hd. apply vadd_gen; try assumption; [apply addable_iff; exact Hc|rewrite Hd; reflexivity]. Qed.

Theorem vadd_throws : forall (v w : varf), ~ compatible (v_pos v) (v_pos w) (v_set v) (v_set w) (v_factor v) (v_factor w) -> varf_add N Sym sym_eqb sym_1 pos_eqb v w = Throw "ValueError".
Proof. intros v w H. apply addable_not in H. unfold SeriesFacts3.addable in H. unfold varf_add. rewrite H. reflexivity. Qed.

Theorem broadcast_ok : forall (f g : series) dim, series_ok f dim -> series_ok g dim -> compatible (s_pos g) (s_pos f) (s_set g) (s_set f) (s_factor g) (s_factor f) -> length (s_coeffs f) = 1 -> length (s_coeffs g) <> 1 ->
  exists h, series_add N Sym sym_eqb sym_1 pos_eqb g f = Ok h /\ (forall m, series_index h m <-> series_index g m) /\ forall m, series_index g m -> series_at h m = nadd (series_at g m) (nth 0 (s_coeffs f) n0).
Proof. intros f g dim Hf Hg Hc. apply add_broadcast with (dim := dim); try assumption. apply addable_iff. exact Hc. Qed.

Theorem call_adds : num_laws N -> forall (v : varf) (f g h vf vg vh : series) dim, varf_ok v dim -> series_ok f dim -> series_ok g dim ->
  pos_eqb (v_pos v) (s_pos f) = true -> pos_eqb (v_pos v) (s_pos g) = true -> v_set v = s_set f -> v_degree v = s_degree f -> s_degree f = s_degree g ->
  compatible (s_pos f) (s_pos g) (s_set f) (s_set g) (s_factor f) (s_factor g) ->
  series_add N Sym sym_eqb sym_1 pos_eqb f g = Ok h -> varf_call N Sym sym_1 pos_eqb v f = Ok vf -> varf_call N Sym sym_1 pos_eqb v g = Ok vg -> varf_call N Sym sym_1 pos_eqb v h = Ok vh ->
  forall m, series_index f m -> series_at vh m = nadd (series_at vf m) (series_at vg m).
Proof. intros L v f g h vf vg vh dim H1 H2 H3 H4 H5 H6 H7 H8 H9. apply (call_linear N Sym sym_eqb sym_1 pos_eqb L v f g h vf vg vh dim); try assumption. apply addable_iff. exact H9. Qed.

Theorem vscale_ok : forall a (v : varf) dim, varf_ok v dim ->
  exists h, varf_scale N Sym sym_1 a v = Ok h /\ varf_ok h dim /\ v_pos h = v_pos v /\ v_set h = v_set v /\ v_factor h = v_factor v /\
    (forall m, varf_index h m <-> varf_index v m) /\ (forall r c, varf_index v r -> varf_index v c -> varf_at h r c = nmul (varf_at v r c) a).
Proof. intros a v dim H. destruct (vscale_spec N Sym sym_1 a v dim H) as (h & E & H1 & H2 & H3 & H4 & _ & H5). exists h. auto 7. Qed.
End Series.

(** Concrete objects *)
Definition pos_n (dim : nat) : position num_Z := @Pos num_Z (seq 0 dim) (repeat 0%Z dim) (eye num_Z dim) (repeat "hermite" dim) true.
Definition deg_of (s : iset) (dim degree : nat) : nat := length (points s dim degree).
Definition vec_n (s : iset) (dim degree : nat) : list num_Z := map (fun i => Z.of_nat (i + 1)) (seq 0 (deg_of s dim degree)).
Definition mat_n (s : iset) (dim degree : nat) : list (list num_Z) := map (fun i => map (fun j => Z.of_nat (100 * i + j)) (seq 0 (deg_of s dim degree))) (seq 0 (deg_of s dim degree)).
(** a series and a variational form on [dim] directions; the factor is the expression number 7 *)
Definition ser_n (s : iset) (dim degree : nat) : series num_Z nat := @Ser num_Z nat (vec_n s dim degree) (pos_n dim) s degree (Fn 7 (seq 0 dim)).
Definition varf_n (s : iset) (dim degree : nat) : varf num_Z nat := @Vf num_Z nat (mat_n s dim degree) (pos_n dim) s degree (Fn 7 (seq 0 dim)).
Lemma pos_n_ok : forall s dim degree, usable s dim degree -> pos_dim (pos_n dim) s dim degree.
Proof. intros s dim degree H. split; [apply seq_length|]. split; [apply repeat_length|exact H]. Qed.
Lemma ser_n_ok : forall s dim degree, usable s dim degree -> series_ok (ser_n s dim degree) dim.
Proof. intros s dim degree H. split; [apply pos_n_ok; exact H|]. unfold vec_for, ser_n, vec_n, deg_of. cbn [s_coeffs s_set s_degree]. rewrite map_length, seq_length. reflexivity. Qed.
Lemma varf_n_ok : forall s dim degree, usable s dim degree -> varf_ok (varf_n s dim degree) dim.
Proof.
  intros s dim degree H. split; [apply pos_n_ok; exact H|]. unfold mat_for, mat_wf, varf_n, mat_n, deg_of. cbn [v_mat v_set v_degree]. split; [rewrite map_length, seq_length; reflexivity|].
  apply Forall_forall. intros row Hr. apply in_map_iff in Hr as [i [<- _]]. rewrite map_length, seq_length. reflexivity.
Qed.
Definition any_pos : position num_Z -> position num_Z -> bool := fun _ _ => true.

Lemma vsub_nc : exists w, varf_subdegree num_Z nat 1 (varf_n CrossNc 2 3) 2 = Ok w /\ exists r c, varf_index w r /\ varf_index w c /\ varf_at w r c <> varf_at (varf_n CrossNc 2 3) r c.
Proof.
  eexists. split; [vm_compute; reflexivity|]. exists [0; 0], [1; 2]. split; [split; [reflexivity|cbn; lia]|]. split; [split; [reflexivity|cbn; lia]|]. vm_compute. discriminate.
Qed.
Theorem varf_subdegree_nc_refuted : ~ forall (v : varf num_Z nat) dim degree w, varf_ok v dim -> degree <= v_degree v -> varf_subdegree num_Z nat 1 v degree = Ok w ->
  forall r c, varf_index w r -> varf_index w c -> varf_at w r c = varf_at v r c.
Proof.
  intros H. destruct vsub_nc as (w & E & r & c & Hr & Hc & Hn). apply Hn. apply (H (varf_n CrossNc 2 3) 2 2 w); try assumption; [apply varf_n_ok; apply usable_dim4; lia|cbn; lia].
Qed.
Theorem to_cross_factor_refuted : ~ forall (f g : series num_Z nat) dim degree, series_ok f dim -> series_to_cross num_Z nat 1 f degree = Ok g -> s_factor g = s_factor f.
Proof.
  intros H. destruct (to_cross_spec num_Z nat 1 (ser_n Triangle 2 3) 2 2) as (g & E & _ & _ & _ & _ & F & _); [apply ser_n_ok; apply usable_dim4; lia|reflexivity|cbn; lia|lia|repeat constructor|].
  specialize (H (ser_n Triangle 2 3) g 2 2 ltac:(apply ser_n_ok; apply usable_dim4; lia) E). rewrite F in H. unfold ser_n in H. cbn [s_factor] in H. discriminate H.
Qed.
Theorem to_cross_guard_refuted : ~ forall (f : series num_Z nat) dim degree, series_ok f dim -> s_set f = Triangle -> degree + dim <= s_degree f + 1 -> exists g, series_to_cross num_Z nat 1 f degree = Ok g.
Proof.
  intros H. destruct (H (ser_n Triangle 2 1) 2 0) as [g E]; [apply ser_n_ok; apply usable_dim4; lia|reflexivity|cbn; lia|]. rewrite (to_cross_degree0 num_Z nat 1 _ 2) in E; [discriminate|apply ser_n_ok; apply usable_dim4; lia|reflexivity|reflexivity].
Qed.
(** a position without directions has dimension 0: the number of coefficients is not checked *)
Theorem series_dim0_refuted : ~ forall (coeffs : list num_Z) pos (factor : option (func nat)) s f, series_init num_Z nat 1 coeffs pos factor s = Ok f -> p_dirs pos = [] -> length coeffs = 1.
Proof.
  intros H. specialize (H [3%Z; 4%Z] (pos_n 0) None Triangle). cbn in H. specialize (H _ eq_refl eq_refl). discriminate.
Qed.
Theorem broadcast_refuted : ~ forall (f g h : series num_Z nat) dim, series_ok f dim -> series_ok g dim -> series_add num_Z nat Nat.eqb 1 any_pos f g = Ok h -> s_degree f = s_degree g.
Proof.
  intros H. destruct (broadcast_ok num_Z nat Nat.eqb 1 any_pos (ser_n Triangle 2 0) (ser_n Triangle 2 2) 2) as (h & E & _); try reflexivity; try (apply ser_n_ok; apply usable_dim4; lia); [repeat split|vm_compute; discriminate|].
  specialize (H (ser_n Triangle 2 2) (ser_n Triangle 2 0) h 2 ltac:(apply ser_n_ok; apply usable_dim4; lia) ltac:(apply ser_n_ok; apply usable_dim4; lia) E). unfold ser_n, varf_n in H. cbn [s_factor v_factor s_degree] in H. discriminate H.
Qed.
(** the factor of the series is not looked at when a variational form is applied *)
Theorem call_factor_refuted : ~ forall (v : varf num_Z nat) (f g : series num_Z nat) dim, varf_ok v dim -> series_ok f dim -> varf_call num_Z nat 1 any_pos v f = Ok g -> s_factor f = v_factor v.
Proof.
  intros H. destruct (call_spec num_Z nat 1 any_pos (varf_n Triangle 2 2) (@Ser num_Z nat (vec_n Triangle 2 2) (pos_n 2) Triangle 2 (Fn 8 [0; 1])) 2) as (h & E & _); try reflexivity; [apply varf_n_ok; apply usable_dim4; lia|apply (ser_n_ok Triangle 2 2); apply usable_dim4; lia|].
  specialize (H (varf_n Triangle 2 2) (@Ser num_Z nat (vec_n Triangle 2 2) (pos_n 2) Triangle 2 (Fn 8 [0; 1])) h 2 ltac:(apply varf_n_ok; apply usable_dim4; lia) ltac:(apply (ser_n_ok Triangle 2 2); apply usable_dim4; lia) E). unfold ser_n, varf_n in H. cbn [s_factor v_factor s_degree] in H. discriminate H.
Qed.
