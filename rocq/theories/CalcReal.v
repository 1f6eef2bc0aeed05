(** transform.cpp over the reals: tables, quadrature sums. *)
From Coq Require Import String List Bool Arith ZArith Lia Reals Lra.
From Verif Require Import Base Lists IndexModel Spec Machine IndexSet Grid Cross Degree Num Fnum LinModel LinSpec LinBase MatBase Tensorize Facts1 Facts2 CalcModel CalcSpec CalcBase CalcHermite CalcTransform.
Import ListNotations.
Local Open Scope R_scope.

(** * sums and products *)
Lemma rsum_app : forall l1 l2, rsum (l1 ++ l2) = rsum l1 + rsum l2.
Proof. induction l1 as [|x l1 IH]; intros l2; cbn [app rsum fold_right]; [fold (rsum l2); lra|]. fold (rsum (l1 ++ l2)) (rsum l1). rewrite IH. lra. Qed.
Lemma rsum_cons : forall x l, rsum (x :: l) = x + rsum l.
Proof. reflexivity. Qed.
Lemma rprod_cons : forall x l, rprod (x :: l) = x * rprod l.
Proof. reflexivity. Qed.
Lemma rprod_app : forall l1 l2, rprod (l1 ++ l2) = rprod l1 * rprod l2.
Proof. induction l1 as [|x l1 IH]; intros l2; cbn [app]; rewrite ?rprod_cons, ?IH; [unfold rprod at 2; cbn; lra|]. lra. Qed.

Lemma fold_left_rsum : forall A (g : A -> R) l a, fold_left (fun o x => o + g x) l a = a + rsum (map g l).
Proof. intros A g. induction l as [|x l IH]; intros a; cbn [fold_left map]; [cbn; lra|]. rewrite IH, rsum_cons. lra. Qed.
Lemma fold_left_rprod : forall A (g : A -> R) l a, fold_left (fun o x => o * g x) l a = a * rprod (map g l).
Proof. intros A g. induction l as [|x l IH]; intros a; cbn [fold_left map]; [cbn; lra|]. rewrite IH, rprod_cons. lra. Qed.

Lemma fold_left_ext : forall A B (f g : A -> B -> A) l a, (forall a b, In b l -> f a b = g a b) -> fold_left f l a = fold_left g l a.
Proof. intros A B f g. induction l as [|x l IH]; intros a H; [reflexivity|]. cbn [fold_left]. rewrite H by (left; reflexivity). apply IH. intros; apply H; right; assumption. Qed.

Lemma rsum_map_ext : forall A (f g : A -> R) l, (forall x, In x l -> f x = g x) -> rsum (map f l) = rsum (map g l).
Proof. intros. f_equal. apply map_ext_in. assumption. Qed.
Lemma rsum_map_mult : forall A (f : A -> R) l c, rsum (map (fun x => c * f x) l) = c * rsum (map f l).
Proof. induction l as [|x l IH]; intros c; cbn [map]; [cbn; lra|]. rewrite !rsum_cons, IH. lra. Qed.
Lemma rsum_map_mult_r : forall A (f : A -> R) l c, rsum (map (fun x => f x * c) l) = rsum (map f l) * c.
Proof. induction l as [|x l IH]; intros c; cbn [map]; [cbn; lra|]. rewrite !rsum_cons, IH. lra. Qed.
Lemma rsum_map_plus : forall A (f g : A -> R) l, rsum (map (fun x => f x + g x) l) = rsum (map f l) + rsum (map g l).
Proof. induction l as [|x l IH]; cbn [map]; [cbn; lra|]. rewrite !rsum_cons, IH. lra. Qed.
Lemma rsum_map_0 : forall A (f : A -> R) l, (forall x, In x l -> f x = 0) -> rsum (map f l) = 0.
Proof. induction l as [|x l IH]; intros H; cbn [map]; [reflexivity|]. rewrite rsum_cons, H, IH; [lra|intros; apply H; right; assumption|left; reflexivity]. Qed.
Lemma rsum_swap : forall A B (f : A -> B -> R) la lb,
  rsum (map (fun a => rsum (map (f a) lb)) la) = rsum (map (fun b => rsum (map (fun a => f a b) la)) lb).
Proof.
  intros A B f. induction la as [|a la IH]; intros lb; cbn [map]; [rewrite rsum_map_0; [reflexivity|reflexivity]|].
  rewrite rsum_cons, IH. rewrite <- rsum_map_plus. apply rsum_map_ext. intros; reflexivity.
Qed.

(** exactly one non-zero term *)
Lemma rsum_single : forall A (f : A -> R) l a, NoDup l -> In a l -> (forall x, In x l -> x <> a -> f x = 0) -> rsum (map f l) = f a.
Proof.
  intros A f. induction l as [|x l IH]; intros a Hn Hin H; [contradiction|]. inversion Hn; subst. cbn [map]. rewrite rsum_cons. destruct Hin as [->|Hin].
  - rewrite rsum_map_0; [lra|]. intros y Hy. apply H; [right; assumption|]. intros ->. contradiction.
  - rewrite H; [|left; reflexivity|intros ->; contradiction]. rewrite (IH a); auto; [lra|]. intros; apply H; [right; assumption|assumption].
Qed.

(** * the tables *)
Lemma fourier_cos : forall k x, (1 <= k)%nat -> fourier (COS k) x = cos (INR k * x) / sqrt PI.
Proof.
  intros k x Hk. unfold fourier, COS. rewrite (proj2 (Nat.eqb_neq _ _)) by lia.
  rewrite (proj2 (Nat.even_spec (2 * k)) (ex_intro _ k eq_refl)). rewrite Nat.mul_comm, Nat.div_mul by lia. reflexivity.
Qed.
Lemma fourier_sin : forall k x, (1 <= k)%nat -> fourier (SIN k) x = sin (INR k * x) / sqrt PI.
Proof.
  intros k x Hk. unfold fourier, SIN. rewrite (proj2 (Nat.eqb_neq _ _)) by lia.
  assert (Nat.even (2 * k - 1) = false) as ->.
  { rewrite <- Nat.negb_odd. replace (2 * k - 1)%nat with (2 * (k - 1) + 1)%nat by lia. rewrite (proj2 (Nat.odd_spec _) (ex_intro _ (k - 1)%nat eq_refl)). reflexivity. }
  replace (2 * k - 1 + 1)%nat with (k * 2)%nat by lia. rewrite Nat.div_mul by lia. reflexivity.
Qed.
Lemma fourier_0 : forall x, fourier 0 x = 1 / sqrt (2 * PI).
Proof. reflexivity. Qed.

Definition flag_ok (degree f : nat) : Prop := ((f = 0 /\ 1 <= degree) \/ (f = 1 /\ Nat.even degree = true))%nat.

Lemma basis_row_R : forall f degree x, flag_ok degree f ->
  basis_row fnum_R f degree x = Ok (map (fun n => basis f n x) (seq 0 (degree + 1))).
Proof.
  intros f degree x [[-> Hd]|[-> He]]; unfold basis_row.
  - cbn [Nat.eqb]. destruct (hermite_eval_R x degree (repeat 0 (degree + 1)) Hd) as [out [E [Hl [H1 H2]]]]; [rewrite repeat_length; lia|].
    etransitivity; [exact E|]. f_equal. rewrite repeat_length in Hl. apply (list_ext_nth _ _ _ 0).
    + rewrite map_length, seq_length. assumption.
    + intros i Hi. cbn [fn fnum_R num_R carrier] in *. rewrite (nth_map_lt _ _ _ _ _ _ 0%nat) by (rewrite seq_length; lia). rewrite seq_nth by lia. cbn [plus]. rewrite H1 by lia. reflexivity.
  - cbn [Nat.eqb]. apply Nat.even_spec in He as [mf ->].
    rewrite (Nat.mul_comm 2 mf), Nat.mod_mul by lia. cbn [Nat.eqb]. rewrite Nat.div_mul by lia. rewrite Nat.mul_comm.
    cbn [fn fnum_R num_R n0 n1 carrier nmul fdiv fsqrt fpi fcos fsin fofZ].
    rewrite vset_Ok by (rewrite repeat_length; lia). cbn [bind].
    edestruct (for_each_state (list R) (fun t r => length r = (2 * mf + 1)%nat /\ forall n, (n <= 2 * (t - 1))%nat -> nth n r 0 = fourier n x)) as [r [E [H1 H2]]].
    3:{ etransitivity; [exact E|]. f_equal. apply (list_ext_nth _ _ _ 0); [rewrite map_length, seq_length; assumption|].
        intros i Hi. cbn [fn fnum_R num_R carrier] in *. rewrite (nth_map_lt _ _ _ _ _ _ 0%nat) by (rewrite seq_length; lia). rewrite seq_nth by lia. rewrite H2 by lia. reflexivity. }
    + intros j r Hj [H1 H2]. assert (HC : (COS j < length r)%nat) by (unfold COS; lia). assert (HS : (SIN j < length r)%nat) by (unfold SIN; lia).
      rewrite vset_Ok by assumption. cbn [bind]. rewrite vset_Ok by (rewrite upd_length; assumption). eexists. split; [reflexivity|]. rewrite !upd_length. split; [assumption|].
      intros n Hn. rewrite !nth_upd, !upd_length. rewrite !(proj2 (Nat.ltb_lt _ _)) by assumption. rewrite !andb_true_r.
      rewrite !ofnat_R. destruct (Nat.eqb_spec n (SIN j)) as [->|H3]; [rewrite fourier_sin by lia; reflexivity|].
      destruct (Nat.eqb_spec n (COS j)) as [->|H4]; [rewrite fourier_cos by lia; reflexivity|]. apply H2. unfold COS, SIN in *. lia.
    + rewrite upd_length, repeat_length. split; [reflexivity|]. intros n Hn. replace n with 0%nat by lia. rewrite nth_upd, repeat_length, (proj2 (Nat.ltb_lt _ _)) by lia. reflexivity.
Qed.

Definition table (degree : nat) (nodes : list (list R)) (flags : list nat) : list (list (list R)) :=
  map (fun '(f, xs) => map (fun x => map (fun n => basis f n x) (seq 0 (degree + 1))) xs) (combine flags nodes).

Lemma bases_1d_R : forall degree nodes flags, length flags = length nodes -> Forall (flag_ok degree) flags ->
  bases_1d fnum_R degree nodes flags = Ok (table degree nodes flags).
Proof.
  intros degree nodes flags Hl Hf. unfold bases_1d, table.
  assert (G : forall nodes flags pre, length flags = length nodes -> Forall (flag_ok degree) flags ->
    mapM (fun '(i, xs) => mapM (fun x => f <- vget (pre ++ flags) i ;; basis_row fnum_R f degree x) xs) (combine (seq (length pre) (length nodes)) nodes)
    = Ok (map (fun '(f, xs) => map (fun x => map (fun n => basis f n x) (seq 0 (degree + 1))) xs) (combine flags nodes))).
  { clear. induction nodes as [|xs nodes IH]; intros flags pre Hl Hf; destruct flags as [|f flags]; try discriminate; [reflexivity|].
    cbn [length seq combine map mapM]. inversion Hf; subst.
    rewrite (mapM_Ok_map _ _ _ (fun x => map (fun n => basis f n x) (seq 0 (degree + 1)))).
    - cbn [bind]. specialize (IH flags (pre ++ [f])). rewrite app_length in IH. cbn [length] in IH. rewrite Nat.add_1_r, <- app_assoc in IH. cbn [app] in IH.
      cbn [fn fnum_R num_R carrier] in *. rewrite IH by (auto; congruence). reflexivity.
    - intros x _. rewrite vget_app_hd by reflexivity. cbn [bind]. apply basis_row_R. assumption. }
  apply (G nodes flags [] Hl Hf).
Qed.

(** * points and grids *)
Lemma points_spec_ok : forall s d degree, set_ok s (S d) degree -> points s (S d) degree = spec_list s d degree.
Proof. intros. unfold points. rewrite s_list_Ok by assumption. reflexivity. Qed.
Lemma points_In_ok : forall s dim degree m, (1 <= dim)%nat -> set_ok s dim degree -> In m (points s dim degree) <-> index_of s dim degree m.
Proof. intros s [|d] degree m H H1; [lia|]. rewrite points_spec_ok by assumption. apply in_spec_list. Qed.
Lemma points_NoDup_ok : forall s dim degree, (1 <= dim)%nat -> set_ok s dim degree -> NoDup (points s dim degree).
Proof. intros s [|d] degree H H1; [lia|]. rewrite points_spec_ok by assumption. apply NoDup_spec_list. Qed.

Lemma cross_prod_ge : forall m k, (nth k m 0 <= cross_prod m)%nat.
Proof.
  induction m as [|x m IH]; intros [|k]; cbn [nth]; try (unfold cross_prod; cbn; lia); rewrite cross_prod_cons.
  - pose proof (cross_prod_pos m). nia.
  - specialize (IH k). pose proof (cross_prod_pos m). nia.
Qed.
Lemma list_sum_ge : forall m k, (nth k m 0 <= list_sum m)%nat.
Proof. induction m as [|x m IH]; intros [|k]; cbn [nth]; rewrite ?list_sum_cons; try lia. specialize (IH k). lia. Qed.
Lemma Forall_nth_le : forall (P : nat -> Prop) m k, Forall P m -> P 0%nat -> P (nth k m 0%nat).
Proof. intros P m k H H0. revert k. induction H; intros [|k]; cbn [nth]; auto. Qed.

Lemma in_set_bound : forall s degree m k, ((s = Cross \/ s = CrossNc) -> (1 <= degree)%nat) -> in_set s degree m -> (nth k m 0 <= degree)%nat.
Proof.
  intros s degree m k Hs H. destruct s; cbn [in_set] in H.
  - pose proof (list_sum_ge m k). lia.
  - apply (Forall_nth_le (fun x => x <= degree)%nat); [assumption|cbv beta; lia].
  - specialize (Hs (or_introl eq_refl)). pose proof (cross_prod_ge m k). lia.
  - specialize (Hs (or_intror eq_refl)). pose proof (cross_prod_ge m k). lia.
  - destruct m as [|x t]; [destruct k; cbn; lia|]. destruct H as [H1 H2]. destruct k as [|k]; cbn [nth]; [assumption|].
    pose proof (Forall_nth_le (fun y => 2 * y <= degree)%nat t k H2 ltac:(cbv beta; lia)). cbv beta in *. lia.
Qed.

Lemma grid_glist : forall nodes, grid nodes = glist (map (@length R) nodes).
Proof. intros. unfold grid. generalize (map (@length R) nodes). induction l as [|n l IH]; [reflexivity|]. cbn [row_major glist]. rewrite IH. reflexivity. Qed.

Lemma in_grid : forall nodes p, In p (grid nodes) <-> Forall2 (fun i xs => (i < length xs)%nat) p nodes.
Proof.
  intros nodes p. rewrite grid_glist, in_glist. revert p. induction nodes as [|xs nodes IH]; intros p; split; intros H; inversion H; subst; constructor; auto; apply IH; assumption.
Qed.

Lemma combine_map_seq : forall A B C (f : A * (B * C) -> R) la lb lc (da : A) (db : B) (dc : C), length lb = length la -> length lc = length la ->
  map f (combine la (combine lb lc)) = map (fun k => f (nth k la da, (nth k lb db, nth k lc dc))) (seq 0 (length la)).
Proof.
  intros A B C f la lb lc da db dc H1 H2. apply (list_ext_nth _ _ _ 0).
  - rewrite !map_length, !combine_length, seq_length. lia.
  - intros i Hi. rewrite map_length, !combine_length in Hi. rewrite (nth_map_lt _ _ _ _ _ _ (da, (db, dc))) by (rewrite !combine_length; lia).
    rewrite (nth_map_lt _ _ _ _ _ _ 0%nat) by (rewrite seq_length; lia). rewrite seq_nth by lia. cbn [plus].
    rewrite combine_nth by (rewrite combine_length; lia). rewrite combine_nth by lia. reflexivity.
Qed.
Lemma combine_map_seq2 : forall A B (f : A * B -> R) la lb (da : A) (db : B), length lb = length la ->
  map f (combine la lb) = map (fun k => f (nth k la da, nth k lb db)) (seq 0 (length la)).
Proof.
  intros A B f la lb da db H1. apply (list_ext_nth _ _ _ 0).
  - rewrite !map_length, !combine_length, seq_length. lia.
  - intros i Hi. rewrite map_length, !combine_length in Hi. rewrite (nth_map_lt _ _ _ _ _ _ (da, db)) by (rewrite !combine_length; lia).
    rewrite (nth_map_lt _ _ _ _ _ _ 0%nat) by (rewrite seq_length; lia). rewrite seq_nth by lia. cbn [plus].
    rewrite combine_nth by lia. reflexivity.
Qed.

Lemma at_pos_length : forall nodes p, length p = length nodes -> length (at_pos nodes p) = length nodes.
Proof. intros. unfold at_pos. rewrite map_length, combine_length. lia. Qed.
Lemma at_pos_nth : forall nodes p k, length p = length nodes -> (k < length nodes)%nat -> nth k (at_pos nodes p) 0 = nth (nth k p 0%nat) (nth k nodes []) 0.
Proof.
  intros nodes p k Hl Hk. unfold at_pos. rewrite (nth_map_lt _ _ _ _ _ _ ([], 0%nat)) by (rewrite combine_length; lia).
  rewrite combine_nth by lia. reflexivity.
Qed.

Lemma Forall2_nth : forall A B (P : A -> B -> Prop) la lb k da db, Forall2 P la lb -> (k < length la)%nat -> P (nth k la da) (nth k lb db).
Proof. intros A B P la lb k da db H. revert k. induction H; intros [|k] Hk; cbn [length nth] in *; try lia; auto. apply IHForall2. lia. Qed.

Section Real.
Variables (s : iset) (degree : nat) (nodes weights : list (list R)) (flags : list nat).
Let dim := length nodes.
Hypothesis Hfit : fits s dim degree.
Hypothesis Hgrid : grid_fits nodes.
Hypothesis Hflags : flags_ok s degree flags.
Hypothesis Hlen : length flags = dim.

Lemma table_nth : forall k, (k < dim)%nat -> nth k (table degree nodes flags) [] =
  map (fun x => map (fun n => basis (nth k flags 0%nat) n x) (seq 0 (degree + 1))) (nth k nodes []).
Proof using Hlen.
  intros k Hk. unfold table. rewrite (nth_map_lt _ _ _ _ _ _ (0%nat, [])) by (rewrite combine_length; fold dim; lia). rewrite combine_nth by assumption. reflexivity.
Qed.

Lemma val_at_point_R : forall p m, In p (grid nodes) -> index_of s dim degree m ->
  val_at_point fnum_R (table degree nodes flags) p m dim = Ok (phi flags m (at_pos nodes p)).
Proof using Hflags Hlen.
  intros p m Hp [Hm Hs]. apply in_grid in Hp. pose proof (Forall2_length _ _ _ _ _ Hp) as Hpl. fold dim in Hpl.
  assert (Hb : forall k, (nth k m 0 <= degree)%nat) by (intros; eapply in_set_bound; [apply Hflags|exact Hs]).
  rewrite val_at_point_Ok; [| | assumption | assumption | | ].
  - f_equal. rewrite (fold_left_ext _ _ _ (fun v k => v * tab fnum_R (table degree nodes flags) k (nth k p 0%nat) (nth k m 0%nat))) by reflexivity.
    rewrite (fold_left_rprod nat). cbn [n1 fn fnum_R num_R]. rewrite Rmult_1_l. unfold phi.
    rewrite (combine_map_seq _ _ _ _ flags m (at_pos nodes p) 0%nat 0%nat 0); [|congruence|rewrite at_pos_length by assumption; symmetry; assumption].
    rewrite Hlen. f_equal. apply map_ext_in. intros k Hk. apply in_seq in Hk. unfold tab. cbn [fn fnum_R num_R carrier n0].
    rewrite table_nth by lia. rewrite at_pos_nth by (assumption || (fold dim; lia)).
    pose proof (Forall2_nth _ _ _ _ _ k 0%nat [] Hp ltac:(lia)) as Hk1. cbv beta in Hk1.
    rewrite (nth_map_lt _ _ _ _ _ _ 0) by assumption. rewrite (nth_map_lt _ _ _ _ _ _ 0%nat) by (rewrite seq_length; specialize (Hb k); lia).
    rewrite seq_nth by (specialize (Hb k); lia). reflexivity.
  - unfold table. rewrite map_length, combine_length. fold dim. rewrite Hlen. apply Nat.min_id.
  - intros k Hk. cbn [fn fnum_R num_R carrier]. rewrite table_nth by assumption. rewrite map_length. apply (Forall2_nth _ _ _ _ _ k 0%nat [] Hp). lia.
  - intros k Hk. cbn [fn fnum_R num_R carrier]. rewrite table_nth by assumption. pose proof (Forall2_nth _ _ _ _ _ k 0%nat [] Hp ltac:(lia)) as Hk1. cbv beta in Hk1.
    rewrite (nth_map_lt _ _ _ _ _ _ 0) by assumption. rewrite map_length, seq_length. specialize (Hb k). lia.
Qed.

Lemma point_weight_R : forall p, rules_match nodes weights -> In p (grid nodes) -> point_weight fnum_R weights p dim = Ok (rprod (at_pos weights p)).
Proof using.
  clear Hfit Hgrid Hflags Hlen. intros p Hw Hp. apply in_grid in Hp. pose proof (Forall2_length _ _ _ _ _ Hp) as Hpl. pose proof (Forall2_length _ _ _ _ _ Hw) as Hwl. fold dim in Hpl, Hwl.
  assert (Hin : forall k, (k < dim)%nat -> (nth k p 0 < length (nth k weights []))%nat).
  { intros k Hk. pose proof (Forall2_nth _ _ _ _ _ k 0%nat [] Hp ltac:(lia)) as H1. pose proof (Forall2_nth _ _ _ _ _ k [] [] Hw ltac:(fold dim; lia)) as H2. cbv beta in *. lia. }
  rewrite point_weight_Ok; [|symmetry; assumption|assumption|exact Hin]. f_equal.
  rewrite (fold_left_ext _ _ _ (fun v k => v * nth (nth k p 0%nat) (nth k weights []) 0)) by reflexivity.
  rewrite (fold_left_rprod nat). cbn [n1 fn fnum_R num_R]. rewrite Rmult_1_l. unfold at_pos. rewrite (combine_map_seq2 _ _ _ weights p [] 0%nat) by congruence.
  rewrite <- Hwl. reflexivity.
Qed.

Lemma flags_Forall : Forall (flag_ok degree) flags.
Proof using Hflags. apply Hflags. Qed.

Lemma transform_forward_R : forall input, rules_match nodes weights -> length input = length (grid nodes) ->
  transform fnum_R s degree input nodes weights flags true = Ok (map (fun m => quadrature nodes weights input (phi flags m)) (points s dim degree)).
Proof using Hfit Hgrid Hflags Hlen.
  intros input Hw Hin. destruct Hfit as [H1 [H2 H3]]. unfold grid_fits in Hgrid. rewrite grid_glist in Hgrid, Hin.
  destruct (dim_S dim H1) as [d Ed]. rewrite Ed in H2, H3 |- *. rewrite points_spec_ok in H3 |- * by assumption.
  etransitivity.
  - apply (transform_forward fnum_R s d degree input nodes weights flags (table degree nodes flags) (fun p m => phi flags m (at_pos nodes p)) (fun p => rprod (at_pos weights p))); try assumption.
    + apply bases_1d_R; [assumption|apply flags_Forall].
    + intros p m Hp Hm. apply val_at_point_R; [rewrite grid_glist; assumption|]. fold dim. rewrite Ed. apply in_spec_list. assumption.
    + intros p Hp. apply point_weight_R; [assumption|]. rewrite grid_glist. assumption.
  - f_equal. apply map_ext. intros m. unfold quadrature. rewrite grid_glist.
    etransitivity; [apply (fold_left_ext _ _ _ (fun o x => o + (fun '(y, p) => y * rprod (at_pos weights p) * phi flags m (at_pos nodes p)) x)); intros a [y p] _; reflexivity|].
    etransitivity; [apply fold_left_rsum|]. cbn [n0 fn fnum_R num_R]. apply Rplus_0_l.
Qed.

Lemma transform_backward_R : forall input, @vec_for num_R s dim degree input ->
  transform fnum_R s degree input nodes weights flags false = Ok (map (fun p => series s degree flags input (at_pos nodes p)) (grid nodes)).
Proof using Hfit Hgrid Hflags Hlen.
  intros input Hin. destruct Hfit as [H1 [H2 H3]]. unfold grid_fits in Hgrid. rewrite grid_glist in Hgrid. unfold series. rewrite Hlen. unfold vec_for in Hin.
  destruct (dim_S dim H1) as [d Ed]. unfold coef. rewrite Ed in H2, H3, Hin |- *. rewrite points_spec_ok in H3, Hin |- * by assumption.
  etransitivity.
  - apply (transform_backward fnum_R s d degree input nodes weights flags (table degree nodes flags) (fun p m => phi flags m (at_pos nodes p))); try assumption.
    + apply bases_1d_R; [assumption|apply flags_Forall].
    + intros p m Hp Hm. apply val_at_point_R; [rewrite grid_glist; assumption|]. fold dim. rewrite Ed. apply in_spec_list. assumption.
  - f_equal. rewrite grid_glist. apply map_ext. intros p.
    etransitivity; [apply (fold_left_ext _ _ _ (fun o x => o + (fun '(y, m) => y * phi flags m (at_pos nodes p)) x)); intros a [y m] _; cbn [nadd nmul n1 fn fnum_R num_R]; rewrite Rmult_1_r; reflexivity|].
    etransitivity; [apply fold_left_rsum|]. cbn [n0 fn fnum_R num_R]. rewrite Rplus_0_l.
    cbn [fn fnum_R num_R carrier] in *. rewrite (combine_map_seq2 _ _ _ input (spec_list s d degree) 0 []) by congruence.
    rewrite (rsum_map_ext _ _ (fun k => (fun m => value 0 (spec_list s d degree) input m * phi flags m (at_pos nodes p)) (nth k (spec_list s d degree) []))).
    + rewrite Hin. transitivity (rsum (map (fun m => value 0 (spec_list s d degree) input m * phi flags m (at_pos nodes p)) (map (fun k => nth k (spec_list s d degree) []) (seq 0 (length (spec_list s d degree)))))); [rewrite map_map; reflexivity|]. f_equal. f_equal. apply (list_ext_nth _ _ _ []).
      * rewrite map_length, seq_length. reflexivity.
      * intros i Hi. rewrite map_length, seq_length in Hi. rewrite (nth_map_lt _ _ _ _ _ _ 0%nat) by (rewrite seq_length; lia). rewrite seq_nth by lia. reflexivity.
    + intros k Hk. apply in_seq in Hk. f_equal. symmetry. apply value_nth; [apply NoDup_spec_list| |assumption]. apply nth_error_nth'. lia.
Qed.
End Real.
