(** integrate. *)
From Coq Require Import List Bool Arith ZArith Reals Lra Lia.
From Verif Require Import Base Lists IndexModel Spec Triangle Binom IndexSet Degree Num Fnum LinModel LinSpec LinBase MatBase Facts1 CalcModel CalcSpec CalcBase CalcHermite CalcTransform CalcReal CalcTriple CalcFourier CalcQuad.
Import ListNotations.

Lemma mapM_Ub : forall A B (f : A -> res B) l, (forall x, In x l -> (exists y, f x = Ok y) \/ f x = Ub) -> (exists x, In x l /\ f x = Ub) -> mapM f l = Ub.
Proof.
  intros A B f l. induction l as [|x l IH]; intros H [z [Hz E]]; [destruct Hz|]. cbn [mapM].
  destruct (H x (or_introl eq_refl)) as [[y Ey]| Ey]; rewrite Ey; [|reflexivity]. cbn [bind]. destruct Hz as [<-|Hz]; [congruence|].
  rewrite IH; [reflexivity|intros; apply H; right; assumption|exists z; auto].
Qed.
Lemma mapM_Ok_or_Ub : forall A B (f : A -> res B) l, (forall x, In x l -> (exists y, f x = Ok y) \/ f x = Ub) -> (exists y, mapM f l = Ok y) \/ mapM f l = Ub.
Proof.
  intros A B f l. induction l as [|x l IH]; intros H; [left; exists []; reflexivity|]. cbn [mapM].
  destruct (H x (or_introl eq_refl)) as [[y Ey]| Ey]; rewrite Ey; [|right; reflexivity]. cbn [bind].
  destruct IH as [[ys Eys]|Eys]; [intros; apply H; right; assumption| |]; rewrite Eys; [left; eexists; reflexivity|right; reflexivity].
Qed.

Lemma nth_error_combine_seq : forall A (l : list A) n k x, nth_error l k = Some x -> nth_error (combine (seq n (length l)) l) k = Some (n + k, x).
Proof.
  intros A. induction l as [|y l IH]; intros n [|k] x H; try discriminate; cbn [length seq combine nth_error] in *.
  - inversion H; subst. rewrite Nat.add_0_r. reflexivity.
  - rewrite (IH (S n) k x H). f_equal. f_equal. lia.
Qed.

Lemma size_tri_0 : forall dim, 1 <= dim -> s_size Triangle dim 0 = Ok 1%Z.
Proof.
  intros dim H. destruct (dim_S dim H) as [d ->]. rewrite (s_size_Ok Triangle d 0 I); cbn [spec_list]; rewrite tri_spec_length, Nat.add_0_l, binom_diag; reflexivity.
Qed.

Lemma integrate_ub : forall (F : fnum) (f_grid : list F) nodes weights flags k xs,
  nth_error nodes k = Some xs -> xs <> [] -> nth_error flags k = Some 0 -> integrate F f_grid nodes weights flags = Ub.
Proof.
  intros F f_grid nodes weights flags k xs Hk Hx Hf. unfold integrate, transform.
  assert (Hd : 1 <= length nodes) by (destruct nodes; [destruct k; discriminate|cbn; lia]).
  rewrite size_tri_0 by assumption. cbn [bind].
  assert (E : bases_1d F 0 nodes flags = Ub).
  { unfold bases_1d.
    assert (R1 : forall f x, (exists y, basis_row F f 0 x = Ok y) \/ basis_row F f 0 x = Ub).
    { intros f x. unfold basis_row. destruct (f =? 0); [right; apply hermite_eval_0_ub; reflexivity|].
      destruct (f =? 1); [left; eexists; reflexivity|left; eexists; reflexivity]. }
    assert (R2 : forall i x, (exists y, (f <- vget flags i ;; basis_row F f 0 x) = Ok y) \/ (f <- vget flags i ;; basis_row F f 0 x) = Ub).
    { intros i x. unfold vget. destruct (nth_error flags i); [apply R1|right; reflexivity]. }
    apply mapM_Ub.
    - intros [i l] _. apply mapM_Ok_or_Ub. intros x _. apply R2.
    - exists (k, xs). split.
      + apply (nth_error_In _ k). apply (nth_error_combine_seq _ nodes 0). assumption.
      + apply mapM_Ub; [intros x _; apply R2|]. destruct xs as [|x xs]; [contradiction|]. exists x. split; [left; reflexivity|].
        unfold vget. rewrite Hf. cbn [bind]. apply hermite_eval_0_ub. reflexivity. }
  rewrite E. reflexivity.
Qed.

Local Open Scope R_scope.

Lemma points_tri_0 : forall dim, (1 <= dim)%nat -> points Triangle dim 0 = [repeat 0%nat dim].
Proof.
  intros dim H. assert (G : forall m, In m (points Triangle dim 0) <-> m = repeat 0%nat dim).
  { intros m. rewrite (points_In_ok Triangle dim 0 m H I). split.
    - intros [Hl Hm]. cbn [in_set] in Hm. rewrite <- Hl. clear Hl H. induction m as [|x m IH]; [reflexivity|]. rewrite list_sum_cons in Hm. cbn [length repeat]. rewrite <- IH by lia. f_equal. lia.
    - intros ->. split; [apply repeat_length|]. cbn [in_set]. clear. induction dim; cbn [repeat]; rewrite ?list_sum_cons; [reflexivity|]. exact IHdim. }
  pose proof (points_NoDup_ok Triangle dim 0 H I) as Hn. destruct (points Triangle dim 0) as [|a [|b l]].
  - destruct (proj2 (G _) eq_refl).
  - f_equal. apply G. left. reflexivity.
  - exfalso. assert (a = b) by (transitivity (repeat 0%nat dim); [|symmetry]; apply G; [left|right; left]; reflexivity). subst. inversion Hn as [|? ? Hi _]. apply Hi. left. reflexivity.
Qed.

Lemma integrate_fourier : forall f_grid nodes weights flags, (1 <= length nodes)%nat -> flags = repeat 1%nat (length nodes) ->
  grid_fits nodes -> rules_match nodes weights -> length f_grid = length (grid nodes) ->
  integrate fnum_R f_grid nodes weights flags = Ok (quadrature nodes weights f_grid (fun _ => 1)).
Proof.
  intros f_grid nodes weights flags Hd -> Hg Hw Hl. unfold integrate. rewrite transform_forward_R; try assumption.
  - rewrite points_tri_0 by assumption. cbn [map bind]. unfold vget. cbn [nth_error bind]. apply (f_equal (@Ok R)).
    set (dim := length nodes). assert (E : forall n a, fold_left (fun acc f => acc * (if (f =? 1)%nat then sqrt (2 * PI) else 1)) (repeat 1%nat n) a = a * sqrt (2 * PI) ^ n).
    { induction n as [|n IH]; intros a; cbn [repeat fold_left pow]; [ring|]. rewrite IH. cbn [Nat.eqb]. ring. }
    transitivity ((1 * sqrt (2 * PI) ^ dim) * quadrature nodes weights f_grid (phi (repeat 1%nat dim) (repeat 0%nat dim))).
    { rewrite <- E. reflexivity. }
    rewrite Rmult_1_l. unfold quadrature. rewrite <- rsum_map_mult. apply rsum_map_ext. intros [y p] Hin. apply in_combine_r in Hin. apply in_grid in Hin. apply Forall2_length in Hin.
    assert (P : forall n xs, length xs = n -> sqrt (2 * PI) ^ n * phi (repeat 1%nat n) (repeat 0%nat n) xs = 1).
    { clear. induction n as [|n IH]; intros [|x xs] Hx; try discriminate; [cbn; lra|]. cbn [repeat pow]. rewrite phi_cons.
      change (basis 1 0 x) with w1. unfold w1. pose proof sqrt_2PI_pos.
      transitivity (sqrt (2 * PI) ^ n * phi (repeat 1%nat n) (repeat 0%nat n) xs); [field; lra|]. apply IH. cbn in Hx. lia. }
    specialize (P dim (at_pos nodes p) (at_pos_length nodes p Hin)).
    transitivity (y * rprod (at_pos weights p) * (sqrt (2 * PI) ^ dim * phi (repeat 1%nat dim) (repeat 0%nat dim) (at_pos nodes p))); [ring|]. rewrite P. reflexivity.
  - split; [assumption|]. split; [exact I|]. rewrite points_tri_0 by assumption. reflexivity.
  - split; [|intros [H|H]; discriminate]. apply Forall_forall. intros f Hf. apply repeat_spec in Hf. right. split; [assumption|reflexivity].
  - apply repeat_length.
Qed.
