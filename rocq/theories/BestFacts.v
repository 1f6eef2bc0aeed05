(** Proofs of C112. *)
From Coq Require Import List Bool Arith ZArith Reals Lra Lia.
From Verif Require Import Base IndexModel Spec Num Fnum LinModel LinSpec LinBase CalcModel CalcSpec CalcReal CalcQuad Facts6 FormSpec FormFacts NormFacts BestSpec.
Import ListNotations.
Local Open Scope R_scope.

Section Best.
Variables (s : iset) (degree : nat) (nodes weights : list (list R)) (flags : list nat).
Hypothesis Hf : fits s (length nodes) degree.
Hypothesis Hflags : flags_ok s degree flags.
Hypothesis Hexact : exact_rules degree flags nodes weights.
Let P := points s (length nodes) degree.
Notation k u m := (@coef num_R s (length nodes) degree u m).
Notation B m p := (phi flags m (at_pos nodes p)).
Notation w p := (rprod (at_pos weights p)).

Lemma P_index : forall m, In m P <-> index_of s (length nodes) degree m.
Proof. intros m. destruct Hf as (H1 & H2 & _). apply points_In_ok; assumption. Qed.
Lemma P_NoDup : NoDup P.
Proof. destruct Hf as (H1 & H2 & _). apply points_NoDup_ok; assumption. Qed.
Lemma P_orth : forall r c, In r P -> In c P -> rsum (map (fun p => w p * (B r p * B c p)) (grid nodes)) = if mi_eqb r c then 1 else 0.
Proof.
  intros r c Hr Hc. apply P_index in Hr. apply P_index in Hc. destruct Hflags as [_ Hx].
  apply (grid_orth degree); [exact Hexact|apply Hr|apply Hc|intros i; apply (in_set_bound s); [exact Hx|apply Hr]|intros i; apply (in_set_bound s); [exact Hx|apply Hc]].
Qed.
Lemma Hlen : length flags = length nodes.
Proof. apply Hexact. Qed.

Lemma sum_pair : forall A (l : list A) (d e : A -> R), rsum (map d l) * rsum (map e l) = rsum (map (fun r => rsum (map (fun c => d r * e c) l)) l).
Proof. intros A l d e. rewrite <- rsum_map_mult_r. apply rsum_map_ext. intros r _. rewrite rsum_map_mult. reflexivity. Qed.

Lemma norm_series : forall d : list nat -> R, rsum (map (fun p => w p * (rsum (map (fun m => d m * B m p) P)) ^ 2) (grid nodes)) = rsum (map (fun m => d m ^ 2) P).
Proof.
  intros d. transitivity (rsum (map (fun p => rsum (map (fun r => rsum (map (fun c => d r * d c * (w p * (B r p * B c p))) P)) P)) (grid nodes))).
  { apply rsum_map_ext. intros p _. replace (rsum (map (fun m => d m * B m p) P) ^ 2) with (rsum (map (fun m => d m * B m p) P) * rsum (map (fun m => d m * B m p) P)) by ring.
    rewrite sum_pair, <- rsum_map_mult. apply rsum_map_ext. intros r _. rewrite <- rsum_map_mult. apply rsum_map_ext. intros c _. ring. }
  rewrite rsum_swap. apply rsum_map_ext. intros r Hr. rewrite rsum_swap. rewrite (rsum_single _ _ _ r P_NoDup Hr).
  - rewrite rsum_map_mult, P_orth by exact Hr. rewrite (proj2 (mi_eqb_spec r r) eq_refl). ring.
  - intros c Hc Hne. rewrite rsum_map_mult, P_orth by assumption. destruct (mi_eqb r c) eqn:E; [|ring]. apply mi_eqb_spec in E. congruence.
Qed.

Section Input.
Variable input : list R.
Hypothesis Hin : length input = length (grid nodes).
Notation q m := (quadrature nodes weights input (phi flags m)).

Lemma expand : forall d : list nat -> R,
  rsum (map (fun '(y, p) => w p * (y - rsum (map (fun m => d m * B m p) P)) ^ 2) (combine input (grid nodes)))
  = rsum (map (fun '(y, p) => w p * y ^ 2) (combine input (grid nodes))) - 2 * rsum (map (fun m => d m * q m) P) + rsum (map (fun m => d m ^ 2) P).
Proof.
  intros d. rewrite <- (norm_series d). rewrite <- (sum_combine_r (fun p => w p * (rsum (map (fun m => d m * B m p) P)) ^ 2) (grid nodes) input Hin).
  assert (E : rsum (map (fun m => d m * q m) P) = rsum (map (fun '(y, p) => w p * y * rsum (map (fun m => d m * B m p) P)) (combine input (grid nodes)))).
  { transitivity (rsum (map (fun m => rsum (map (fun x : R * list nat => d m * (fst x * w (snd x) * B m (snd x))) (combine input (grid nodes)))) P)).
    - apply rsum_map_ext. intros m _. rewrite rsum_map_mult. f_equal. unfold quadrature. apply rsum_map_ext. intros [y p] _. reflexivity.
    - rewrite rsum_swap. apply rsum_map_ext. intros [y p] _. cbn [fst snd]. rewrite <- rsum_map_mult. apply rsum_map_ext. intros m _. ring. }
  rewrite E. unfold Rminus. rewrite <- Ropp_mult_distr_l_reverse, <- rsum_map_mult, <- !rsum_map_plus. apply rsum_map_ext. intros [y p] _. ring.
Qed.

Lemma error_series : forall u : list R, square_error nodes weights input (CalcSpec.series s degree flags u)
  = square_error nodes weights input (fun _ => 0) - 2 * rsum (map (fun m => k u m * q m) P) + rsum (map (fun m => k u m ^ 2) P).
Proof.
  intros u. unfold square_error. unfold CalcSpec.series. rewrite Hlen. fold P. rewrite expand. f_equal. f_equal. apply rsum_map_ext. intros [y p] _. ring.
Qed.

Variable c : list R.
Hypothesis Hc : forall m, In m P -> k c m = q m.

Lemma error_best : forall u, square_error nodes weights input (CalcSpec.series s degree flags u) = square_error nodes weights input (CalcSpec.series s degree flags c) + coef_distance s (length nodes) degree u c.
Proof.
  intros u. rewrite !error_series. unfold coef_distance. fold P.
  rewrite (rsum_map_ext _ (fun m => k u m * q m) (fun m => k u m * k c m)) by (intros m Hm; rewrite Hc by exact Hm; reflexivity).
  rewrite (rsum_map_ext _ (fun m => k c m * q m) (fun m => k c m ^ 2)) by (intros m Hm; rewrite <- Hc by exact Hm; ring).
  assert (E : rsum (map (fun m => (k u m - k c m) ^ 2) P) = rsum (map (fun m => k u m ^ 2) P) + -2 * rsum (map (fun m => k u m * k c m) P) + rsum (map (fun m => k c m ^ 2) P)).
  { rewrite <- rsum_map_mult, <- !rsum_map_plus. apply rsum_map_ext. intros m _. ring. }
  rewrite E. ring.
Qed.
Lemma error_pythagoras : square_error nodes weights input (fun _ => 0) = rsum (map (fun m => k c m ^ 2) P) + square_error nodes weights input (CalcSpec.series s degree flags c).
Proof.
  rewrite error_series. rewrite (rsum_map_ext _ (fun m => k c m * q m) (fun m => k c m ^ 2)) by (intros m Hm; rewrite <- Hc by exact Hm; ring). ring.
Qed.
Lemma error_orthogonal : forall m, In m P ->
  rsum (map (fun '(y, p) => w p * (y - CalcSpec.series s degree flags c (at_pos nodes p)) * B m p) (combine input (grid nodes))) = 0.
Proof.
  intros m Hm. transitivity (q m + -1 * rsum (map (fun p => w p * CalcSpec.series s degree flags c (at_pos nodes p) * B m p) (grid nodes))).
  { rewrite <- (sum_combine_r (fun p => w p * CalcSpec.series s degree flags c (at_pos nodes p) * B m p) (grid nodes) input Hin). unfold quadrature. rewrite <- rsum_map_mult, <- rsum_map_plus. apply rsum_map_ext. intros [y p] _. ring. }
  assert (E : rsum (map (fun p => w p * CalcSpec.series s degree flags c (at_pos nodes p) * B m p) (grid nodes)) = k c m).
  { transitivity (rsum (map (fun p => rsum (map (fun r => k c r * (w p * (B r p * B m p))) P)) (grid nodes))).
    - apply rsum_map_ext. intros p _. unfold CalcSpec.series. rewrite Hlen. fold P. rewrite Rmult_comm, <- Rmult_assoc, <- rsum_map_mult. apply rsum_map_ext. intros r _. ring.
    - rewrite rsum_swap. rewrite (rsum_single _ _ _ m P_NoDup Hm).
      + rewrite rsum_map_mult, P_orth by exact Hm. rewrite (proj2 (mi_eqb_spec m m) eq_refl). ring.
      + intros r Hr Hne. rewrite rsum_map_mult, P_orth by assumption. destruct (mi_eqb r m) eqn:E; [|ring]. apply mi_eqb_spec in E. congruence. }
  rewrite E, Hc by exact Hm. ring.
Qed.
End Input.
End Best.

Lemma sq_sum_0 : forall A (f : A -> R) l, rsum (map (fun x => f x ^ 2) l) = 0 -> forall x, In x l -> f x = 0.
Proof.
  intros A f. induction l as [|a l IH]; intros H x Hx; [destruct Hx|]. cbn [map] in H. rewrite rsum_cons in H.
  assert (H1 : 0 <= f a ^ 2) by apply pow2_ge_0. assert (H2 : 0 <= rsum (map (fun x => f x ^ 2) l)) by (apply rsum_nonneg; intros; apply pow2_ge_0).
  destruct Hx as [->|Hx]; [|apply IH; [lra|exact Hx]]. assert (f x ^ 2 = 0) by lra. nra.
Qed.
Lemma distance_nonneg : forall s dim degree c d, 0 <= coef_distance s dim degree c d.
Proof. intros. apply rsum_nonneg. intros. apply pow2_ge_0. Qed.

Section Transform.
Variables (s : iset) (degree : nat) (nodes weights : list (list R)) (flags : list nat).
Hypothesis Hf : fits s (length nodes) degree.
Hypothesis Hg : grid_fits nodes.
Hypothesis Hflags : flags_ok s degree flags.
Hypothesis Hexact : exact_rules degree flags nodes weights.
Notation dim := (length nodes).

Lemma coefs : forall input, length input = length (grid nodes) ->
  exists c, transform fnum_R s degree input nodes weights flags true = Ok c /\ @vec_for num_R s dim degree c /\ forall m, In m (points s dim degree) -> @coef num_R s dim degree c m = quadrature nodes weights input (phi flags m).
Proof.
  intros input Hin. destruct (forward_coef s degree nodes weights flags input Hf Hg Hflags (proj1 Hexact) (exact_match _ _ _ _ Hexact) Hin) as (c & E & V & H). exists c. split; [exact E|]. split; [exact V|]. intros m Hm. apply H. apply (P_index s degree nodes Hf). exact Hm.
Qed.

Lemma best : forall input, length input = length (grid nodes) -> exists c, transform fnum_R s degree input nodes weights flags true = Ok c /\ @vec_for num_R s dim degree c /\
  forall d, @vec_for num_R s dim degree d ->
    square_error nodes weights input (CalcSpec.series s degree flags c) <= square_error nodes weights input (CalcSpec.series s degree flags d) /\
    (square_error nodes weights input (CalcSpec.series s degree flags d) = square_error nodes weights input (CalcSpec.series s degree flags c) -> d = c).
Proof.
  intros input Hin. destruct (coefs input Hin) as (c & E & V & H). exists c. split; [exact E|]. split; [exact V|]. intros d Vd.
  pose proof (error_best s degree nodes weights flags Hf Hflags Hexact input Hin c H d) as B. pose proof (distance_nonneg s dim degree d c) as N. split; [lra|]. intros K.
  assert (Z : coef_distance s dim degree d c = 0) by lra.
  rewrite <- (coef_all s dim degree d (proj1 Hf) Hf Vd), <- (coef_all s dim degree c (proj1 Hf) Hf V). apply map_ext_in. intros m Hm.
  pose proof (sq_sum_0 _ (fun m => @coef num_R s dim degree d m - @coef num_R s dim degree c m) _ Z m Hm) as Q. cbn beta in Q. apply Rminus_diag_uniq. exact Q.
Qed.
Lemma best_exact : forall input, length input = length (grid nodes) -> exists c, transform fnum_R s degree input nodes weights flags true = Ok c /\ @vec_for num_R s dim degree c /\
  (forall d, square_error nodes weights input (CalcSpec.series s degree flags d) = square_error nodes weights input (CalcSpec.series s degree flags c) + coef_distance s dim degree d c) /\
  square_error nodes weights input (fun _ => 0) = square_length s dim degree c + square_error nodes weights input (CalcSpec.series s degree flags c) /\
  forall m, index_of s dim degree m -> rsum (map (fun '(y, p) => rprod (at_pos weights p) * (y - CalcSpec.series s degree flags c (at_pos nodes p)) * phi flags m (at_pos nodes p)) (combine input (grid nodes))) = 0.
Proof.
  intros input Hin. destruct (coefs input Hin) as (c & E & V & H). exists c. split; [exact E|]. split; [exact V|]. split; [apply error_best; assumption|]. split.
  - rewrite (error_pythagoras s degree nodes weights flags Hf Hflags Hexact input Hin c H). f_equal. unfold square_length. apply rsum_map_ext. intros m _. ring.
  - intros m Hm. apply (error_orthogonal s degree nodes weights flags Hf Hflags Hexact input Hin c H). apply (P_index s degree nodes Hf). exact Hm.
Qed.

Lemma error_nonneg : forall input g, Forall (Forall (fun w => 0 <= w)) weights -> 0 <= square_error nodes weights input g.
Proof. intros input g Hw. unfold square_error. apply rsum_nonneg. intros [y p] _. apply Rmult_le_pos; [apply rprod_at_nonneg; exact Hw|apply pow2_ge_0]. Qed.
Lemma bessel : Forall (Forall (fun w => 0 <= w)) weights -> forall input, length input = length (grid nodes) ->
  exists c, transform fnum_R s degree input nodes weights flags true = Ok c /\ square_length s dim degree c <= square_error nodes weights input (fun _ => 0).
Proof.
  intros Hw input Hin. destruct (best_exact input Hin) as (c & E & V & _ & Q & _). exists c. split; [exact E|]. pose proof (error_nonneg input (CalcSpec.series s degree flags c) Hw). lra.
Qed.

Lemma diff_length : forall f g : list R, length f = length (grid nodes) -> length g = length (grid nodes) -> length (map (fun '(x, y) => x - y) (combine f g)) = length (grid nodes).
Proof. intros f g Hf' Hg'. rewrite map_length, combine_length, Hf', Hg'. apply Nat.min_id. Qed.
Lemma diff_quadrature : forall l (f g : list R) h, length f = length l -> length g = length l ->
  rsum (map (fun '(y, p) => y * rprod (at_pos weights p) * h (at_pos nodes p)) (combine (map (fun '(x, y) => x - y) (combine f g)) l))
  = rsum (map (fun '(y, p) => y * rprod (at_pos weights p) * h (at_pos nodes p)) (combine f l)) - rsum (map (fun '(y, p) => y * rprod (at_pos weights p) * h (at_pos nodes p)) (combine g l)).
Proof.
  induction l as [|p l IH]; intros [|x f] [|y g] h H1 H2; try discriminate; [cbn; ring|]. cbn [combine map]. rewrite !rsum_cons, IH by (cbn in *; lia). ring.
Qed.
Lemma diff_error : forall l (f g : list R), length f = length l -> length g = length l ->
  rsum (map (fun '(y, p) => rprod (at_pos weights p) * (y - 0) ^ 2) (combine (map (fun '(x, y) => x - y) (combine f g)) l))
  = rsum (map (fun '((x, y), p) => rprod (at_pos weights p) * (x - y) ^ 2) (combine (combine f g) l)).
Proof.
  induction l as [|p l IH]; intros [|x f] [|y g] H1 H2; try discriminate; [reflexivity|]. cbn [combine map]. rewrite !rsum_cons, IH by (cbn in *; lia). f_equal. f_equal. ring.
Qed.
Lemma stable : Forall (Forall (fun w => 0 <= w)) weights -> forall f g, length f = length (grid nodes) -> length g = length (grid nodes) ->
  exists c d, transform fnum_R s degree f nodes weights flags true = Ok c /\ transform fnum_R s degree g nodes weights flags true = Ok d /\
    coef_distance s dim degree c d <= square_distance nodes weights f g.
Proof.
  intros Hw f g Lf Lg. destruct (coefs f Lf) as (c & Ec & Vc & Hc). destruct (coefs g Lg) as (d & Ed & Vd & Hd). exists c, d. split; [exact Ec|]. split; [exact Ed|].
  destruct (coefs _ (diff_length f g Lf Lg)) as (e & Ee & Ve & He). destruct (bessel Hw _ (diff_length f g Lf Lg)) as (e' & Ee' & Q). assert (e' = e) by congruence. subst e'.
  unfold square_error in Q. rewrite diff_error in Q by assumption. fold (square_distance nodes weights f g) in Q. eapply Rle_trans; [|exact Q]. right. unfold coef_distance, square_length. apply rsum_map_ext. intros m Hm.
  rewrite Hc, Hd, He by exact Hm. unfold quadrature. rewrite diff_quadrature by assumption. ring.
Qed.
End Transform.

Lemma rsum_incl : forall (F : list nat -> R) l l', NoDup l -> NoDup l' -> incl l l' -> (forall m, In m l' -> ~ In m l -> F m = 0) -> rsum (map F l') = rsum (map F l).
Proof.
  intros F l l' N. revert l'. induction N as [|a l Ha N IH]; intros l' N' I Z.
  - apply rsum_map_0. intros m Hm. apply Z; [exact Hm|intros []].
  - destruct (in_split a l' (I a (or_introl eq_refl))) as (l1 & l2 & ->). apply NoDup_remove in N'. destruct N' as [N1 N2].
    assert (E : rsum (map F (l1 ++ l2)) = rsum (map F l)).
    { apply IH; [exact N1| |].
      - intros m Hm. assert (K : In m (l1 ++ a :: l2)) by (apply I; right; exact Hm). apply in_app_iff in K. apply in_app_iff. destruct K as [K|[K|K]]; auto. subst m. contradiction.
      - intros m Hm Hn. apply Z; [apply in_app_iff in Hm; apply in_app_iff; destruct Hm; auto; right; right; assumption|]. intros [->|K]; contradiction. }
    rewrite map_app, rsum_app in E |- *. cbn [map]. rewrite !rsum_cons. lra.
Qed.

(** A larger set of basis functions. *)
Lemma larger : forall s s' degree degree' nodes weights flags, fits s (length nodes) degree -> fits s' (length nodes) degree' -> grid_fits nodes -> flags_ok s degree flags -> flags_ok s' degree' flags ->
  exact_rules degree flags nodes weights -> exact_rules degree' flags nodes weights -> (forall m, index_of s (length nodes) degree m -> index_of s' (length nodes) degree' m) ->
  forall input, length input = length (grid nodes) -> exists c c', transform fnum_R s degree input nodes weights flags true = Ok c /\ transform fnum_R s' degree' input nodes weights flags true = Ok c' /\
    square_error nodes weights input (CalcSpec.series s' degree' flags c') <= square_error nodes weights input (CalcSpec.series s degree flags c).
Proof.
  intros s s' degree degree' nodes weights flags Hf Hf' Hg Hfl Hfl' Hex Hex' Hincl input Hin. set (dim := length nodes) in *.
  destruct (best s degree nodes weights flags Hf Hg Hfl Hex input Hin) as (c & E & V & _). destruct (best s' degree' nodes weights flags Hf' Hg Hfl' Hex' input Hin) as (c' & E' & V' & H'). exists c, c'. split; [exact E|]. split; [exact E'|].
  set (d := map (fun m => @coef num_R s dim degree c m) (points s' dim degree')). assert (Vd : @vec_for num_R s' dim degree' d) by (unfold d, vec_for; apply map_length). destruct (H' d Vd) as [L _]. eapply Rle_trans; [exact L|]. right.
  unfold square_error. apply rsum_map_ext. intros [y p] _. f_equal. f_equal. f_equal. unfold CalcSpec.series. replace (length flags) with dim by (symmetry; apply Hex).
  transitivity (rsum (map (fun m => @coef num_R s dim degree c m * phi flags m (at_pos nodes p)) (points s' dim degree'))).
  { apply rsum_map_ext. intros m Hm. f_equal. unfold coef at 1, d. apply value_map. exact Hm. }
  assert (N : NoDup (points s dim degree)) by (apply (P_NoDup s degree nodes Hf)). assert (N' : NoDup (points s' dim degree')) by (apply (P_NoDup s' degree' nodes Hf')).
  assert (I : incl (points s dim degree) (points s' dim degree')). { intros m Hm. apply (P_index s' degree' nodes Hf'). apply Hincl. apply (P_index s degree nodes Hf). exact Hm. }
  assert (Z : forall m, ~ In m (points s dim degree) -> @coef num_R s dim degree c m * phi flags m (at_pos nodes p) = 0). { intros m Hm. unfold coef. rewrite value_notin by exact Hm. cbn. ring. }
  apply rsum_incl; auto.
Qed.
