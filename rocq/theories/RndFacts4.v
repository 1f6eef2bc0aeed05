(** Lemmas for C109: the statements. *)
From Coq Require Import String List Bool Arith ZArith Lia Reals Lra.
From Flocq Require Import Zaux Raux Defs Generic_fmt FLX Round_NE Relative.
From Verif Require Import Base Lists IndexModel Spec Machine IndexSet Grid Cross Degree Num Fnum LinModel LinSpec LinBase MatBase Tensorize Facts1 Facts2 Facts3 Facts6 CalcModel CalcSpec CalcBase CalcHermite CalcTransform CalcReal CalcInt RndModel RndSpec RndFacts RndFacts2 RndFacts3.
Import ListNotations.
Local Open Scope R_scope.

Section All.
Variables (u : R) (r : rounding).
Hypothesis A : accurate u r.
Let Hu : 0 <= u < 1 := acc_u u r A.

Lemma hermite_bound : forall x degree (values : list R), (1 <= degree)%nat -> (degree < length values)%nat ->
  exists out, hermite_eval (fnum_rnd r) x degree values = Ok out /\ length out = length values /\ forall n, (n <= degree)%nat -> INR (6 * n) * u < 1 -> Rabs (nth n out 0 - hermite n x) <= gamma u (6 * n) * hermite_abs n x.
Proof using A. intros x degree values H1 H2. destruct (hermite_eval_near u r A x degree values H1 H2) as (out & E & L & H). exists out. split; [exact E|]. split; [exact L|]. intros n Hn Hg. apply near_gamma; [exact Hu|exact Hg|apply H; exact Hn]. Qed.

Lemma forward_bound : forall s degree nodes weights flags input, fits s (length nodes) degree -> grid_fits nodes -> flags_ok s degree flags -> length flags = length nodes -> rules_match nodes weights -> length input = length (grid nodes) ->
  exists out, transform (fnum_rnd r) s degree input nodes weights flags true = Ok out /\ @vec_for num_R s (length nodes) degree out /\
    forall m, index_of s (length nodes) degree m -> let n := (length (grid nodes) + 6 * list_sum m + 7 * length nodes + 2)%nat in INR n * u < 1 ->
      Rabs (@coef num_R s (length nodes) degree out m - quadrature nodes weights input (phi flags m)) <= gamma u n * quadrature_abs nodes weights input (phi_abs flags m).
Proof using A.
  intros s degree nodes weights flags input Hf Hg Hfl Hl Hw Hin. destruct (forward_near u r A s degree nodes weights flags Hf Hg Hfl Hl input Hw Hin) as (out & E & H). eexists. split; [exact E|]. split; [apply map_length|].
  intros m Hm n Hn. replace (@coef num_R s (length nodes) degree (map out (points s (length nodes) degree)) m) with (out m). 2: { symmetry. apply (value_map_in _ _ out). apply points_In_ok; [apply Hf|apply Hf|assumption]. }
  apply near_gamma; [exact Hu|exact Hn|apply H; exact Hm].
Qed.

Lemma backward_bound : forall s degree nodes weights flags c, fits s (length nodes) degree -> grid_fits nodes -> flags_ok s degree flags -> length flags = length nodes -> @vec_for num_R s (length nodes) degree c ->
  exists out, transform (fnum_rnd r) s degree c nodes weights flags false = Ok out /\ length out = length (grid nodes) /\
    forall k p, nth_error (grid nodes) k = Some p -> let n := (length (points s (length nodes) degree) + 6 * (length nodes * degree) + 6 * length nodes + 2)%nat in INR n * u < 1 ->
      Rabs (nth k out 0 - series s degree flags c (at_pos nodes p)) <= gamma u n * series_abs s degree flags c (at_pos nodes p).
Proof using A.
  intros s degree nodes weights flags c Hf Hg Hfl Hl Hc. destruct (backward_near u r A s degree nodes weights flags Hf Hg Hfl Hl c Hc) as (out & E & H). eexists. split; [exact E|]. split; [apply map_length|].
  intros k p Hp n Hn. rewrite (nth_error_nth _ _ _ (map_nth_error out _ _ Hp)). apply near_gamma; [exact Hu|exact Hn|]. apply H. apply (nth_error_In _ _ Hp).
Qed.

Lemma factor_rel : forall n k a b, rel u k a b -> rel u (k + 5 * n) (fold_left (fun acc f => rnd r (acc * (if (f =? 1)%nat then r_sqrt r (rnd r (rnd r (IZR 2) * r_pi r)) else 1))) (repeat 1%nat n) a) (b * sqrt (2 * PI) ^ n).
Proof using A.
  induction n as [|n IH]; intros k a b H; cbn [repeat fold_left pow].
  - rewrite Rmult_1_r, Nat.mul_0_r, Nat.add_0_r. exact H.
  - cbn [Nat.eqb]. rewrite <- Rmult_assoc. replace (k + 5 * S n)%nat with (S (k + 4) + 5 * n)%nat by lia. apply IH. apply (rnd_rel u r A). apply rel_mul; [exact Hu|exact H|apply sqrt_2pi_rel; exact A].
Qed.
Lemma integrate_bound : forall f_grid nodes weights flags, (1 <= length nodes)%nat -> flags = repeat 1%nat (length nodes) -> grid_fits nodes -> rules_match nodes weights -> length f_grid = length (grid nodes) ->
  let n := (length (grid nodes) + 12 * length nodes + 3)%nat in INR n * u < 1 ->
  exists I, integrate (fnum_rnd r) f_grid nodes weights flags = Ok I /\ Rabs (I - quadrature nodes weights f_grid (fun _ => 1)) <= gamma u n * quadrature_abs nodes weights f_grid (fun _ => 1).
Proof using A.
  intros f_grid nodes weights flags Hd Ef Hg Hw Hl n Hn. set (dim := length nodes) in *.
  assert (Hfl : flags_ok Triangle 0 flags) by (split; [|intros [H|H]; discriminate]; apply Forall_forall; intros f Hf; rewrite Ef in Hf; apply repeat_spec in Hf; right; split; [assumption|reflexivity]).
  assert (Hlf : length flags = dim) by (rewrite Ef; apply repeat_length).
  destruct (forward_near u r A Triangle 0 nodes weights flags) with (input := f_grid) as (out & E & H); try assumption; [split; [assumption|]; split; [exact I|]; fold dim; rewrite points_tri_0 by assumption; reflexivity|].
  unfold integrate. rewrite E. rewrite points_tri_0 by assumption. cbn [map bind]. unfold vget. cbn [nth_error bind]. eexists. split; [reflexivity|].
  assert (H0 : index_of Triangle dim 0 (repeat 0%nat dim)) by (apply points_In_ok; [exact Hd|exact I|]; rewrite points_tri_0 by assumption; left; reflexivity).
  specialize (H _ H0). assert (LS : list_sum (repeat 0%nat dim) = 0%nat) by (clear; induction dim as [|k IH]; [reflexivity|]; exact IH). fold dim in H. rewrite LS in H. clear LS.
  pose proof (factor_rel dim 0 1 1 (rel_exact u 1 ltac:(lra))) as FR. rewrite <- Ef in FR. apply rel_near in FR; [|exact Hu]. rewrite Rmult_1_l in FR.
  assert (P : forall k xs, length xs = k -> sqrt (2 * PI) ^ k * phi (repeat 1%nat k) (repeat 0%nat k) xs = 1 /\ sqrt (2 * PI) ^ k * phi_abs (repeat 1%nat k) (repeat 0%nat k) xs = 1).
  { clear. assert (Hp : 0 < sqrt (2 * PI)) by (apply sqrt_lt_R0; pose proof PI_RGT_0; lra). induction k as [|k IH]; intros [|x xs] Hx; try discriminate; [cbn; lra|]. injection Hx as Hx. destruct (IH xs Hx) as (I1 & I2). unfold phi, phi_abs in *. cbn [repeat pow combine map]. rewrite !rprod_cons.
    change (basis 1 0 x) with (1 / sqrt (2 * PI)). change (basis_abs 1 0 x) with (1 / sqrt (2 * PI)). split; [etransitivity; [|exact I1]|etransitivity; [|exact I2]]; field; lra. }
  assert (Q : forall w v g h, (forall p, length p = dim -> sqrt (2 * PI) ^ dim * g (at_pos nodes p) = h (at_pos nodes p)) -> sqrt (2 * PI) ^ dim * quadrature nodes w v g = quadrature nodes w v h).
  { intros w v g h Hgh. unfold quadrature. rewrite <- rsum_map_mult. apply rsum_map_ext. intros [y p] Hin. apply in_combine_r in Hin. apply in_grid in Hin. apply Forall2_length in Hin. rewrite <- (Hgh p Hin). ring. }
  assert (NN : near u (S (0 + 5 * dim + (length (grid nodes) + 6 * 0 + 7 * dim + 2)))
    (rnd r (fold_left (fun acc f => rnd r (acc * (if (f =? 1)%nat then r_sqrt r (rnd r (rnd r (IZR 2) * r_pi r)) else 1))) flags 1 * out (repeat 0%nat dim))) (quadrature nodes weights f_grid (fun _ => 1)) (quadrature_abs nodes weights f_grid (fun _ => 1))).
  { apply (rnd_near u r A).
    rewrite <- (Q weights f_grid (phi flags (repeat 0%nat dim)) (fun _ => 1)) by (intros p Hp; rewrite Ef; apply P, at_pos_length; exact Hp).
    unfold quadrature_abs. rewrite <- (Q (map (map Rabs) weights) (map Rabs f_grid) (phi_abs flags (repeat 0%nat dim)) (fun _ => 1)) by (intros p Hp; rewrite Ef; apply P, at_pos_length; exact Hp).
    apply near_mul; [exact Hu|exact FR|exact H]. }
  replace n with (S (0 + 5 * dim + (length (grid nodes) + 6 * 0 + 7 * dim + 2))) in * by (unfold n; lia). apply near_gamma; [exact Hu|exact Hn|exact NN].
Qed.

Lemma tensorize_bound : forall s degree dirs (inputs : list (list R)) dim, dim = length (concat dirs) -> usable s dim degree -> dirs_ok dim dirs -> Forall2 (fun dj v => @vec_for num_R s (length dj) degree v) dirs inputs ->
  INR (length inputs) * u < 1 -> exists out, tensorize_vec (fnum_rnd r) s inputs dirs = Ok out /\ @vec_for num_R s dim degree out /\
    forall m, index_of s dim degree m -> Rabs (@coef num_R s dim degree out m - @vproduct num_R s dim degree dirs inputs m) <= gamma u (length inputs) * Rabs (@vproduct num_R s dim degree dirs inputs m).
Proof using A.
  intros s degree dirs inputs dim Ed Hs Hd Hi Hn. destruct (tensorize_vec_coef (fnum_rnd r) s degree dirs inputs dim Ed Hs Hd Hi) as (out & E & H1 & H2). exists out. split; [exact E|]. split; [exact H1|].
  intros m Hm. pose proof (eq_trans (eq_refl (@coef num_R s dim degree out m)) (H2 m Hm)) as E2. rewrite E2. clear E2. unfold vproduct, nprod.
  change (@coef (fn (fnum_rnd r))) with (@coef num_R). set (l := map (fun '(dj, v) => @coef num_R s (length dj) degree v (reindex (seq 0 dim) dj m)) (combine dirs inputs)).
  assert (Ll : length l = length inputs) by (refine (eq_trans (map_length _ _) (eq_trans (combine_length _ _) _)); apply Nat.min_r; apply Nat.eq_le_incl; symmetry; apply Forall2_length in Hi; exact Hi).
  change (Rabs (fold_left (fun o x => rnd r (o * x)) l 1 - fold_left (fun o x => o * x) l 1) <= gamma u (length inputs) * Rabs (fold_left (fun o x => o * x) l 1)).
  pose proof (near_prod u Hu (rnd r) (acc_rnd u r A) R (fun x => x) (fun x => x) Rabs (fun _ => 0%nat) l 0%nat 1 1 1) as N. rewrite !Rmult_1_l, map_id in N. pose proof (fold_left_rprod R (fun x => x) l 1) as EX. rewrite map_id, Rmult_1_l in EX.
  assert (RA : rprod (map Rabs l) = Rabs (rprod l)) by (clear; induction l as [|x l IH]; [cbn; rewrite Rabs_pos_eq; lra|]; cbn [map]; rewrite !rprod_cons, Rabs_mult, IH; reflexivity).
  assert (LS : list_sum (map (fun _ : R => 1%nat) l) = length inputs) by (rewrite <- Ll; clear; induction l as [|x l IH]; [reflexivity|]; cbn [map length]; rewrite list_sum_cons, IH; reflexivity).
  cbv beta in N. rewrite LS, RA in N. cbv beta in EX. rewrite EX. apply near_gamma; [exact Hu|exact Hn|]. apply N; [intros x _; apply near_exact|]. pose proof (near_exact u 1) as K. rewrite Rabs_pos_eq in K by lra. exact K.
Qed.
End All.

Lemma double_accurate : accurate (/ 2 ^ 53) double.
Proof.
  assert (P : 0 < 2 ^ 53) by (apply pow_lt; lra).
  assert (G : forall x, Rabs (double_rnd x - x) <= / 2 ^ 53 * Rabs x).
  { intros x. pose proof (relative_error_N_FLX radix2 53 ltac:(lia) (fun x => negb (Z.even x)) x) as H. replace (/ 2 * bpow radix2 (Z.opp 53 + 1)) with (/ 2 ^ 53) in H; [exact H|]. change (Z.opp 53 + 1)%Z with (Z.opp 52)%Z. rewrite bpow_opp. rewrite <- Rinv_mult. f_equal. change 52%Z with (Z.of_nat 52). rewrite <- IZR_Zpower_nat. rewrite pow_IZR. rewrite <- mult_IZR. apply f_equal. reflexivity. }
  constructor; cbn [rnd r_sqrt r_cos r_sin r_pi double].
  - split; [left; apply Rinv_0_lt_compat; exact P|]. rewrite <- Rinv_1. apply Rinv_lt_contravar; [lra|]. apply Rlt_pow_R1; [lra|lia].
  - exact G.
  - intros x Hx. pose proof (G (sqrt x)) as H. rewrite (Rabs_pos_eq (sqrt x)) in H by apply sqrt_pos. exact H.
  - intros x. apply G.
  - intros x. apply G.
  - pose proof (G PI) as H. rewrite (Rabs_pos_eq PI) in H by (pose proof PI_RGT_0; lra). exact H.
Qed.
