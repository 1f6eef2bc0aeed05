(** Lemmas for C109: inner, and the operators on vectors and matrices. *)
From Coq Require Import List Bool Arith ZArith Lia Reals Lra.
From Flocq Require Import Zaux Raux Defs Generic_fmt FLX Round_NE.
From Verif Require Import Base Lists IndexModel Spec Machine IndexSet Num Fnum LinModel LinSpec LinBase InnerSum Facts1 Facts4 CalcSpec OpQuadFacts MatBase VecModel VecSpec VecFacts VecFacts2 VecFacts4 RndModel RndSpec RndFacts RndFacts2.
Import ListNotations.
Local Open Scope R_scope.

Lemma double_idem : forall x, rnd double (rnd double x) = rnd double x.
Proof. intros x. cbn [rnd double]. unfold double_rnd. apply round_generic; [apply valid_rnd_N|]. apply generic_format_round; [apply FLX_exp_valid; reflexivity|apply valid_rnd_N]. Qed.

Section Bounds.
Variables (u : R) (r : rounding).
Hypothesis A : accurate u r.
Let Hu : 0 <= u < 1 := acc_u u r A.
Notation N := (fnum_rnd r).

Lemma rnd_0 : rnd r 0 = 0.
Proof using A. pose proof (acc_rnd u r A 0) as H. rewrite Rabs_R0, Rmult_0_r, Rminus_0_r in H. pose proof (Rabs_pos (rnd r 0)). destruct (Req_dec (rnd r 0) 0) as [E|E]; [exact E|]. apply Rabs_pos_lt in E. lra. Qed.

Lemma near_dot : forall T (f g : T -> R) l, near u (S (length l)) (@nsum N (map (fun x => @nmul N (f x) (g x)) l)) (@nsum num_R (map (fun x => @nmul num_R (f x) (g x)) l)) (@nsum num_R (map (fun x => @nmul num_R (Rabs (f x)) (Rabs (g x))) l)).
Proof using A.
  intros T f g l.
  assert (E : @nsum N (map (fun x => @nmul N (f x) (g x)) l) = fold_left (fun o x => rnd r (o + rnd r (f x * g x))) l 0).
  { unfold nsum. change 0 with (@n0 N : R). generalize (@n0 N). induction l as [|x l IH]; intros a; [reflexivity|]. cbn [map fold_left]. rewrite IH. reflexivity. }
  rewrite E, !nsum_rsum.
  pose proof (near_sum u Hu (rnd r) (acc_rnd u r A) T (fun x => rnd r (f x * g x)) (fun x => f x * g x) (fun x => Rabs (f x) * Rabs (g x)) 1 l 1 0 0 0) as H.
  rewrite !Rplus_0_l in H. apply H; [|lia|].
  - intros x _. eapply near_rnd; [exact Hu| |apply (acc_rnd u r A)]. rewrite <- Rabs_mult. apply near_exact.
  - split; [|rewrite Rabs_R0; lra]. rewrite Rminus_0_r, Rabs_R0. lra.
Qed.

Lemma inner_out_rnd : (forall x, rnd r (rnd r x) = rnd r x) -> forall s degree d1 d2 dres dinn (v1 v2 : list N), increasing d1 -> increasing d2 -> d1 <> [] -> d2 <> [] ->
  inner_dirs d1 d2 dres dinn -> usable s (length d1) degree -> usable s (length d2) degree -> (dres <> [] -> usable s (length dres) degree) ->
  vec_for s (length d1) degree v1 -> vec_for s (length d2) degree v2 ->
  inner N s v1 v2 d1 d2 = Ok (map (contraction s degree d1 d2 dres dinn v1 v2) (points s (length dres) degree)).
Proof using A.
  intros Id s degree d1 d2 dres dinn v1 v2 H1 H2 N1 N2 (I1 & I2 & I3 & I4) U1 U2 U3 V1 V2.
  destruct (dim_S (length d1)) as [p1 E1]; [apply U1|]. destruct (dim_S (length d2)) as [p2 E2]; [apply U2|].
  unfold vec_for, contraction, coef in *. rewrite E1, E2 in *. rewrite points_spec in V1, V2 by assumption.
  assert (Z1 : forall x y : N, nadd n0 (nmul x y) = nmul x y) by (intros x y; cbn; rewrite Rplus_0_l; apply Id).
  assert (Z2 : nadd (n0 : N) n0 = n0) by (cbn; rewrite Rplus_0_l; apply rnd_0).
  assert (Z3 : forall x y : N, nadd (nadd x y) n0 = nadd x y) by (intros x y; cbn; rewrite Rplus_0_r; apply Id).
  assert (Z4 : forall x : N, nmul n0 x = n0) by (intros x; cbn; rewrite Rmult_0_l; apply rnd_0).
  assert (Z5 : forall x : N, nmul x n0 = n0) by (intros x; cbn; rewrite Rmult_0_r; apply rnd_0).
  destruct (inner_list N Z1 Z2 Z3 Z4 Z5 d1 d2 H1 H2 s p1 p2 degree E1 E2 U1 U2 v1 v2 V1 V2)
    as (dres' & dinn' & out & J1 & J2 & J3 & J4 & J).
  assert (dres' = dres) by (apply inc_unique; auto; intros x; rewrite J3, I3; tauto).
  assert (dinn' = dinn) by (apply inc_unique; auto; intros x; rewrite J4, I4; tauto). subst dres' dinn'.
  destruct (J U3) as [E ->]. rewrite E. f_equal. apply map_ext. intros m. f_equal. apply map_ext. intros q. unfold term. rewrite !points_spec by assumption. reflexivity.
Qed.

Lemma inner_bound : (forall x, rnd r (rnd r x) = rnd r x) -> forall s degree d1 d2 dres dinn (v1 v2 : list R), increasing d1 -> increasing d2 -> d1 <> [] -> d2 <> [] ->
  inner_dirs d1 d2 dres dinn -> usable s (length d1) degree -> usable s (length d2) degree -> (dres <> [] -> usable s (length dres) degree) ->
  @vec_for num_R s (length d1) degree v1 -> @vec_for num_R s (length d2) degree v2 ->
  let n := (length (points s (length dinn) degree) + 1)%nat in INR n * u < 1 ->
  exists out, inner N s v1 v2 d1 d2 = Ok out /\ @vec_for num_R s (length dres) degree out /\
    forall m, index_of s (length dres) degree m -> Rabs (@coef num_R s (length dres) degree out m - @contraction num_R s degree d1 d2 dres dinn v1 v2 m)
      <= gamma u n * @contraction num_R s degree d1 d2 dres dinn (map Rabs v1) (map Rabs v2) m.
Proof using A.
  intros Id s degree d1 d2 dres dinn v1 v2 H1 H2 N1 N2 ID U1 U2 U3 V1 V2 n Hn.
  eexists. split; [apply (inner_out_rnd Id s degree d1 d2 dres dinn); assumption|]. split; [unfold vec_for; apply map_length|].
  intros m Hm. unfold coef at 1. match goal with |- context [value ?d ?l (map ?f ?l) m] => replace (value d l (map f l) m) with (f m) end.
  2: { symmetry. apply value_map. apply points_In0; assumption. }
  apply near_gamma; [exact Hu|exact Hn|]. unfold contraction.
  assert (Q : forall d v p, @coef num_R s d degree (map Rabs v) p = Rabs (@coef num_R s d degree v p)).
  { intros d v p. unfold coef. rewrite <- (value_vmap R R 0 Rabs). rewrite Rabs_R0. reflexivity. }
  pose proof (near_dot _ (fun q => @coef num_R s (length d1) degree v1 (reindex (dres ++ dinn) d1 (m ++ q))) (fun q => @coef num_R s (length d2) degree v2 (reindex (dres ++ dinn) d2 (m ++ q))) (points s (length dinn) degree)) as H.
  unfold n. rewrite Nat.add_1_r.
  match type of H with near _ _ _ _ ?X => match goal with |- near _ _ _ _ ?Y => replace Y with X end end; [exact H|].
  f_equal. apply map_ext. intros q. rewrite !Q. reflexivity.
Qed.

Lemma nth_abs : forall k l, nth k (map Rabs l) 0 = Rabs (nth k l 0).
Proof. intros k l. rewrite <- Rabs_R0 at 1. apply map_nth. Qed.
Lemma near_vdot : forall n (v w : list R), near u (S n) (@dot N n v w) (@dot num_R n v w) (@dot num_R n (map Rabs v) (map Rabs w)).
Proof using A.
  intros n v w. pose proof (near_dot nat (fun k => nth k v 0) (fun k => nth k w 0) (seq 0 n)) as H. rewrite seq_length in H. unfold dot.
  match type of H with near _ _ _ _ ?X => match goal with |- near _ _ _ _ ?Y => replace Y with X end end; [exact H|].
  f_equal. apply map_ext. intros q. cbn. rewrite !nth_abs. reflexivity.
Qed.
Lemma dot_bound : forall v w : list R, (length v <= length w)%nat -> INR (length v + 1) * u < 1 ->
  exists x, vec_dot N v w = Ok x /\ Rabs (x - @dot num_R (length v) v w) <= gamma u (length v + 1) * @dot num_R (length v) (map Rabs v) (map Rabs w).
Proof using A.
  intros v w H Hn. eexists. split; [apply (dot_ok N); exact H|]. apply near_gamma; [exact Hu|exact Hn|]. rewrite Nat.add_1_r. apply near_vdot.
Qed.
Lemma mat_vec_bound : forall n m (M : list (list R)) (v : list R), @mat_wf num_R n m M -> (n <= m)%nat -> (n <= length v)%nat -> INR (n + 1) * u < 1 ->
  exists w, mat_vec N M v = Ok w /\ length w = n /\ forall i, (i < n)%nat -> Rabs (nth i w 0 - @dot num_R n (nth i M []) v) <= gamma u (n + 1) * @dot num_R n (map Rabs (nth i M [])) (map Rabs v).
Proof using A.
  intros n m M v HM H1 H2 Hn. eexists. split; [apply (mat_vec_ok N n m); assumption|]. split; [rewrite map_length; apply seq_length|].
  intros i Hi. rewrite (nth_indep _ 0 (@dot N n (nth 0 M []) v)) by (rewrite map_length, seq_length; exact Hi). rewrite (map_nth (fun i => @dot N n (nth i M []) v)), seq_nth by exact Hi.
  apply near_gamma; [exact Hu|exact Hn|]. rewrite Nat.add_1_r. apply near_vdot.
Qed.
Lemma mat_mul_bound : forall n (M M' : list (list R)), @mat_wf num_R n n M -> @mat_wf num_R n n M' -> INR (n + 1) * u < 1 ->
  exists P, mat_mul N M M' = Ok P /\ @mat_wf num_R n n P /\ forall i j, (i < n)%nat -> (j < n)%nat ->
    Rabs (@entry num_R P i j - @row_col num_R n M M' i j) <= gamma u (n + 1) * @row_col num_R n (map (map Rabs) M) (map (map Rabs) M') i j.
Proof using A.
  intros n M M' H H' Hn. destruct (mat_mul_ok N n n n n M M') as (P & E & W & G); try assumption; try lia. exists P. split; [exact E|]. split; [exact W|]. intros i j Hi Hj.
  apply near_gamma; [exact Hu|exact Hn|]. rewrite Nat.add_1_r. specialize (G i j Hi Hj). cbn in G |- *. 
  pose proof (near_dot nat (fun k => @entry num_R M i k) (fun k => @entry num_R M' k j) (seq 0 n)) as Q. rewrite seq_length in Q.
  refine (eq_rect_r (fun z => near u (S n) z _ _) _ G). unfold row_col.
  match type of Q with near _ _ _ _ ?X => match goal with |- near _ _ _ _ ?Y => replace Y with X end end; [exact Q|].
  assert (Z : forall B a b, @entry num_R (map (map Rabs) B) a b = Rabs (@entry num_R B a b)).
  { intros B a b. unfold entry. cbn. change (@nil R) with (map Rabs []) at 1. rewrite map_nth. apply nth_abs. }
  f_equal. apply map_ext. intros q. rewrite !Z. reflexivity.
Qed.

Lemma near_sqrt : forall n a b, 0 <= a -> 0 <= b -> near u n a b b -> near u n (sqrt a) (sqrt b) (sqrt b).
Proof using A.
  intros n a b Ha Hb (H1 & _). split; [|rewrite Rabs_pos_eq by apply sqrt_pos; lra]. destruct (Req_dec b 0) as [->|Hz].
  - rewrite Rmult_0_r, Rminus_0_r in H1. pose proof (Rabs_pos a). assert (a = 0) by (rewrite Rabs_pos_eq in H1 by exact Ha; lra). subst a. rewrite Rminus_eq_0, Rabs_R0, sqrt_0. lra.
  - assert (Pbb : 0 < b) by (destruct Hb as [K|K]; [exact K|congruence]). assert (Pb : 0 < sqrt b) by (apply sqrt_lt_R0; exact Pbb). pose proof (sqrt_pos a) as Pa.
    apply (Rmult_le_reg_r (sqrt a + sqrt b)); [lra|]. rewrite <- (Rabs_pos_eq (sqrt a + sqrt b)) at 1 by lra. rewrite <- Rabs_mult.
    replace ((sqrt a - sqrt b) * (sqrt a + sqrt b)) with (sqrt a * sqrt a - sqrt b * sqrt b) by ring. rewrite !sqrt_sqrt by assumption.
    apply Rle_trans with (1 := H1).
    pose proof (Rabs_pos (a - b)) as Pd.
    match type of H1 with _ <= ?c * b => set (k := c) in * end. assert (0 <= k) by (apply (Rmult_le_reg_r b); [exact Pbb|rewrite Rmult_0_l; apply Rle_trans with (1 := Pd); exact H1]). assert (0 <= k * (sqrt b * sqrt a)) by (apply Rmult_le_pos; [assumption|apply Rmult_le_pos; [lra|exact Pa]]). replace (k * sqrt b * (sqrt a + sqrt b)) with (k * (sqrt b * sqrt b) + k * (sqrt b * sqrt a)) by ring. rewrite sqrt_sqrt by exact Hb. lra.
Qed.
Lemma skipn_cons : forall k (l : list R) y t, skipn k l = y :: t -> nth k l 0 = y /\ skipn (S k) l = t.
Proof. induction k as [|k IH]; intros [|x l] y t H; try discriminate; [injection H as -> ->; split; reflexivity|]. exact (IH l y t H). Qed.
Lemma norm_bound : forall v : list R, INR (length v + 2) * u < 1 ->
  exists x, vec_norm N v = Ok x /\ Rabs (x - sqrt (squares v)) <= gamma u (length v + 2) * sqrt (squares v).
Proof using A.
  intros v Hn.
  assert (E : vec_norm N v = Ok (r_sqrt r (@nsum N (map (fun x => @nmul N (Rabs x) (Rabs x)) v)))).
  { unfold vec_norm, norm.
    match goal with |- (s <- ?l ;; _) = _ => assert (L : l = Ok (@nsum N (map (fun x => @nmul N (Rabs x) (Rabs x)) v))) end; [|rewrite L; reflexivity].
    assert (G : forall c k0 (a : N), (k0 + c <= length v)%nat -> for_each (fun i s => a <- vget v i ;; q <- Ok (fabs (f := N) a) ;; Ok (@nadd N s (nmul q q))) c k0 a = Ok (fold_left (@nadd N) (map (fun x => @nmul N (Rabs x) (Rabs x)) (firstn c (skipn k0 v))) a)).
    { induction c as [|c IH]; intros k0 a Hc; [reflexivity|]. cbn [for_each]. rewrite (vget_nth_ok _ v k0 0) by lia. cbn [bind]. rewrite IH by lia.
      destruct (skipn k0 v) as [|y t] eqn:Ey; [apply (f_equal (@length R)) in Ey; rewrite skipn_length in Ey; cbn in Ey; lia|].
      destruct (skipn_cons k0 v y t Ey) as [Y T].
      rewrite T, Y. reflexivity. }
    pose proof (G (length v) 0%nat (@n0 N) (Nat.le_refl _)) as H. cbn [skipn] in H. rewrite firstn_all in H. exact H. }
  eexists. split; [exact E|]. apply near_gamma; [exact Hu|exact Hn|].
  set (a := @nsum N (map (fun x => @nmul N (Rabs x) (Rabs x)) v)).
  pose proof (near_dot R Rabs Rabs v) as H. fold a in H.
  assert (B : @nsum num_R (map (fun x => @nmul num_R (Rabs x) (Rabs x)) v) = squares v).
  { rewrite nsum_rsum. unfold squares. f_equal. apply map_ext. intros x. cbn. rewrite <- Rabs_mult. apply Rabs_pos_eq. nra. }
  assert (B' : @nsum num_R (map (fun x => @nmul num_R (Rabs (Rabs x)) (Rabs (Rabs x))) v) = squares v).
  { rewrite <- B. f_equal. apply map_ext. intros x. rewrite Rabs_Rabsolu. reflexivity. }
  rewrite B, B' in H. assert (Pa : 0 <= a).
  { subst a. assert (G : forall x, 0 <= x -> 0 <= rnd r x). { intros x Hx. pose proof (acc_rnd u r A x) as K. rewrite (Rabs_pos_eq x) in K by exact Hx. assert (- (rnd r x - x) <= u * x) by (eapply Rle_trans; [apply RRle_abs|rewrite Rabs_Ropp; exact K]). nra. }
    unfold nsum. assert (P0 : 0 <= @n0 N) by (cbn; lra). revert P0. generalize (@n0 N). clear -G. induction v as [|x v IH]; intros z Hz; [exact Hz|]. cbn [map fold_left]. apply IH.
    apply G. assert (0 <= rnd r (Rabs x * Rabs x)) by (apply G; pose proof (Rabs_pos x); nra). cbn in *. lra. }
  apply near_sqrt in H; [|exact Pa|apply squares_pos]. replace (length v + 2)%nat with (S (S (length v))) by lia.
  eapply near_rnd; [exact Hu|exact H|]. rewrite (Rabs_pos_eq (sqrt a)) by apply sqrt_pos. apply (acc_sqrt u r A). exact Pa.
Qed.
End Bounds.
