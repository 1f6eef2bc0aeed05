(** Lemmas for C109: the tables of triple products. *)
From Coq Require Import String List Bool Arith ZArith Lia Reals Lra.
From Verif Require Import Base Lists IndexModel Spec Num Fnum LinModel LinSpec LinBase MatBase Tensorize Sparse CalcModel CalcSpec CalcBase CalcHermite CalcReal CalcTriple CalcFourier RndModel RndSpec RndFacts RndFacts2 RndTriple Facts6.
Import ListNotations.
Local Open Scope R_scope.

Lemma triple_abs_pos : forall i j k, 0 <= triple_abs i j k.
Proof.
  induction i as [i IH] using lt_wf_ind. intros j k. destruct i as [|p]; [cbn; destruct (k =? j)%nat; lra|]. cbn [triple_abs].
  apply Rmult_le_pos; [|left; apply Rinv_0_lt_compat, (sqrt_INR_pos (S p)); lia].
  assert (H1 := sqrt_pos (INR (k + 1))). assert (H2 := sqrt_pos (INR k)). assert (H3 := sqrt_pos (INR p)).
  apply Rplus_le_le_0_compat; [apply Rplus_le_le_0_compat|]; apply Rmult_le_pos; try assumption; [apply IH; lia|destruct k; [lra|apply IH; lia]|destruct p; [lra|apply IH; lia]].
Qed.

Section Triple.
Variables (u : R) (r : rounding).
Hypothesis A : accurate u r.
Let Hu : 0 <= u < 1 := acc_u u r A.
Let F := fnum_rnd r.
Notation near := (near u).
Notation rel := (rel u).

Lemma ratio_rel : forall p k, rel 7 (fdiv (rec_a F p) (rec_a F k) : F) (sqrt (INR (k + 1)) / sqrt (INR (S p))).
Proof using A.
  intros p k. cbn [fdiv F fnum_rnd]. apply (rnd_rel u r A 6).
  replace (sqrt (INR (k + 1)) / sqrt (INR (S p))) with (1 / sqrt (INR (S p)) * / (1 / sqrt (INR (S k)))).
  - apply (rel_mul u Hu 3 3); [apply (rec_a_rel u r A)|]. apply rel_inv; [exact Hu|]. apply (rec_a_rel u r A).
  - rewrite Nat.add_1_r. assert (H1 := sqrt_INR_pos (S p) ltac:(lia)). assert (H2 := sqrt_INR_pos (S k) ltac:(lia)). field. lra.
Qed.

Lemma near_0 : forall n, near n 0 0 0.
Proof using A. intros n. apply near_le with 0%nat; [exact Hu|lia|]. pose proof (near_exact u 0) as H. rewrite Rabs_R0 in H. exact H. Qed.

Lemma tri_near : forall i j k, (i <= j)%nat -> near (15 * i) (tri F i j k) (tri fnum_R i j k) (triple_abs i j k).
Proof using A.
  induction i as [i IH] using lt_wf_ind. intros j k Hij. destruct i as [|p].
  - cbn. destruct (k =? j)%nat; [|apply near_0]. pose proof (near_exact u 1) as H. rewrite Rabs_R1 in H. exact H.
  - rewrite !tri_S by lia. replace (S p - 1)%nat with p by lia. unfold tri_step. replace (S p - 1)%nat with p by lia.
    assert (Q1 := sqrt_INR_pos (S p) ltac:(lia)).
    set (t1 := sqrt (INR (k + 1)) / sqrt (INR (S p)) * triple_abs p j (k + 1)).
    set (t2 := sqrt (INR p) / sqrt (INR (S p)) * (match p with O => 0 | S q => triple_abs q j k end)).
    set (t3 := sqrt (INR k) / sqrt (INR (S p)) * (match k with O => 0 | S l => triple_abs p j l end)).
    assert (P1 : 0 <= t1) by (apply Rmult_le_pos; [apply Rmult_le_pos; [apply sqrt_pos|left; apply Rinv_0_lt_compat; assumption]|apply triple_abs_pos]).
    assert (P2 : 0 <= t2) by (apply Rmult_le_pos; [apply Rmult_le_pos; [apply sqrt_pos|left; apply Rinv_0_lt_compat; assumption]|destruct p; [lra|apply triple_abs_pos]]).
    assert (P3 : 0 <= t3) by (apply Rmult_le_pos; [apply Rmult_le_pos; [apply sqrt_pos|left; apply Rinv_0_lt_compat; assumption]|destruct k; [lra|apply triple_abs_pos]]).
    assert (ET : triple_abs (S p) j k = t1 + t2 + t3).
    { unfold t1, t2, t3. cbn [triple_abs]. field. lra. }
    set (x1 := if ((j - S p <=? k) && (k <=? j + S p - 2))%nat then @nadd (fn F) n0 (nmul (fdiv (rec_a F p) (rec_a F k)) (tri F p j (k + 1)%nat)) else n0).
    set (y1 := if ((j - S p <=? k) && (k <=? j + S p - 2))%nat then @nadd (fn fnum_R) n0 (nmul (fdiv (rec_a fnum_R p) (rec_a fnum_R k)) (tri fnum_R p j (k + 1)%nat)) else n0).
    assert (N1 : near (9 + 15 * p) x1 y1 t1).
    { unfold x1, y1. destruct (_ && _)%bool; [|apply near_X with 0; [exact Hu|exact P1|apply near_0]]. cbn [nadd n0 nmul fn F fnum_rnd fnum_R num_R].
      apply (rnd_near u r A (8 + 15 * p)). rewrite <- (Rplus_0_l t1). apply near_add; [apply near_0|].
      apply (rnd_near u r A (7 + 15 * p)). apply near_mul; [exact Hu| |apply IH; lia].
      rewrite !rec_a_R. cbn [fdiv fnum_R]. rewrite sqrt_ratio. replace (S k) with (k + 1)%nat by lia. apply rel_near; [exact Hu|]. apply ratio_rel. }
    set (x2 := if ((j - S p + 2 <=? k) && (k <=? j + S p - 2))%nat then @nadd (fn F) x1 (nmul (nopp (rec_b F p)) ((if (S p =? 1)%nat then fun _ => n0 else tri F (S p - 2) j) k)) else x1).
    set (y2 := if ((j - S p + 2 <=? k) && (k <=? j + S p - 2))%nat then @nadd (fn fnum_R) y1 (nmul (nopp (rec_b fnum_R p)) ((if (S p =? 1)%nat then fun _ => n0 else tri fnum_R (S p - 2) j) k)) else y1).
    assert (N2 : near (10 + 15 * p) x2 y2 (t1 + t2)).
    { unfold x2, y2. destruct (Nat.leb_spec (j - S p + 2) k) as [K1|K1]; cbn [andb]; [|apply near_le with (9 + 15 * p)%nat; [exact Hu|lia|]; apply near_X with t1; [exact Hu|lra|exact N1]].
      destruct (Nat.leb_spec k (j + S p - 2)) as [K2|K2]; [|apply near_le with (9 + 15 * p)%nat; [exact Hu|lia|]; apply near_X with t1; [exact Hu|lra|exact N1]].
      destruct p as [|q]; [lia|]. cbn [Nat.eqb]. replace (S (S q) - 2)%nat with q by lia. cbn [nadd nmul nopp fn F fnum_rnd fnum_R num_R].
      apply (rnd_near u r A (9 + 15 * S q)). apply near_add; [exact N1|]. apply near_le with (S (5 + 15 * q)); [exact Hu|lia|]. apply (rnd_near u r A).
      unfold t2. apply near_mul; [exact Hu| |apply IH; lia]. rewrite rec_b_R. apply near_opp. apply rel_near; [exact Hu|]. apply (rec_b_rel u r A). lia. }
    fold x1. fold y1. fold x2. fold y2.
    assert (E : (15 * S p)%nat = S (14 + 15 * p)) by lia. rewrite ET.
    destruct (Nat.leb_spec (Nat.max (j - S p + 2) 1) k) as [K1|K1]; cbn [andb]; [|apply near_le with (10 + 15 * p)%nat; [exact Hu|lia|]; apply near_X with (t1 + t2); [exact Hu|lra|exact N2]].
    destruct (Nat.leb_spec k (S p + j)) as [K2|K2]; [|apply near_le with (10 + 15 * p)%nat; [exact Hu|lia|]; apply near_X with (t1 + t2); [exact Hu|lra|exact N2]].
    rewrite E. cbn [nadd fn F fnum_rnd fnum_R num_R]. apply (rnd_near u r A). apply near_add; [apply near_le with (10 + 15 * p)%nat; [exact Hu|lia|exact N2]|].
    cbn [nmul fn F fnum_rnd fnum_R num_R]. apply (rnd_near u r A (13 + 15 * p)). destruct k as [|l]; [lia|]. replace (S l - 1)%nat with l by lia.
    unfold t3. apply near_mul; [exact Hu| |apply IH; lia].
    replace (fdiv (rec_a fnum_R p) (rec_a fnum_R (S l)) * rec_b fnum_R (S l)) with (sqrt (INR (S l)) / sqrt (INR (S p))).
    2:{ rewrite !rec_a_R, rec_b_R. cbn [fdiv fnum_R]. assert (H1 := sqrt_INR_pos (S (S l)) ltac:(lia)). field. lra. }
    apply rel_near; [exact Hu|]. apply (rnd_rel u r A 12).
    replace (sqrt (INR (S l)) / sqrt (INR (S p))) with (sqrt (INR (S l + 1)) / sqrt (INR (S p)) * (sqrt (INR (S l)) / sqrt (INR (S (S l))))).
    + apply (rel_mul u Hu 7 5); [apply ratio_rel|apply (rec_b_rel u r A); lia].
    + rewrite Nat.add_1_r. assert (H1 := sqrt_INR_pos (S (S l)) ltac:(lia)). field. lra.
Qed.

Lemma triple_bound : forall degree, exists T' T, triple_products_1d F degree = Ok T' /\ triple_products_1d fnum_R degree = Ok T /\ cube_for (2 * degree + 1) (degree + 1) T' /\
  forall k i j, (i <= degree)%nat -> (j <= degree)%nat -> INR (15 * Nat.min i j) * u < 1 ->
    Rabs (cell T' k i j - cell T k i j) <= gamma u (15 * Nat.min i j) * triple_abs (Nat.min i j) (Nat.max i j) k.
Proof using A.
  intros D. destruct (triple_table F D) as [c [E [W V]]]. destruct (triple_table fnum_R D) as [c' [E' [W' V']]]. exists c, c'. split; [exact E|]. split; [exact E'|].
  split; [exact (cwf_cube _ _ _ W)|].
  intros k i j Hi Hj Hn. change (cell c k i j) with (cnth (F := F) c k i j). change (cell c' k i j) with (cnth (F := fnum_R) c' k i j). rewrite V, V' by assumption.
  apply near_gamma; [exact Hu|exact Hn|]. apply tri_near. lia.
Qed.

(** * Fourier functions *)
Lemma pi_rel : rel 1 (r_pi r) PI.
Proof using A. apply rel_rnd with (a := PI); [exact Hu|apply rel_exact, PI_RGT_0|]. rewrite (Rabs_pos_eq PI) by (left; apply PI_RGT_0). apply (acc_pi u r A). Qed.
Lemma two_rel : rel 1 (fofZ 2 : F) 2.
Proof using A. cbn [fofZ F fnum_rnd]. apply (rnd_rel u r A 0), rel_exact. lra. Qed.
Lemma two_pi_rel : rel 3 (nmul (fofZ 2) fpi : F) (2 * PI).
Proof using A. cbn [nmul fpi fn F fnum_rnd]. apply (rnd_rel u r A 2). apply (rel_mul u Hu 1 1); [exact two_rel|exact pi_rel]. Qed.
Lemma norm2_rel : rel 4 (nmul (fsqrt fpi) fpi : F) (sqrt PI * PI).
Proof using A. cbn [nmul fpi fsqrt fn F fnum_rnd]. apply (rnd_rel u r A 3). apply (rel_mul u Hu 2 1); [apply (sqrt_rel u r A)|]; exact pi_rel. Qed.
Lemma half_pi_rel : rel 3 (fdiv fpi (fofZ 2) : F) (PI / 2).
Proof using A. cbn [fdiv fpi F fnum_rnd]. apply (rnd_rel u r A 2). apply (rel_mul u Hu 1 1); [exact pi_rel|]. apply rel_inv; [exact Hu|exact two_rel]. Qed.

Definition wrel (w : nat * nat * nat * F) (v : nat * nat * nat * fnum_R) : Prop := fst w = fst v /\ near 12 (snd w) (snd v) (Rabs (snd v)).

Lemma rel_wrel : forall p n (a : F) (b : fnum_R), (n <= 12)%nat -> rel n a b -> wrel (p, a) (p, b).
Proof using A.
  intros p n a b Hn H. split; [reflexivity|]. cbn [snd]. apply near_le with n; [exact Hu|exact Hn|]. rewrite Rabs_pos_eq; [apply rel_near; [exact Hu|exact H]|]. pose proof (rel_near u Hu _ _ _ H) as N. apply near_pos in N. exact N.
Qed.

Lemma zero_wrel : forall p, wrel (p, fdiv (nmul (fofZ 2) fpi) (nmul (fsqrt (nmul (fofZ 2) fpi)) (nmul (fofZ 2) fpi))) (p, fdiv (nmul (fofZ 2) fpi) (nmul (fsqrt (nmul (fofZ 2) fpi)) (nmul (fofZ 2) fpi))).
Proof using A.
  intros p. apply rel_wrel with 12%nat; [lia|]. apply (rnd_rel u r A 11). apply (rel_mul u Hu 3 8); [exact two_pi_rel|]. apply rel_inv; [exact Hu|]. apply (rnd_rel u r A 7). apply (rel_mul u Hu 4 3); [apply (sqrt_rel u r A)|]; exact two_pi_rel.
Qed.
Lemma whole_wrel : forall p, wrel (p, fdiv fpi (nmul (fsqrt (nmul (fofZ 2) fpi)) fpi)) (p, fdiv fpi (nmul (fsqrt (nmul (fofZ 2) fpi)) fpi)).
Proof using A.
  intros p. apply rel_wrel with 8%nat; [lia|]. apply (rnd_rel u r A 7). apply (rel_mul u Hu 1 6); [exact pi_rel|]. apply rel_inv; [exact Hu|]. apply (rnd_rel u r A 5). apply (rel_mul u Hu 4 1); [apply (sqrt_rel u r A); exact two_pi_rel|exact pi_rel].
Qed.
Lemma half_wrel : forall p, wrel (p, fdiv (fdiv fpi (fofZ 2)) (nmul (fsqrt fpi) fpi)) (p, fdiv (fdiv fpi (fofZ 2)) (nmul (fsqrt fpi) fpi)).
Proof using A.
  intros p. apply rel_wrel with 8%nat; [lia|]. apply (rnd_rel u r A 7). apply (rel_mul u Hu 3 4); [exact half_pi_rel|]. apply rel_inv; [exact Hu|exact norm2_rel].
Qed.
Lemma norm2_pos : 0 < / (sqrt PI * PI).
Proof using Type. apply Rinv_0_lt_compat, Rmult_lt_0_compat; [apply sqrt_PI_pos|apply PI_RGT_0]. Qed.
Lemma mhalf_wrel : forall p, wrel (p, fdiv (fdiv (nopp fpi) (fofZ 2)) (nmul (fsqrt fpi) fpi)) (p, fdiv (fdiv (nopp fpi) (fofZ 2)) (nmul (fsqrt fpi) fpi)).
Proof using A.
  intros p. split; [reflexivity|]. cbn [snd]. apply near_le with 8%nat; [exact Hu|lia|]. cbn [fdiv fnum_R nopp fpi fofZ fsqrt nmul fn num_R].
  replace (Rabs (- PI / 2 / (sqrt PI * PI))) with (PI * / 2 * / (sqrt PI * PI)).
  2:{ replace (- PI / 2 / (sqrt PI * PI)) with (- (PI * / 2 * / (sqrt PI * PI))) by (unfold Rdiv; ring). rewrite Rabs_Ropp, Rabs_pos_eq; [reflexivity|]. pose proof norm2_pos. pose proof PI_RGT_0. apply Rmult_le_pos; [|lra]. lra. }
  apply (rnd_near u r A 7). apply (near_mul u Hu 3 4); [|apply rel_near; [exact Hu|]; apply rel_inv; [exact Hu|exact norm2_rel]].
  apply (rnd_near u r A 2). apply (near_mul u Hu 1 1); [apply near_opp; apply rel_near; [exact Hu|exact pi_rel]|]. apply rel_near; [exact Hu|]. apply rel_inv; [exact Hu|exact two_rel].
Qed.
Lemma signed_wrel : forall p z, wrel (p, fdiv (nmul (fdiv fpi (fofZ 2)) (fofZ z)) (nmul (fsqrt fpi) fpi)) (p, fdiv (nmul (fdiv fpi (fofZ 2)) (fofZ z)) (nmul (fsqrt fpi) fpi)).
Proof using A.
  intros p z. split; [reflexivity|]. cbn [snd]. apply near_le with 10%nat; [exact Hu|lia|]. cbn [fdiv fnum_R nopp fpi fofZ fsqrt nmul fn num_R].
  replace (Rabs (PI / 2 * IZR z / (sqrt PI * PI))) with (PI / 2 * Rabs (IZR z) * / (sqrt PI * PI)).
  2:{ unfold Rdiv. rewrite !Rabs_mult. pose proof norm2_pos. pose proof PI_RGT_0. rewrite (Rabs_pos_eq PI), (Rabs_pos_eq (/ 2)), (Rabs_pos_eq (/ _)) by lra. reflexivity. }
  apply (rnd_near u r A 9). apply (near_mul u Hu 5 4); [|apply rel_near; [exact Hu|]; apply rel_inv; [exact Hu|exact norm2_rel]].
  apply (rnd_near u r A 4). apply (near_mul u Hu 3 1); [apply rel_near; [exact Hu|exact half_pi_rel]|]. apply (rnd_near u r A 0), near_exact.
Qed.

Lemma flat_map_Forall2 : forall X Y Z (P : Y -> Z -> Prop) (f : X -> list Y) (g : X -> list Z) l, (forall x, In x l -> Forall2 P (f x) (g x)) -> Forall2 P (flat_map f l) (flat_map g l).
Proof using Type. induction l as [|x l IH]; intros H; [constructor|]. cbn [flat_map]. apply Forall2_app; [apply H; left; reflexivity|apply IH; intros; apply H; right; assumption]. Qed.

Lemma fourier_wrel : forall mf, Forall2 wrel (fourier_writes F mf) (fourier_writes fnum_R mf).
Proof using A.
  intros mf. unfold fourier_writes. constructor; [apply zero_wrel|]. apply flat_map_Forall2. intros k2 _. apply Forall2_app.
  - unfold writes2. repeat (apply Forall2_cons; [first [apply whole_wrel|apply half_wrel|apply mhalf_wrel]|]). constructor.
  - apply flat_map_Forall2. intros k3 _. unfold writes3. destruct (k2 =? k3)%nat; [constructor|].
    repeat (apply Forall2_cons; [first [apply whole_wrel|apply half_wrel|apply mhalf_wrel|apply signed_wrel]|]). constructor.
Qed.

Lemma writes_near : forall K n l l', Forall2 wrel l l' -> (forall k i j x, In (k, i, j, x) l' -> (k < K /\ i < n /\ j < n)%nat) ->
  forall c c' d', cwf (F := F) K n c -> cwf (F := fnum_R) K n c' -> (forall k i j, near 12 (cnth (F := F) c k i j) (cnth (F := fnum_R) c' k i j) (Rabs (cnth (F := fnum_R) c' k i j))) ->
  for_in write l' c' = Ok d' -> exists d, for_in write l c = Ok d /\ cwf (F := F) K n d /\ (forall k i j, near 12 (cnth (F := F) d k i j) (cnth (F := fnum_R) d' k i j) (Rabs (cnth (F := fnum_R) d' k i j))).
Proof using A.
  intros K n. induction 1 as [|[[[k i] j] x] [[[k' i'] j'] x'] l l' [Hp Hx] Hl IH]; intros Hin c c' d' W W' N E.
  - cbn in E. injection E as <-. exists c. split; [reflexivity|]. split; assumption.
  - cbn [fst] in Hp. injection Hp as -> -> ->. cbn [snd] in Hx. destruct (Hin k' i' j' x' (or_introl eq_refl)) as [Hk [Hi Hj]].
    cbn [for_in write] in E |- *. destruct (cset_ok F K n c k' i' j' x W Hk Hi Hj) as [c1 [E1 [W1 V1]]]. destruct (cset_ok fnum_R K n c' k' i' j' x' W' Hk Hi Hj) as [c1' [E1' [W1' V1']]].
    rewrite E1. rewrite E1' in E. cbn [bind] in E |- *. apply (IH (fun k i j x H => Hin k i j x (or_intror H)) c1 c1' d' W1 W1'); [|exact E].
    intros a b e. rewrite V1, V1'. destruct (_ && _)%bool; [exact Hx|apply N].
Qed.

Lemma triple_fourier_bound : forall degree, Nat.even degree = true -> exists T' T, triple_products_fourier F degree = Ok T' /\ triple_products_fourier fnum_R degree = Ok T /\ cube_for (2 * degree + 1) (degree + 1) T' /\
  (INR 12 * u < 1 -> forall k i j, Rabs (cell T' k i j - cell T k i j) <= gamma u 12 * Rabs (cell T k i j)).
Proof using A.
  intros D HD. destruct (triple_products_fourier_ok D HD) as [T [E _]]. pose proof E as E0. apply Nat.even_spec in HD as [mf ->]. rewrite triple_products_fourier_writes in E |- * by (rewrite Nat.mul_comm; apply Nat.mod_mul; lia).
  replace (2 * mf / 2)%nat with mf in * by (rewrite Nat.mul_comm, Nat.div_mul by lia; reflexivity).
  edestruct (writes_near (2 * (2 * mf) + 1) (2 * mf + 1) _ _ (fourier_wrel mf)) as [T' [E' [W N]]]; [| | | |exact E|].
  - intros k i j x H. destruct (writes_value mf k i j x H) as [H1 [H2 [H3 H4]]]. lia.
  - apply cube0_wf.
  - apply cube0_wf.
  - intros k i j. rewrite !cube0_nth. cbn [n0 fn F fnum_rnd fnum_R num_R]. rewrite Rabs_R0. apply near_0.
  - exists T', T. split; [exact E'|]. split; [exact E0|].
    split; [exact (cwf_cube _ _ _ W)|].
    intros Hn k i j. apply near_gamma; [exact Hu|exact Hn|]. apply N.
Qed.
End Triple.

(** the sums of absolute values of the recurrence are the coefficients of a product *)
Lemma triple_abs_0 : forall i j k, (i + j < k)%nat -> triple_abs i j k = 0.
Proof.
  induction i as [i IH] using lt_wf_ind. intros j k H. destruct i as [|p]; [cbn; destruct (Nat.eqb_spec k j); [lia|reflexivity]|]. cbn [triple_abs].
  rewrite (IH p) by lia. destruct k as [|l]; [lia|]. rewrite (IH p) by lia. destruct p as [|q]; [|rewrite (IH q) by lia]; unfold Rdiv; ring.
Qed.

Lemma times_x : forall k x, x * hermite k x = sqrt (INR (k + 1)) * hermite (k + 1) x + sqrt (INR k) * hermite (k - 1) x.
Proof.
  intros [|k] x.
  - rewrite hermite_0, hermite_1. cbn [INR Nat.add]. rewrite sqrt_1, sqrt_0. ring.
  - replace (S k + 1)%nat with (S (S k)) by lia. replace (S k - 1)%nat with k by lia. rewrite hermite_SS. assert (H := sqrt_INR_pos (S (S k)) ltac:(lia)). field. lra.
Qed.

Lemma times_x_sum : forall N (a : nat -> R) x, a N = 0 -> a (S N) = 0 ->
  x * sumn N (fun k => a k * hermite k x) = sumn (S N) (fun k => (sqrt (INR (k + 1)) * a (k + 1)%nat + sqrt (INR k) * (match k with O => 0 | S l => a l end)) * hermite k x).
Proof.
  intros N a x H0 H1.
  rewrite (sumn_ext (S N) _ (fun k => sqrt (INR (k + 1)) * a (k + 1)%nat * hermite k x + sqrt (INR k) * (match k with O => 0 | S l => a l end) * hermite k x)) by (intros; ring).
  rewrite sumn_plus. rewrite (sumn_shift N (fun k => sqrt (INR k) * (match k with O => 0 | S l => a l end) * hermite k x)).
  rewrite sumn_S. rewrite Nat.add_1_r, H1.
  assert (E : sumn N (fun k => sqrt (INR (k + 1)) * a (k + 1)%nat * hermite k x) = sumn N (fun k => sqrt (INR k) * a k * hermite (k - 1) x)).
  { destruct N as [|N]; [reflexivity|]. rewrite sumn_S, sumn_shift. rewrite Nat.add_1_r, H0. change (INR 0) with 0. rewrite sqrt_0.
    rewrite (sumn_ext N (fun k => sqrt (INR (S k)) * a (S k) * hermite (S k - 1) x) (fun k => sqrt (INR (k + 1)) * a (k + 1)%nat * hermite k x)); [ring|]. intros k _. rewrite Nat.add_1_r. replace (S k - 1)%nat with k by lia. reflexivity. }
  rewrite E. change (INR 0) with 0. rewrite sqrt_0. rewrite (Rmult_comm x), <- (Rmult_comm x), <- sumn_mult.
  rewrite (sumn_ext N (fun k => x * (a k * hermite k x)) (fun k => sqrt (INR (S k)) * a k * hermite (S k) x + sqrt (INR k) * a k * hermite (k - 1) x)).
  - rewrite sumn_plus. ring.
  - intros k _. transitivity (a k * (x * hermite k x)); [ring|]. rewrite times_x, Nat.add_1_r. ring.
Qed.

Lemma triple_abs_sum : forall i j N x, 0 <= x -> (i + j < N)%nat -> hermite_abs i x * hermite j x = sumn N (fun k => triple_abs i j k * hermite k x).
Proof.
  induction i as [i IH] using lt_wf_ind. intros j N x Hx HN. destruct i as [|p].
  - rewrite hermite_abs_0. rewrite (sumn_single _ _ j); [|lia|]; cbn [triple_abs].
    + rewrite Nat.eqb_refl. reflexivity.
    + intros k _ Hk. destruct (Nat.eqb_spec k j); [contradiction|]. ring.
  - destruct N as [|N]; [lia|]. assert (Q := sqrt_INR_pos (S p) ltac:(lia)).
    rewrite (sumn_ext (S N) _ (fun k => / sqrt (INR (S p)) * ((sqrt (INR (k + 1)) * triple_abs p j (k + 1) + sqrt (INR k) * (match k with O => 0 | S l => triple_abs p j l end)) * hermite k x
       + sqrt (INR p) * ((match p with O => 0 | S q => triple_abs q j k end) * hermite k x)))) by (intros k _; cbn [triple_abs]; field; lra).
    rewrite sumn_mult, sumn_plus. rewrite <- (times_x_sum N (triple_abs p j) x) by (apply triple_abs_0; lia). rewrite <- (IH p) by (lia || lra). rewrite sumn_mult.
    destruct p as [|q].
    + cbn [INR]. rewrite hermite_abs_0, hermite_abs_1, Rabs_pos_eq, sqrt_1, sqrt_0 by exact Hx. field.
    + rewrite <- (IH q) by (lia || lra). rewrite hermite_abs_SS, Rabs_pos_eq by exact Hx. field. lra.
Qed.
