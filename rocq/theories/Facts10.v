(** Statements about varfd and derivatives. *)
From Coq Require Import String List Bool Arith ZArith Reals Lra Lia.
From Verif Require Import Base Lists IndexModel Spec IndexSet Degree Num Fnum LinModel LinSpec LinBase MatBase Sparse Facts1 Facts2 CalcModel CalcSpec CalcBase CalcHermite CalcReal Facts3 CalcOps CalcVarf2 CalcVarfd CalcQuad.
Import ListNotations.
Local Open Scope R_scope.

(** * derivatives of the basis functions *)
Lemma He_deriv : forall n x, derivable_pt_lim (He (S n)) x (INR (S n) * He n x).
Proof.
  assert (G : forall n x, derivable_pt_lim (He (S n)) x (INR (S n) * He n x) /\ derivable_pt_lim (He (S (S n))) x (INR (S (S n)) * He (S n) x)).
  { induction n as [|n IH]; intros x.
    - split.
      + cbn [He]. change (INR 1) with 1. rewrite Rmult_1_l. apply derivable_pt_lim_id.
      + cbn [He]. replace (INR 2 * x) with (1 * x + x * 1 - 0) by (cbn; lra).
        apply (derivable_pt_lim_minus (fun x => x * x) (fun _ => INR 1 * 1)); [apply (derivable_pt_lim_mult (fun x => x) (fun x => x)); apply derivable_pt_lim_id|apply derivable_pt_lim_const].
    - destruct (IH x) as [H1 H2]. split; [assumption|].
      change (derivable_pt_lim (fun x => x * He (S (S n)) x - INR (S (S n)) * He (S n) x) x (INR (S (S (S n))) * He (S (S n)) x)).
      replace (INR (S (S (S n))) * He (S (S n)) x) with (1 * He (S (S n)) x + x * (INR (S (S n)) * He (S n) x) - INR (S (S n)) * (INR (S n) * He n x)).
      + apply (derivable_pt_lim_minus (fun x => x * He (S (S n)) x) (fun x => INR (S (S n)) * He (S n) x)).
        * apply (derivable_pt_lim_mult (fun x => x) (He (S (S n)))); [apply derivable_pt_lim_id|assumption].
        * apply (derivable_pt_lim_scal (He (S n))). assumption.
      + rewrite (S_INR (S (S n))). assert (E : He (S (S n)) x = x * He (S n) x - INR (S n) * He n x) by reflexivity. rewrite !E. ring. }
  intros n x. apply G.
Qed.

Lemma hermite_deriv : forall n x, derivable_pt_lim (hermite n) x (sqrt (INR n) * hermite (n - 1) x).
Proof.
  intros [|n] x.
  - change (INR 0) with 0. rewrite sqrt_0, Rmult_0_l. unfold hermite. cbn [He fact]. apply (derivable_pt_lim_const (1 / sqrt (INR 1))).
  - rewrite Nat.sub_succ, Nat.sub_0_r. unfold hermite.
    assert (Hf : 0 < sqrt (INR (fact n))) by (apply sqrt_lt_R0, lt_0_INR, lt_O_fact). assert (Hn : 0 < INR (S n)) by (apply lt_0_INR; lia). assert (Hs : 0 < sqrt (INR (S n))) by (apply sqrt_lt_R0; assumption).
    assert (E : sqrt (INR (fact (S n))) = sqrt (INR (S n)) * sqrt (INR (fact n))) by (rewrite fact_simpl, mult_INR; apply sqrt_mult; [lra|apply pos_INR]).
    rewrite E. assert (Q : sqrt (INR (S n)) * sqrt (INR (S n)) = INR (S n)) by (apply sqrt_sqrt; lra).
    replace (sqrt (INR (S n)) * (He n x / sqrt (INR (fact n)))) with (/ (sqrt (INR (S n)) * sqrt (INR (fact n))) * (INR (S n) * He n x)) by (rewrite <- Q at 2; field; lra).
    apply (derivable_pt_lim_ext (fun x => / (sqrt (INR (S n)) * sqrt (INR (fact n))) * He (S n) x)); [intros; unfold Rdiv; ring|].
    apply derivable_pt_lim_scal, He_deriv.
Qed.

Lemma lin_deriv : forall a x, derivable_pt_lim (fun x => a * x) x a.
Proof. intros a x. pose proof (derivable_pt_lim_scal (fun x => x) a x 1 (derivable_pt_lim_id x)) as H. rewrite Rmult_1_r in H. exact H. Qed.
Lemma cos_scaled : forall a b x, derivable_pt_lim (fun x => cos (a * x) / b) x (- a * (sin (a * x) / b)).
Proof.
  intros a b x. replace (- a * (sin (a * x) / b)) with (/ b * ((- sin (a * x)) * a)) by (unfold Rdiv; ring).
  apply (derivable_pt_lim_ext (fun x => / b * cos (a * x))); [intros; unfold Rdiv; ring|]. apply (derivable_pt_lim_scal (fun x => cos (a * x))).
  apply (derivable_pt_lim_comp (fun x => a * x) cos); [|apply derivable_pt_lim_cos]. apply lin_deriv.
Qed.
Lemma sin_scaled : forall a b x, derivable_pt_lim (fun x => sin (a * x) / b) x (a * (cos (a * x) / b)).
Proof.
  intros a b x. replace (a * (cos (a * x) / b)) with (/ b * (cos (a * x) * a)) by (unfold Rdiv; ring).
  apply (derivable_pt_lim_ext (fun x => / b * sin (a * x))); [intros; unfold Rdiv; ring|]. apply (derivable_pt_lim_scal (fun x => sin (a * x))).
  apply (derivable_pt_lim_comp (fun x => a * x) sin); [|apply derivable_pt_lim_sin]. apply lin_deriv.
Qed.

Lemma basis_deriv : forall flag n x, derivable_pt_lim (basis flag n) x (fst (dterm flag n) * basis flag (snd (dterm flag n)) x).
Proof.
  intros flag n x. unfold basis, dterm. destruct (flag =? 1)%nat; [|cbn [fst snd]; apply hermite_deriv].
  destruct (Nat.eqb_spec n 0) as [->|Hn].
  - cbn [fst snd]. rewrite Rmult_0_l. unfold fourier. cbn [Nat.eqb]. apply (derivable_pt_lim_const (1 / sqrt (2 * PI))).
  - destruct (Nat.even n) eqn:E; cbn [fst snd].
    + destruct n as [|n]; [lia|]. pose proof E as E0. rewrite Nat.even_succ in E. rewrite Nat.sub_succ, Nat.sub_0_r. unfold fourier at 2. destruct (Nat.eqb_spec n 0) as [->|]; [discriminate|].
      rewrite <- Nat.negb_odd, E. cbn [negb]. rewrite Nat.add_1_r. apply (derivable_pt_lim_ext (fun x => cos (INR (S n / 2) * x) / sqrt PI)); [|apply cos_scaled].
      intros y. unfold fourier. cbn [Nat.eqb]. rewrite E0. reflexivity.
    + unfold fourier at 2. destruct (Nat.eqb_spec (n + 1) 0) as [|]; [lia|]. rewrite Nat.add_1_r, Nat.even_succ, <- Nat.negb_even, E. cbn [negb].
      rewrite <- Nat.add_1_r. apply (derivable_pt_lim_ext (fun x => sin (INR ((n + 1) / 2) * x) / sqrt PI)); [|apply sin_scaled].
      intros y. unfold fourier. destruct (Nat.eqb_spec n 0) as [|]; [contradiction|]. rewrite E. reflexivity.
Qed.

Lemma phi_deriv : forall flags m x k, length m = length flags -> length x = length flags -> (k < length flags)%nat ->
  derivable_pt_lim (fun t => phi flags m (with_entry x k t)) (nth k x 0)
    (fst (dterm (nth k flags 0%nat) (nth k m 0%nat)) * phi flags (with_entry m k (snd (dterm (nth k flags 0%nat) (nth k m 0%nat)))) x).
Proof.
  induction flags as [|f flags IH]; intros [|a m] [|y x] k H1 H2 Hk; cbn [length] in *; try lia.
  destruct k as [|k].
  - cbn [nth]. unfold with_entry. cbn [firstn skipn app]. rewrite phi_cons.
    replace (fst (dterm f a) * (basis f (snd (dterm f a)) y * phi flags m x)) with (phi flags m x * (fst (dterm f a) * basis f (snd (dterm f a)) y)) by ring.
    apply (derivable_pt_lim_ext (fun t => phi flags m x * basis f a t)); [intros; rewrite phi_cons; ring|]. apply derivable_pt_lim_scal, basis_deriv.
  - cbn [nth]. set (g := dterm (nth k flags 0%nat) (nth k m 0%nat)). change (with_entry (a :: m) (S k) (snd g)) with (a :: with_entry m k (snd g)). rewrite phi_cons.
    replace (fst g * (basis f a y * phi flags (with_entry m k (snd g)) x)) with (basis f a y * (fst g * phi flags (with_entry m k (snd g)) x)) by ring.
    apply (derivable_pt_lim_ext (fun t => basis f a y * phi flags m (with_entry x k t))); [intros t; change (with_entry (y :: x) (S k) t) with (y :: with_entry x k t); rewrite phi_cons; reflexivity|].
    apply (derivable_pt_lim_scal (fun t => phi flags m (with_entry x k t))). apply IH; lia.
Qed.

(** * varfd *)
Section Statements.
Variables (s : iset) (dim degree k flag : nat).
Hypothesis Hu : usable s dim degree.
Hypothesis Hk : (k < dim)%nat.
Hypothesis Hflag : flag = 0%nat \/ flag = 1%nat.
Hypothesis Hp : flag = 1%nat -> paired s dim degree k.
Let column A r c := fst (dterm flag (nth k c 0%nat)) * @entry num_R s dim degree A r (with_entry c k (snd (dterm flag (nth k c 0%nat)))).

Lemma varfd_boost : forall A, @mat_for num_R s dim degree A -> exists B, varfd fnum_R (calc_mat fnum_R) s dim degree k A flag = Ok B /\ @mat_for num_R s dim degree B /\
  forall r c, index_of s dim degree r -> index_of s dim degree c -> @entry num_R s dim degree B r c = column A r c.
Proof. intros A HA. exact (varfd_gen _ _ _ (calc_mat_ok fnum_R) s dim degree k flag Hu Hk Hflag A HA Hp). Qed.

Lemma varfd_sparse : forall A, @sp_for num_R s dim degree A -> exists B, varfd fnum_R (calc_spmat fnum_R) s dim degree k A flag = Ok B /\ @sp_for num_R s dim degree B /\
  forall r c, index_of s dim degree r -> index_of s dim degree c -> @entry num_R s dim degree (dense B) r c = column (dense A) r c.
Proof. intros A HA. exact (varfd_gen _ _ _ (calc_spmat_ok fnum_R num_R_laws) s dim degree k flag Hu Hk Hflag A HA Hp). Qed.
End Statements.

(** applied to the discrete Galerkin matrix *)
Lemma entry_outside : forall s dim degree (A : list (list R)) r c, usable s dim degree -> ~ index_of s dim degree c -> @entry num_R s dim degree A r c = 0.
Proof. intros. unfold entry, mvalue. apply value_notin. intros G. apply (points_In s dim degree) in G; auto. Qed.

Lemma quadrature_ext : forall nodes weights values g g', (forall p, In p (grid nodes) -> g (at_pos nodes p) = g' (at_pos nodes p)) -> quadrature nodes weights values g = quadrature nodes weights values g'.
Proof. intros nodes weights values g g' H. unfold quadrature. f_equal. apply map_ext_in. intros [y p] Hi. apply in_combine_r in Hi. rewrite H by assumption. reflexivity. Qed.

Lemma quadrature_scal : forall nodes weights values a g, quadrature nodes weights values (fun x => a * g x) = a * quadrature nodes weights values g.
Proof.
  intros nodes weights values a g. unfold quadrature. induction (combine values (grid nodes)) as [|[y p] l IH]; cbn [map]; [unfold rsum; cbn; ring|]. rewrite !rsum_cons, IH. ring.
Qed.

Lemma varfd_composes : forall s degree k nodes weights flags input dphi, let dim := length nodes in let flag := nth k flags 0%nat in
  usable s dim degree -> (k < dim)%nat -> length flags = dim -> (flag = 0%nat \/ flag = 1%nat) -> (flag = 1%nat -> paired s dim degree k) ->
  (forall m x, index_of s dim degree m -> length x = dim -> derivable_pt_lim (fun t => phi flags m (with_entry x k t)) (nth k x 0) (dphi m x)) ->
  forall A, @sp_for num_R s dim degree A -> (forall r c, index_of s dim degree r -> index_of s dim degree c -> @entry num_R s dim degree (dense A) r c = galerkin nodes weights flags input r c) ->
  exists B, varfd fnum_R (calc_spmat fnum_R) s dim degree k A flag = Ok B /\ @sp_for num_R s dim degree B /\
    forall r c, index_of s dim degree r -> index_of s dim degree c ->
      @entry num_R s dim degree (dense B) r c = quadrature nodes weights input (fun x => phi flags r x * dphi c x).
Proof.
  intros s degree k nodes weights flags input dphi dim flag Hu Hk Hlen Hflag Hp Hd A HA HG.
  destruct (varfd_sparse s dim degree k flag Hu Hk Hflag Hp A HA) as [B [E1 [E2 E3]]]. exists B. split; [exact E1|]. split; [exact E2|]. intros r c Hr Hc. rewrite E3 by assumption.
  assert (Hcl : (k < length c)%nat) by (destruct Hc as [-> _]; assumption).
  pose proof (dterm_in s dim degree k flag Hk Hflag Hp c Hc) as Hc'. rewrite <- with_entry_upd in Hc' by assumption.
  rewrite HG by assumption. unfold galerkin. rewrite <- quadrature_scal. apply quadrature_ext. intros p Hpi.
  assert (Hx : length (at_pos nodes p) = dim) by (apply at_pos_length; apply in_grid in Hpi; eapply Forall2_length; exact Hpi).
  assert (U : dphi c (at_pos nodes p) = fst (dterm flag (nth k c 0%nat)) * phi flags (with_entry c k (snd (dterm flag (nth k c 0%nat)))) (at_pos nodes p)).
  { eapply uniqueness_limite; [apply Hd; assumption|]. apply phi_deriv; [rewrite Hlen; apply Hc|rewrite Hlen; assumption|rewrite Hlen; assumption]. }
  rewrite U. ring.
Qed.

(** * sets and Fourier directions *)
Lemma paired_cube : forall dim degree k, Nat.even degree = true -> (k < dim)%nat -> paired Cube dim degree k.
Proof.
  intros dim degree k He Hk m [Hl Hm] Ho. rewrite with_entry_upd by lia. split; [rewrite upd_length; assumption|]. cbn [in_set] in *.
  assert (H : (nth k m 0 + 1 <= degree)%nat).
  { rewrite Forall_forall in Hm. assert (nth k m 0 <= degree)%nat by (apply Hm, nth_In; lia). assert (nth k m 0 <> degree)%nat; [|lia]. intros E. rewrite E, <- Nat.negb_even, He in Ho. discriminate. }
  clear -Hm H. revert k H. induction m as [|a m IH]; intros [|k] H; cbn [upd nth] in *; try assumption; inversion Hm; subst; constructor; auto.
Qed.

Lemma paired_rectangle : forall dim degree, Nat.even degree = true -> (1 <= dim)%nat -> paired Rectangle dim degree 0.
Proof.
  intros dim degree He Hd [|a m] [Hl Hm] Ho; [cbn in Hl; lia|]. cbn [nth] in *. rewrite with_entry_upd by (cbn; lia). split; [rewrite upd_length; assumption|]. cbn [in_set upd] in *. destruct Hm as [H1 H2]. split; [|assumption].
  assert (a <> degree)%nat; [|lia]. intros E. rewrite E, <- Nat.negb_even, He in Ho. discriminate.
Qed.

Lemma paired_dim1 : forall s degree, Nat.even degree = true -> ((s = Cross \/ s = CrossNc) -> (1 <= degree)%nat) -> paired s 1 degree 0.
Proof.
  intros s degree He Hs [|a [|b m]] [Hl Hm] Ho; cbn [length] in Hl; try lia. cbn [nth] in *. split; [reflexivity|]. unfold with_entry. cbn [firstn skipn app].
  assert (N : a <> degree) by (intros E; rewrite E, <- Nat.negb_even, He in Ho; discriminate).
  assert (Hd : (a <= degree)%nat).
  { destruct s; cbn [in_set list_sum fold_right] in Hm; try lia; try (inversion Hm; subst; assumption); try (unfold cross_prod in Hm; cbn [map fold_right] in Hm; specialize (Hs ltac:(auto)); lia). }
  destruct s; cbn [in_set list_sum fold_right]; try lia; try (repeat constructor; lia); unfold cross_prod; cbn [map fold_right]; specialize (Hs ltac:(auto)); lia.
Qed.

(** a full matrix visits every column *)
Lemma mat_entries_in : forall n (A : list (list R)) i j, mat_wf n n A -> (i < n)%nat -> (j < n)%nat -> In (i, j, mnth fnum_R A i j) (co_entries fnum_R (calc_mat fnum_R) A).
Proof.
  intros n A i j [H1 H2] Hi Hj. cbn [calc_mat co_entries]. unfold mat_entries. rewrite Forall_forall in H2.
  assert (Hr : length (nth i A []) = n) by (apply H2, nth_In; cbn [carrier fn fnum_R num_R] in *; lia).
  apply in_concat. eexists. split; [apply in_map_iff; exists (i, nth i A []); split; [reflexivity|]|].
  - assert (G : forall (l : list (list R)) a i, (i < length l)%nat -> In (a + i, nth i l [])%nat (combine (seq a (length l)) l)).
    { clear. induction l as [|x l IH]; intros a i H; cbn [length] in *; [lia|]. cbn [seq combine]. destruct i as [|i]; [left; rewrite Nat.add_0_r; reflexivity|right]. cbn [nth]. replace (a + S i)%nat with (S a + i)%nat by lia. apply IH. lia. }
    apply (G A 0%nat i). cbn [carrier fn fnum_R num_R] in *. lia.
  - apply in_map_iff. exists (j, mnth fnum_R A i j). split; [reflexivity|]. unfold mnth.
    assert (G : forall (l : list R) a i, (i < length l)%nat -> In ((a + i)%nat, nth i l 0) (combine (seq a (length l)) l)).
    { clear. induction l as [|x l IH]; intros a i H; cbn [length] in *; [lia|]. cbn [seq combine]. destruct i as [|i]; [left; rewrite Nat.add_0_r; reflexivity|right]. cbn [nth]. replace (a + S i)%nat with (S a + i)%nat by lia. apply IH. lia. }
    apply (G (nth i A []) 0%nat j). lia.
Qed.

Lemma varfd_unpaired : forall s dim degree k m (A : list (list R)), usable s dim degree -> (k < dim)%nat -> @mat_for num_R s dim degree A ->
  index_of s dim degree m -> Nat.odd (nth k m 0%nat) = true -> ~ index_of s dim degree (with_entry m k (nth k m 0 + 1)%nat) ->
  varfd fnum_R (calc_mat fnum_R) s dim degree k A 1 = Throw "out_of_range".
Proof.
  intros s dim degree k m A Hu Hk HA Hm Ho Hn. apply (points_In s dim degree) in Hm; [|assumption].
  eapply (varfd_throw _ _ _ (calc_mat_ok fnum_R) s dim degree k Hu Hk A (idx (points s dim degree) m) (idx (points s dim degree) m)); [exact HA| |apply idx_nth; exact Hm|exact Ho|exact Hn].
  apply (mat_entries_in (length (points s dim degree))); [exact HA|apply idx_lt; assumption|apply idx_lt; assumption].
Qed.

Lemma varfd_unpaired_sparse : forall s dim degree k row m x (A : spmat num_R), usable s dim degree -> (k < dim)%nat -> @sp_for num_R s dim degree A ->
  index_of s dim degree m -> Nat.odd (nth k m 0%nat) = true -> ~ index_of s dim degree (with_entry m k (nth k m 0 + 1)%nat) ->
  In (row, idx (points s dim degree) m, x) (sp_entries num_R A) ->
  varfd fnum_R (calc_spmat fnum_R) s dim degree k A 1 = Throw "out_of_range".
Proof.
  intros s dim degree k row m x A Hu Hk HA Hm Ho Hn Hi. apply (points_In s dim degree) in Hm; [|assumption].
  eapply (varfd_throw _ _ _ (calc_spmat_ok fnum_R num_R_laws) s dim degree k Hu Hk A row (idx (points s dim degree) m)); [exact HA|exact Hi|apply idx_nth; exact Hm|exact Ho|exact Hn].
Qed.

Lemma list_sum_upd : forall m k v, (k < length m)%nat -> (list_sum (upd m k v) + nth k m 0 = list_sum m + v)%nat.
Proof. induction m as [|a m IH]; intros [|k] v H; cbn [length upd nth] in *; try lia; rewrite !list_sum_cons; [lia|]. specialize (IH k v ltac:(lia)). lia. Qed.

Lemma list_sum_repeat0 : forall n, list_sum (repeat 0%nat n) = 0%nat.
Proof. induction n; [reflexivity|]. cbn [repeat]. rewrite list_sum_cons. assumption. Qed.

(** On a triangle of dimension at least 2 a Fourier derivative always throws. *)
Lemma varfd_triangle : forall dim degree k (A : list (list R)), usable Triangle dim degree -> (2 <= dim)%nat -> (1 <= degree)%nat -> (k < dim)%nat -> @mat_for num_R Triangle dim degree A ->
  varfd fnum_R (calc_mat fnum_R) Triangle dim degree k A 1 = Throw "out_of_range".
Proof.
  intros dim degree k A Hu Hd Hdeg Hk HA.
  assert (Hj : exists j, j <> k /\ (j < dim)%nat) by (destruct k; [exists 1%nat|exists 0%nat]; lia). destruct Hj as [j [Hjk Hj]].
  set (z := repeat 0%nat dim). assert (Hz : length z = dim) by apply repeat_length.
  assert (Z : forall i, nth i z 0%nat = 0%nat) by (intros i; unfold z; destruct (Nat.lt_ge_cases i dim); [apply nth_repeat|apply nth_overflow; rewrite repeat_length; lia]).
  set (m := upd (upd z k 1%nat) j (degree - 1)%nat).
  assert (Hl : length m = dim) by (unfold m; rewrite !upd_length; assumption).
  assert (Hmk : nth k m 0%nat = 1%nat) by (unfold m; rewrite nth_upd_other by congruence; apply nth_upd_at; lia).
  assert (Hs : list_sum m = degree).
  { unfold m. pose proof (list_sum_upd (upd z k 1%nat) j (degree - 1)%nat ltac:(rewrite upd_length; lia)). rewrite nth_upd_other in H by congruence. rewrite Z in H.
    pose proof (list_sum_upd z k 1%nat ltac:(lia)). rewrite Z in H0. unfold z in H0 at 2. rewrite list_sum_repeat0 in H0. lia. }
  apply (varfd_unpaired Triangle dim degree k m); try assumption.
  - split; [assumption|]. cbn [in_set]. lia.
  - rewrite Hmk. reflexivity.
  - rewrite Hmk, with_entry_upd by lia. intros [_ G]. cbn [in_set] in G. pose proof (list_sum_upd m k (1 + 1)%nat ltac:(lia)). rewrite Hmk in H. lia.
Qed.

(** * the two overloads *)
Lemma varfd_overloads : forall s dim degree k A, usable s dim degree -> (k < dim)%nat -> @sp_for num_R s dim degree A ->
  exists B D, varfd fnum_R (calc_spmat fnum_R) s dim degree k A 0 = Ok B /\ @sp_for num_R s dim degree B /\ varfd_dense fnum_R s dim degree k (dense A) 0 = Ok D /\ dense B = D /\
    varfd fnum_R (calc_mat fnum_R) s dim degree k (dense A) 0 = Ok D.
Proof.
  intros s dim degree k A Hu Hk HA. assert (N : 0%nat = 1%nat -> paired s dim degree k) by discriminate.
  assert (HD : @mat_for num_R s dim degree (dense A)) by (destruct HA as [W [S1 S2]]; pose proof (dense_wf num_R A W) as G; rewrite S1, S2 in G; exact G).
  destruct (varfd_sparse s dim degree k 0 Hu Hk (or_introl eq_refl) N A HA) as [B [E1 [E2 E3]]].
  destruct (varfd_dense_gen s dim degree k 0 Hu Hk (or_introl eq_refl) (dense A) HD N) as [D [F1 [F2 F3]]].
  destruct (varfd_boost s dim degree k 0 Hu Hk (or_introl eq_refl) N (dense A) HD) as [D' [G1 [G2 G3]]].
  assert (Hf : forall n, dense_factor 0 n = fst (dterm 0 n)) by (intros n; unfold dense_factor, dterm; cbn [Nat.eqb fst]; destruct (Nat.eqb_spec n 0) as [->|]; [symmetry; apply sqrt_0|reflexivity]).
  assert (HB : @mat_for num_R s dim degree (dense B)) by (destruct E2 as [W [S1 S2]]; pose proof (dense_wf num_R B W) as G; rewrite S1, S2 in G; exact G).
  assert (X : dense B = D) by (apply (entry_ext num_R s dim degree); try assumption; intros r c Hr Hc; refine (eq_trans (E3 r c Hr Hc) _); symmetry; refine (eq_trans (F3 r c Hr Hc) _); rewrite Hf; reflexivity).
  assert (Y : D' = D) by (apply (entry_ext num_R s dim degree); try assumption; intros r c Hr Hc; refine (eq_trans (G3 r c Hr Hc) _); symmetry; refine (eq_trans (F3 r c Hr Hc) _); rewrite Hf; reflexivity).
  exists B, D. rewrite <- Y at 3. auto.
Qed.

Lemma dense_factor_fourier : forall n, (n <= 250)%nat -> dense_factor 1 n = if (n =? 0)%nat then 0 else if Nat.even n then 2 ^ 32 - INR (n / 2) else INR ((n + 1) / 2).
Proof.
  intros n Hn. unfold dense_factor. destruct (Nat.eqb_spec n 0) as [|Hz]; [reflexivity|]. cbn [Nat.eqb]. unfold u32. destruct (Nat.even n) eqn:E.
  - assert (Hq : (1 <= n / 2 <= 250)%nat) by (apply Nat.even_spec in E as [q ->]; rewrite Nat.mul_comm, Nat.div_mul by lia; lia). set (q := (n / 2)%nat) in *.
    change (2 ^ 32)%Z with 4294967296%Z. rewrite <- (Z_mod_plus_full _ 1), Z.mod_small by lia.
    replace (-1 * Z.of_nat q + 1 * 4294967296)%Z with (4294967296 - Z.of_nat q)%Z by lia. rewrite minus_IZR, <- INR_IZR_INZ. f_equal. lra.
  - assert (Hq : (1 <= (n + 1) / 2 <= 250)%nat) by (split; [apply Nat.div_le_lower_bound; lia|apply Nat.div_le_upper_bound; lia]). rewrite Z.mul_1_l, Z.mod_small by (set (q := ((n + 1) / 2)%nat) in *; split; [lia|]; apply Z.le_lt_trans with 250%Z; [lia|reflexivity]).
    rewrite <- INR_IZR_INZ. reflexivity.
Qed.

Lemma varfd_dense_fourier : forall s dim degree k (A : list (list R)), usable s dim degree -> (k < dim)%nat -> paired s dim degree k -> @mat_for num_R s dim degree A ->
  exists D, varfd_dense fnum_R s dim degree k A 1 = Ok D /\ @mat_for num_R s dim degree D /\
    forall r c, index_of s dim degree r -> index_of s dim degree c -> let n := nth k c 0%nat in
      @entry num_R s dim degree D r c = (if (n =? 0)%nat then 0 else if Nat.even n then 2 ^ 32 - INR (n / 2) else INR ((n + 1) / 2)) * @entry num_R s dim degree A r (with_entry c k (snd (dterm 1 n))).
Proof.
  intros s dim degree k A Hu Hk Hp HA. destruct (varfd_dense_gen s dim degree k 1 Hu Hk (or_intror eq_refl) A HA (fun _ => Hp)) as [D [F1 [F2 F3]]].
  exists D. split; [exact F1|]. split; [exact F2|]. intros r c Hr Hc n. rewrite F3 by assumption. fold n. rewrite dense_factor_fourier; [reflexivity|].
  assert ((n <= Nat.max 1 degree)%nat); [|destruct Hu as [_ [Hdg _]]; lia]. unfold n. apply (in_set_bound s (Nat.max 1 degree) c k); [lia|]. destruct Hc as [_ Hc]. apply in_set_mono with degree; [lia|assumption].
Qed.

(** Degree 2 in one dimension: the sine column 1 and its cosine 2. *)
Definition sine_column : spmat num_R := Build_spmat num_R 3 3 [[(1%nat, 1)]; []; []].
Lemma varfd_fourier_differs : exists B D, varfd fnum_R (calc_spmat fnum_R) Cube 1 2 0 sine_column 1 = Ok B /\ varfd_dense fnum_R Cube 1 2 0 (dense sine_column) 1 = Ok D /\
  @entry num_R Cube 1 2 (dense B) [0]%nat [2]%nat = -1 /\ @entry num_R Cube 1 2 D [0]%nat [2]%nat = 2 ^ 32 - 1.
Proof.
  assert (Hu : usable Cube 1 2) by (apply usable_dim4; lia). assert (Hp : paired Cube 1 2 0) by (apply paired_cube; [reflexivity|lia]).
  assert (W : sp_wf2 num_R sine_column 3 3) by (split; [split; [reflexivity|repeat constructor; cbn; lia]|split; reflexivity]).
  assert (P : length (points Cube 1 2) = 3%nat) by reflexivity.
  assert (HA : @sp_for num_R Cube 1 2 sine_column) by (unfold sp_for; rewrite P; exact W).
  assert (HD : @mat_for num_R Cube 1 2 (dense sine_column)) by (split; [reflexivity|repeat constructor]).
  destruct (varfd_sparse Cube 1 2 0 1 Hu ltac:(lia) (or_intror eq_refl) (fun _ => Hp) sine_column HA) as [B [E1 [E2 E3]]].
  destruct (varfd_dense_fourier Cube 1 2 0 (dense sine_column) Hu ltac:(lia) Hp HD) as [D [F1 [F2 F3]]].
  exists B, D. split; [exact E1|]. split; [exact F1|].
  assert (I0 : index_of Cube 1 2 [0]%nat) by (split; [reflexivity|repeat constructor]). assert (I2 : index_of Cube 1 2 [2]%nat) by (split; [reflexivity|repeat constructor]).
  assert (V : @entry num_R Cube 1 2 (dense sine_column) [0]%nat [1]%nat = 1) by reflexivity.
  split; [refine (eq_trans (E3 _ _ I0 I2) _)|refine (eq_trans (F3 _ _ I0 I2) _)]; cbn [nth Nat.eqb Nat.even]; unfold dterm; cbn [Nat.eqb Nat.even fst snd]; change (with_entry [2]%nat 0 (2 - 1)%nat) with [1]%nat; rewrite V; change (INR (2 / 2)) with 1; lra.
Qed.

Lemma varfd_overloads_refuted : ~ forall s dim degree k A, usable s dim degree -> (k < dim)%nat -> paired s dim degree k -> @sp_for num_R s dim degree A ->
  exists B D, varfd fnum_R (calc_spmat fnum_R) s dim degree k A 1 = Ok B /\ varfd_dense fnum_R s dim degree k (dense A) 1 = Ok D /\ dense B = D.
Proof.
  intros H. destruct (H Cube 1%nat 2%nat 0%nat sine_column) as [B [D [E1 [E2 E3]]]].
  - apply usable_dim4; lia.
  - lia.
  - apply paired_cube; [reflexivity|lia].
  - split; [split; [reflexivity|repeat constructor; cbn; lia]|split; reflexivity].
  - destruct varfd_fourier_differs as [B' [D' [F1 [F2 [F3 F4]]]]]. rewrite E1 in F1. injection F1 as <-. rewrite E2 in F2. injection F2 as <-. rewrite E3 in F3.
    assert (X : -1 = 2 ^ 32 - 1) by exact (eq_trans (eq_sym F3) F4). lra.
Qed.

(** * derivatives commute *)
Lemma varfd_commute : forall s dim degree a b fa fb A, usable s dim degree -> (a < dim)%nat -> (b < dim)%nat -> a <> b -> (fa = 0%nat \/ fa = 1%nat) -> (fb = 0%nat \/ fb = 1%nat) ->
  (fa = 1%nat -> paired s dim degree a) -> (fb = 1%nat -> paired s dim degree b) -> @sp_for num_R s dim degree A ->
  exists A1 A2 B1 B2, varfd fnum_R (calc_spmat fnum_R) s dim degree a A fa = Ok A1 /\ varfd fnum_R (calc_spmat fnum_R) s dim degree b A1 fb = Ok A2 /\
    varfd fnum_R (calc_spmat fnum_R) s dim degree b A fb = Ok B1 /\ varfd fnum_R (calc_spmat fnum_R) s dim degree a B1 fa = Ok B2 /\ dense A2 = dense B2.
Proof.
  intros s dim degree a b fa fb A Hu Ha Hb Hab Hfa Hfb Hpa Hpb HA.
  destruct (varfd_sparse s dim degree a fa Hu Ha Hfa Hpa A HA) as [A1 [E1 [E2 E3]]]. destruct (varfd_sparse s dim degree b fb Hu Hb Hfb Hpb A1 E2) as [A2 [F1 [F2 F3]]].
  destruct (varfd_sparse s dim degree b fb Hu Hb Hfb Hpb A HA) as [B1 [G1 [G2 G3]]]. destruct (varfd_sparse s dim degree a fa Hu Ha Hfa Hpa B1 G2) as [B2 [K1 [K2 K3]]].
  exists A1, A2, B1, B2. repeat (split; [assumption|]).
  assert (Hm : forall M, @sp_for num_R s dim degree M -> @mat_for num_R s dim degree (dense M)) by (intros M [W [S1 S2]]; pose proof (dense_wf num_R M W) as G; rewrite S1, S2 in G; exact G).
  apply (entry_ext num_R s dim degree); [assumption|apply Hm; assumption|apply Hm; assumption|]. intros r c Hr Hc.
  assert (La : (a < length c)%nat) by (destruct Hc as [-> _]; assumption). assert (Lb : (b < length c)%nat) by (destruct Hc as [-> _]; assumption).
  refine (eq_trans (F3 r c Hr Hc) _). symmetry. refine (eq_trans (K3 r c Hr Hc) _).
  rewrite (with_entry_upd _ c a), (with_entry_upd _ c b) by assumption.
  pose proof (dterm_in s dim degree a fa Ha Hfa Hpa c Hc) as Ia. pose proof (dterm_in s dim degree b fb Hb Hfb Hpb c Hc) as Ib.
  refine (eq_trans (f_equal (Rmult _) (G3 r _ Hr Ia)) _). symmetry. refine (eq_trans (f_equal (Rmult _) (E3 r _ Hr Ib)) _). rewrite !with_entry_upd by (rewrite upd_length; assumption). rewrite !nth_upd_other by congruence.
  rewrite (upd_comm _ c a b) by assumption. match goal with |- @eq _ ?x ?y => change (@eq R x y) end. ring.
Qed.
