(** Proofs of C101. *)
From Coq Require Import List Bool Arith ZArith Reals Lra Lia.
From Verif Require Import Base Lists IndexModel Spec Num Fnum LinModel LinSpec LinBase CalcModel CalcSpec CalcHermite CalcReal CalcTriple CalcBase CalcQuad CalcVarf2 CalcVarfd Facts2 Facts6 Facts7 Facts8 Facts9 Facts10 FormSpec FormFacts OuSpec.
Import ListNotations.
Local Open Scope R_scope.

(** The basis functions are orthonormal on the grid if they are in each direction. *)
Lemma grid_orth_gen : forall nodes weights flags m m', length flags = length nodes -> length weights = length nodes -> length m = length nodes -> length m' = length nodes ->
  (forall k, (k < length nodes)%nat -> length (nth k nodes []) = length (nth k weights []) /\
     rsum (map (fun '(x, w) => w * (basis (nth k flags 0%nat) (nth k m 0%nat) x * basis (nth k flags 0%nat) (nth k m' 0%nat) x)) (combine (nth k nodes []) (nth k weights []))) = if (nth k m 0 =? nth k m' 0)%nat then 1 else 0) ->
  rsum (map (fun p => rprod (at_pos weights p) * (phi flags m (at_pos nodes p) * phi flags m' (at_pos nodes p))) (grid nodes)) = same m m'.
Proof.
  unfold same. induction nodes as [|xs nodes IH]; intros weights flags m m' Hf Hw Hm Hm' Hx.
  - destruct m; [|discriminate]. destruct m'; [|discriminate]. destruct weights; [|discriminate]. destruct flags; [|discriminate]. cbn. lra.
  - destruct m as [|a m]; [discriminate|]. destruct m' as [|b m']; [discriminate|]. destruct weights as [|ws weights]; [discriminate|]. destruct flags as [|f flags]; [discriminate|].
    cbn [length] in *. unfold grid. cbn [map]. rewrite rsum_row_major_cons. fold (grid nodes).
    rewrite (sumn_ext _ _ (fun i => nth i ws 0 * (basis f a (nth i xs 0) * basis f b (nth i xs 0)) * (if mi_eqb m m' then 1 else 0))).
    + destruct (Hx 0%nat ltac:(lia)) as [Hl H0]. cbn [nth] in Hl, H0.
      rewrite (sumn_combine (fun x w => w * (basis f a x * basis f b x) * (if mi_eqb m m' then 1 else 0)) xs ws Hl).
      etransitivity; [|cbn [mi_eqb]; transitivity ((if (a =? b)%nat then 1 else 0) * (if mi_eqb m m' then 1 else 0)); [rewrite <- H0; apply rsum_map_mult_r|]].
      * apply rsum_map_ext. intros [x w] _. reflexivity.
      * destruct (a =? b)%nat, (mi_eqb m m'); cbn [andb]; lra.
    + intros i Hi. specialize (IH weights flags m m' ltac:(lia) ltac:(lia) ltac:(lia) ltac:(lia) (fun k Hk => Hx (S k) ltac:(lia))). rewrite <- IH.
      rewrite <- rsum_map_mult. apply rsum_map_ext. intros p _. unfold at_pos. cbn [combine map]. rewrite !phi_cons, rprod_cons. ring.
Qed.

(** x_k times a basis function. *)
Lemma phi_x : forall flags m x k, length m = length flags -> length x = length flags -> (k < length flags)%nat -> nth k flags 0%nat = 0%nat ->
  nth k x 0 * phi flags m x = sqrt (INR (S (nth k m 0%nat))) * phi flags (raised m k) x + sqrt (INR (nth k m 0%nat)) * phi flags (lowered m k) x.
Proof.
  induction flags as [|f flags IH]; intros [|a m] [|y x] k H1 H2 Hk Hz; cbn [length] in *; try lia. destruct k as [|k].
  - cbn [nth] in *. subst f. unfold raised, lowered, with_entry. cbn [nth firstn skipn app]. rewrite !phi_cons. unfold basis. cbn [Nat.eqb]. rewrite <- Rmult_assoc, hermite_x. ring.
  - cbn [nth] in *. change (raised (a :: m) (S k)) with (a :: raised m k). change (lowered (a :: m) (S k)) with (a :: lowered m k). rewrite !phi_cons.
    replace (nth k x 0 * (basis f a y * phi flags m x)) with (basis f a y * (nth k x 0 * phi flags m x)) by ring. rewrite (IH m x k) by (assumption || lia). ring.
Qed.

Lemma we_nth : forall (m : list nat) k v i, (k < length m)%nat -> nth i (with_entry m k v) 0%nat = if (i =? k)%nat then v else nth i m 0%nat.
Proof.
  unfold with_entry. induction m as [|a m IH]; intros k v i H; cbn [length] in H; [lia|]. destruct k as [|k]; destruct i as [|i]; cbn [firstn skipn app nth Nat.eqb]; try reflexivity. apply IH. lia.
Qed.
Lemma we_len : forall (m : list nat) k v, (k < length m)%nat -> length (with_entry m k v) = length m.
Proof. intros. rewrite with_entry_upd by assumption. apply upd_length. Qed.
Lemma we_we : forall (m : list nat) k v w, (k < length m)%nat -> with_entry (with_entry m k v) k w = with_entry m k w.
Proof. unfold with_entry. induction m as [|a m IH]; intros k v w H; cbn [length] in H; [lia|]. destruct k as [|k]; cbn [firstn skipn app]; [reflexivity|]. f_equal. apply IH. lia. Qed.
Lemma we_id : forall (m : list nat) k v, (k < length m)%nat -> nth k m 0%nat = v -> with_entry m k v = m.
Proof. unfold with_entry. induction m as [|a m IH]; intros k v H E; cbn [length] in H; [lia|]. destruct k as [|k]; cbn [firstn skipn app nth] in *; [subst; reflexivity|]. f_equal. apply IH; [lia|assumption]. Qed.
Lemma same_refl : forall r, same r r = 1.
Proof. intros r. unfold same. rewrite (proj2 (mi_eqb_spec r r) eq_refl). reflexivity. Qed.
Lemma same_not : forall r c, r <> c -> same r c = 0.
Proof. intros r c H. unfold same. destruct (mi_eqb r c) eqn:E; [apply mi_eqb_spec in E; contradiction|reflexivity]. Qed.

(** The entries of a matrix made by varfd. *)
Lemma given_entry : forall s dim degree k flag A B, usable s dim degree -> (k < dim)%nat -> flag = 0%nat \/ flag = 1%nat -> (flag = 1%nat -> paired s dim degree k) ->
  varfd_gives s dim degree k flag A B -> forall r c, index_of s dim degree r -> index_of s dim degree c ->
  @entry num_R s dim degree B r c = fst (dterm flag (nth k c 0%nat)) * @entry num_R s dim degree A r (with_entry c k (snd (dterm flag (nth k c 0%nat)))).
Proof.
  intros s dim degree k flag A B Hu Hk Hf Hp H r c Hr Hc. destruct H as [[HA HB]|(A' & B' & HA & -> & HB & ->)].
  - destruct (varfd_boost s dim degree k flag Hu Hk Hf Hp A HA) as (B2 & E1 & _ & E3). assert (B2 = B) by congruence. subst B2. apply E3; assumption.
  - destruct (varfd_sparse s dim degree k flag Hu Hk Hf Hp A' HA) as (B2 & E1 & _ & E3). assert (B2 = B') by congruence. subst B2. apply E3; assumption.
Qed.

Lemma dterm_twice : forall n, snd (dterm 1 (snd (dterm 1 n))) = n /\ fst (dterm 1 n) * fst (dterm 1 (snd (dterm 1 n))) = - (INR ((n + 1) / 2) * INR ((n + 1) / 2)) /\ (n <> 0%nat -> fst (dterm 1 (snd (dterm 1 n))) = - fst (dterm 1 n)).
Proof.
  intros n. unfold dterm. cbn [Nat.eqb]. destruct (Nat.eqb_spec n 0) as [->|Hn]; [cbn; repeat split; [ring|intros X; contradiction]|].
  destruct (Nat.even n) eqn:E.
  - apply Nat.even_spec in E. destruct E as [j ->]. cbn [fst snd]. destruct (Nat.eqb_spec (2 * j - 1) 0) as [X|_]; [exfalso; clear - X Hn; lia|].
    assert (O : Nat.even (2 * j - 1) = false). { destruct j as [|j]; [lia|]. replace (2 * S j - 1)%nat with (2 * j + 1)%nat by lia. rewrite Nat.add_1_r, Nat.even_succ. rewrite Nat.odd_mul. reflexivity. }
    rewrite O. cbn [fst snd]. assert (D1 : (2 * j / 2 = j)%nat) by (rewrite Nat.mul_comm; apply Nat.div_mul; discriminate). assert (D2 : ((2 * j + 1) / 2 = j)%nat) by (rewrite Nat.add_comm, Nat.mul_comm, Nat.div_add by discriminate; reflexivity).
    replace (2 * j - 1 + 1)%nat with (2 * j)%nat by lia. rewrite D1, D2. split; [lia|split; [ring|intros _; ring]].
  - assert (O : Nat.odd n = true) by (rewrite <- Nat.negb_even, E; reflexivity). apply Nat.odd_spec in O. destruct O as [j ->]. cbn [fst snd]. destruct (Nat.eqb_spec (2 * j + 1 + 1) 0) as [X|_]; [exfalso; clear - X; lia|].
    assert (V : Nat.even (2 * j + 1 + 1) = true) by (replace (2 * j + 1 + 1)%nat with (2 * (j + 1))%nat by lia; rewrite Nat.even_mul; reflexivity). rewrite V. cbn [fst snd]. split; [lia|split; [ring|intros _; reflexivity]].
Qed.

Section Matrices.
Variables (s : iset) (degree : nat) (nodes weights : list (list R)) (flags : list nat) (k : nat).
Let dim := length nodes.
Hypothesis Hu : usable s dim degree.
Hypothesis Hf : fits s dim (2 * degree).
Hypothesis Hg : grid_fits nodes.
Hypothesis Hflags : flags_ok s degree flags.
Hypothesis Hexact : exact_rules degree flags nodes weights.
Hypothesis Hcl : closed_products s degree flags.
Hypothesis Hk : (k < dim)%nat.
Hypothesis Hkept1 : nothing_dropped s degree nodes weights flags (ones nodes).

Lemma ex_len : length flags = dim.
Proof using Hexact. apply Hexact. Qed.

Lemma bounded : forall r, index_of s dim degree r -> forall i, (nth i r 0 <= degree)%nat.
Proof using Hflags. intros r [_ H] i. eapply in_set_bound; [apply Hflags|exact H]. Qed.

Lemma ones_entry : forall A, varf_gives s degree nodes weights flags (ones nodes) A -> forall r c, index_of s dim degree r -> index_of s dim degree c -> @entry num_R s dim degree A r c = same r c.
Proof using Hu Hf Hg Hflags Hexact Hcl Hkept1. intros A HA r c Hr Hc. exact (form_identity s degree nodes weights flags Hu Hf Hg Hflags Hexact Hcl (ones nodes) eq_refl Hkept1 A HA r c Hr Hc). Qed.

Section Hermite.
Hypothesis Hz : nth k flags 0%nat = 0%nat.
Hypothesis Hkeptx : nothing_dropped s degree nodes weights flags (coordinate nodes k).

Lemma coordinate_sum : forall r c, length r = dim -> length c = dim ->
  galerkin nodes weights flags (coordinate nodes k) r c =
    sqrt (INR (S (nth k c 0%nat))) * rsum (map (fun p => rprod (at_pos weights p) * (phi flags r (at_pos nodes p) * phi flags (raised c k) (at_pos nodes p))) (grid nodes)) +
    sqrt (INR (nth k c 0%nat)) * rsum (map (fun p => rprod (at_pos weights p) * (phi flags r (at_pos nodes p) * phi flags (lowered c k) (at_pos nodes p))) (grid nodes)).
Proof using Hexact Hk Hz.
  intros r c Hr Hc. unfold galerkin, coordinate. rewrite quadrature_map. rewrite <- !rsum_map_mult. rewrite <- rsum_map_plus. apply rsum_map_ext. intros p Hp.
  assert (Hx : length (at_pos nodes p) = dim) by (apply at_pos_length; apply in_grid in Hp; eapply Forall2_length; exact Hp).
  pose proof (phi_x flags c (at_pos nodes p) k) as X. rewrite ex_len in X. specialize (X Hc Hx Hk Hz).
  transitivity (rprod (at_pos weights p) * phi flags r (at_pos nodes p) * (nth k (at_pos nodes p) 0 * phi flags c (at_pos nodes p))); [ring|]. rewrite X. ring.
Qed.

(** one of the multi-indices is below the degree in direction k, or the rule is exact there *)
Lemma orth_raised : forall r c, index_of s dim degree r -> index_of s dim degree c -> (nth k c 0 < degree)%nat \/ one_more degree k nodes weights ->
  rsum (map (fun p => rprod (at_pos weights p) * (phi flags r (at_pos nodes p) * phi flags (raised c k) (at_pos nodes p))) (grid nodes)) = same r (raised c k).
Proof using Hflags Hexact Hk Hz.
  intros r c Hr Hc Ho. pose proof ex_len as HL. destruct Hexact as (_ & Hw & Hx). pose proof (bounded r Hr) as Br. pose proof (bounded c Hc) as Bc. destruct Hr as [Lr _]. destruct Hc as [Lc _].
  assert (Hkc : (k < length c)%nat) by (rewrite Lc; exact Hk).
  apply grid_orth_gen; [exact HL|exact Hw|exact Lr|unfold raised; rewrite we_len by exact Hkc; exact Lc|].
  intros i Hi. destruct (Hx i Hi) as [Hl He]. split; [exact Hl|]. unfold raised. rewrite we_nth by exact Hkc. destruct (Nat.eqb_spec i k) as [->|Hik]; [|apply He; [apply Br|apply Bc]].
  destruct (le_lt_dec (S (nth k c 0%nat)) degree) as [Hle|Hgt]; [apply He; [apply Br|exact Hle]|].
  destruct Ho as [Ho|Ho]; [clear - Ho Hgt; lia|]. assert (Ec : nth k c 0%nat = degree) by (pose proof (Bc k) as B; clear - B Hgt; lia). rewrite Ec.
  destruct (Nat.eqb_spec (nth k r 0%nat) (S degree)) as [Ex|_]; [pose proof (Br k) as B; clear - B Ex; lia|].
  rewrite <- (Ho (nth k r 0%nat) (Br k)). apply rsum_map_ext. intros [x w] _. rewrite Hz. unfold basis. cbn [Nat.eqb]. ring.
Qed.
Lemma orth_lowered : forall r c, index_of s dim degree r -> index_of s dim degree c ->
  rsum (map (fun p => rprod (at_pos weights p) * (phi flags r (at_pos nodes p) * phi flags (lowered c k) (at_pos nodes p))) (grid nodes)) = same r (lowered c k).
Proof using Hflags Hexact Hk.
  intros r c Hr Hc. pose proof (bounded r Hr) as Br. pose proof (bounded c Hc) as Bc. destruct Hr as [Lr _]. destruct Hc as [Lc _]. assert (Hkc : (k < length c)%nat) by (rewrite Lc; exact Hk).
  apply (grid_orth degree); [exact Hexact|exact Lr|unfold lowered; rewrite we_len by exact Hkc; exact Lc|exact Br|].
  intros i. unfold lowered. rewrite we_nth by exact Hkc. destruct (i =? k)%nat; [pose proof (Bc k) as B; clear - B; lia|apply Bc].
Qed.

Lemma coordinate_entry : forall A, varf_gives s degree nodes weights flags (coordinate nodes k) A -> forall r c, index_of s dim degree r -> index_of s dim degree c -> (nth k c 0 < degree)%nat \/ one_more degree k nodes weights ->
  @entry num_R s dim degree A r c = sqrt (INR (S (nth k c 0%nat))) * same r (raised c k) + sqrt (INR (nth k c 0%nat)) * same r (lowered c k).
Proof using Hu Hf Hg Hflags Hexact Hcl Hk Hz Hkeptx.
  intros A HA r c Hr Hc Ho.
  refine (eq_trans (gives_galerkin s degree nodes weights flags (coordinate nodes k) Hu Hf Hg Hflags ex_len (exact_match _ _ _ _ Hexact) _ Hcl Hkeptx A HA r c Hr Hc) _); [unfold coordinate; apply map_length|].
  rewrite coordinate_sum by (apply Hr || apply Hc). rewrite orth_raised, orth_lowered by assumption. reflexivity.
Qed.

Variables (A1 AX B BB BX : list (list R)).
Hypothesis H1 : varf_gives s degree nodes weights flags (ones nodes) A1.
Hypothesis HX : varf_gives s degree nodes weights flags (coordinate nodes k) AX.
Hypothesis HB : varfd_gives s dim degree k 0 A1 B.
Hypothesis HBB : varfd_gives s dim degree k 0 B BB.
Hypothesis HBX : varfd_gives s dim degree k 0 AX BX.

Lemma low_in : forall c, index_of s dim degree c -> index_of s dim degree (lowered c k).
Proof using Hk.
  intros c Hc. assert (Hkc : (k < length c)%nat) by (destruct Hc as [-> _]; exact Hk).
  pose proof (dterm_in s dim degree k 0 Hk (or_introl eq_refl) (fun E => False_ind _ (Nat.neq_0_succ _ E)) c Hc) as D. cbn [dterm Nat.eqb snd] in D. unfold lowered. rewrite with_entry_upd by exact Hkc. exact D.
Qed.
Lemma given0 : forall A C, varfd_gives s dim degree k 0 A C -> forall r c, index_of s dim degree r -> index_of s dim degree c ->
  @entry num_R s dim degree C r c = sqrt (INR (nth k c 0%nat)) * @entry num_R s dim degree A r (lowered c k).
Proof using Hu Hk. intros A C H r c Hr Hc. exact (given_entry s dim degree k 0 A C Hu Hk (or_introl eq_refl) (fun E => False_ind _ (Nat.neq_0_succ _ E)) H r c Hr Hc). Qed.

Lemma derivative_entry : forall r c, index_of s dim degree r -> index_of s dim degree c -> @entry num_R s dim degree B r c = sqrt (INR (nth k c 0%nat)) * same r (lowered c k).
Proof using Hu Hf Hg Hflags Hexact Hcl Hk Hkept1 H1 HB. intros r c Hr Hc. rewrite (given0 A1 B HB r c Hr Hc). rewrite (ones_entry A1 H1 r (lowered c k) Hr (low_in c Hc)). reflexivity. Qed.

Lemma ou_entry : forall r c, index_of s dim degree r -> index_of s dim degree c ->
  @entry num_R s dim degree BB r c - @entry num_R s dim degree BX r c = if mi_eqb r c then - INR (nth k c 0%nat) else 0.
Proof using Hu Hf Hg Hflags Hexact Hcl Hk Hkept1 Hz Hkeptx H1 HX HB HBB HBX.
  intros r c Hr Hc. rewrite (given0 B BB HBB r c Hr Hc), (given0 AX BX HBX r c Hr Hc). pose proof (low_in c Hc) as Hl. assert (Hkc : (k < length c)%nat) by (destruct Hc as [-> _]; exact Hk).
  assert (R0 : (if mi_eqb r c then - INR (nth k c 0%nat) else 0) = - INR (nth k c 0%nat) * same r c) by (unfold same; destruct (mi_eqb r c); ring). rewrite R0. clear R0.
  destruct (Nat.eq_dec (nth k c 0%nat) 0) as [E|E]; [rewrite E; cbn [INR]; rewrite sqrt_0; match goal with |- ?a = ?b => change (@eq R a b) end; ring|].
  assert (El : nth k (lowered c k) 0%nat = (nth k c 0 - 1)%nat) by (unfold lowered; rewrite we_nth by exact Hkc; rewrite Nat.eqb_refl; reflexivity).
  rewrite (derivative_entry r (lowered c k) Hr Hl).
  rewrite (coordinate_entry AX HX r (lowered c k) Hr Hl) by (left; rewrite El; pose proof (bounded c Hc k) as Bd; clear - Bd E; lia).
  rewrite El. replace (S (nth k c 0 - 1)%nat) with (nth k c 0%nat) by (clear - E; lia).
  assert (Er : raised (lowered c k) k = c).
  { unfold raised. rewrite El. unfold lowered. rewrite we_we by exact Hkc. apply we_id; [exact Hkc|clear - E; lia]. }
  rewrite Er. match goal with |- ?a = ?b => change (@eq R a b) end.
  assert (Q : sqrt (INR (nth k c 0%nat)) * sqrt (INR (nth k c 0%nat)) = INR (nth k c 0%nat)) by (apply sqrt_sqrt, pos_INR).
  match goal with |- ?a = _ => transitivity (- (sqrt (INR (nth k c 0%nat)) * sqrt (INR (nth k c 0%nat))) * same r c) end; [ring|rewrite Q; ring].
Qed.

Lemma parts_entry : one_more degree k nodes weights -> forall r c, index_of s dim degree r -> index_of s dim degree c ->
  @entry num_R s dim degree B r c + @entry num_R s dim degree B c r = @entry num_R s dim degree AX r c.
Proof using Hu Hf Hg Hflags Hexact Hcl Hk Hkept1 Hz Hkeptx H1 HX HB.
  intros Ho r c Hr Hc. rewrite (derivative_entry r c Hr Hc), (derivative_entry c r Hc Hr), (coordinate_entry AX HX r c Hr Hc (or_intror Ho)).
  assert (Hkc : (k < length c)%nat) by (destruct Hc as [-> _]; exact Hk). assert (Hkr : (k < length r)%nat) by (destruct Hr as [-> _]; exact Hk).
  match goal with |- ?a = ?b => change (@eq R a b) end. rewrite Rplus_comm. f_equal.
  destruct (Nat.eq_dec (nth k r 0%nat) 0) as [E|E].
  - rewrite E. cbn [INR]. rewrite sqrt_0, Rmult_0_l. rewrite same_not; [symmetry; apply Rmult_0_r|]. intros ->. unfold raised in E. rewrite we_nth in E by exact Hkc. rewrite Nat.eqb_refl in E. discriminate E.
  - destruct (list_eq_dec Nat.eq_dec r (raised c k)) as [->|Hn].
    + assert (E1 : nth k (raised c k) 0%nat = S (nth k c 0%nat)) by (unfold raised; rewrite we_nth by exact Hkc; rewrite Nat.eqb_refl; reflexivity). rewrite E1.
      assert (E2 : lowered (raised c k) k = c). { unfold lowered. rewrite E1. unfold raised. rewrite we_we by exact Hkc. apply we_id; [exact Hkc|clear; lia]. }
      rewrite E2, !same_refl. reflexivity.
    + rewrite (same_not r _ Hn). rewrite same_not; [ring|]. intros Ec. apply Hn. rewrite Ec. unfold raised, lowered. rewrite we_nth by exact Hkr. rewrite Nat.eqb_refl, we_we by exact Hkr. symmetry. apply we_id; [exact Hkr|clear - E; lia].
Qed.

(** D^T D *)
Lemma number_entry : forall r c, index_of s dim degree r -> index_of s dim degree c ->
  rsum (map (fun j => @entry num_R s dim degree B j r * @entry num_R s dim degree B j c) (points s dim degree)) = if mi_eqb r c then INR (nth k c 0%nat) else 0.
Proof using Hu Hf Hg Hflags Hexact Hcl Hk Hkept1 H1 HB.
  intros r c Hr Hc. assert (Hkc : (k < length c)%nat) by (destruct Hc as [-> _]; exact Hk). assert (Hkr : (k < length r)%nat) by (destruct Hr as [-> _]; exact Hk).
  transitivity (rsum (map (fun j => (if mi_eqb j (lowered r k) then 1 else 0) * (sqrt (INR (nth k r 0%nat)) * (sqrt (INR (nth k c 0%nat)) * same j (lowered c k)))) (points s dim degree))).
  { apply rsum_map_ext. intros j Hj. apply (points_In s dim degree) in Hj; [|exact Hu]. rewrite (derivative_entry j r Hj Hr), (derivative_entry j c Hj Hc). unfold same. match goal with |- ?a = ?b => change (@eq R a b) end. ring. }
  transitivity (sqrt (INR (nth k r 0%nat)) * (sqrt (INR (nth k c 0%nat)) * same (lowered r k) (lowered c k))).
  { pose proof (low_in r Hr) as Hl. apply (points_In s dim degree) in Hl; [|exact Hu].
    rewrite (rsum_single _ _ (points s dim degree) (lowered r k) (points_NoDup s dim degree Hu) Hl); [rewrite (proj2 (mi_eqb_spec _ _) eq_refl); ring|].
    intros j _ Hj. destruct (mi_eqb j (lowered r k)) eqn:E; [apply mi_eqb_spec in E; contradiction|ring]. }
  destruct (Nat.eq_dec (nth k r 0%nat) 0) as [Er|Er].
  - rewrite Er. cbn [INR]. rewrite sqrt_0, Rmult_0_l. destruct (mi_eqb r c) eqn:E; [apply mi_eqb_spec in E; subst c; rewrite Er; reflexivity|reflexivity].
  - destruct (Nat.eq_dec (nth k c 0%nat) 0) as [Ec|Ec].
    + rewrite Ec. cbn [INR]. rewrite sqrt_0. destruct (mi_eqb r c); ring.
    + destruct (mi_eqb r c) eqn:E.
      * apply mi_eqb_spec in E. subst c. rewrite same_refl, Rmult_1_r. apply sqrt_sqrt, pos_INR.
      * rewrite same_not; [ring|]. intros X. assert (r = c); [|subst; rewrite (proj2 (mi_eqb_spec c c) eq_refl) in E; discriminate E].
        assert (Y : raised (lowered r k) k = raised (lowered c k) k) by (rewrite X; reflexivity). unfold raised, lowered in Y. rewrite !we_nth, !we_we in Y by assumption. rewrite Nat.eqb_refl in Y.
        rewrite (we_id r k), (we_id c k) in Y; [exact Y|exact Hkc|clear - Ec; lia|exact Hkr|clear - Er; lia].
Qed.
End Hermite.

Section Fourier.
Hypothesis Hp : paired s dim degree k.
Variables (A1 B BB : list (list R)).
Hypothesis H1 : varf_gives s degree nodes weights flags (ones nodes) A1.
Hypothesis HB : varfd_gives s dim degree k 1 A1 B.
Hypothesis HBB : varfd_gives s dim degree k 1 B BB.
Let mirror c := with_entry c k (snd (dterm 1 (nth k c 0%nat))).

Lemma mir_in : forall c, index_of s dim degree c -> index_of s dim degree (mirror c).
Proof using Hk Hp.
  intros c Hc. assert (Hkc : (k < length c)%nat) by (destruct Hc as [-> _]; exact Hk). unfold mirror. rewrite with_entry_upd by exact Hkc.
  exact (dterm_in s dim degree k 1 Hk (or_intror eq_refl) (fun _ => Hp) c Hc).
Qed.
Lemma mir_nth : forall c, index_of s dim degree c -> nth k (mirror c) 0%nat = snd (dterm 1 (nth k c 0%nat)).
Proof using Hk. intros c [Lc _]. unfold mirror. rewrite we_nth by (rewrite Lc; exact Hk). rewrite Nat.eqb_refl. reflexivity. Qed.
Lemma mir_mir : forall c, index_of s dim degree c -> mirror (mirror c) = c.
Proof using Hk. intros c Hc. pose proof (mir_nth c Hc) as M. destruct Hc as [Lc _]. unfold mirror at 1. rewrite M. unfold mirror. rewrite we_we by (rewrite Lc; exact Hk). apply we_id; [rewrite Lc; exact Hk|symmetry; apply dterm_twice]. Qed.
Lemma given1 : forall A C, varfd_gives s dim degree k 1 A C -> forall r c, index_of s dim degree r -> index_of s dim degree c ->
  @entry num_R s dim degree C r c = fst (dterm 1 (nth k c 0%nat)) * @entry num_R s dim degree A r (mirror c).
Proof using Hu Hk Hp. intros A C H r c Hr Hc. exact (given_entry s dim degree k 1 A C Hu Hk (or_intror eq_refl) (fun _ => Hp) H r c Hr Hc). Qed.

Lemma laplacian_entry : forall r c, index_of s dim degree r -> index_of s dim degree c ->
  @entry num_R s dim degree BB r c = if mi_eqb r c then - (INR ((nth k c 0%nat + 1) / 2) * INR ((nth k c 0%nat + 1) / 2)) else 0.
Proof using Hu Hf Hg Hflags Hexact Hcl Hk Hkept1 Hp H1 HB HBB.
  intros r c Hr Hc. rewrite (given1 B BB HBB r c Hr Hc), (given1 A1 B HB r (mirror c) Hr (mir_in c Hc)). rewrite (ones_entry A1 H1 r _ Hr (mir_in _ (mir_in c Hc))). rewrite (mir_mir c Hc), (mir_nth c Hc).
  destruct (dterm_twice (nth k c 0%nat)) as [_ [D _]]. match goal with |- ?a = ?b => change (@eq R a b) end. rewrite <- Rmult_assoc, D. unfold same. destruct (mi_eqb r c); ring.
Qed.
Lemma antisymmetric_entry : forall r c, index_of s dim degree r -> index_of s dim degree c -> @entry num_R s dim degree B r c = - @entry num_R s dim degree B c r.
Proof using Hu Hf Hg Hflags Hexact Hcl Hk Hkept1 Hp H1 HB.
  intros r c Hr Hc. rewrite (given1 A1 B HB r c Hr Hc), (given1 A1 B HB c r Hc Hr). rewrite (ones_entry A1 H1 r _ Hr (mir_in c Hc)), (ones_entry A1 H1 c _ Hc (mir_in r Hr)). match goal with |- ?a = ?b => change (@eq R a b) end.
  destruct (list_eq_dec Nat.eq_dec r (mirror c)) as [E|E].
  - subst r. rewrite (mir_mir c Hc), (mir_nth c Hc), !same_refl. destruct (Nat.eq_dec (nth k c 0%nat) 0) as [Z|Z]; [rewrite Z; cbn; ring|]. destruct (dterm_twice (nth k c 0%nat)) as [_ [_ D]]. rewrite (D Z). ring.
  - rewrite (same_not r _ E), (same_not c); [ring|]. intros X. apply E. rewrite X. symmetry. apply mir_mir. exact Hr.
Qed.
End Fourier.
End Matrices.

Lemma ou_total : forall s degree nodes weights flags, usable s (length nodes) degree -> fits s (length nodes) (2 * degree) -> grid_fits nodes -> flags_ok s degree flags -> exact_rules degree flags nodes weights -> closed_products s degree flags ->
  Forall (fun f => f = 0%nat) flags -> nothing_dropped s degree nodes weights flags (ones nodes) -> (forall k, (k < length nodes)%nat -> nothing_dropped s degree nodes weights flags (coordinate nodes k)) ->
  forall A1 (AX B BB BX : nat -> list (list R)), varf_gives s degree nodes weights flags (ones nodes) A1 ->
  (forall k, (k < length nodes)%nat -> varf_gives s degree nodes weights flags (coordinate nodes k) (AX k) /\ varfd_gives s (length nodes) degree k 0 A1 (B k) /\ varfd_gives s (length nodes) degree k 0 (B k) (BB k) /\ varfd_gives s (length nodes) degree k 0 (AX k) (BX k)) ->
  forall r c, index_of s (length nodes) degree r -> index_of s (length nodes) degree c ->
  rsum (map (fun k => @entry num_R s (length nodes) degree (BB k) r c - @entry num_R s (length nodes) degree (BX k) r c) (seq 0 (length nodes))) = if mi_eqb r c then - INR (list_sum r) else 0.
Proof.
  intros s degree nodes weights flags Hu Hf Hg Hfl He Hcl Hz K1 Kx A1 AX B BB BX V1 V r c Hr Hc.
  transitivity (rsum (map (fun k => - (same r c * INR (nth k r 0%nat))) (seq 0 (length nodes)))).
  - apply rsum_map_ext. intros k Hk. apply in_seq in Hk. destruct (V k ltac:(lia)) as (W1 & W2 & W3 & W4).
    assert (Hzk : nth k flags 0%nat = 0%nat) by (rewrite Forall_forall in Hz; apply Hz, nth_In; destruct He as [-> _]; lia).
    rewrite (ou_entry s degree nodes weights flags k Hu Hf Hg Hfl He Hcl ltac:(lia) K1 Hzk (Kx k ltac:(lia)) A1 (AX k) (B k) (BB k) (BX k) V1 W1 W2 W3 W4 r c Hr Hc).
    unfold same. destruct (mi_eqb r c) eqn:E; [apply mi_eqb_spec in E; subst c|]; ring.
  - assert (S : forall (m : list nat) n, (forall x, rsum (map (fun k => - (x * INR (nth k m 0%nat))) (seq 0 n)) = - (x * rsum (map (fun k => INR (nth k m 0%nat)) (seq 0 n))))).
    { intros m n x. induction (seq 0 n) as [|a l IH]; [unfold rsum; cbn; ring|]. cbn [map]. rewrite !rsum_cons, IH. ring. }
    rewrite S. assert (T : forall m : list nat, rsum (map (fun k => INR (nth k m 0%nat)) (seq 0 (length m))) = INR (list_sum m)).
    { induction m as [|a m IH]; [reflexivity|]. cbn [length seq map nth]. rewrite rsum_cons. rewrite <- seq_shift, map_map. cbn [nth]. rewrite IH. change (list_sum (a :: m)) with (a + list_sum m)%nat. rewrite plus_INR. reflexivity. }
    replace (length nodes) with (length r) by apply Hr. rewrite T. unfold same. destruct (mi_eqb r c); ring.
Qed.

(** The function 1 and the coordinates are multiples of one basis function. *)
Definition unit_factor (flags : list nat) : R := rprod (map (fun f => if (f =? 1)%nat then sqrt (2 * PI) else 1) flags).
Lemma unit_factor_ge : forall flags, 1 <= unit_factor flags.
Proof.
  induction flags as [|f flags IH]; [unfold unit_factor, rprod; cbn; lra|]. unfold unit_factor in *. cbn [map]. rewrite rprod_cons.
  assert (1 <= sqrt (2 * PI)) by (rewrite <- sqrt_1; apply sqrt_le_1_alt; pose proof PI2_1; lra). destruct (f =? 1)%nat; nra.
Qed.
Lemma one_phi : forall flags x, length x = length flags -> 1 = unit_factor flags * phi flags (repeat 0%nat (length flags)) x.
Proof.
  induction flags as [|f flags IH]; intros [|y x] H; cbn [length] in H; try discriminate; [unfold unit_factor, phi, rprod; cbn; lra|]. cbn [length repeat]. rewrite phi_cons.
  unfold unit_factor. cbn [map]. rewrite rprod_cons. fold (unit_factor flags). injection H as H. specialize (IH x H). unfold basis.
  assert (0 < sqrt (2 * PI)) by (apply sqrt_lt_R0; pose proof PI_RGT_0; lra). destruct (f =? 1)%nat.
  - unfold fourier. cbn [Nat.eqb]. transitivity (unit_factor flags * phi flags (repeat 0%nat (length flags)) x); [exact IH|]. field. lra.
  - rewrite hermite_0. rewrite IH at 1. ring.
Qed.
Lemma x_phi : forall flags x k, length x = length flags -> (k < length flags)%nat -> nth k flags 0%nat = 0%nat -> nth k x 0 = unit_factor flags * phi flags (raised (repeat 0%nat (length flags)) k) x.
Proof.
  intros flags x k H Hk Hz. pose proof (phi_x flags (repeat 0%nat (length flags)) x k ltac:(apply repeat_length) H Hk Hz) as P. rewrite nth_repeat in P. cbn [INR] in P. rewrite sqrt_0, sqrt_1 in P.
  transitivity (nth k x 0 * (unit_factor flags * phi flags (repeat 0%nat (length flags)) x)); [rewrite <- (one_phi flags x H); ring|].
  transitivity (unit_factor flags * (nth k x 0 * phi flags (repeat 0%nat (length flags)) x)); [ring|]. rewrite P. ring.
Qed.

Lemma single_kept : forall s degree nodes weights flags input m0 c, fits s (length nodes) (2 * degree) -> exact_rules (2 * degree) flags nodes weights -> ((s = Cross \/ s = CrossNc) -> (1 <= degree)%nat) ->
  length m0 = length nodes -> (forall k, (nth k m0 0 <= 2 * degree)%nat) -> 1 <= c -> input = map (fun p => c * phi flags m0 (at_pos nodes p)) (grid nodes) -> nothing_dropped s degree nodes weights flags input.
Proof.
  intros s degree nodes weights flags input m0 c (Hd & Hs & _) He Hc Hl Hb H1 -> m Hm. set (h := fun m => quadrature nodes weights (map (fun p => c * phi flags m0 (at_pos nodes p)) (grid nodes)) (phi flags m)).
  assert (V : forall m, index_of s (length nodes) (2 * degree) m -> h m = c * same m0 m).
  { intros m' Hm'. unfold h. rewrite quadrature_map. unfold same. rewrite <- (grid_orth (2 * degree) nodes weights flags m0 m' He Hl (proj1 Hm') Hb).
    - rewrite <- rsum_map_mult. apply rsum_map_ext. intros p _. ring.
    - intros k. eapply in_set_bound; [|apply Hm']. intros X. specialize (Hc X). lia. }
  change (h m = 0 \/ threshold h (points s (length nodes) (2 * degree)) <= Rabs (h m)). rewrite (V m Hm). destruct (list_eq_dec Nat.eq_dec m0 m) as [->|Hn]; [right|left; rewrite same_not by exact Hn; ring].
  rewrite same_refl, Rmult_1_r, (Rabs_pos_eq c) by lra. unfold threshold.
  assert (S : rsum (map (fun m' => h m' * h m') (points s (length nodes) (2 * degree))) = c * c).
  { rewrite (rsum_single _ _ (points s (length nodes) (2 * degree)) m (points_NoDup_ok _ _ _ Hd Hs)); [rewrite (V m Hm), same_refl; ring|apply points_In_ok; assumption|].
    intros m' Hi Hn. apply points_In_ok in Hi; [|assumption|assumption]. rewrite (V m' Hi), same_not by congruence. ring. }
  rewrite S, (sqrt_square c) by lra. rewrite Rmax_right by lra. assert (/ 10 ^ 12 <= 1) by (rewrite <- Rinv_1; apply Rinv_le_contravar; lra). nra.
Qed.
Lemma grid_length : forall (nodes : list (list R)) p, In p (grid nodes) -> length (at_pos nodes p) = length nodes.
Proof. intros nodes p Hp. apply at_pos_length. apply in_grid in Hp. eapply Forall2_length. exact Hp. Qed.
Lemma ones_kept : forall s degree nodes weights flags, fits s (length nodes) (2 * degree) -> flags_ok s degree flags -> exact_rules (2 * degree) flags nodes weights -> nothing_dropped s degree nodes weights flags (ones nodes).
Proof.
  intros s degree nodes weights flags Hf Hfl He. pose proof (proj1 He) as Hl. apply (single_kept s degree nodes weights flags _ (repeat 0%nat (length flags)) (unit_factor flags) Hf He).
  - apply Hfl.
  - rewrite repeat_length. exact Hl.
  - intros k. rewrite nth_repeat. lia.
  - apply unit_factor_ge.
  - unfold ones. apply map_ext_in. intros p Hp. apply one_phi. rewrite Hl. apply grid_length. exact Hp.
Qed.
Lemma coordinate_kept : forall s degree nodes weights flags k, fits s (length nodes) (2 * degree) -> flags_ok s degree flags -> exact_rules (2 * degree) flags nodes weights -> (k < length nodes)%nat -> nth k flags 0%nat = 0%nat ->
  nothing_dropped s degree nodes weights flags (coordinate nodes k).
Proof.
  intros s degree nodes weights flags k Hf Hfl He Hk Hz. pose proof (proj1 He) as Hl.
  assert (H1 : (1 <= degree)%nat). { destruct Hfl as [F _]. rewrite Forall_forall in F. destruct (F 0%nat) as [[_ X]|[X _]]; [rewrite <- Hz; apply nth_In; rewrite Hl; exact Hk|exact X|discriminate X]. }
  assert (Hkr : (k < length (repeat 0 (length flags)))%nat) by (rewrite repeat_length, Hl; exact Hk).
  apply (single_kept s degree nodes weights flags _ (raised (repeat 0%nat (length flags)) k) (unit_factor flags) Hf He).
  - apply Hfl.
  - unfold raised. rewrite we_len by exact Hkr. rewrite repeat_length. exact Hl.
  - intros i. unfold raised. rewrite we_nth by exact Hkr. rewrite !nth_repeat. destruct (i =? k)%nat; lia.
  - apply unit_factor_ge.
  - unfold coordinate. apply map_ext_in. intros p Hp. apply x_phi; [rewrite Hl; apply grid_length; exact Hp|rewrite Hl; exact Hk|exact Hz].
Qed.

(** All these matrices are computed, with either overload. *)
Lemma all_computed : forall s degree nodes weights flags k, usable s (length nodes) degree -> fits s (length nodes) (2 * degree) -> grid_fits nodes -> flags_ok s degree flags -> exact_rules degree flags nodes weights -> closed_products s degree flags -> (k < length nodes)%nat ->
  (nth k flags 0%nat = 1%nat -> paired s (length nodes) degree k) -> forall input, length input = length (grid nodes) -> nothing_dropped s degree nodes weights flags input ->
  (exists A B BB, varf fnum_R (calc_mat fnum_R) s degree input nodes weights flags = Ok A /\ @mat_for num_R s (length nodes) degree A /\
    varfd fnum_R (calc_mat fnum_R) s (length nodes) degree k A (nth k flags 0%nat) = Ok B /\ @mat_for num_R s (length nodes) degree B /\ varfd fnum_R (calc_mat fnum_R) s (length nodes) degree k B (nth k flags 0%nat) = Ok BB) /\
  (exists A B BB, varf fnum_R (calc_spmat fnum_R) s degree input nodes weights flags = Ok A /\ @sp_for num_R s (length nodes) degree A /\
    varfd fnum_R (calc_spmat fnum_R) s (length nodes) degree k A (nth k flags 0%nat) = Ok B /\ @sp_for num_R s (length nodes) degree B /\ varfd fnum_R (calc_spmat fnum_R) s (length nodes) degree k B (nth k flags 0%nat) = Ok BB).
Proof.
  intros s degree nodes weights flags k Hu Hf Hg Hfl He Hcl Hk Hp input Hi Hkept. pose proof (proj1 He) as Hl.
  destruct (varf_galerkin s degree nodes weights flags input Hu Hf Hg Hfl Hl (exact_match _ _ _ _ He) Hi Hcl Hkept) as (A & A' & V1 & V2 & V3 & V4 & _).
  assert (F : nth k flags 0%nat = 0%nat \/ nth k flags 0%nat = 1%nat). { destruct Hfl as [F _]. rewrite Forall_forall in F. destruct (F (nth k flags 0%nat)) as [[X _]|[X _]]; [apply nth_In; rewrite Hl; exact Hk|left; exact X|right; exact X]. }
  split.
  - destruct (varfd_boost s (length nodes) degree k _ Hu Hk F Hp A V2) as (B & B1 & B2 & _). destruct (varfd_boost s (length nodes) degree k _ Hu Hk F Hp B B2) as (BB & BB1 & _ & _). exists A, B, BB. auto.
  - destruct (varfd_sparse s (length nodes) degree k _ Hu Hk F Hp A' V4) as (B & B1 & B2 & _). destruct (varfd_sparse s (length nodes) degree k _ Hu Hk F Hp B B2) as (BB & BB1 & _ & _). exists A', B, BB. auto 6.
Qed.
