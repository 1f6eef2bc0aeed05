(** varf.cpp: triple_products_fourier. *)
From Coq Require Import String List Bool Arith ZArith Lia Reals Lra.
From Verif Require Import Base Lists IndexModel Spec Num Fnum LinModel LinSpec LinBase MatBase Tensorize Sparse CalcModel CalcSpec CalcBase CalcHermite CalcReal CalcTriple.
Import ListNotations.

(** * programs that only write *)
Section Writes.
Variable F : fnum.
Notation cube := (list (list (list F))) (only parsing).
Definition write (w : nat * nat * nat * F) (c : cube) : res cube := let '(k, i, j, x) := w in cset F c k i j x.
Definition pos (w : nat * nat * nat * F) : nat * nat * nat := fst w.

Definition hit (k i j : nat) (w : nat * nat * nat * F) : bool := let '(k', i', j', _) := w in (k =? k') && (i =? i') && (j =? j').

Lemma writes_ok : forall K n (t : nat -> nat -> nat -> F) l c, cwf K n c ->
  (forall k i j x, In (k, i, j, x) l -> k < K /\ i < n /\ j < n /\ x = t k i j) ->
  exists c', for_in write l c = Ok c' /\ cwf K n c' /\
    forall k i j, cnth c' k i j = if existsb (hit k i j) l then t k i j else cnth c k i j.
Proof.
  intros K n t. induction l as [|[[[k i] j] x] l IH]; intros c W H.
  - exists c. split; [reflexivity|]. split; [assumption|]. reflexivity.
  - destruct (H k i j x (or_introl eq_refl)) as [Hk [Hi [Hj ->]]]. cbn [for_in write].
    destruct (cset_ok F K n c k i j (t k i j) W Hk Hi Hj) as [c1 [E1 [W1 V1]]]. rewrite E1. cbn [bind].
    destruct (IH c1 W1) as [c2 [E2 [W2 V2]]]; [intros; apply H; right; assumption|]. exists c2. split; [assumption|]. split; [assumption|].
    intros k' i' j'. rewrite V2, V1. cbn [existsb hit]. destruct ((k' =? k) && (i' =? i) && (j' =? j)) eqn:E; cbn [orb]; [|reflexivity].
    apply andb_true_iff in E as [E Ej]. apply andb_true_iff in E as [Ek Ei]. apply Nat.eqb_eq in Ek, Ei, Ej. subst. destruct (existsb _ l); reflexivity.
Qed.
End Writes.
Arguments write {F}. Arguments hit {F}.

Lemma bind_ret : forall A (x : res A), (y <- x ;; Ok y) = x.
Proof. intros A []; reflexivity. Qed.

Lemma for_in_flat_map : forall A B St (f : B -> St -> res St) (g : A -> list B) l s,
  for_in f (flat_map g l) s = for_in (fun x s => for_in f (g x) s) l s.
Proof.
  intros A B St f g. induction l as [|x l IH]; intros s; [reflexivity|]. cbn [flat_map for_in]. rewrite for_in_app.
  destruct (for_in f (g x) s); cbn [bind]; auto.
Qed.

(** the writes of triple_products_fourier *)
Section FourierWrites.
Variable F : fnum.
Let two_pi : F := nmul (fofZ 2) fpi.
Let norm0 : F := nmul (fsqrt two_pi) two_pi.
Let norm1 : F := nmul (fsqrt two_pi) fpi.
Let norm2 : F := nmul (fsqrt fpi) fpi.
Let whole : F := fdiv fpi norm1.
Let half : F := fdiv (fdiv fpi (fofZ 2)) norm2.
Let mhalf : F := fdiv (fdiv (nopp fpi) (fofZ 2)) norm2.
Let signed (z : Z) : F := fdiv (nmul (fdiv fpi (fofZ 2)) (fofZ z)) norm2.

Definition writes3 (k2 k3 : nat) : list (nat * nat * nat * F) :=
  if k2 =? k3 then [] else
  let ks := k2 + k3 in
  let kd := (if k2 <? k3 then k3 else k2) - (if k2 <? k3 then k2 else k3) in
  let sgn3 := (Z.b2z (k2 <? k3)%nat - Z.b2z (k3 <? k2)%nat)%Z in
  [(COS ks, COS k2, COS k3, half); (COS kd, COS k2, COS k3, half); (COS ks, SIN k2, SIN k3, mhalf); (COS kd, SIN k2, SIN k3, half);
   (SIN ks, COS k2, SIN k3, half); (SIN ks, SIN k2, COS k3, half); (SIN kd, COS k2, SIN k3, signed sgn3); (SIN kd, SIN k2, COS k3, signed (- sgn3)%Z)].
Definition writes2 (k2 : nat) : list (nat * nat * nat * F) :=
  [(COS k2, COS 0, COS k2, whole); (SIN k2, COS 0, SIN k2, whole); (COS k2, COS k2, COS 0, whole); (SIN k2, SIN k2, COS 0, whole);
   (COS 0, COS k2, COS k2, whole); (COS 0, SIN k2, SIN k2, whole); (COS (2 * k2), COS k2, COS k2, half); (COS (2 * k2), SIN k2, SIN k2, mhalf);
   (SIN (2 * k2), COS k2, SIN k2, half); (SIN (2 * k2), SIN k2, COS k2, half)].
Definition fourier_writes (mf : nat) : list (nat * nat * nat * F) :=
  (COS 0, COS 0, COS 0, fdiv two_pi norm0) :: flat_map (fun k2 => writes2 k2 ++ flat_map (writes3 k2) (seq 1 mf)) (seq 1 mf).

Lemma triple_products_fourier_writes : forall degree, degree mod 2 = 0 ->
  triple_products_fourier F degree =
  for_in write (fourier_writes (degree / 2)) (repeat (repeat (repeat n0 (degree + 1)) (degree + 1)) (2 * degree + 1)).
Proof.
  intros degree Hd. unfold triple_products_fourier. rewrite Hd. cbn [Nat.eqb]. unfold fourier_writes. cbn [for_in write].
  apply bind_ext. intros c _. unfold for_range. replace (degree / 2 + 1 - 1) with (degree / 2) by lia.
  rewrite for_each_for_in. rewrite for_in_flat_map. apply for_in_ext. intros k2 c1 Hk2.
  rewrite for_in_app. unfold writes2. cbn [for_in write]. rewrite !bind_assoc.
  repeat (apply bind_ext; intros ? _; rewrite ?bind_assoc). cbn [bind].
  rewrite for_each_for_in. rewrite for_in_flat_map. apply for_in_ext. intros k3 c2 Hk3. unfold writes3.
  destruct (k2 =? k3); [reflexivity|]. cbn [for_in write]. repeat (apply bind_ext; intros ? _). symmetry. apply bind_ret.
Qed.
End FourierWrites.

Local Open Scope R_scope.

(** * the values written, by column *)
Definition w1 : R := 1 / sqrt (2 * PI).
Definition h1 : R := 1 / (2 * sqrt PI).

Definition col (i j : nat) : list (nat * R) :=
  if (i =? 0)%nat then [(j, w1)]
  else if (j =? 0)%nat then [(i, w1)]
  else
    let a := ((i + 1) / 2)%nat in
    let b := ((j + 1) / 2)%nat in
    let d := (Nat.max a b - Nat.min a b)%nat in
    match Nat.even i, Nat.even j with
    | true, true => if (a =? b)%nat then [(0%nat, w1); (COS (2 * a), h1)] else [(COS (a + b), h1); (COS d, h1)]
    | false, false => if (a =? b)%nat then [(0%nat, w1); (COS (2 * a), - h1)] else [(COS (a + b), - h1); (COS d, h1)]
    | true, false => if (a =? b)%nat then [(SIN (2 * a), h1)] else [(SIN (a + b), h1); (SIN d, if (a <? b)%nat then h1 else - h1)]
    | false, true => if (a =? b)%nat then [(SIN (2 * a), h1)] else [(SIN (a + b), h1); (SIN d, if (b <? a)%nat then h1 else - h1)]
    end.

Fixpoint assoc (l : list (nat * R)) (k : nat) : R :=
  match l with
  | [] => 0
  | (k', x) :: l' => if (k =? k')%nat then x else assoc l' k
  end.
Definition tf (k i j : nat) : R := assoc (col i j) k.

Lemma even_COS : forall a, Nat.even (COS a) = true.
Proof. intros. apply Nat.even_spec. exists a. reflexivity. Qed.
Lemma even_SIN : forall a, (1 <= a)%nat -> Nat.even (SIN a) = false.
Proof.
  intros a Ha. unfold SIN. rewrite <- Nat.negb_odd. replace (2 * a - 1)%nat with (2 * (a - 1) + 1)%nat by lia. rewrite (proj2 (Nat.odd_spec _) (ex_intro _ (a - 1)%nat eq_refl)). reflexivity.
Qed.
Lemma freq_COS : forall a, ((COS a + 1) / 2 = a)%nat.
Proof. intros. unfold COS. rewrite (Nat.mul_comm 2 a), Nat.add_comm, Nat.div_add by lia. reflexivity. Qed.
Lemma freq_SIN : forall a, (1 <= a)%nat -> ((SIN a + 1) / 2 = a)%nat.
Proof. intros. unfold SIN. replace (2 * a - 1 + 1)%nat with (a * 2)%nat by lia. apply Nat.div_mul. lia. Qed.
Lemma COS_neq0 : forall a, (1 <= a)%nat -> (COS a =? 0)%nat = false.
Proof. intros. apply Nat.eqb_neq. unfold COS. lia. Qed.
Lemma SIN_neq0 : forall a, (1 <= a)%nat -> (SIN a =? 0)%nat = false.
Proof. intros. apply Nat.eqb_neq. unfold SIN. lia. Qed.

Lemma col_0l : forall j, col 0 j = [(j, w1)].
Proof. reflexivity. Qed.
Lemma col_0r : forall i, col i 0 = [(i, w1)].
Proof. intros [|i]; reflexivity. Qed.
Lemma col_CC : forall a b, (1 <= a)%nat -> (1 <= b)%nat -> col (COS a) (COS b) =
  if (a =? b)%nat then [(0%nat, w1); (COS (2 * a), h1)] else [(COS (a + b), h1); (COS (Nat.max a b - Nat.min a b), h1)].
Proof. intros. unfold col. rewrite !COS_neq0, !even_COS, !freq_COS by assumption. reflexivity. Qed.
Lemma col_SS : forall a b, (1 <= a)%nat -> (1 <= b)%nat -> col (SIN a) (SIN b) =
  if (a =? b)%nat then [(0%nat, w1); (COS (2 * a), - h1)] else [(COS (a + b), - h1); (COS (Nat.max a b - Nat.min a b), h1)].
Proof. intros. unfold col. rewrite !SIN_neq0, !even_SIN, !freq_SIN by assumption. reflexivity. Qed.
Lemma col_CS : forall a b, (1 <= a)%nat -> (1 <= b)%nat -> col (COS a) (SIN b) =
  if (a =? b)%nat then [(SIN (2 * a), h1)] else [(SIN (a + b), h1); (SIN (Nat.max a b - Nat.min a b), if (a <? b)%nat then h1 else - h1)].
Proof. intros. unfold col. rewrite COS_neq0, SIN_neq0, even_COS, even_SIN, freq_COS, freq_SIN by assumption. reflexivity. Qed.
Lemma col_SC : forall a b, (1 <= a)%nat -> (1 <= b)%nat -> col (SIN a) (COS b) =
  if (a =? b)%nat then [(SIN (2 * a), h1)] else [(SIN (a + b), h1); (SIN (Nat.max a b - Nat.min a b), if (b <? a)%nat then h1 else - h1)].
Proof. intros. unfold col. rewrite COS_neq0, SIN_neq0, even_COS, even_SIN, freq_COS, freq_SIN by assumption. reflexivity. Qed.

Lemma index_cases : forall mf i, (i <= 2 * mf)%nat -> i = 0%nat \/ exists a, (1 <= a <= mf)%nat /\ (i = COS a \/ i = SIN a).
Proof.
  intros mf i Hi. destruct (Nat.eq_dec i 0) as [->|Hne]; [left; reflexivity|]. right. exists ((i + 1) / 2)%nat.
  destruct (Nat.Even_or_Odd i) as [[a ->]|[a ->]].
  - change (2 * a)%nat with (COS a). rewrite freq_COS. unfold COS in *. split; [lia|]. left. reflexivity.
  - replace (2 * a + 1)%nat with (SIN (a + 1)) by (unfold SIN; lia). rewrite freq_SIN by lia. split; [lia|]. right. reflexivity.
Qed.

Lemma sqrt_2PI_pos : 0 < sqrt (2 * PI).
Proof. apply sqrt_lt_R0. pose proof PI_RGT_0. lra. Qed.
Lemma sqrt_PI_pos : 0 < sqrt PI.
Proof. apply sqrt_lt_R0. apply PI_RGT_0. Qed.
Lemma val_w0 : 2 * PI / (sqrt (2 * PI) * (2 * PI)) = w1.
Proof. unfold w1. pose proof PI_RGT_0. pose proof sqrt_2PI_pos. field. lra. Qed.
Lemma val_w1 : PI / (sqrt (2 * PI) * PI) = w1.
Proof. unfold w1. pose proof PI_RGT_0. pose proof sqrt_2PI_pos. field. lra. Qed.
Lemma val_h1 : PI / 2 / (sqrt PI * PI) = h1.
Proof. unfold h1. pose proof PI_RGT_0. pose proof sqrt_PI_pos. field. lra. Qed.
Lemma val_mh1 : - PI / 2 / (sqrt PI * PI) = - h1.
Proof. unfold h1. pose proof PI_RGT_0. pose proof sqrt_PI_pos. field. lra. Qed.
Lemma val_sg : forall z, PI / 2 * IZR z / (sqrt PI * PI) = IZR z * h1.
Proof. intros. unfold h1. pose proof PI_RGT_0. pose proof sqrt_PI_pos. field. lra. Qed.

Ltac tfcase := unfold tf; rewrite ?col_CC, ?col_SS, ?col_CS, ?col_SC, ?col_0l, ?col_0r by lia; cbn [assoc]; unfold COS, SIN in *;
  repeat match goal with
  | |- context [(?a =? ?b)%nat] => destruct (Nat.eqb_spec a b); try lia; cbn [assoc]
  | |- context [(?a <? ?b)%nat] => destruct (Nat.ltb_spec a b); try lia; cbn [assoc]
  end.

(** every write carries the value of its column *)
Lemma writes_value : forall mf k i j x, In (k, i, j, x) (fourier_writes fnum_R mf) ->
  (k < 4 * mf + 1)%nat /\ (i < 2 * mf + 1)%nat /\ (j < 2 * mf + 1)%nat /\ x = tf k i j.
Proof.
  intros mf k i j x Hin. unfold fourier_writes in Hin. cbn [fdiv nmul fsqrt fofZ fpi nopp fn fnum_R num_R] in Hin. destruct Hin as [E|Hin].
  - injection E as <- <- <- <-. change (IZR 2) with 2. rewrite val_w0. change (COS 0) with 0%nat. split; [lia|]. split; [lia|]. split; [lia|]. reflexivity.
  - apply in_flat_map in Hin as [k2 [Hk2 Hin]]. apply in_seq in Hk2. apply in_app_or in Hin as [Hin|Hin].
    + unfold writes2 in Hin. cbn [fdiv nmul fsqrt fofZ fpi nopp fn fnum_R num_R] in Hin. rewrite val_w1, val_h1, val_mh1 in Hin.
      change (COS 0) with 0%nat in Hin.
      repeat (destruct Hin as [E|Hin]; [injection E as <- <- <- <-; (split; [unfold COS, SIN; lia|split; [unfold COS, SIN; lia|split; [unfold COS, SIN; lia|]]]); tfcase; reflexivity|]).
      destruct Hin.
    + apply in_flat_map in Hin as [k3 [Hk3 Hin]]. apply in_seq in Hk3. unfold writes3 in Hin. destruct (Nat.eqb_spec k2 k3) as [|Hne]; [destruct Hin|].
      cbn [fdiv nmul fsqrt fofZ fpi nopp fn fnum_R num_R] in Hin. rewrite val_h1, val_mh1, !val_sg in Hin.
      destruct (Nat.ltb_spec k2 k3) as [H1|H1]; destruct (Nat.ltb_spec k3 k2) as [H2|H2]; try lia; cbn [Z.b2z Z.sub Z.opp Z.add Z.pos_sub] in Hin.
      * repeat (destruct Hin as [E|Hin]; [injection E as <- <- <- <-; (split; [unfold COS, SIN; lia|split; [unfold COS, SIN; lia|split; [unfold COS, SIN; lia|]]]); tfcase; lra|]).
        destruct Hin.
      * repeat (destruct Hin as [E|Hin]; [injection E as <- <- <- <-; (split; [unfold COS, SIN; lia|split; [unfold COS, SIN; lia|split; [unfold COS, SIN; lia|]]]); tfcase; lra|]).
        destruct Hin.
Qed.

Lemma in_writes2 : forall mf k2 w, (1 <= k2 <= mf)%nat -> In w (writes2 fnum_R k2) -> In w (fourier_writes fnum_R mf).
Proof. intros mf k2 w Hk H. right. apply in_flat_map. exists k2. split; [apply in_seq; lia|]. apply in_or_app. left. assumption. Qed.
Lemma in_writes3 : forall mf k2 k3 w, (1 <= k2 <= mf)%nat -> (1 <= k3 <= mf)%nat -> In w (writes3 fnum_R k2 k3) -> In w (fourier_writes fnum_R mf).
Proof.
  intros mf k2 k3 w Hk2 Hk3 H. right. apply in_flat_map. exists k2. split; [apply in_seq; lia|]. apply in_or_app. right.
  apply in_flat_map. exists k3. split; [apply in_seq; lia|]. assumption.
Qed.

Ltac pick := match goal with
  | |- exists x, In (?a, x) (?b :: ?l) => first [exists (snd b); left; reflexivity | let H := fresh in assert (H : exists x, In (a, x) l); [pick | destruct H as [? H]; eexists; right; exact H]]
  end.

Lemma col_written : forall mf i j p v, (i <= 2 * mf)%nat -> (j <= 2 * mf)%nat -> In (p, v) (col i j) -> exists x, In (p, i, j, x) (fourier_writes fnum_R mf).
Proof.
  intros mf i j p v Hi Hj Hin.
  assert (G2 : forall k2 a, (1 <= k2 <= mf)%nat -> (exists x, In (a, x) (writes2 fnum_R k2)) -> exists x, In (a, x) (fourier_writes fnum_R mf)).
  { intros k2 a Hk [x Hx]. exists x. exact (in_writes2 mf k2 _ Hk Hx). }
  assert (G3 : forall k2 k3 a, (1 <= k2 <= mf)%nat -> (1 <= k3 <= mf)%nat -> (exists x, In (a, x) (writes3 fnum_R k2 k3)) -> exists x, In (a, x) (fourier_writes fnum_R mf)).
  { intros k2 k3 a Hk Hk3 [x Hx]. exists x. exact (in_writes3 mf k2 k3 _ Hk Hk3 Hx). }
  assert (Hd : forall a b, (Nat.max a b - Nat.min a b = (if (a <? b) then b else a) - (if a <? b then a else b))%nat) by (intros a b; destruct (Nat.ltb_spec a b); lia).
  destruct (index_cases mf i Hi) as [->|[a [Ha Hia]]].
  - rewrite col_0l in Hin. destruct Hin as [E|[]]. injection E as <- _.
    destruct (index_cases mf j Hj) as [->|[b [Hb [->| ->]]]].
    + eexists. left. reflexivity.
    + apply (G2 b); [assumption|]. unfold writes2. change (COS 0) with 0%nat. pick.
    + apply (G2 b); [assumption|]. unfold writes2. change (COS 0) with 0%nat. pick.
  - destruct (index_cases mf j Hj) as [->|[b [Hb Hjb]]].
    + rewrite col_0r in Hin. destruct Hin as [E|[]]. injection E as <- _. apply (G2 a); [assumption|]. unfold writes2. change (COS 0) with 0%nat.
      destruct Hia as [-> | ->]; pick.
    + destruct (Nat.eq_dec a b) as [<-|Hne].
      * apply (G2 a); [assumption|]. unfold writes2. change (COS 0) with 0%nat.
        destruct Hia as [-> | ->]; destruct Hjb as [-> | ->]; rewrite ?col_CC, ?col_SS, ?col_CS, ?col_SC in Hin by lia; rewrite Nat.eqb_refl in Hin;
          repeat (destruct Hin as [E|Hin]; [injection E as <- _; pick|]); destruct Hin.
      * apply (G3 a b); [assumption|assumption|]. unfold writes3. rewrite (proj2 (Nat.eqb_neq a b) Hne). cbv zeta. rewrite <- Hd.
        destruct Hia as [-> | ->]; destruct Hjb as [-> | ->]; rewrite ?col_CC, ?col_SS, ?col_CS, ?col_SC in Hin by lia; rewrite (proj2 (Nat.eqb_neq a b) Hne) in Hin;
          repeat (destruct Hin as [E|Hin]; [injection E as <- _; pick|]); destruct Hin.
Qed.

Lemma assoc_nonzero : forall l k, assoc l k <> 0 -> exists v, In (k, v) l.
Proof.
  induction l as [|[k' x] l IH]; intros k H; [contradiction H; reflexivity|]. cbn [assoc] in H. destruct (Nat.eqb_spec k k') as [E|].
  - subst. exists x. left. reflexivity.
  - destruct (IH k H) as [v Hv]. exists v. right. assumption.
Qed.

Definition col_sum (l : list (nat * R)) (e : nat -> R) : R := rsum (map (fun '(k, v) => v * e k) l).
Lemma sumn_assoc : forall n l e, NoDup (map fst l) -> Forall (fun z => (fst z < n)%nat) l -> sumn n (fun k => assoc l k * e k) = col_sum l e.
Proof.
  intros n. induction l as [|[k v] l IH]; intros e Hn Hf; [apply sumn_0; intros; cbn [assoc]; lra|].
  cbn [map fst] in Hn. inversion Hn; subst. inversion Hf; subst. cbn [fst] in *. unfold col_sum. cbn [map]. rewrite rsum_cons. fold (col_sum l e). rewrite <- IH by assumption.
  rewrite (sumn_ext _ _ (fun k' => (if (k' =? k)%nat then v * e k' else 0) + assoc l k' * e k')).
  - rewrite sumn_plus. f_equal. rewrite (sumn_single _ _ k); [rewrite Nat.eqb_refl; reflexivity|assumption|]. intros k' _ Hne. rewrite (proj2 (Nat.eqb_neq _ _) Hne). reflexivity.
  - intros k' _. cbn [assoc]. destruct (Nat.eqb_spec k' k) as [->|]; [|lra].
    assert (assoc l k = 0) as ->; [|lra]. destruct (Req_dec (assoc l k) 0) as [|Hz]; [assumption|]. exfalso. apply assoc_nonzero in Hz as [y Hy]. apply H1. apply (in_map fst) in Hy. exact Hy.
Qed.

Lemma sq_sqrtPI : sqrt PI * sqrt PI = PI.
Proof. apply sqrt_sqrt. pose proof PI_RGT_0. lra. Qed.
Lemma sq_sqrt2PI : sqrt (2 * PI) * sqrt (2 * PI) = 2 * PI.
Proof. apply sqrt_sqrt. pose proof PI_RGT_0. lra. Qed.

Lemma h1_mul : forall y, h1 * (y / sqrt PI) = y / (2 * PI).
Proof.
  intros. unfold h1. pose proof sqrt_PI_pos. pose proof PI_RGT_0.
  transitivity (y / (2 * (sqrt PI * sqrt PI))); [field; lra|]. rewrite sq_sqrtPI. reflexivity.
Qed.
Lemma w1_sq : w1 * w1 = 1 / (2 * PI).
Proof.
  unfold w1. pose proof sqrt_2PI_pos. pose proof PI_RGT_0. transitivity (1 / (sqrt (2 * PI) * sqrt (2 * PI))); [field; lra|]. rewrite sq_sqrt2PI. reflexivity.
Qed.
Lemma q_mul : forall y z, (y / sqrt PI) * (z / sqrt PI) = y * z / PI.
Proof. intros. pose proof sqrt_PI_pos. pose proof PI_RGT_0. transitivity (y * z / (sqrt PI * sqrt PI)); [field; lra|]. rewrite sq_sqrtPI. reflexivity. Qed.

Lemma col_linear : forall mf i j x, (i <= 2 * mf)%nat -> (j <= 2 * mf)%nat -> col_sum (col i j) (fun k => fourier k x) = fourier i x * fourier j x.
Proof.
  intros mf i j x Hi Hj. pose proof PI_RGT_0 as Hpi.
  destruct (index_cases mf i Hi) as [->|[a [Ha Hia]]].
  { rewrite col_0l. unfold col_sum. cbn [map]. rewrite rsum_cons. cbn [rsum fold_right]. rewrite fourier_0. fold w1. lra. }
  destruct (index_cases mf j Hj) as [->|[b [Hb Hjb]]].
  { rewrite col_0r. unfold col_sum. cbn [map]. rewrite rsum_cons. cbn [rsum fold_right]. rewrite fourier_0. fold w1. lra. }
  assert (Tp : forall a b, INR (a + b) * x = INR a * x + INR b * x) by (intros; rewrite plus_INR; ring).
  assert (Tm : forall a b, (b <= a)%nat -> INR (a - b) * x = INR a * x - INR b * x) by (intros; rewrite minus_INR by assumption; ring).
  assert (T2 : forall a, INR (2 * a) * x = INR a * x + INR a * x) by (intros; rewrite mult_INR; cbn [INR]; ring).
  assert (SC : forall u, sin u * sin u = 1 - cos u * cos u) by (intros u; pose proof (sin2_cos2 u) as G; unfold Rsqr in G; lra).
  destruct (Nat.eq_dec a b) as [<-|Hne].
  - destruct Hia as [-> | ->]; destruct Hjb as [-> | ->]; rewrite ?col_CC, ?col_SS, ?col_CS, ?col_SC by lia; rewrite Nat.eqb_refl; unfold col_sum; cbn [map]; rewrite ?rsum_cons; cbn [rsum fold_right];
      rewrite ?fourier_0, ?fourier_cos, ?fourier_sin by lia; fold w1; rewrite ?w1_sq, ?q_mul, ?T2, ?cos_plus, ?sin_plus, <- ?Ropp_mult_distr_l, ?h1_mul, ?SC; field; lra.
  - destruct (Nat.lt_ge_cases a b) as [Hlt|Hge].
    + rewrite ?Nat.max_r, ?Nat.min_l by lia.
      destruct Hia as [-> | ->]; destruct Hjb as [-> | ->]; rewrite ?col_CC, ?col_SS, ?col_CS, ?col_SC by lia; rewrite (proj2 (Nat.eqb_neq a b) Hne);
      rewrite ?Nat.max_r, ?Nat.min_l by lia; rewrite ?(proj2 (Nat.ltb_lt a b) Hlt); try (rewrite (proj2 (Nat.ltb_ge b a)) by lia);
      unfold col_sum; cbn [map]; rewrite ?rsum_cons; cbn [rsum fold_right];
      rewrite ?fourier_cos, ?fourier_sin by lia; rewrite ?q_mul, ?Tp, ?(Tm b a) by lia; rewrite ?cos_plus, ?sin_plus, ?cos_minus, ?sin_minus, <- ?Ropp_mult_distr_l, ?h1_mul; field; lra.
    + destruct Hia as [-> | ->]; destruct Hjb as [-> | ->]; rewrite ?col_CC, ?col_SS, ?col_CS, ?col_SC by lia; rewrite (proj2 (Nat.eqb_neq a b) Hne);
      rewrite ?Nat.max_l, ?Nat.min_r by lia; rewrite ?(proj2 (Nat.ltb_lt b a)) by lia; try (rewrite (proj2 (Nat.ltb_ge a b)) by lia);
      unfold col_sum; cbn [map]; rewrite ?rsum_cons; cbn [rsum fold_right];
      rewrite ?fourier_cos, ?fourier_sin by lia; rewrite ?q_mul, ?Tp, ?(Tm a b) by lia; rewrite ?cos_plus, ?sin_plus, ?cos_minus, ?sin_minus, <- ?Ropp_mult_distr_l, ?h1_mul; field; lra.
Qed.

Lemma col_distinct : forall mf i j, (i <= 2 * mf)%nat -> (j <= 2 * mf)%nat -> NoDup (map fst (col i j)) /\ Forall (fun z => (fst z < 4 * mf + 1)%nat) (col i j) /\ map fst (col i j) = map fst (col j i) /\ col i j = col j i.
Proof.
  intros mf i j Hi Hj.
  assert (N2 : forall a b : nat, a <> b -> NoDup [a; b]) by (intros; constructor; [intros [|[]]; congruence|constructor; [intros []|constructor]]).
  assert (N1 : forall a : nat, NoDup [a]) by (intros; constructor; [intros []|constructor]).
  assert (G : NoDup (map fst (col i j)) /\ Forall (fun z => (fst z < 4 * mf + 1)%nat) (col i j) /\ col i j = col j i).
  { destruct (index_cases mf i Hi) as [->|[a [Ha Hia]]].
    { rewrite col_0l, col_0r. cbn [map fst]. split; [apply N1|]. split; [|reflexivity]. constructor; [cbn [fst]; lia|constructor]. }
    destruct (index_cases mf j Hj) as [->|[b [Hb Hjb]]].
    { rewrite col_0l, col_0r. cbn [map fst]. split; [apply N1|]. split; [|reflexivity]. constructor; [cbn [fst]; lia|constructor]. }
    destruct (Nat.eq_dec a b) as [<-|Hne].
    - destruct Hia as [-> | ->]; destruct Hjb as [-> | ->]; rewrite ?col_CC, ?col_SS, ?col_CS, ?col_SC by lia; rewrite Nat.eqb_refl; cbn [map fst];
      (split; [first [apply N1|apply N2; unfold COS, SIN; lia]|split; [repeat (constructor; cbn [fst]; [unfold COS, SIN in *; lia|]); constructor|reflexivity]]).
    - assert (Hne' : b <> a) by congruence.
      destruct Hia as [-> | ->]; destruct Hjb as [-> | ->]; rewrite ?col_CC, ?col_SS, ?col_CS, ?col_SC by lia; rewrite (proj2 (Nat.eqb_neq a b) Hne), (proj2 (Nat.eqb_neq b a) Hne'); cbn [map fst];
      (split; [first [apply N1|apply N2; unfold COS, SIN; lia]|split; [repeat (constructor; cbn [fst]; [unfold COS, SIN in *; lia|]); constructor|rewrite (Nat.add_comm a b), (Nat.max_comm a b), (Nat.min_comm a b); reflexivity]]). }
  destruct G as [G1 [G2 G3]]. rewrite <- G3. auto.
Qed.

Lemma triple_products_fourier_ok : forall D, Nat.even D = true -> exists c, triple_products_fourier fnum_R D = Ok c /\ cwf (F:=fnum_R) (2 * D + 1) (D + 1) c /\
  (forall k i j, (i <= D)%nat -> (j <= D)%nat -> cnth (F:=fnum_R) c k i j = cnth (F:=fnum_R) c k j i) /\
  (forall i j x, (i <= D)%nat -> (j <= D)%nat -> fourier i x * fourier j x = sumn (2 * D + 1) (fun k => cnth (F:=fnum_R) c k i j * fourier k x)) /\
  (forall k i j, (i <= D)%nat -> (j <= D)%nat -> cnth (F:=fnum_R) c k i j = tf k i j).
Proof.
  intros D HD. apply Nat.even_spec in HD as [mf ->]. rewrite triple_products_fourier_writes by (rewrite Nat.mul_comm; apply Nat.mod_mul; lia).
  replace (2 * mf / 2)%nat with mf by (rewrite Nat.mul_comm, Nat.div_mul by lia; reflexivity).
  destruct (writes_ok fnum_R (2 * (2 * mf) + 1) (2 * mf + 1) tf (fourier_writes fnum_R mf) (repeat (repeat (repeat (n0 : fnum_R) (2 * mf + 1)) (2 * mf + 1)) (2 * (2 * mf) + 1))) as [c [E [W V]]].
  - apply cube0_wf.
  - intros k i j x Hin. destruct (writes_value mf k i j x Hin) as [H1 [H2 [H3 H4]]]. repeat split; (lia || assumption).
  - assert (V' : forall k i j, (i <= 2 * mf)%nat -> (j <= 2 * mf)%nat -> cnth (F:=fnum_R) c k i j = tf k i j).
    { intros k i j Hi Hj. rewrite V, cube0_nth. destruct (existsb (hit k i j) (fourier_writes fnum_R mf)) eqn:Ex; [reflexivity|].
      destruct (Req_dec (tf k i j) 0) as [->|Hz]; [reflexivity|]. exfalso. apply assoc_nonzero in Hz as [v Hv]. destruct (col_written mf i j k v Hi Hj Hv) as [x Hx].
      assert (Et : existsb (hit k i j) (fourier_writes fnum_R mf) = true); [|congruence]. apply existsb_exists. exists (k, i, j, x). split; [assumption|].
      cbn [hit]. rewrite !Nat.eqb_refl. reflexivity. }
    exists c. split; [exact E|]. split; [assumption|]. split; [|split; [|exact V']].
    + intros k i j Hi Hj. rewrite !V' by assumption. unfold tf. destruct (col_distinct mf i j Hi Hj) as [_ [_ [_ ->]]]. reflexivity.
    + intros i j x Hi Hj. rewrite (sumn_ext _ _ (fun k => assoc (col i j) k * fourier k x)) by (intros; rewrite V' by assumption; reflexivity).
      destruct (col_distinct mf i j Hi Hj) as [H1 [H2 _]]. rewrite (sumn_assoc (2 * (2 * mf) + 1) (col i j) (fun k => fourier k x)); [symmetry; eapply col_linear; eassumption|assumption|].
      eapply Forall_impl; [|exact H2]. intros z Hz. cbv beta in *. lia.
Qed.

(** Products of functions of frequency at most [q] have frequency at most [2 q]. *)
Lemma tf_support : forall q k i j, (i <= 2 * q)%nat -> (j <= 2 * q)%nat -> tf k i j <> 0 -> (k <= 4 * q)%nat.
Proof.
  intros q k i j Hi Hj Hz. apply assoc_nonzero in Hz as [v Hv]. destruct (col_distinct q i j Hi Hj) as [_ [H2 _]]. rewrite Forall_forall in H2. specialize (H2 _ Hv). cbn [fst] in H2. lia.
Qed.
