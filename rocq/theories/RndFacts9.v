(** Lemmas for C109: tensor products of matrices.  The computation with rounding makes the same steps as the exact one. *)
From Coq Require Import String List Bool Arith ZArith Lia Reals Lra Permutation.
From Verif Require Import Base Lists IndexModel Spec Num Fnum LinModel LinSpec LinBase MatBase RndModel RndSpec RndSpec2 RndFacts RndFacts2 RndFacts8 Facts2 Facts3.
Import ListNotations.
Local Open Scope nat_scope.

Lemma follows_for_in2 : forall X Y A B (Q : X -> Y -> Prop) (P : A -> B -> Prop) (f : X -> A -> res A) (g : Y -> B -> res B) l l', Forall2 Q l l' ->
  (forall x y a b, Q x y -> P a b -> follows P (f x a) (g y b)) -> forall a b, P a b -> follows P (for_in f l a) (for_in g l' b).
Proof.
  intros X Y A B Q P f g l l' H Hf. induction H as [|x y l l' Hxy H IH]; intros a b Hab; [apply follows_ok; exact Hab|]. cbn [for_in].
  eapply follows_bind; [apply Hf; [exact Hxy|exact Hab]|]. intros a' b' H'. apply IH. exact H'.
Qed.
Lemma follows_for_each : forall A B (P : nat -> A -> B -> Prop) f g n i a b, (forall k a b, i <= k < i + n -> P k a b -> follows (P (S k)) (f k a) (g k b)) -> P i a b -> follows (P (i + n)) (for_each f n i a) (for_each g n i b).
Proof.
  intros A B P f g. induction n as [|n IH]; intros i a b Hf Hab; [rewrite Nat.add_0_r; apply follows_ok; exact Hab|]. cbn [for_each].
  eapply follows_bind; [apply Hf; [lia|exact Hab]|]. intros a' b' H'. replace (i + S n) with (S i + n) by lia. apply IH; [|exact H']. intros k a1 b1 Hk. apply Hf. lia.
Qed.
Lemma follows_mapM : forall X Y A B (Q : X -> Y -> Prop) (P : A -> B -> Prop) (f : X -> res A) (g : Y -> res B) l l', Forall2 Q l l' -> (forall x y, Q x y -> follows P (f x) (g y)) -> follows (fun a b => Forall2 P a b /\ length a = length l) (mapM f l) (mapM g l').
Proof.
  intros X Y A B Q P f g l l' H Hf. induction H as [|x y l l' Hxy H IH]; [apply follows_ok; split; [apply Forall2_nil|reflexivity]|]. cbn [mapM]. eapply follows_bind; [apply Hf; exact Hxy|]. intros a b Hab.
  eapply follows_bind; [exact IH|]. intros la lb [Hl El]. apply follows_ok. split; [apply Forall2_cons; assumption|cbn [length]; rewrite El; reflexivity].
Qed.

Lemma follows_weaken : forall A B (P Q : A -> B -> Prop) x y, (forall a b, P a b -> Q a b) -> follows P x y -> follows Q x y.
Proof. intros A B P Q x y H HP b E. destruct (HP b E) as [a [E' Ha]]. exists a. split; [exact E'|apply H; exact Ha]. Qed.
Lemma Forall2_weaken : forall A B (P Q : A -> B -> Prop) l l', (forall a b, P a b -> Q a b) -> Forall2 P l l' -> Forall2 Q l l'.
Proof. intros A B P Q l l' H HP. induction HP; constructor; auto. Qed.

Lemma follows_mapM1 : forall X Y A B (Q : X -> Y -> Prop) (P : A -> B -> Prop) (f : X -> res A) (g : Y -> res B) l l', Forall2 Q l l' -> (forall x y, Q x y -> follows P (f x) (g y)) -> follows (Forall2 P) (mapM f l) (mapM g l').
Proof. intros X Y A B Q P f g l l' H Hf b E. destruct (follows_mapM X Y A B Q P f g l l' H Hf b E) as [a [E' [Ha _]]]. exists a. split; assumption. Qed.

Section Related.
Variables N N' : num.
Variable P : N -> N' -> Prop.

Definition prel (p : nat * N) (q : nat * N') : Prop := fst p = fst q /\ P (snd p) (snd q).
Definition srel (M : spmat N) (M' : spmat N') : Prop := sp_size1 N M = sp_size1 N' M' /\ sp_size2 N M = sp_size2 N' M' /\ Forall2 (Forall2 prel) (sp_rows N M) (sp_rows N' M').
Definition erel (p : nat * nat * N) (q : nat * nat * N') : Prop := fst p = fst q /\ P (snd p) (snd q).

Lemma row_set_rel : forall row row' j x x', Forall2 prel row row' -> P x x' -> Forall2 prel (row_set N row j x) (row_set N' row' j x').
Proof.
  intros row row' j x x' H Hx. induction H as [|[k y] [k' y'] row row' [Hk Hy] H IH]; cbn [row_set]; [apply Forall2_cons; [split; [reflexivity|exact Hx]|apply Forall2_nil]|]. cbn [fst snd] in Hk, Hy. subst k'.
  destruct (j <? k); [apply Forall2_cons; [split; [reflexivity|exact Hx]|]; apply Forall2_cons; [split; [reflexivity|exact Hy]|exact H]|].
  destruct (k =? j); apply Forall2_cons; auto; split; auto.
Qed.
Lemma sp_set_rel : forall M M' i j x x', srel M M' -> P x x' -> follows srel (sp_set N M i j x) (sp_set N' M' i j x').
Proof.
  intros M M' i j x x' [H1 [H2 H3]] Hx. unfold sp_set. rewrite H1, H2. destruct (_ && _)%bool; [|intros c E; discriminate E].
  eapply follows_bind; [apply follows_vget; exact H3|]. intros row row' Hr. eapply follows_bind; [apply follows_vset; [exact H3|apply (row_set_rel row row' j x x' Hr Hx)]|].
  intros rows rows' Hrs. apply follows_ok. split; [reflexivity|]. split; [reflexivity|exact Hrs].
Qed.
Lemma construct_rel : forall n m, srel (sp_construct N n m) (sp_construct N' n m).
Proof. intros n m. split; [reflexivity|]. split; [reflexivity|]. apply Forall2_repeat, Forall2_nil. Qed.
Lemma entries_rel : forall M M', srel M M' -> Forall2 erel (sp_entries N M) (sp_entries N' M').
Proof.
  intros M M' [_ [_ H]]. unfold sp_entries. generalize 0. induction H as [|row row' rows rows' Hr H IH]; intros i; cbn [rows_entries]; [apply Forall2_nil|].
  apply Forall2_app; [|apply IH]. clear - Hr. induction Hr as [|[k x] [k' x'] row row' [Hk Hx] H IH]; cbn [map]; [apply Forall2_nil|]. apply Forall2_cons; [|exact IH]. cbn [fst snd] in Hk, Hx. subst k'. split; [reflexivity|exact Hx].
Qed.
Hypothesis P0 : P n0 n0.
Lemma full_rel : forall M M', srel M M' -> follows (Forall2 (Forall2 P)) (full N M) (full N' M').
Proof using P0.
  intros M M' H. unfold full. pose proof H as [H1 [H2 H3]]. rewrite H1, H2. apply follows_mapM1 with (Q := eq); [apply Forall2_same; reflexivity|]. intros i ? <-.
  apply follows_mapM1 with (Q := eq); [apply Forall2_same; reflexivity|]. intros j ? <-. unfold sp_get. rewrite H1, H2. destruct (_ && _)%bool; [|intros c E; discriminate E].
  eapply follows_bind; [apply follows_vget; exact H3|]. intros row row' Hr. apply follows_ok. clear - Hr P0. induction Hr as [|[k x] [k' x'] row row' [Hk Hx] H IH]; cbn [row_get]; [exact P0|].
  cbn [fst snd] in Hk, Hx. subst k'. destruct (k =? j); [exact Hx|exact IH].
Qed.
End Related.

(** Products: values related by P times values related by Q are related by T. *)
Section Product.
Variables N N' : num.
Variables P Q T : N -> N' -> Prop.
Hypothesis HT : forall a a' b b', P a a' -> Q b b' -> T (nmul a b) (nmul a' b').
Lemma tensorize_sp_rel : forall s A A' B B' dA dB, srel N N' P A A' -> srel N N' Q B B' -> follows (srel N N' T) (tensorize_sp N s A B dA dB) (tensorize_sp N' s A' B' dA dB).
Proof using HT.
  intros s A A' B B' dA dB HA HB. unfold tensorize_sp. apply follows_same. intros [[d a_ind] b_ind] _. rewrite (proj1 HA). apply follows_same. intros degree _. apply follows_same. intros n_polys _.
  apply follows_same. intros it _. apply follows_same. intros lA _. apply follows_same. intros lB _.
  apply follows_for_in2 with (Q := erel N N' P); [apply entries_rel; exact HA| |apply construct_rel].
  intros [[rA cA] xA] [[rA' cA'] xA'] p p' [E HxA] Hp. cbn [fst snd] in E, HxA. injection E as <- <-. apply follows_same. intros m1 _. apply follows_same. intros m2 _. apply follows_same. intros b1 _. apply follows_same. intros b2 _.
  apply follows_for_in2 with (Q := erel N N' Q); [apply entries_rel; exact HB| |exact Hp].
  intros [[rB cB] xB] [[rB' cB'] xB'] q q' [E HxB] Hq. cbn [fst snd] in E, HxB. injection E as <- <-. apply follows_same. intros m3 _. apply follows_same. intros m4 _. apply follows_same. intros row _. apply follows_same. intros col _.
  destruct (_ || _)%bool; [apply follows_ok; exact Hq|]. apply follows_same. intros i1 _. apply follows_same. intros i2 _. apply sp_set_rel; [exact Hq|apply HT; assumption].
Qed.
End Product.

Section Bound.
Variables (u : R) (r : rounding).
Hypothesis A : accurate u r.
Let Hu : (0 <= u < 1)%R := acc_u u r A.
Let F := fnum_rnd r.
Notation near := (near u).

Definition nearby (n : nat) (x y : R) : Prop := near n x y (Rabs y).
Lemma near_0 : forall n, nearby n 0 0.
Proof using A. intros n. apply near_le with 0; [exact Hu|lia|apply near_exact]. Qed.
Lemma sps_near : forall s inputs inputs' dirs, Forall2 (srel F fnum_R eq) inputs inputs' ->
  follows (srel F fnum_R (nearby (length inputs - 1))) (tensorize_sps F s inputs dirs) (tensorize_sps fnum_R s inputs' dirs).
Proof using A.
  intros s inputs inputs' dirs H. unfold tensorize_sps. eapply follows_bind; [apply follows_vget; exact H|]. intros M M' HM. apply follows_same. intros d _. rewrite <- (Forall2_length _ _ _ _ _ H).
  eapply follows_bind.
  - apply (follows_for_each _ _ (fun k (a : spmat F * list nat) (b : spmat fnum_R * list nat) => srel F fnum_R (nearby k) (fst a) (fst b) /\ snd a = snd b)).
    + intros k [a da] [b db] _ [Hab E]. cbn [fst snd] in Hab, E. subst db. apply follows_same. intros di _. apply follows_same. intros [[d' x1] x2] _.
      eapply follows_bind; [apply follows_vget; exact H|]. intros I I' HI. eapply follows_bind; [apply (tensorize_sp_rel F fnum_R (nearby k) eq (nearby (S k))); [|exact Hab|exact HI]|].
      * intros x x' y y' Hx <-. unfold nearby. cbn [nmul fn F fnum_rnd fnum_R num_R]. rewrite Rabs_mult. apply (rnd_near u r A k). replace k with (k + 0) by lia. apply (near_mul u Hu k 0); [exact Hx|apply near_exact].
      * intros C C' HC. apply follows_ok. split; [exact HC|reflexivity].
    + split; [|reflexivity]. cbn [fst]. destruct HM as [H1 [H2 H3]]. split; [exact H1|]. split; [exact H2|]. eapply Forall2_weaken; [|exact H3]. intros row row' Hr. eapply Forall2_weaken; [|exact Hr].
      intros p q [E1 E2]. split; [exact E1|]. rewrite E2. apply near_exact.
  - intros [C dC] [C' dC'] [HC _]. apply follows_ok. exact HC.
Qed.

Lemma to_spmat_same : forall M : list (list R), follows (srel F fnum_R eq) (to_spmat F M) (to_spmat fnum_R M).
Proof using Type.
  intros M. unfold to_spmat. apply follows_same. intros row0 _.
  apply (follows_for_each _ _ (fun _ => srel F fnum_R eq)); [|apply construct_rel]. intros i S S' _ HS.
  apply (follows_for_each _ _ (fun _ => srel F fnum_R eq)); [|exact HS]. intros j T T' _ HT. apply (follows_same _ _ _ _ (mat_get fnum_R M i j)). intros x _.
  change (@neqb (fn F) x n0) with (@neqb (fn fnum_R) x n0). destruct (negb _); [|apply follows_ok; exact HT]. apply sp_set_rel; [exact HT|reflexivity].
Qed.

Lemma mats_near : forall s (inputs : list (list (list R))) dirs, follows (Forall2 (Forall2 (nearby (length inputs - 1)))) (tensorize_mats F s inputs dirs) (tensorize_mats fnum_R s inputs dirs).
Proof using A.
  intros s inputs dirs. unfold tensorize_mats. eapply follows_bind.
  - apply follows_mapM with (Q := eq) (P := srel F fnum_R eq); [apply Forall2_same; reflexivity|]. intros M ? <-. apply to_spmat_same.
  - intros l l' [Hl El]. change (length l = @length (list (list R)) inputs) in El. rewrite <- El. eapply follows_bind; [apply sps_near; exact Hl|]. intros C C' HC. apply full_rel; [apply near_0|exact HC].
Qed.

Lemma value_nearby : forall n s dim degree M M' a b, Forall2 (Forall2 (nearby n)) M M' -> nearby n (@entry num_R s dim degree M a b) (@entry num_R s dim degree M' a b).
Proof using A.
  intros n s dim degree M M' a b H. unfold entry, mvalue. apply (value_rel R R (nearby n)); [|apply near_0]. apply (value_rel (list R) (list R) (Forall2 (nearby n))); [exact H|constructor].
Qed.

Lemma mats_bound : forall s degree dirs (inputs : list (list (list R))) d, increasing d -> Permutation d (concat dirs) -> usable s (length d) degree -> Forall (fun dj => increasing dj /\ dj <> []) dirs ->
  Forall2 (fun dj B => @mat_for num_R s (length dj) degree B) dirs inputs -> (INR (length inputs - 1) * u < 1)%R ->
  exists C, tensorize_mats F s inputs dirs = Ok C /\ @mat_for num_R s (length d) degree C /\
    forall a b, index_of s (length d) degree a -> index_of s (length d) degree b ->
      (Rabs (@entry num_R s (length d) degree C a b - @mproduct num_R s degree d dirs inputs a b) <= gamma u (length inputs - 1) * Rabs (@mproduct num_R s degree d dirs inputs a b))%R.
Proof using A.
  intros s degree dirs inputs d Hd Hp Hus Hdirs H2 Hn. destruct (tensorize_mat_entry num_R num_R_laws s degree dirs inputs d Hd Hp Hus Hdirs H2) as (C & E & HC & HE).
  destruct (mats_near s inputs dirs C E) as (C' & E' & HC'). exists C'. split; [exact E'|]. split.
  - destruct HC as [HL HW]. split; [transitivity (length C); [exact (Forall2_length _ _ _ _ _ HC')|exact HL]|]. clear - HC' HW.  induction HC' as [|x y l l' Hxy HC' IH]; [constructor|]. apply Forall_cons_iff in HW. destruct HW as [W1 W2].
    constructor; [transitivity (length y); [exact (Forall2_length _ _ _ _ _ Hxy)|exact W1]|exact (IH W2)].
  - intros a b Ha Hb. rewrite <- (HE a b Ha Hb). apply near_gamma; [exact Hu|exact Hn|]. apply value_nearby. exact HC'.
Qed.

Lemma dense_nearby : forall n (C : spmat F) (C' : spmat fnum_R), srel F fnum_R (nearby n) C C' -> Forall2 (Forall2 (nearby n)) (@dense F C) (@dense fnum_R C').
Proof using A.
  intros n C C' [_ [E H]]. unfold dense. rewrite E. induction H as [|row row' rows rows' Hr H IH]; cbn [map]; constructor; [|exact IH].
  apply Forall2_map2. intros j. clear - Hr A Hu. induction Hr as [|[k x] [k' x'] row row' [Hk Hx] Hr IH]; cbn [stored]; [apply near_0|]. cbn [fst snd] in *. subst k'. destruct (k =? j); [exact Hx|exact IH].
Qed.
Lemma sps_bound : forall s degree dirs (inputs : list (nat * nat * list (list (nat * R)))) d, increasing d -> Permutation d (concat dirs) -> usable s (length d) degree -> Forall (fun dj => increasing dj /\ dj <> []) dirs ->
  Forall2 (fun dj t => @sp_for num_R s (length dj) degree (with_numbers num_R t)) dirs inputs -> (INR (length inputs - 1) * u < 1)%R ->
  exists C, tensorize_sps F s (map (with_numbers F) inputs) dirs = Ok C /\
    forall a b, index_of s (length d) degree a -> index_of s (length d) degree b ->
      (Rabs (@entry num_R s (length d) degree (@dense F C) a b - @mproduct num_R s degree d dirs (map (@dense num_R) (map (with_numbers num_R) inputs)) a b) <=
       gamma u (length inputs - 1) * Rabs (@mproduct num_R s degree d dirs (map (@dense num_R) (map (with_numbers num_R) inputs)) a b))%R.
Proof using A.
  intros s degree dirs inputs d Hd Hp Hus Hdirs H2 Hn.
  destruct (tensorize_sp_entry num_R num_R_laws s degree dirs (map (with_numbers num_R) inputs) d Hd Hp Hus Hdirs) as (C & E & HC & HE).
  { clear - H2. induction H2; cbn [map]; constructor; assumption. }
  assert (HR : Forall2 (srel F fnum_R eq) (map (with_numbers F) inputs) (map (with_numbers fnum_R) inputs)).
  { apply Forall2_map2. intros t. split; [reflexivity|]. split; [reflexivity|]. apply Forall2_same. intros row. apply Forall2_same. intros x. split; reflexivity. }
  pose proof (sps_near s _ _ dirs HR C E) as (C' & E' & HC'). rewrite map_length in HC'. exists C'. split; [exact E'|].
  intros a b Ha Hb. rewrite <- (HE a b Ha Hb). apply near_gamma; [exact Hu|exact Hn|]. apply value_nearby. apply dense_nearby. exact HC'.
Qed.
End Bound.
