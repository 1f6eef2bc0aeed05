(** Lemmas for C109: the matrices of derivatives.  The computation with rounding makes the same steps as the exact one. *)
From Coq Require Import String List Bool Arith ZArith Lia Reals Lra.
From Verif Require Import Base Lists IndexModel Spec Num Fnum LinModel LinSpec LinBase MatBase Tensorize Sparse CalcModel CalcSpec CalcBase CalcVarfd RndModel RndSpec RndFacts RndFacts2 Facts10.
Import ListNotations.
Local Open Scope R_scope.

Definition follows {A B} (P : A -> B -> Prop) (x : res A) (y : res B) : Prop := forall b, y = Ok b -> exists a, x = Ok a /\ P a b.

Lemma follows_ok : forall A B (P : A -> B -> Prop) a b, P a b -> follows P (Ok a) (Ok b).
Proof. intros A B P a b H c E. injection E as <-. exists a. auto. Qed.
Lemma follows_bind : forall A B C D (P : A -> B -> Prop) (Q : C -> D -> Prop) x y f g, follows P x y -> (forall a b, P a b -> follows Q (f a) (g b)) -> follows Q (bind x f) (bind y g).
Proof. intros A B C D P Q x y f g H Hf d E. destruct y as [b| | | |]; cbn [bind] in E; try discriminate. destruct (H b eq_refl) as [a [-> Hab]]. exact (Hf a b Hab d E). Qed.
Lemma follows_same : forall A C D (Q : C -> D -> Prop) (x : res A) f g, (forall a, x = Ok a -> follows Q (f a) (g a)) -> follows Q (bind x f) (bind x g).
Proof. intros A C D Q x f g H d E. destruct x as [a| | | |]; cbn [bind] in E |- *; try discriminate. exact (H a eq_refl d E). Qed.
Lemma follows_for_in : forall X A B (P : A -> B -> Prop) (f : X -> A -> res A) (g : X -> B -> res B) l, (forall x a b, In x l -> P a b -> follows P (f x a) (g x b)) -> forall a b, P a b -> follows P (for_in f l a) (for_in g l b).
Proof.
  intros X A B P f g. induction l as [|x l IH]; intros H a b Hab; [apply follows_ok; exact Hab|]. cbn [for_in]. eapply follows_bind; [apply H; [left; reflexivity|exact Hab]|].
  intros a' b' H'. apply IH; [|exact H']. intros; apply H; [right|]; assumption.
Qed.
Lemma follows_vget : forall A B (P : A -> B -> Prop) v w i, Forall2 P v w -> follows P (vget v i) (vget w i).
Proof.
  intros A B P v w i H. revert i. induction H as [|a b v w Hab H IH]; intros [|i]; unfold vget; cbn [nth_error]; try (intros c E; discriminate E); [apply follows_ok; exact Hab|]. apply IH.
Qed.
Lemma Forall2_upd : forall A B (P : A -> B -> Prop) v w i a b, Forall2 P v w -> P a b -> Forall2 P (upd v i a) (upd w i b).
Proof. intros A B P v w i a b H Hab. revert i. induction H; intros [|i]; cbn [upd]; constructor; auto. Qed.
Lemma follows_vset : forall A B (P : A -> B -> Prop) v w i a b, Forall2 P v w -> P a b -> follows (Forall2 P) (vset v i a) (vset w i b).
Proof.
  intros A B P v w i a b H Hab. unfold vset. rewrite (Forall2_length _ _ P v w H). destruct (i <? length w)%nat; [|intros c E; discriminate E]. apply follows_ok, Forall2_upd; assumption.
Qed.
Lemma value_rel : forall A B (P : A -> B -> Prop) d e l v w m, Forall2 P v w -> P d e -> P (value d l v m) (value e l w m).
Proof. intros A B P d e l v w m H Hd. revert l. induction H as [|a b v w Hab H IH]; intros [|x l]; cbn [value]; try assumption. destruct (mi_eqb x m); [exact Hab|apply IH]. Qed.
Lemma Forall2_repeat : forall A B (P : A -> B -> Prop) a b n, P a b -> Forall2 P (repeat a n) (repeat b n).
Proof. intros A B P a b n H. induction n; cbn; constructor; assumption. Qed.
Lemma Forall2_same : forall A (P : A -> A -> Prop) l, (forall a, P a a) -> Forall2 P l l.
Proof. intros A P l H. induction l; constructor; auto. Qed.
Lemma Forall2_map2 : forall X A B (P : A -> B -> Prop) f g (l : list X), (forall x, P (f x) (g x)) -> Forall2 P (map f l) (map g l).
Proof. intros X A B P f g l H. induction l; cbn; constructor; auto. Qed.

Section Varfd.
Variables (u : R) (r : rounding).
Hypothesis A : accurate u r.
Let Hu : 0 <= u < 1 := acc_u u r A.
Let F := fnum_rnd r.
Notation near := (near u).
Notation rel := (rel u).

Definition close (x y : R) : Prop := near 4 x y (Rabs y).
Definition mclose : list (list R) -> list (list R) -> Prop := Forall2 (Forall2 close).
Definition sclose (M : spmat F) (M' : spmat fnum_R) : Prop :=
  sp_size1 F M = sp_size1 fnum_R M' /\ sp_size2 F M = sp_size2 fnum_R M' /\ Forall2 (Forall2 (fun (p : nat * R) (q : nat * R) => fst p = fst q /\ close (snd p) (snd q))) (sp_rows F M) (sp_rows fnum_R M').

Lemma close_refl : forall x, close x x.
Proof using A. intros x. apply near_le with 0%nat; [exact Hu|lia|apply near_exact]. Qed.

Lemma mat_set_close : forall M M' i j x x', mclose M M' -> close x x' -> follows mclose (mat_set F M i j x) (mat_set fnum_R M' i j x').
Proof using Type.
  intros M M' i j x x' HM Hx. unfold mat_set. eapply follows_bind; [apply follows_vget; exact HM|]. intros row row' Hr. eapply follows_bind; [apply follows_vset; [exact Hr|exact Hx]|].
  intros row1 row1' Hr1. apply follows_vset; assumption.
Qed.
Lemma row_set_close : forall row row' j x x', Forall2 (fun (p : nat * R) (q : nat * R) => fst p = fst q /\ close (snd p) (snd q)) row row' -> close x x' ->
  Forall2 (fun (p : nat * R) (q : nat * R) => fst p = fst q /\ close (snd p) (snd q)) (row_set F row j x) (row_set fnum_R row' j x').
Proof using Type.
  intros row row' j x x' H Hx. induction H as [|[k y] [k' y'] row row' [Hk Hy] H IH]; cbn [row_set]; [apply Forall2_cons; [split; [reflexivity|exact Hx]|apply Forall2_nil]|]. cbn [fst snd] in Hk, Hy. subst k'.
  destruct (j <? k)%nat; [apply Forall2_cons; [split; [reflexivity|exact Hx]|]; apply Forall2_cons; [split; [reflexivity|exact Hy]|exact H]|].
  destruct (k =? j)%nat; apply Forall2_cons; auto; split; auto.
Qed.
Lemma sp_set_close : forall M M' i j x x', sclose M M' -> close x x' -> follows sclose (sp_set F M i j x) (sp_set fnum_R M' i j x').
Proof using Type.
  intros M M' i j x x' [H1 [H2 H3]] Hx. unfold sp_set. rewrite H1, H2. destruct (_ && _)%bool; [|intros c E; discriminate E].
  eapply follows_bind; [apply follows_vget; exact H3|]. intros row row' Hr. eapply follows_bind; [apply follows_vset; [exact H3|apply (row_set_close row row' j x x' Hr Hx)]|].
  intros rows rows' Hrs. apply follows_ok. split; [reflexivity|]. split; [reflexivity|exact Hrs].
Qed.

Section Ops.
Variables (C : calcops F) (C' : calcops fnum_R) (P : mtype F (co_ops F C) -> mtype fnum_R (co_ops fnum_R C') -> Prop).
Hypothesis HS : forall M M' i j (x : F) (x' : fnum_R), P M M' -> close x x' -> follows P (m_set F (co_ops F C) M i j x) (m_set fnum_R (co_ops fnum_R C') M' i j x').
Hypothesis HC : forall n m, P (m_construct F (co_ops F C) n m) (m_construct fnum_R (co_ops fnum_R C') n m).

Lemma varfd_close : forall s dim degree k flag var var', m_size1 F (co_ops F C) var = m_size1 fnum_R (co_ops fnum_R C') var' -> co_size2 F C var = co_size2 fnum_R C' var' ->
  (co_entries F C var : list (nat * nat * R)) = co_entries fnum_R C' var' -> follows P (varfd F C s dim degree k var flag) (varfd fnum_R C' s dim degree k var' flag).
Proof using A HS HC.
  intros s dim degree k flag var var' E1 E2 E3. unfold varfd. apply follows_same. intros m _. rewrite E1. apply follows_same. intros mis _. rewrite E2.
  change (follows P (for_in (fun '(row, col, value) results => m_col <- vget mis col ;; mc <- vget m_col k ;; if (flag =? 0)%nat then int_m2 <- vset m_col k (mc + 1)%nat ;; if negb (it_has m int_m2) then Ok results else id <- it_index m int_m2 ;; m_set F (co_ops F C) results row id (nmul value (fsqrt (ofnat F (mc + 1)))) else if (mc =? 0)%nat then Ok results else let is_cos := (mc mod 2 =? 0)%nat in int_m2 <- vset m_col k (if is_cos then mc - 1 else mc + 1)%nat ;; let wave_number := ((if is_cos then mc else mc + 1) / 2)%nat in id <- it_index m int_m2 ;; m_set F (co_ops F C) results row id (nmul (nmul value (fofZ (if is_cos then 1 else -1))) (ofnat F wave_number))) (co_entries F C var : list (nat * nat * R)) (m_construct F (co_ops F C) (m_size1 fnum_R (co_ops fnum_R C') var') (co_size2 fnum_R C' var')))
    (for_in (fun '(row, col, value) results => m_col <- vget mis col ;; mc <- vget m_col k ;; if (flag =? 0)%nat then int_m2 <- vset m_col k (mc + 1)%nat ;; if negb (it_has m int_m2) then Ok results else id <- it_index m int_m2 ;; m_set fnum_R (co_ops fnum_R C') results row id (nmul value (fsqrt (ofnat fnum_R (mc + 1)))) else if (mc =? 0)%nat then Ok results else let is_cos := (mc mod 2 =? 0)%nat in int_m2 <- vset m_col k (if is_cos then mc - 1 else mc + 1)%nat ;; let wave_number := ((if is_cos then mc else mc + 1) / 2)%nat in id <- it_index m int_m2 ;; m_set fnum_R (co_ops fnum_R C') results row id (nmul (nmul value (fofZ (if is_cos then 1 else -1))) (ofnat fnum_R wave_number))) (co_entries fnum_R C' var' : list (nat * nat * R)) (m_construct fnum_R (co_ops fnum_R C') (m_size1 fnum_R (co_ops fnum_R C') var') (co_size2 fnum_R C' var')))).
  rewrite E3. apply follows_for_in; [|apply HC]. intros [[row col] x] M M' _ HM.
  apply follows_same. intros m_col _. apply follows_same. intros mc _. destruct (flag =? 0)%nat.
  - apply follows_same. intros im _. destruct (it_has m im); cbn [negb]; [|apply follows_ok; exact HM]. apply follows_same. intros id _. apply HS; [exact HM|].
    cbn [nmul fsqrt fn F fnum_rnd fnum_R num_R]. unfold close. apply near_le with 3%nat; [exact Hu|lia|]. rewrite Rabs_mult. apply (rnd_near u r A 2). apply (near_mul u Hu 0 2); [apply near_exact|].
    rewrite (Rabs_pos_eq (sqrt _)) by apply sqrt_pos. apply rel_near; [exact Hu|]. apply (sqrt_rel u r A). replace (ofnat fnum_R (mc + 1) : R) with (INR (mc + 1)) by (unfold ofnat; cbn [fofZ fnum_R]; rewrite <- INR_IZR_INZ; reflexivity). apply (ofnat_rel u r A). lia.
  - destruct (Nat.eqb_spec mc 0) as [|Hmc]; [apply follows_ok; exact HM|]. cbn zeta. apply follows_same. intros im _. apply follows_same. intros id _. apply HS; [exact HM|].
    unfold close. cbn [nmul fn F fnum_rnd fnum_R num_R]. rewrite !Rabs_mult. apply (rnd_near u r A 3). apply (near_mul u Hu 2 1).
    + apply (rnd_near u r A 1). apply (near_mul u Hu 0 1); [apply near_exact|]. cbn [fofZ F fnum_rnd fnum_R]. apply (rnd_near u r A 0), near_exact.
    + unfold ofnat. cbn [fofZ F fnum_rnd fnum_R]. apply (rnd_near u r A 0), near_exact.
Qed.
End Ops.

Lemma varfd_dense_close : forall s dim degree k flag (var : list (list R)), follows mclose (varfd_dense F s dim degree k var flag) (varfd_dense fnum_R s dim degree k var flag).
Proof using A.
  intros s dim degree k flag var. unfold varfd_dense. apply follows_same. intros m2 _. cbn zeta.
  eapply (follows_bind _ _ _ _ (fun x y : iterator * list (list R) => fst x = fst y /\ mclose (snd x) (snd y))).
  - rewrite !for_each_for_in. apply (follows_for_in nat (iterator * list (list R)) (iterator * list (list R))); [|split; [reflexivity|]; apply Forall2_repeat, Forall2_repeat, close_refl].
    intros j [it M] [it' M'] _ [Hit HM]. cbn [fst snd] in Hit, HM. subst it'. apply follows_same. intros mc _. eapply (follows_bind _ _ _ _ mclose).
    + destruct (Nat.eqb_spec mc 0) as [|Hmc]; [apply follows_ok; exact HM|]. apply follows_same. intros dm _. apply follows_same. intros id _. rewrite !for_each_for_in.
      apply (follows_for_in nat (list (list R)) (list (list R)) mclose); [|exact HM]. intros i M1 M1' _ HM1. apply (follows_same R _ _ mclose (mat_get fnum_R var i id)). intros x _.
      apply mat_set_close; [exact HM1|]. unfold close. cbn [nmul fn F fnum_rnd fnum_R num_R]. rewrite Rabs_mult. apply near_le with 3%nat; [exact Hu|lia|]. apply (rnd_near u r A 2). apply (near_mul u Hu 2 0); [|apply near_exact].
      destruct (flag =? 1)%nat.
      * apply near_le with 1%nat; [exact Hu|lia|]. cbn [fofZ F fnum_rnd fnum_R]. apply (rnd_near u r A 0), near_exact.
      * cbn [fsqrt F fnum_rnd fnum_R]. rewrite (Rabs_pos_eq (sqrt _)) by apply sqrt_pos. apply rel_near; [exact Hu|]. apply (sqrt_rel u r A). replace (ofnat fnum_R mc : R) with (INR mc) by (unfold ofnat; cbn [fofZ fnum_R]; rewrite <- INR_IZR_INZ; reflexivity). apply (ofnat_rel u r A). lia.
    + intros M1 M1' HM1. apply follows_same. intros it1 _. apply follows_ok. split; [reflexivity|exact HM1].
  - intros [it M] [it' M'] [_ HM]. cbn [snd] in HM. apply follows_ok. exact HM.
Qed.

Lemma entry_close : forall s dim degree M M' a b, mclose M M' -> close (@entry num_R s dim degree M a b) (@entry num_R s dim degree M' a b).
Proof using A. intros s dim degree M M' a b H. unfold entry, mvalue. apply (value_rel R R close); [|apply close_refl]. apply (value_rel (list R) (list R) (Forall2 close)); [exact H|constructor]. Qed.

Lemma dense_close : forall M M', sclose M M' -> mclose (dense M) (dense M').
Proof using A.
  intros M M' [_ [E H]]. unfold dense, mclose. rewrite E. induction H as [|row row' rows rows' Hr H IH]; cbn [map]; constructor; [|exact IH].
  apply Forall2_map2. intros j. clear - Hr A Hu. induction Hr as [|[k x] [k' x'] row row' [Hk Hx] Hr IH]; cbn [stored]; [apply close_refl|]. cbn [fst snd] in *. subst k'. destruct (k =? j)%nat; [exact Hx|exact IH].
Qed.

Lemma close_gamma : forall x y, INR 4 * u < 1 -> close x y -> Rabs (x - y) <= gamma u 4 * Rabs y.
Proof using A. intros x y Hn H. apply near_gamma; [exact Hu|exact Hn|exact H]. Qed.

Section Statements.
Variables (s : iset) (dim degree k flag : nat).
Hypothesis Hus : usable s dim degree.
Hypothesis Hk : (k < dim)%nat.
Hypothesis Hflag : flag = 0%nat \/ flag = 1%nat.
Hypothesis Hp : flag = 1%nat -> paired s dim degree k.
Hypothesis Hn : INR 4 * u < 1.

Lemma varfd_mat_bound : forall M : list (list R), @mat_for num_R s dim degree M -> exists B' B, varfd F (calc_mat F) s dim degree k M flag = Ok B' /\ varfd fnum_R (calc_mat fnum_R) s dim degree k M flag = Ok B /\
  forall a b, Rabs (@entry num_R s dim degree B' a b - @entry num_R s dim degree B a b) <= gamma u 4 * Rabs (@entry num_R s dim degree B a b).
Proof using A Hus Hk Hflag Hp Hn.
  intros M HM. destruct (varfd_boost s dim degree k flag Hus Hk Hflag Hp M HM) as [B [E _]].
  edestruct (varfd_close (calc_mat F) (calc_mat fnum_R) mclose mat_set_close) as [B' [E' HB]]; [| | | |exact E|].
  - intros n m. apply Forall2_repeat, Forall2_repeat, close_refl.
  - reflexivity.
  - reflexivity.
  - reflexivity.
  - exists B', B. split; [exact E'|]. split; [exact E|]. intros a b. apply close_gamma; [exact Hn|]. apply entry_close. exact HB.
Qed.

Lemma varfd_dense_bound : forall M : list (list R), @mat_for num_R s dim degree M -> exists B' B, varfd_dense F s dim degree k M flag = Ok B' /\ varfd_dense fnum_R s dim degree k M flag = Ok B /\
  forall a b, Rabs (@entry num_R s dim degree B' a b - @entry num_R s dim degree B a b) <= gamma u 4 * Rabs (@entry num_R s dim degree B a b).
Proof using A Hus Hk Hflag Hp Hn.
  intros M HM. destruct (varfd_dense_gen s dim degree k flag Hus Hk Hflag M HM Hp) as [B [E _]]. destruct (varfd_dense_close s dim degree k flag M B E) as [B' [E' HB]].
  exists B', B. split; [exact E'|]. split; [exact E|]. intros a b. apply close_gamma; [exact Hn|]. apply entry_close. exact HB.
Qed.

Lemma varfd_sp_bound : forall n m (rows : list (list (nat * R))), @sp_for num_R s dim degree (Build_spmat num_R n m rows) ->
  exists B' B, varfd F (calc_spmat F) s dim degree k (Build_spmat F n m rows) flag = Ok B' /\ varfd fnum_R (calc_spmat fnum_R) s dim degree k (Build_spmat num_R n m rows) flag = Ok B /\
  forall a b, Rabs (@entry num_R s dim degree (dense B') a b - @entry num_R s dim degree (dense B) a b) <= gamma u 4 * Rabs (@entry num_R s dim degree (dense B) a b).
Proof using A Hus Hk Hflag Hp Hn.
  intros n m rows HM. destruct (varfd_sparse s dim degree k flag Hus Hk Hflag Hp _ HM) as [B [E _]].
  assert (HC : forall n m, sclose (sp_construct F n m) (sp_construct fnum_R n m)) by (intros n' m'; split; [reflexivity|]; split; [reflexivity|]; apply Forall2_repeat; constructor).
  destruct (varfd_close (calc_spmat F) (calc_spmat fnum_R) sclose sp_set_close HC s dim degree k flag (Build_spmat F n m rows) (Build_spmat fnum_R n m rows) eq_refl eq_refl eq_refl B E) as [B' [E' HB]].
  exists B', B. split; [exact E'|]. split; [exact E|]. intros a b. apply close_gamma; [exact Hn|]. apply (entry_close s dim degree (dense B') (dense B)), dense_close. exact HB.
Qed.
End Statements.
End Varfd.
