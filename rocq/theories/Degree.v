(** pos_bissect and degree recovery. *)
From Coq Require Import List Bool Arith ZArith Lia.
From Verif Require Import Base Lists IndexModel Spec Traverse Triangle Binom Shell ShellList Cross CrossNc IndexSet.
Import ListNotations.

(** * The bisection *)
Lemma Ok_inj : forall A (x y : A), Ok x = Ok y -> x = y.
Proof. intros A x y H. injection H as H. exact H. Qed.

Lemma half_between : forall a b, a < b -> a <= (a + b) / 2 < b.
Proof.
  intros. split; [apply Nat.div_le_lower_bound; lia|apply Nat.div_lt_upper_bound; lia].
Qed.

Lemma half_eq : forall a b, a < b -> (a + b) / 2 = a -> b = S a.
Proof.
  intros a b H E. assert (a + b < 2 * S ((a + b) / 2)).
  { pose proof (Nat.mod_upper_bound (a + b) 2 ltac:(lia)). pose proof (Nat.div_mod (a + b) 2 ltac:(lia)). lia. }
  lia.
Qed.

Section Bissect.
  Variable image : Z.
  Variable f : nat -> res Z.

  (** partial correctness, for any f *)
  Lemma bissect_loop_sound : forall fuel x1 x2 x, bissect_loop image f fuel x1 x2 = Ok x -> f x = Ok image.
  Proof.
    induction fuel as [|fuel IH]; intros x1 x2 x H; [discriminate|]. cbn [bissect_loop] in H.
    destruct (f ((x1 + x2) / 2)) as [y| | | |] eqn:E; try discriminate. cbn [bind] in H.
    destruct (y - image <? 0)%Z eqn:E1; [destruct ((x1 + x2) / 2 =? x1); [discriminate|eapply IH; eassumption]|].
    destruct (0 <? y - image)%Z eqn:E2; [eapply IH; eassumption|].
    apply Ok_inj in H. subst x. apply Z.ltb_ge in E1, E2. rewrite E. f_equal. lia.
  Qed.

  Lemma pos_bissect_sound : forall max x, pos_bissect image f max = Ok x -> f x = Ok image.
  Proof.
    intros max x H. unfold pos_bissect in H. destruct (f 0) as [y1| | | |] eqn:E1; try discriminate. cbn [bind] in H.
    destruct (f max) as [y2| | | |] eqn:E2; try discriminate. cbn [bind] in H.
    destruct ((0 <? y1 - image) || (y2 - image <? 0))%Z; [discriminate|].
    destruct (y1 - image =? 0)%Z eqn:Z1; [apply Z.eqb_eq in Z1; injection H as <-; rewrite E1; f_equal; lia|].
    destruct (y2 - image =? 0)%Z eqn:Z2; [apply Z.eqb_eq in Z2; injection H as <-; rewrite E2; f_equal; lia|].
    eapply bissect_loop_sound; eassumption.
  Qed.

  Variable g : nat -> Z.

  (** total f: the loop terminates within the fuel *)
  Lemma bissect_loop_total : forall max, (forall x, x <= max -> f x = Ok (g x)) ->
    forall fuel x1 x2, x1 < x2 -> x2 <= max -> x2 - x1 <= fuel ->
    (g x1 < image)%Z -> 
    (exists x, bissect_loop image f fuel x1 x2 = Ok x /\ x <= max) \/ bissect_loop image f fuel x1 x2 = Exit 1.
  Proof.
    intros max Hf. induction fuel as [|fuel IH]; intros x1 x2 H1 H2 H3 Hg; [lia|]. cbn [bissect_loop].
    pose proof (half_between x1 x2 H1) as Hh. set (n := (x1 + x2) / 2) in *.
    rewrite Hf by lia. cbn [bind].
    destruct (g n - image <? 0)%Z eqn:E1.
    - destruct (n =? x1) eqn:En; [right; reflexivity|]. apply Nat.eqb_neq in En. apply Z.ltb_lt in E1. apply IH; lia.
    - destruct (0 <? g n - image)%Z eqn:E2.
      + assert (n <> x1). { intro. apply Z.ltb_lt in E2. subst n. rewrite H in E2. lia. } apply IH; lia.
      + left. exists n. split; [reflexivity|lia].
  Qed.

  Theorem pos_bissect_total : forall max, (forall x, x <= max -> f x = Ok (g x)) ->
    (exists x, pos_bissect image f max = Ok x /\ x <= max /\ g x = image) \/
    pos_bissect image f max = Exit 0 \/ pos_bissect image f max = Exit 1.
  Proof.
    intros max Hf.
    assert (G : (exists x, pos_bissect image f max = Ok x /\ x <= max) \/
      pos_bissect image f max = Exit 0 \/ pos_bissect image f max = Exit 1).
    { unfold pos_bissect. rewrite !Hf by lia. cbn [bind].
      destruct ((0 <? g 0 - image) || (g max - image <? 0))%Z eqn:E0; [right; left; reflexivity|].
      apply orb_false_iff in E0 as [Ea Eb]. apply Z.ltb_ge in Ea, Eb.
      destruct (g 0 - image =? 0)%Z eqn:E1; [left; exists 0; split; [reflexivity|lia]|]. apply Z.eqb_neq in E1.
      destruct (g max - image =? 0)%Z eqn:E2; [left; exists max; split; [reflexivity|lia]|]. apply Z.eqb_neq in E2.
      assert (0 < max). { destruct max; [lia|lia]. }
      destruct (bissect_loop_total max Hf (S max) 0 max) as [H'|H']; try lia.
      - left. exact H'.
      - right. right. exact H'. }
    destruct G as [[x [H1 H2]]|G]; [left; exists x|right; exact G].
    split; [assumption|]. split; [assumption|]. apply pos_bissect_sound in H1. rewrite Hf in H1 by assumption. congruence.
  Qed.

  (** monotone f: a solution is found when there is one *)
  Lemma bissect_loop_mono : forall max, (forall x, x <= max -> f x = Ok (g x)) ->
    (forall x y, x <= y -> y <= max -> (g x <= g y)%Z) ->
    forall s, g s = image -> forall fuel x1 x2, x1 < s < x2 -> x2 <= max -> x2 - x1 <= fuel ->
    (g x1 < image)%Z -> exists x, bissect_loop image f fuel x1 x2 = Ok x.
  Proof.
    intros max Hf Hm s Hs. induction fuel as [|fuel IH]; intros x1 x2 H1 H2 H3 Hg; [lia|]. cbn [bissect_loop].
    pose proof (half_between x1 x2 ltac:(lia)) as Hh. set (n := (x1 + x2) / 2) in *.
    rewrite Hf by lia. cbn [bind].
    destruct (g n - image <? 0)%Z eqn:E1.
    - apply Z.ltb_lt in E1. assert (n < s). { destruct (Nat.lt_ge_cases n s) as [|Hle]; [assumption|]. specialize (Hm s n Hle ltac:(lia)). lia. }
      destruct (n =? x1) eqn:En.
      + apply Nat.eqb_eq in En. assert (x2 = S x1) by (apply half_eq; [lia|exact En]). lia.
      + apply Nat.eqb_neq in En. apply IH; lia.
    - destruct (0 <? g n - image)%Z eqn:E2.
      + apply Z.ltb_lt in E2. assert (s < n). { destruct (Nat.lt_ge_cases s n) as [|Hle]; [assumption|]. specialize (Hm n s Hle ltac:(lia)). lia. }
        apply IH; lia.
      + exists n. reflexivity.
  Qed.

  Theorem pos_bissect_complete : forall max, (forall x, x <= max -> f x = Ok (g x)) ->
    (forall x y, x <= y -> y <= max -> (g x <= g y)%Z) ->
    forall s, s <= max -> g s = image -> exists x, pos_bissect image f max = Ok x /\ x <= max /\ g x = image.
  Proof.
    intros max Hf Hm s Hs Hi. destruct (pos_bissect_total max Hf) as [H|H]; [exact H|]. exfalso.
    unfold pos_bissect in H. rewrite !Hf in H by lia. cbn [bind] in H.
    pose proof (Hm 0 s ltac:(lia) Hs). pose proof (Hm s max Hs ltac:(lia)).
    destruct ((0 <? g 0 - image) || (g max - image <? 0))%Z eqn:E0.
    { apply orb_true_iff in E0 as [E0|E0]; apply Z.ltb_lt in E0; lia. }
    destruct (g 0 - image =? 0)%Z eqn:E1; [destruct H; discriminate|]. apply Z.eqb_neq in E1.
    destruct (g max - image =? 0)%Z eqn:E2; [destruct H; discriminate|]. apply Z.eqb_neq in E2.
    destruct (bissect_loop_mono max Hf Hm s Hi (S max) 0 max) as [x Ex]; try lia.
    - assert (s <> 0) by (intros ->; lia). assert (s <> max) by (intros ->; lia). lia.
    - rewrite Ex in H. destruct H; discriminate.
  Qed.
End Bissect.

(** * Sizes grow with the degree *)
Lemma pure_in_set : forall s d degree, in_set s degree (degree :: zeros d).
Proof.
  intros [] d degree; cbn [in_set].
  - rewrite list_sum_cons, list_sum_zeros. lia.
  - constructor; [lia|]. clear. induction d; [constructor|]. rewrite zeros_S. constructor; [lia|assumption].
  - rewrite cross_prod_cons, cross_prod_zeros. lia.
  - rewrite cross_prod_cons, cross_prod_zeros. lia.
  - split; [lia|]. clear. induction d; [constructor|]. rewrite zeros_S. constructor; [lia|assumption].
Qed.

Lemma pure_not_in_set : forall s d x y, x < y -> (s = Cross \/ s = CrossNc -> 1 <= x) -> ~ in_set s x (y :: zeros d).
Proof.
  intros [] d x y Hxy Hs H; cbn [in_set] in H.
  - rewrite list_sum_cons, list_sum_zeros in H. lia.
  - inversion H; lia.
  - rewrite cross_prod_cons, cross_prod_zeros in H. specialize (Hs (or_introl eq_refl)). lia.
  - rewrite cross_prod_cons, cross_prod_zeros in H. specialize (Hs (or_intror eq_refl)). lia.
  - lia.
Qed.

Lemma in_set_mono : forall s m x y, x <= y -> in_set s x m -> in_set s y m.
Proof.
  intros [] m x y Hxy H; cbn [in_set] in *; try lia.
  - eapply Forall_impl; [|exact H]. intros; cbv beta in *; lia.
  - destruct m; [exact I|]. destruct H as [H1 H2]. split; [lia|]. eapply Forall_impl; [|exact H2]. intros; cbv beta in *; lia.
Qed.

Lemma spec_list_le : forall s d x y, x <= y -> length (spec_list s d x) <= length (spec_list s d y).
Proof.
  intros s d x y H. apply NoDup_incl_length; [apply NoDup_spec_list|]. intros m Hm.
  apply in_spec_list in Hm as [Hl Hm]. apply in_spec_list. split; [assumption|]. eapply in_set_mono; eassumption.
Qed.

Lemma spec_list_lt : forall s d x y, x < y -> (s = Cross \/ s = CrossNc -> 1 <= x) ->
  length (spec_list s d x) < length (spec_list s d y).
Proof.
  intros s d x y H Hs. change (S (length (spec_list s d x)) <= length (spec_list s d y)).
  change (S (length (spec_list s d x))) with (length ((y :: zeros d) :: spec_list s d x)).
  apply NoDup_incl_length.
  - constructor; [|apply NoDup_spec_list]. intros Hin. apply in_spec_list in Hin as [_ Hin].
    eapply pure_not_in_set; eassumption.
  - intros m [<-|Hm].
    + apply in_spec_list. cbn [length]. rewrite zeros_length. split; [reflexivity|apply pure_in_set].
    + apply in_spec_list in Hm as [Hl Hm]. apply in_spec_list. split; [assumption|]. eapply in_set_mono; [|eassumption]. lia.
Qed.

Lemma set_ok_le : forall s dim x y, x <= y -> set_ok s dim y -> set_ok s dim x.
Proof.
  intros [] dim x y Hxy H; cbn [set_ok] in *; auto. intros m Hl Hs. apply H; [assumption|]. lia.
Qed.

Lemma s_size_Ok : forall s d degree, set_ok s (S d) degree -> (Z.of_nat (length (spec_list s d degree)) < 2 ^ 32)%Z ->
  s_size s (S d) degree = Ok (Z.of_nat (length (spec_list s d degree))).
Proof.
  intros s d degree Hok H. pose proof (s_size_spec s d degree Hok) as G. cbv zeta in G.
  rewrite Z.mod_small in G by lia. replace (_ <? _)%Z with true in G by (symmetry; apply Z.ltb_lt; lia).
  destruct s; exact G.
Qed.

(** the degree that is recovered *)
Definition recovered (s : iset) (degree : nat) : nat :=
  match s with
  | Cross => Nat.max 1 degree
  | CrossNc => if degree =? 1 then 0 else degree
  | _ => degree
  end.

Lemma spec_list_recovered : forall s d degree, spec_list s d (recovered s degree) = spec_list s d degree.
Proof.
  intros [] d degree; cbn [recovered spec_list]; try reflexivity.
  - unfold cross_spec. replace (Nat.max 1 (Nat.max 1 degree)) with (Nat.max 1 degree) by lia. reflexivity.
  - destruct (degree =? 1) eqn:E; [|reflexivity]. apply Nat.eqb_eq in E. subst. reflexivity.
Qed.

Lemma bissect_recover : forall s d degree, s <> Cross ->
  set_ok s (S d) 250 -> (Z.of_nat (length (spec_list s d 250)) < 2 ^ 32)%Z -> degree <= 250 ->
  pos_bissect (Z.of_nat (length (spec_list s d degree))) (s_size s (S d)) 250 = Ok (recovered s degree).
Proof.
  intros s d degree Hs Hok H32 Hd.
  assert (Hf : forall x, x <= 250 -> s_size s (S d) x = Ok (Z.of_nat (length (spec_list s d x)))).
  { intros x Hx. apply s_size_Ok; [eapply set_ok_le; eassumption|]. pose proof (spec_list_le s d x 250 Hx). lia. }
  destruct (pos_bissect_complete (Z.of_nat (length (spec_list s d degree))) (s_size s (S d))
    (fun x => Z.of_nat (length (spec_list s d x))) 250 Hf) with (s := degree) as [x [E [Hx Ex]]].
  - intros x y Hxy _. pose proof (spec_list_le s d x y Hxy). lia.
  - assumption.
  - reflexivity.
  - cbv beta in Ex. destruct (Nat.eq_dec x degree) as [->|Hne].
    + destruct s; try exact E; try contradiction. cbn [recovered]. destruct (degree =? 1) eqn:E1; [|exact E].
      apply Nat.eqb_eq in E1. subst degree. exfalso.
      unfold pos_bissect in E. rewrite Hf in E by lia. cbn [bind] in E. rewrite Hf in E by lia. cbn [bind] in E.
      change (spec_list CrossNc d 0) with (spec_list CrossNc d 1) in E.
      rewrite Z.sub_diag in E. change (0 <? 0)%Z with false in E. cbn [orb] in E.
      pose proof (spec_list_le CrossNc d 1 250 ltac:(lia)).
      replace (_ <? 0)%Z with false in E by (symmetry; apply Z.ltb_ge; lia). discriminate.
    + assert (Hc : s = CrossNc /\ x <= 1 /\ degree <= 1).
      { destruct (Nat.lt_ge_cases x degree) as [Hlt|Hge].
        - destruct s; try (pose proof (spec_list_lt Triangle d x degree Hlt ltac:(intros [|]; discriminate)); cbn [spec_list] in *; lia);
          try (pose proof (spec_list_lt Cube d x degree Hlt ltac:(intros [|]; discriminate)); cbn [spec_list] in *; lia);
          try (pose proof (spec_list_lt Rectangle d x degree Hlt ltac:(intros [|]; discriminate)); cbn [spec_list] in *; lia);
          try contradiction.
          destruct x as [|x]; [|pose proof (spec_list_lt CrossNc d (S x) degree Hlt ltac:(lia)); lia].
          split; [reflexivity|]. split; [lia|]. destruct (Nat.le_gt_cases degree 1) as [|Hg]; [assumption|].
          pose proof (spec_list_lt CrossNc d 1 degree Hg ltac:(lia)).
          change (spec_list CrossNc d 0) with (spec_list CrossNc d 1) in Ex. lia.
        - assert (Hlt : degree < x) by lia.
          destruct s; try (pose proof (spec_list_lt Triangle d degree x Hlt ltac:(intros [|]; discriminate)); cbn [spec_list] in *; lia);
          try (pose proof (spec_list_lt Cube d degree x Hlt ltac:(intros [|]; discriminate)); cbn [spec_list] in *; lia);
          try (pose proof (spec_list_lt Rectangle d degree x Hlt ltac:(intros [|]; discriminate)); cbn [spec_list] in *; lia);
          try contradiction.
          destruct degree as [|degree]; [|pose proof (spec_list_lt CrossNc d (S degree) x Hlt ltac:(lia)); lia].
          split; [reflexivity|]. split; [|lia]. destruct (Nat.le_gt_cases x 1) as [|Hg]; [assumption|].
          pose proof (spec_list_lt CrossNc d 1 x Hg ltac:(lia)).
          change (spec_list CrossNc d 0) with (spec_list CrossNc d 1) in Ex. lia. }
      destruct Hc as [-> [Hx1 Hd1]].
      assert (E0 : pos_bissect (Z.of_nat (length (spec_list CrossNc d degree))) (s_size CrossNc (S d)) 250 = Ok 0).
      { assert (Es : spec_list CrossNc d degree = spec_list CrossNc d 0) by (destruct degree as [|[|]]; [reflexivity|reflexivity|lia]).
        rewrite Es. unfold pos_bissect. rewrite !Hf by lia. cbn [bind]. rewrite Z.sub_diag. change (0 <? 0)%Z with false. cbn [orb].
        pose proof (spec_list_le CrossNc d 0 250 ltac:(lia)).
        replace (_ <? 0)%Z with false by (symmetry; apply Z.ltb_ge; lia). reflexivity. }
      rewrite E0. destruct degree as [|[|]]; [reflexivity|reflexivity|lia].
Qed.

Lemma nth_error_prefix : forall A (l1 l2 : list A) i x, prefix l1 l2 -> nth_error l1 i = Some x -> nth_error l2 i = Some x.
Proof.
  intros A l1 l2 i x [l3 ->] H. rewrite nth_error_app1; [exact H|]. apply nth_error_Some. congruence.
Qed.

Lemma last_opt_nth : forall A (l : list A) x, last_opt l = Some x -> nth_error l (length l - 1) = Some x.
Proof.
  intros A l x H. apply last_opt_Some_app in H as [l' ->]. rewrite app_length. cbn [length].
  rewrite nth_error_app2 by lia. replace (length l' + 1 - 1 - length l') with 0 by lia. reflexivity.
Qed.

Theorem get_degree_recover : forall s d degree,
  set_ok s (S d) 250 -> (Z.of_nat (length (spec_list s d 250)) < 2 ^ 32)%Z -> degree <= 250 ->
  s_get_degree s (S d) (Z.of_nat (length (spec_list s d degree))) = Ok (recovered s degree).
Proof.
  intros s d degree Hok H32 Hd. destruct s; try (apply bissect_recover; try assumption; discriminate).
  cbn [s_get_degree]. unfold DEGREE_BISSECT_MAX. rewrite (iterator_list_Ok Cross d 250 I). cbn [bind].
  assert (Hn : 1 <= length (spec_list Cross d degree)).
  { pose proof (cross_hd d degree) as G. cbn [spec_list]. destruct (cross_spec d degree); [discriminate|]. simpl. lia. }
  replace (_ <=? 0)%Z with false by (symmetry; apply Z.leb_gt; lia). rewrite Nat2Z.id.
  pose proof (cross_last d degree) as G. apply last_opt_nth in G.
  pose proof (nth_error_prefix _ _ _ _ _ (cross_prefix d degree 250 Hd) G) as G2.
  unfold vget at 1. change (spec_list Cross d 250) with (cross_spec d 250).
  change (length (spec_list Cross d degree)) with (length (cross_spec d degree)). rewrite G2. reflexivity.
Qed.

(** dimensions 1 to 4 satisfy the hypotheses *)
Lemma pow_251_4 : forall d, d <= 3 -> (Z.of_nat (251 ^ S d) < 2 ^ 32)%Z.
Proof.
  intros d Hd. rewrite Nat2Z.inj_pow. destruct d as [|[|[|[|d]]]]; try lia; reflexivity.
Qed.

Lemma fits_dim4 : forall s d, d <= 3 -> (Z.of_nat (length (spec_list s d 250)) < 2 ^ 32)%Z.
Proof.
  intros s d Hd. eapply Z.le_lt_trans; [|apply (pow_251_4 d Hd)]. apply inj_le.
  apply bounded_count; [apply NoDup_spec_list|]. intros m Hm. apply in_spec_list in Hm as [Hl Hm].
  split; [assumption|]. apply Forall_forall. intros x Hx. destruct s; cbn [in_set] in Hm.
  + apply entry_le_sum in Hx. lia.
  + rewrite Forall_forall in Hm. apply Hm in Hx. lia.
  + apply entry_le_cross in Hx. lia.
  + apply entry_le_cross in Hx. lia.
  + destruct m as [|y m]; [contradiction|]. destruct Hm as [H1 H2]. destruct Hx as [->|Hx]; [lia|].
    rewrite Forall_forall in H2. apply H2 in Hx. lia.
Qed.

Lemma ok_dim4 : forall s d, d <= 3 -> set_ok s (S d) 250.
Proof.
  intros s d Hd. destruct s; cbn [set_ok]; auto. apply nc_no_overflow_suff; [lia|].
  destruct d as [|[|[|[|d]]]]; try lia; reflexivity.
Qed.

(** * dimension 5 and above *)
Lemma tri_big : forall d, 4 <= d -> (2 ^ 32 <= Z.of_nat (length (tri_spec d 250)))%Z.
Proof.
  intros d Hd. rewrite tri_spec_length. induction Hd as [|d Hd IH].
  - rewrite <- zbinom_binom. apply Z.leb_le. vm_compute. reflexivity.
  - eapply Z.le_trans; [exact IH|]. apply inj_le. replace (250 + S (S d)) with (S (250 + S d)) by lia.
    rewrite (binom_S_S (250 + S d) (S d)). lia.
Qed.

Theorem get_degree_tri_ub : forall d n, 4 <= d -> s_get_degree Triangle (S d) n = Ub.
Proof.
  intros d n Hd. cbn [s_get_degree]. unfold pos_bissect, DEGREE_BISSECT_MAX.
  rewrite (s_size_Ok Triangle d 0 I).
  - cbn [bind]. assert (s_size Triangle (S d) 250 = Ub) as ->; [|reflexivity].
    pose proof (s_size_spec Triangle d 250 I) as G. cbv zeta in G. rewrite G. cbn [spec_list].
    pose proof (tri_big d Hd). replace (_ <? _)%Z with false by (symmetry; apply Z.ltb_ge; lia). reflexivity.
  - cbn [spec_list]. rewrite tri_spec_length, Nat.add_0_l, binom_diag. reflexivity.
Qed.

Theorem get_degree_cube_ub : forall d n, 4 <= d -> s_get_degree Cube (S d) n = Ub.
Proof.
  intros d n Hd. cbn [s_get_degree]. unfold pos_bissect, DEGREE_BISSECT_MAX. cbn [s_size]. unfold cube_size.
  assert (E0 : d2u ((Z.of_nat 0 + 1) ^ Z.of_nat (S d)) = Ok 1%Z). { change (Z.of_nat 0 + 1)%Z with 1%Z. rewrite Z.pow_1_l by lia. reflexivity. }
  rewrite E0. cbn [bind]. rewrite d2u_big; [reflexivity|].
  eapply Z.le_trans; [|apply (Z.pow_le_mono_r _ 5); lia]. apply Z.leb_le. vm_compute. reflexivity.
Qed.
