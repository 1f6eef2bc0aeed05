(** Uniform statement of the enumeration results, and the iterator objects. *)
From Coq Require Import String List Bool Arith ZArith Lia.
From Verif Require Import Base Lists IndexModel Spec Traverse Triangle Binom Shell ShellList Cross CrossNc HashPrint.
Import ListNotations.

(** the enumeration for dimension [S d] *)
Definition spec_list (s : iset) (d degree : nat) : list mi :=
  match s with
  | Triangle => tri_spec d degree
  | Cube => shell_spec (repeat 1 (S d)) degree
  | Cross => cross_spec d degree
  | CrossNc => nc_spec d degree
  | Rectangle => shell_spec (rect_factors (S d)) degree
  end.

Lemma ones_pos : forall n, Forall (fun w => 1 <= w) (repeat 1 n).
Proof. induction n; simpl; constructor; auto. Qed.

Lemma rect_factors_S : forall d, rect_factors (S d) = 1 :: repeat 2 d.
Proof.
  intros. unfold rect_factors. cbn [seq map]. f_equal.
  assert (G : forall n k, 1 <= k -> map (fun i => if i =? 0 then 1 else 2) (seq k n) = repeat 2 n).
  { induction n as [|n IH]; intros k Hk; [reflexivity|]. cbn [seq map repeat]. rewrite IH by lia.
    destruct k; [lia|]. reflexivity. }
  apply G. lia.
Qed.

Lemma rect_pos : forall d, Forall (fun w => 1 <= w) (rect_factors (S d)).
Proof. intros. rewrite rect_factors_S. constructor; [lia|]. induction d; simpl; constructor; auto. Qed.

Lemma rect_hd : forall d, hd_error (rect_factors (S d)) = Some 1.
Proof. reflexivity. Qed.

Lemma rect_factors_length : forall d, length (rect_factors d) = d.
Proof. intros. unfold rect_factors. rewrite map_length, seq_length. reflexivity. Qed.

Lemma in_cube_spec : forall d degree m, In m (shell_spec (repeat 1 (S d)) degree) <->
  length m = S d /\ Forall (fun x => x <= degree) m.
Proof.
  intros. rewrite in_shell; [|apply ones_pos|reflexivity]. generalize (S d) as n. intros n. split.
  - intros H. assert (Hl := Forall2_length _ _ _ _ _ H). rewrite repeat_length in Hl. split; [assumption|].
    clear Hl. remember (repeat 1 n) as ws eqn:E. revert n E. induction H; intros n E; [constructor|].
    destruct n; [discriminate|]. injection E as -> E. constructor; [lia|]. eapply IHForall2. exact E.
  - intros [<- H]. induction H; simpl; constructor; [lia|assumption].
Qed.

Lemma Forall2_repeat : forall A (P : nat -> A -> Prop) a m n,
  Forall2 P m (repeat a n) <-> length m = n /\ Forall (fun x => P x a) m.
Proof.
  intros A P a. induction m as [|x m IH]; intros n.
  - split.
    + intros H. inversion H. destruct n; [split; [reflexivity|constructor]|discriminate].
    + intros [<- _]. constructor.
  - split.
    + intros H. destruct n; [inversion H|]. simpl in H. inversion H; subst. apply IH in H5 as [<- Hf]. split; [reflexivity|constructor; assumption].
    + intros [<- Hf]. inversion Hf; subst. simpl. constructor; [assumption|]. apply IH. auto.
Qed.

Lemma in_rect_spec : forall d degree m, In m (shell_spec (rect_factors (S d)) degree) <->
  length m = S d /\ match m with [] => True | x :: t => x <= degree /\ Forall (fun y => 2 * y <= degree) t end.
Proof.
  intros. rewrite in_shell; [|apply rect_pos|apply rect_hd]. rewrite rect_factors_S. destruct m as [|x m].
  - split; [intros H; inversion H|]. intros [H _]. discriminate.
  - split.
    + intros H. inversion H; subst. apply Forall2_repeat in H5 as [Hl Hf]. simpl. split; [lia|]. split; [lia|].
      eapply Forall_impl; [|exact Hf]. intros; cbv beta in *; lia.
    + intros [Hl [Hx Hf]]. constructor; [lia|]. apply Forall2_repeat. split; [simpl in Hl; lia|].
      eapply Forall_impl; [|exact Hf]. intros; cbv beta in *; lia.
Qed.

Theorem in_spec_list : forall s d degree m,
  In m (spec_list s d degree) <-> length m = S d /\ in_set s degree m.
Proof.
  intros [] d degree m; cbn [spec_list in_set].
  - apply in_tri_spec.
  - apply in_cube_spec.
  - apply in_cross_spec.
  - apply in_nc_spec.
  - apply in_rect_spec.
Qed.

Theorem NoDup_spec_list : forall s d degree, NoDup (spec_list s d degree).
Proof.
  intros [] d degree; cbn [spec_list].
  - apply NoDup_tri_spec.
  - apply NoDup_shell, ones_pos.
  - apply NoDup_cross_spec.
  - apply NoDup_nc_spec.
  - apply NoDup_shell, rect_pos.
Qed.

Theorem spec_list_prefix : forall s d degree degree', s <> CrossNc -> degree <= degree' ->
  prefix (spec_list s d degree) (spec_list s d degree').
Proof.
  intros [] d degree degree' Hs H; cbn [spec_list].
  - apply tri_spec_prefix; assumption.
  - apply shell_prefix; assumption.
  - apply cross_prefix; assumption.
  - contradiction.
  - apply shell_prefix; assumption.
Qed.

Lemma spec_list_bound : forall s d degree, length (spec_list s d degree) <= (degree + 2) ^ S d.
Proof.
  intros. eapply Nat.le_trans; [apply (bounded_count (S d) (Nat.max 1 degree)); [apply NoDup_spec_list|]|].
  - intros m Hm. apply in_spec_list in Hm as [Hl Hm]. split; [assumption|]. apply Forall_forall. intros x Hx.
    destruct s; cbn [in_set] in Hm.
    + apply entry_le_sum in Hx. lia.
    + rewrite Forall_forall in Hm. apply Hm in Hx. lia.
    + apply entry_le_cross in Hx. lia.
    + apply entry_le_cross in Hx. lia.
    + destruct m as [|y m]; [contradiction|]. destruct Hm as [H1 H2]. destruct Hx as [->|Hx]; [lia|].
      rewrite Forall_forall in H2. apply H2 in Hx. lia.
  - apply Nat.pow_le_mono_l. lia.
Qed.

Theorem spec_list_hd : forall s d degree, hd_error (spec_list s d degree) = Some (zeros (S d)) \/ s = CrossNc.
Proof.
  intros [] d degree; cbn [spec_list]; try (right; reflexivity); left.
  - apply tri_spec_hd.
  - rewrite shell_hd; [rewrite repeat_length; reflexivity|apply ones_pos|reflexivity].
  - apply cross_hd.
  - rewrite shell_hd; [rewrite rect_factors_length; reflexivity|apply rect_pos|reflexivity].
Qed.

Lemma linked_length : forall (R : mi -> mi -> Prop) (Q : mi -> mi -> Prop) l n,
  (forall m, In m l -> length m = n) -> (forall x y, length x = n -> R x y -> Q x y) -> linked R l -> linked Q l.
Proof. intros R Q l n Hl H. apply linked_impl. intros x y Hx _. apply H. apply Hl. assumption. Qed.

Theorem iterator_list_Ok : forall s d degree, set_ok s (S d) degree ->
  iterator_list s (S d) degree = Ok (spec_list s d degree).
Proof.
  intros s d degree Hok. unfold iterator_list. change (repeat 0 (S d)) with (zeros (S d)).
  pose proof (spec_list_bound s d degree) as Hb.
  assert (Hlen : forall m, In m (spec_list s d degree) -> length m = S d) by (intros m Hm; apply in_spec_list in Hm; tauto).
  destruct s; cbn [increment_of spec_list] in *.
  - eapply enumerate_linked; [apply tri_spec_hd|apply tri_spec_linked|apply tri_spec_last|apply tri_increment_end|assumption].
  - destruct (shell_last (repeat 1 (S d)) (ones_pos _) eq_refl degree) as [x [x' [H1 H2]]].
    assert (Hx : In x (shell_spec (repeat 1 (S d)) degree)).
    { apply last_opt_Some_app in H1 as [l ->]. apply in_or_app. right. left. reflexivity. }
    eapply enumerate_linked; [| |exact H1| |exact Hb].
    + rewrite shell_hd; [rewrite repeat_length; reflexivity|apply ones_pos|reflexivity].
    + eapply linked_length; [exact Hlen| |apply (shell_linked (repeat 1 (S d)) (ones_pos _) eq_refl degree)].
      intros a b Ha Hs. unfold stepf in *. rewrite cube_increment_gen by (destruct a; discriminate). rewrite Ha. exact Hs.
    + apply Hlen in Hx. rewrite cube_increment_gen by (destruct x; discriminate). rewrite Hx. exact H2.
  - destruct (cross_stop d degree _ (cross_last d degree)) as [x' Hx'].
    eapply enumerate_linked; [apply cross_hd|apply cross_linked|apply cross_last|exact Hx'|assumption].
  - apply nc_list_exact. exact Hok.
  - destruct (shell_last (rect_factors (S d)) (rect_pos _) (rect_hd d) degree) as [x [x' [H1 H2]]].
    assert (Hx : In x (shell_spec (rect_factors (S d)) degree)).
    { apply last_opt_Some_app in H1 as [l ->]. apply in_or_app. right. left. reflexivity. }
    eapply enumerate_linked; [| |exact H1| |exact Hb].
    + rewrite shell_hd; [rewrite rect_factors_length; reflexivity|apply rect_pos|reflexivity].
    + eapply linked_length; [exact Hlen| |apply (shell_linked (rect_factors (S d)) (rect_pos _) (rect_hd d) degree)].
      intros a b Ha Hs. unfold stepf in *. rewrite rect_increment_gen. rewrite Ha. exact Hs.
    + apply Hlen in Hx. rewrite rect_increment_gen. rewrite Hx. exact H2.
Qed.

(** the first element, for every set *)
Lemma iterator_list_first : forall s d degree, set_ok s (S d) degree ->
  hd_error (spec_list s d degree) = Some (zeros (S d)).
Proof.
  intros s d degree H. destruct (spec_list_hd s d degree) as [G| -> ]; [exact G|].
  pose proof (iterator_list_Ok CrossNc d degree H) as E. unfold iterator_list in E.
  apply enumerate_inv in E as [E _]. exact E.
Qed.

(** * Sizes *)
Lemma zprod_u32 : forall l a, (0 <= a < 2 ^ 32)%Z ->
  fold_left (fun r f => u32 (r * u32 (1 + Z.of_nat f))) l a = ((a * Z.of_nat (fold_right Nat.mul 1%nat (map S l))) mod 2 ^ 32)%Z.
Proof.
  induction l as [|x l IH]; intros a Ha; cbn [fold_left map fold_right].
  - rewrite Z.mul_1_r, Z.mod_small by assumption. reflexivity.
  - rewrite IH by (apply Z.mod_pos_bound; lia). unfold u32.
    rewrite Nat2Z.inj_mul, Zmult_mod_idemp_r, Zmult_mod_idemp_l. f_equal.
    replace (Z.of_nat (S x)) with (1 + Z.of_nat x)%Z by lia. ring.
Qed.

Theorem s_size_spec : forall s d degree, set_ok s (S d) degree ->
  let n := Z.of_nat (length (spec_list s d degree)) in
  match s with
  | Triangle | Cube => s_size s (S d) degree = if (n <? 2 ^ 32)%Z then Ok n else Ub
  | _ => s_size s (S d) degree = Ok (n mod 2 ^ 32)%Z
  end.
Proof.
  intros s d degree Hok n. destruct s; cbn [s_size].
  - apply tri_size_spec.
  - unfold cube_size, n. cbn [spec_list]. rewrite shell_length; [|apply ones_pos|reflexivity].
    assert (E : (Z.of_nat degree + 1)%Z = Z.of_nat (S degree)) by lia. rewrite E, <- Nat2Z.inj_pow.
    assert (E2 : S degree ^ S d = fold_right Nat.mul 1 (map (fun f => S (degree / f)) (repeat 1 (S d)))).
    { generalize (S d). clear. induction n as [|n IH]; [reflexivity|]. cbn [repeat map fold_right Nat.pow].
      rewrite IH, Nat.div_1_r. reflexivity. }
    rewrite <- E2. unfold d2u. assert ((0 <=? Z.of_nat (S degree ^ S d))%Z = true) as -> by (apply Z.leb_le; lia).
    reflexivity.
  - rewrite iterator_list_Ok by exact Hok. reflexivity.
  - rewrite iterator_list_Ok by exact Hok. reflexivity.
  - unfold rect_size, n. cbn [spec_list]. rewrite shell_length; [|apply rect_pos|reflexivity]. f_equal.
    assert (G : forall l a, fold_left (fun r f => u32 (r * u32 (1 + Z.of_nat (degree / f)))) l a =
      fold_left (fun r f => u32 (r * u32 (1 + Z.of_nat f))) (map (fun f => degree / f) l) a).
    { induction l as [|x l IH]; intros a; [reflexivity|]. cbn [fold_left map]. apply IH. }
    rewrite G, zprod_u32 by lia. rewrite map_map, Z.mul_1_l. reflexivity.
Qed.

(** * Iterator objects *)
Definition fresh (s : iset) (d degree : nat) : iterator :=
  {| it_multi_index := repeat 0 (S d); it_full := false; it_index_list := 0;
     it_list := spec_list s d degree; it_table := make_table (spec_list s d degree) |}.

Lemma make_iterator_Ok : forall s d degree, set_ok s (S d) degree ->
  make_iterator s (S d) degree = Ok (fresh s d degree).
Proof. intros. unfold make_iterator. rewrite iterator_list_Ok by assumption. reflexivity. Qed.

Lemma it_index_fresh : forall s d degree m i,
  it_index (fresh s d degree) m = Ok i <-> nth_error (spec_list s d degree) i = Some m.
Proof.
  intros. unfold it_index. cbn [fresh it_table].
  pose proof (make_table_find (spec_list s d degree) m) as H.
  destruct (table_find (make_table (spec_list s d degree)) (hash_print m)) as [j|].
  - split.
    + intros E. injection E as <-. apply H; [apply NoDup_spec_list|reflexivity].
    + intros E. apply H in E; [|apply NoDup_spec_list]. congruence.
  - split; [discriminate|]. intros E. apply H in E; [|apply NoDup_spec_list]. discriminate.
Qed.

Lemma it_has_fresh : forall s d degree m,
  it_has (fresh s d degree) m = true <-> In m (spec_list s d degree).
Proof.
  intros. unfold it_has. cbn [fresh it_table].
  pose proof (make_table_find (spec_list s d degree) m) as H.
  destruct (table_find (make_table (spec_list s d degree)) (hash_print m)) as [j|].
  - split; [|reflexivity]. intros _. eapply nth_error_In. apply H; [apply NoDup_spec_list|reflexivity].
  - split; [discriminate|]. intros Hin. apply In_nth_error in Hin as [i Hi]. apply H in Hi; [discriminate|apply NoDup_spec_list].
Qed.

Lemma it_index_throw : forall s d degree m,
  ~ In m (spec_list s d degree) -> it_index (fresh s d degree) m = Throw "out_of_range".
Proof.
  intros s d degree m Hn. unfold it_index. cbn [fresh it_table].
  pose proof (make_table_find (spec_list s d degree) m) as H.
  destruct (table_find (make_table (spec_list s d degree)) (hash_print m)) as [j|]; [|reflexivity].
  exfalso. apply Hn. eapply nth_error_In. apply H; [apply NoDup_spec_list|reflexivity].
Qed.

Definition state_at (l : list mi) (k : nat) (it : iterator) : Prop :=
  it_list it = l /\ it_table it = make_table l /\
  it_index_list it = Nat.min k (length l - 1) /\
  nth_error l (it_index_list it) = Some (it_multi_index it) /\
  it_full it = (length l <=? k).

Lemma it_increment_state : forall l k it, state_at l k it ->
  exists it', it_increment it = Ok it' /\ state_at l (S k) it'.
Proof.
  intros l k it [H1 [H2 [H3 [H4 H5]]]].
  assert (Hn : it_index_list it < length l) by (apply nth_error_Some; congruence).
  unfold it_increment. rewrite H1. destruct (it_index_list it + 1 =? length l) eqn:E.
  - apply Nat.eqb_eq in E. eexists. split; [reflexivity|]. unfold state_at. cbn [it_list it_table it_index_list it_multi_index it_full].
    split; [reflexivity|]. split; [assumption|]. split; [lia|]. split; [assumption|]. symmetry. apply Nat.leb_le. lia.
  - apply Nat.eqb_neq in E. assert (Hlt : S (it_index_list it) < length l) by lia.
    unfold vget. destruct (nth_error l (S (it_index_list it))) as [m|] eqn:Em; [|apply nth_error_None in Em; lia].
    cbn [bind]. eexists. split; [reflexivity|]. unfold state_at. cbn [it_list it_table it_index_list it_multi_index it_full].
    split; [reflexivity|]. split; [assumption|]. split; [lia|]. split; [assumption|].
    rewrite H5. transitivity false; [apply Nat.leb_gt; lia|symmetry; apply Nat.leb_gt; lia].
Qed.

Lemma fresh_state : forall s d degree, set_ok s (S d) degree -> state_at (spec_list s d degree) 0 (fresh s d degree).
Proof.
  intros s d degree H. pose proof (iterator_list_first s d degree H) as G.
  unfold state_at, fresh. cbn [it_list it_table it_index_list it_multi_index it_full].
  destruct (spec_list s d degree) as [|x l]; [discriminate|]. injection G as ->. repeat split; auto.
Qed.

Lemma reset_state : forall s d degree k it, set_ok s (S d) degree ->
  state_at (spec_list s d degree) k it -> it_reset it = fresh s d degree.
Proof.
  intros s d degree k it H [H1 [H2 [H3 [H4 H5]]]]. unfold it_reset, fresh. rewrite H1, H2. f_equal.
  apply nth_error_In, in_spec_list in H4 as [Hl _]. rewrite <- Hl. clear. induction (it_multi_index it) as [|x l IH]; [reflexivity|]. simpl. f_equal. exact IH.
Qed.

Theorem run_state : forall s d degree ops, set_ok s (S d) degree ->
  exists it, run ops (fresh s d degree) = Ok it /\ state_at (spec_list s d degree) (since_reset ops) it.
Proof.
  intros s d degree ops H. unfold since_reset.
  assert (G : forall ops k it, state_at (spec_list s d degree) k it ->
    exists it', run ops it = Ok it' /\ state_at (spec_list s d degree) (fold_left (fun k o => match o with Inc => S k | Reset => 0 end) ops k) it').
  { induction ops0 as [|o ops0 IH]; intros k it Hs.
    - exists it. split; [reflexivity|exact Hs].
    - destruct o; cbn [run apply_op fold_left].
      + destruct (it_increment_state _ _ _ Hs) as [it' [-> Hs']]. cbn [bind]. apply IH. exact Hs'.
      + cbn [bind]. apply IH. rewrite (reset_state s d degree k it H Hs). apply fresh_state. exact H. }
  apply G. apply fresh_state. exact H.
Qed.

Lemma collect_state : forall l fuel k it, state_at l k it -> k <= length l -> length l - k < fuel ->
  it_collect fuel it = Ok (skipn k l).
Proof.
  induction fuel as [|fuel IH]; intros k it Hs Hk Hf; [lia|].
  cbn [it_collect]. pose proof Hs as [H1 [H2 [H3 [H4 H5]]]]. rewrite H5.
  destruct (length l <=? k) eqn:E.
  - apply Nat.leb_le in E. rewrite skipn_all2 by lia. reflexivity.
  - apply Nat.leb_gt in E. destruct (it_increment_state _ _ _ Hs) as [it' [Ei Hs']]. rewrite Ei. cbn [bind].
    rewrite (IH (S k)) by (lia || assumption). cbn [bind]. f_equal.
    rewrite H3, Nat.min_l in H4 by lia. clear -H4. revert k H4. induction l as [|x l IHl]; intros [|k] H; try discriminate.
    + injection H as <-. reflexivity.
    + cbn [skipn]. apply IHl. exact H.
Qed.

Theorem s_list_Ok : forall s d degree, set_ok s (S d) degree -> s_list s (S d) degree = Ok (spec_list s d degree).
Proof.
  intros s d degree H. unfold s_list. rewrite make_iterator_Ok by exact H. cbn [bind].
  rewrite (collect_state (spec_list s d degree) _ 0); [reflexivity|apply fresh_state; exact H|lia|cbn; lia].
Qed.

Theorem collect_after : forall s d degree ops it, set_ok s (S d) degree ->
  run (ops ++ [Reset]) (fresh s d degree) = Ok it ->
  it = fresh s d degree.
Proof.
  intros s d degree ops it H Hr. 
  assert (G : forall o1 o2 it, run (o1 ++ o2) it = bind (run o1 it) (run o2)).
  { induction o1 as [|o o1 IH]; intros o2 i; [reflexivity|]. cbn [app run]. destruct (apply_op o i); cbn [bind]; auto. }
  rewrite G in Hr. destruct (run_state s d degree ops H) as [it1 [E Hs]]. rewrite E in Hr. cbn in Hr.
  injection Hr as <-. eapply reset_state; eassumption.
Qed.
