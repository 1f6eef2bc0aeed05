(** Proofs about the non-consistent cross enumeration. *)
From Coq Require Import List Arith ZArith Lia Bool.
From Verif Require Import Base Lists IndexModel Spec Traverse Triangle Binom Shell ShellList Cross.
Import ListNotations.

(** a duplicate-free list of vectors of length [n] with entries at most [B] *)
Lemma bounded_count : forall n B (l : list mi),
  NoDup l -> (forall m, In m l -> length m = n /\ Forall (fun x => x <= B) m) ->
  length l <= (S B) ^ n.
Proof.
  intros n B l Hn H.
  assert (Hb : length (box (repeat B n)) = S B ^ n).
  { rewrite box_length. clear. induction n as [|n IH]; [reflexivity|]. cbn [repeat map fold_right Nat.pow]. rewrite IH. reflexivity. }
  rewrite <- Hb. apply NoDup_incl_length; [assumption|]. intros m Hm. apply H in Hm as [Hl Hf].
  apply in_box. subst n. clear -Hf. induction Hf; [constructor|]. simpl. constructor; assumption.
Qed.

Lemma entry_le_sum : forall m x, In x m -> x <= list_sum m.
Proof.
  induction m as [|y m IH]; intros x H; [contradiction|]. rewrite list_sum_cons. destruct H as [->|H]; [lia|].
  apply IH in H. lia.
Qed.

Lemma entry_le_cross : forall m x, In x m -> x <= cross_prod m.
Proof.
  induction m as [|y m IH]; intros x H; [contradiction|]. rewrite cross_prod_cons. pose proof (cross_prod_pos m).
  destruct H as [->|H]; [nia|]. apply IH in H. nia.
Qed.

Definition nc_target (deg d : nat) : mi := deg :: repeat 1 d.

Lemma nc_target_length : forall deg d, length (nc_target deg d) = S d.
Proof. intros. simpl. rewrite repeat_length. reflexivity. Qed.

Lemma repeat_snoc : forall A (x : A) n, repeat x n ++ [x] = repeat x (S n).
Proof. induction n as [|n IH]; [reflexivity|]. simpl. f_equal. exact IH. Qed.

Lemma flat_map_split : forall A B (f : A -> list B) l1 a l2,
  flat_map f (l1 ++ a :: l2) = flat_map f l1 ++ f a ++ flat_map f l2.
Proof. intros. rewrite flat_map_app. reflexivity. Qed.

(** everything after the target in its level contains a zero *)
Lemma lev_target : forall d deg, 1 <= deg -> exists A L2,
  lev d (deg + d) = A ++ nc_target deg d :: L2 /\ (forall m, In m L2 -> In 0 m).
Proof.
  induction d as [|d IH]; intros deg Hdeg.
  - exists [], []. rewrite Nat.add_0_r. split; [reflexivity|simpl; tauto].
  - destruct (IH deg Hdeg) as [A [L2 [E Hz]]].
    assert (Hd : exists l, down (deg + S d) = l ++ [1; 0]).
    { rewrite Nat.add_succ_r. generalize (deg + d). clear. induction n as [|n [l En]]; [exists []; reflexivity|].
      exists (S (S n) :: l). change (down (S (S n))) with (S (S n) :: down (S n)). rewrite En. reflexivity. }
    destruct Hd as [l Hd]. simpl lev. rewrite Hd. change (l ++ [1; 0]) with (l ++ 1 :: [0]).
    rewrite flat_map_split. replace (deg + S d - 1) with (deg + d) by lia. rewrite E, map_app. cbn [map].
    exists (flat_map (fun e => map (fun v => v ++ [e]) (lev d (deg + S d - e))) l ++ map (fun v => v ++ [1]) A),
      (map (fun v => v ++ [1]) L2 ++ flat_map (fun e => map (fun v => v ++ [e]) (lev d (deg + S d - e))) [0]). split.
    + rewrite <- !app_assoc. cbn [app]. f_equal. f_equal. unfold nc_target. cbn [app]. rewrite repeat_snoc. reflexivity.
    + intros m Hm. apply in_app_or in Hm as [Hm|Hm].
      * apply in_map_iff in Hm as [v [<- Hv]]. apply in_or_app. left. apply Hz. assumption.
      * cbn [flat_map] in Hm. rewrite app_nil_r in Hm. apply in_map_iff in Hm as [v [<- Hv]].
        apply in_or_app. right. left. reflexivity.
Qed.

Lemma tri_target : forall d deg, 1 <= deg -> exists A L2,
  tri_spec d (deg + d) = A ++ nc_target deg d :: L2 /\
  (forall m, In m L2 -> length m = S d /\ list_sum m = deg + d /\ In 0 m).
Proof.
  intros d deg Hdeg. destruct (lev_target d deg Hdeg) as [A [L2 [E Hz]]].
  unfold tri_spec. rewrite seq_S, flat_map_app. cbn [flat_map plus]. rewrite app_nil_r, E.
  eexists (_ ++ A), L2. split; [rewrite <- app_assoc; reflexivity|].
  intros m Hm. assert (In m (lev d (deg + d))) by (rewrite E; apply in_or_app; right; right; assumption).
  apply in_lev in H. intuition.
Qed.

(** sum of the max(1,x_i) is at most the product plus the number of other factors *)
Lemma cross_sum : forall m, list_sum (map (Nat.max 1) m) + 1 <= cross_prod m + length m.
Proof.
  induction m as [|x m IH]; [unfold cross_prod; simpl; lia|]. rewrite cross_prod_cons. cbn [map length]. rewrite list_sum_cons.
  pose proof (cross_prod_pos m). nia.
Qed.

Lemma sum_le_max : forall m, list_sum m <= list_sum (map (Nat.max 1) m).
Proof. induction m as [|x m IH]; [reflexivity|]. cbn [map]. rewrite !list_sum_cons. lia. Qed.

Lemma sum_lt_max : forall m, In 0 m -> list_sum m < list_sum (map (Nat.max 1) m).
Proof.
  induction m as [|x m IH]; intros H; [contradiction|]. cbn [map]. rewrite !list_sum_cons.
  pose proof (sum_le_max m). destruct H as [->|H]; [lia|]. apply IH in H. lia.
Qed.

Lemma zero_not_in : forall d deg m, length m = S d -> list_sum m = deg + d -> In 0 m -> deg < cross_prod m.
Proof. intros d deg m Hl Hs Hz. pose proof (cross_sum m). apply sum_lt_max in Hz. lia. Qed.

Lemma cross_in_tri : forall d deg m, length m = S d -> cross_prod m <= deg -> list_sum m <= deg + d.
Proof. intros. pose proof (cross_sum m). pose proof (sum_le_max m). lia. Qed.

(** the 32-bit product *)
Lemma nc_product_gen : forall m p, (1 <= p)%Z -> (p * Z.of_nat (cross_prod m) < 2 ^ 32)%Z ->
  fold_left (fun p i => u32 (p * Z.of_nat (MAX i 1))) m p = (p * Z.of_nat (cross_prod m))%Z.
Proof.
  induction m as [|x m IH]; intros p Hp H; [unfold cross_prod; simpl; lia|].
  cbn [fold_left]. rewrite cross_prod_cons in H |- *. rewrite MAX_max, (Nat.max_comm x 1).
  pose proof (cross_prod_pos m). rewrite Nat2Z.inj_mul in H |- *.
  set (q := Z.of_nat (Nat.max 1 x)) in *. assert (1 <= q)%Z by lia. set (c := Z.of_nat (cross_prod m)) in *. assert (1 <= c)%Z by lia.
  assert (p * q < 2 ^ 32)%Z by nia.
  rewrite u32_small by nia. rewrite IH; [ring|nia|]. fold c. nia.
Qed.

Lemma nc_product_exact : forall m, (Z.of_nat (cross_prod m) < 2 ^ 32)%Z -> nc_product m = Z.of_nat (cross_prod m).
Proof. intros. unfold nc_product. rewrite nc_product_gen by lia. lia. Qed.

Definition ncp (deg : nat) (m : mi) : bool := (nc_product m <=? Z.of_nat deg)%Z.

Lemma nc_product_target : forall deg d, 1 <= deg -> (Z.of_nat deg < 2 ^ 32)%Z -> nc_product (nc_target deg d) = Z.of_nat deg.
Proof.
  intros. assert (cross_prod (nc_target deg d) = deg).
  { unfold nc_target. rewrite cross_prod_cons. assert (cross_prod (repeat 1 d) = 1) as ->; [|lia].
    clear. induction d; [reflexivity|]. simpl repeat. rewrite cross_prod_cons, IHd. reflexivity. }
  rewrite nc_product_exact; rewrite H1; [reflexivity|assumption].
Qed.

(** the inner loop finds the next accepted element of the triangle list *)
Lemma nc_loop_next : forall deg dim L x y fuel,
  linked (stepf (tri_increment (deg + dim - 1))) (x :: L) ->
  (forall m, In m (x :: L) -> length m = dim) ->
  hd_error (filter (ncp deg) L) = Some y -> length L <= fuel ->
  nc_loop deg fuel x = Ok (false, y).
Proof.
  induction L as [|z L IH]; intros x y fuel HL Hlen Hy Hf; [discriminate|].
  destruct fuel as [|fuel]; [simpl in Hf; lia|]. cbn [nc_loop]. destruct HL as [Hs HL]. unfold stepf in Hs.
  rewrite (Hlen x) by (left; reflexivity). rewrite Hs. cbn [bind].
  cbn [filter] in Hy. unfold ncp in Hy at 1.
  destruct (nc_product z <=? Z.of_nat deg)%Z eqn:E.
  - cbn [hd_error] in Hy. injection Hy as <-. apply Z.leb_le in E.
    assert ((Z.of_nat deg <? nc_product z)%Z = false) as -> by (apply Z.ltb_ge; lia). reflexivity.
  - apply Z.leb_gt in E.
    assert ((Z.of_nat deg <? nc_product z)%Z = true) as -> by (apply Z.ltb_lt; lia).
    apply IH; [assumption| |assumption|simpl in Hf; lia]. intros; apply Hlen; right; assumption.
Qed.

(** the stopping test *)
Lemma nc_full_loop : forall q p (b : bool),
  for_each (fun i (full : bool) => x <- vget (p ++ q) i ;; Ok (full && (x =? 1))%bool) (length q) (length p) b
  = Ok (b && forallb (fun x => x =? 1) q)%bool.
Proof.
  induction q as [|x q IH]; intros p b; [rewrite andb_true_r; reflexivity|].
  cbn [length]. rewrite for_each_S. rewrite vget_app_hd by reflexivity. cbn [bind].
  specialize (IH (p ++ [x]) (b && (x =? 1))%bool). rewrite <- app_assoc in IH. cbn [app] in IH.
  rewrite app_length in IH. cbn [length] in IH. rewrite Nat.add_1_r in IH. rewrite IH. cbn [forallb].
  rewrite andb_assoc. reflexivity.
Qed.

Lemma nc_increment_test : forall degree x q,
  nc_increment degree (x :: q) =
  if (x =? Nat.max 1 degree) && forallb (fun x => x =? 1) q then Ok (true, x :: q)
  else nc_loop (Nat.max 1 degree) (S ((Nat.max 1 degree + S (length q)) ^ S (length q))) (x :: q).
Proof.
  intros. unfold nc_increment. rewrite MAX_max, (Nat.max_comm degree 1).
  change (vget (x :: q) 0) with (@Ok nat x). cbn [bind length]. change (S (length q) - 1) with (length q - 0). rewrite Nat.sub_0_r.
  pose proof (nc_full_loop q [x] (x =? Nat.max 1 degree)) as H. cbn [app length] in H. rewrite H. reflexivity.
Qed.

Lemma full_target : forall deg x q d, length q = d ->
  (x =? deg) && forallb (fun x => x =? 1) q = true <-> x :: q = nc_target deg d.
Proof.
  intros deg x q d Hd. rewrite andb_true_iff, Nat.eqb_eq. unfold nc_target. split.
  - intros [-> H]. f_equal. subst d. clear -H. induction q as [|y q IH]; [reflexivity|].
    simpl in H. apply andb_true_iff in H as [H1 H2]. apply Nat.eqb_eq in H1. subst. simpl. f_equal. apply IH. assumption.
  - intros H. injection H as -> ->. split; [reflexivity|]. clear. induction d; [reflexivity|]. simpl. assumption.
Qed.

Lemma linked_filter : forall deg dim L (R : mi -> mi -> Prop),
  linked (stepf (tri_increment (deg + dim - 1))) L ->
  (forall x L' y, (exists P, L = P ++ x :: L') -> hd_error (filter (ncp deg) L') = Some y -> R x y) ->
  linked R (filter (ncp deg) L).
Proof.
  induction L as [|x L IH]; intros R HL H; [exact I|]. cbn [filter].
  assert (linked R (filter (ncp deg) L)).
  { apply IH; [destruct HL; assumption|]. intros x' L' y [P E] Hy. apply (H x' L' y); [|assumption]. exists (x :: P). subst. reflexivity. }
  destruct (ncp deg x); [|assumption]. split; [|assumption].
  destruct (filter (ncp deg) L) as [|y l] eqn:E; [exact I|]. apply (H x L y); [exists []; reflexivity|rewrite E; reflexivity].
Qed.

Lemma linked_suffix : forall A (R : A -> A -> Prop) P l, linked R (P ++ l) -> linked R l.
Proof. induction P as [|x P IH]; intros l H; [assumption|]. apply IH. destruct H; assumption. Qed.

(** the list of the iterator before any assumption on overflow *)
Theorem nc_list : forall d degree A L2 fuel,
  let deg := Nat.max 1 degree in
  (Z.of_nat deg < 2 ^ 32)%Z ->
  tri_spec d (deg + d) = A ++ nc_target deg d :: L2 ->
  length (filter (ncp deg) (A ++ [nc_target deg d])) <= fuel ->
  enumerate (nc_increment degree) fuel (zeros (S d)) = Ok (filter (ncp deg) (A ++ [nc_target deg d])).
Proof.
  intros d degree A L2 fuel deg H32 E Hfuel.
  assert (Hdeg : 1 <= deg) by (unfold deg; lia).
  assert (Ht : ncp deg (nc_target deg d) = true) by (unfold ncp; rewrite nc_product_target by assumption; apply Z.leb_le; lia).
  assert (Efil : filter (ncp deg) (A ++ [nc_target deg d]) = filter (ncp deg) A ++ [nc_target deg d])
    by (rewrite filter_app; cbn [filter]; rewrite Ht; reflexivity).
  assert (Hin : forall m, In m (A ++ [nc_target deg d]) -> In m (tri_spec d (deg + d))).
  { intros m Hm. rewrite E. apply in_app_or in Hm. apply in_or_app. destruct Hm as [Hm|[<-|[]]]; [left; assumption|right; left; reflexivity]. }
  assert (Hlink : linked (stepf (tri_increment (deg + S d - 1))) (A ++ [nc_target deg d])).
  { replace (deg + S d - 1) with (deg + d) by lia. pose proof (tri_spec_linked d (deg + d)) as G. rewrite E in G.
    replace (A ++ nc_target deg d :: L2) with ((A ++ [nc_target deg d]) ++ L2) in G by (rewrite <- app_assoc; reflexivity).
    eapply linked_app_inv_l; eassumption. }
  assert (Hnd : NoDup (A ++ [nc_target deg d])).
  { pose proof (NoDup_tri_spec d (deg + d)) as G. rewrite E in G.
    replace (A ++ nc_target deg d :: L2) with ((A ++ [nc_target deg d]) ++ L2) in G by (rewrite <- app_assoc; reflexivity).
    clear -G. revert G. generalize (A ++ [nc_target deg d]). induction l as [|x l IH]; intros G; [constructor|].
    inversion G; subst. constructor; [|apply IH; assumption]. intro. apply H1. apply in_or_app. left. assumption. }
  assert (Hcount : length (A ++ [nc_target deg d]) <= (deg + S d) ^ S d).
  { eapply Nat.le_trans; [apply (bounded_count (S d) (deg + d)); [assumption|]|].
    - intros m Hm. apply Hin, in_tri_spec in Hm as [Hl Hs]. split; [assumption|]. apply Forall_forall. intros x Hx.
      apply entry_le_sum in Hx. lia.
    - replace (S (deg + d)) with (deg + S d) by lia. reflexivity. }
  eapply enumerate_linked with (x := nc_target deg d) (x' := nc_target deg d).
  - rewrite Efil. assert (Hhd : hd_error (A ++ [nc_target deg d]) = Some (zeros (S d))).
    { pose proof (tri_spec_hd d (deg + d)) as G. rewrite E in G. rewrite hd_error_app in G |- *. destruct A; [|exact G]. exact G. }
    destruct A as [|a A].
    + exact Hhd.
    + injection Hhd as ->. cbn [filter]. unfold ncp at 1. rewrite nc_product_exact; rewrite cross_prod_zeros; [|lia].
      assert ((Z.of_nat 1 <=? Z.of_nat deg)%Z = true) as -> by (apply Z.leb_le; lia). reflexivity.
  - eapply linked_filter; [exact Hlink|]. intros x L' y [P Ex] Hy. unfold stepf.
    assert (Hlen : forall m, In m (x :: L') -> length m = S d).
    { intros m Hm. assert (In m (tri_spec d (deg + d))). { apply Hin. rewrite Ex. apply in_or_app. right. assumption. }
      apply in_tri_spec in H. tauto. }
    assert (Hx : x <> nc_target deg d).
    { intros ->. destruct L' as [|z L'] using rev_ind; [discriminate|]. clear IHL'.
      assert (z = nc_target deg d).
      { rewrite app_comm_cons, app_assoc in Ex. apply app_inj_tail in Ex. symmetry. tauto. }
      subst z. rewrite Ex in Hnd. apply NoDup_remove_2 in Hnd. apply Hnd. apply in_or_app. right. apply in_or_app. right. left. reflexivity. }
    pose proof (Hlen x (or_introl eq_refl)) as Hlx. destruct x as [|x q]; [discriminate|]. injection Hlx as Hlx.
    rewrite nc_increment_test. fold deg.
    destruct ((x =? deg) && forallb (fun x => x =? 1) q) eqn:F; [apply (full_target deg x q d Hlx) in F; contradiction|].
    rewrite Hlx. eapply nc_loop_next; [|exact Hlen|exact Hy|].
    + apply linked_suffix with (P := P). rewrite <- Ex. exact Hlink.
    + rewrite Ex, app_length in Hcount. cbn [length] in Hcount. lia.
  - rewrite Efil. apply last_opt_snoc.
  - unfold nc_target. rewrite nc_increment_test. fold deg.
    assert ((deg =? deg) && forallb (fun x => x =? 1) (repeat 1 d) = true) as ->; [|reflexivity].
    apply (full_target deg deg (repeat 1 d) d); [apply repeat_length|reflexivity].
  - assumption.
Qed.

(** without overflow: exactly the members of the cross, in triangle order *)
Definition nc_spec (d degree : nat) : list mi :=
  filter (fun m => cross_prod m <=? Nat.max 1 degree) (tri_spec d (Nat.max 1 degree + d)).

Lemma in_nc_spec : forall d degree m, In m (nc_spec d degree) <-> length m = S d /\ cross_prod m <= Nat.max 1 degree.
Proof.
  intros. unfold nc_spec. rewrite filter_In, in_tri_spec, Nat.leb_le. split; [tauto|].
  intros [Hl Hc]. pose proof (cross_in_tri d _ m Hl Hc). tauto.
Qed.

Lemma NoDup_nc_spec : forall d degree, NoDup (nc_spec d degree).
Proof. intros. apply NoDup_filter, NoDup_tri_spec. Qed.

Lemma nc_spec_length_le : forall d degree, length (nc_spec d degree) <= (degree + 2) ^ S d.
Proof.
  intros. eapply Nat.le_trans; [apply (bounded_count (S d) (Nat.max 1 degree)); [apply NoDup_nc_spec|]|].
  - intros m Hm. apply in_nc_spec in Hm as [Hl Hc]. split; [assumption|]. apply Forall_forall. intros x Hx.
    apply entry_le_cross in Hx. lia.
  - apply Nat.pow_le_mono_l. lia.
Qed.

Theorem nc_list_exact : forall d degree, nc_no_overflow (S d) degree ->
  enumerate (nc_increment degree) ((degree + 2) ^ S d) (zeros (S d)) = Ok (nc_spec d degree).
Proof.
  intros d degree H. set (deg := Nat.max 1 degree). assert (Hdeg : 1 <= deg) by (unfold deg; lia).
  destruct (tri_target d deg Hdeg) as [A [L2 [E Hz]]].
  assert (Ho : forall m, In m (tri_spec d (deg + d)) -> ncp deg m = (cross_prod m <=? deg)).
  { intros m Hm. apply in_tri_spec in Hm as [Hl Hs]. unfold ncp. rewrite nc_product_exact.
    - destruct (cross_prod m <=? deg) eqn:F; [apply Nat.leb_le in F; apply Z.leb_le; lia|apply Nat.leb_gt in F; apply Z.leb_gt; lia].
    - apply H; [assumption|]. fold deg. lia. }
  assert (H32 : (Z.of_nat deg < 2 ^ 32)%Z).
  { specialize (H (nc_target deg d)). eapply Z.le_lt_trans; [|apply H].
    - pose proof (entry_le_cross (nc_target deg d) deg (or_introl eq_refl)). lia.
    - apply nc_target_length.
    - assert (In (nc_target deg d) (tri_spec d (deg + d))) by (rewrite E; apply in_or_app; right; left; reflexivity).
      apply in_tri_spec in H0. fold deg. lia. }
  assert (Espec : filter (ncp deg) (A ++ [nc_target deg d]) = nc_spec d degree).
  { unfold nc_spec. fold deg. rewrite E.
    replace (A ++ nc_target deg d :: L2) with ((A ++ [nc_target deg d]) ++ L2) by (rewrite <- app_assoc; reflexivity).
    rewrite (filter_app _ (A ++ [nc_target deg d]) L2).
    assert (filter (fun m => cross_prod m <=? deg) L2 = []) as ->.
    { apply filter_all_false. apply Forall_forall. intros m Hm. apply Nat.leb_gt. destruct (Hz m Hm) as [H1 [H2 H3]].
      eapply zero_not_in; eassumption. }
    rewrite app_nil_r. apply filter_ext_in. intros m Hm. apply Ho. rewrite E.
    apply in_app_or in Hm. apply in_or_app. destruct Hm as [Hm|[<-|[]]]; [left; assumption|right; left; reflexivity]. }
  rewrite <- Espec. apply nc_list with (L2 := L2); [exact H32|exact E|]. fold deg. rewrite Espec. apply nc_spec_length_le.
Qed.

Lemma nc_no_overflow_suff : forall dim degree, 1 <= dim ->
  (Z.of_nat (Nat.max 1 degree + dim - 1) ^ Z.of_nat dim < 2 ^ 32)%Z -> nc_no_overflow dim degree.
Proof.
  intros dim degree Hd H m Hl Hs. eapply Z.le_lt_trans; [|exact H]. set (B := Nat.max 1 degree + dim - 1) in *.
  rewrite <- Nat2Z.inj_pow. apply inj_le. subst dim.
  assert (G : forall v, Forall (fun x => Nat.max 1 x <= B) v -> cross_prod v <= B ^ length v).
  { induction 1 as [|x v Hx Hv IH]; [unfold cross_prod; simpl; lia|]. rewrite cross_prod_cons. cbn [length Nat.pow]. nia. }
  apply G. apply Forall_forall. intros x Hx. apply entry_le_sum in Hx. unfold B in *. lia.
Qed.
