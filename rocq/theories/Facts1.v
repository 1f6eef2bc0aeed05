(** Proofs of the statements of Properties1: index sets, iterators, degree recovery, grids. *)
From Coq Require Import String List Bool Arith ZArith Lia.
From Verif Require Import Base Lists IndexModel MachineModel Spec Traverse Triangle Binom Shell ShellList Cross CrossNc
  HashPrint IndexSet Grid CubeIndex Degree Machine.
Import ListNotations.

Lemma dim_S : forall dim, 1 <= dim -> exists d, dim = S d.
Proof. intros [|d] H; [lia|]. exists d. reflexivity. Qed.

Lemma set_complete : forall s dim degree, 1 <= dim -> set_ok s dim degree ->
  exists l, s_list s dim degree = Ok l /\ NoDup l /\
    (forall m, In m l <-> length m = dim /\ in_set s degree m).
Proof.
  intros s dim degree H Hok. destruct (dim_S dim H) as [d ->]. exists (spec_list s d degree).
  split; [apply s_list_Ok; assumption|]. split; [apply NoDup_spec_list|]. intros m. apply in_spec_list.
Qed.

Lemma set_size : forall s dim degree l, 1 <= dim -> set_ok s dim degree -> s_list s dim degree = Ok l ->
  (Z.of_nat (length l) < 2 ^ 32)%Z -> s_size s dim degree = Ok (Z.of_nat (length l)).
Proof.
  intros s dim degree l H Hok E Hs. destruct (dim_S dim H) as [d ->]. rewrite s_list_Ok in E by assumption. injection E as <-.
  apply s_size_Ok; assumption.
Qed.

Lemma list_binom : forall dim degree l, 1 <= dim -> s_list Triangle dim degree = Ok l -> length l = binom (degree + dim) dim.
Proof.
  intros dim degree l H E. destruct (dim_S dim H) as [d ->]. rewrite s_list_Ok in E by exact I. injection E as <-. apply tri_spec_length.
Qed.

Lemma tri_complete : forall dim degree, 1 <= dim ->
  exists l, s_list Triangle dim degree = Ok l /\ NoDup l /\
    (forall m, In m l <-> length m = dim /\ list_sum m <= degree) /\
    length l = binom (degree + dim) dim /\
    s_size Triangle dim degree = if (Z.of_nat (length l) <? 2 ^ 32)%Z then Ok (Z.of_nat (length l)) else Ub.
Proof.
  intros dim degree H. destruct (dim_S dim H) as [d ->]. exists (spec_list Triangle d degree).
  split; [apply s_list_Ok; exact I|]. split; [apply NoDup_spec_list|]. split; [intros m; apply (in_spec_list Triangle)|].
  split; [apply tri_spec_length|]. exact (s_size_spec Triangle d degree I).
Qed.

Lemma cube_length : forall d degree, length (spec_list Cube d degree) = (degree + 1) ^ S d.
Proof.
  intros. cbn [spec_list]. rewrite shell_length; [|apply ones_pos|reflexivity].
  rewrite Nat.add_1_r. generalize (S d) as n. induction n as [|n IH]; [reflexivity|].
  cbn [repeat map fold_right Nat.pow]. rewrite IH, Nat.div_1_r. reflexivity.
Qed.

Lemma cube_complete : forall dim degree, 1 <= dim ->
  exists l, s_list Cube dim degree = Ok l /\ NoDup l /\
    (forall m, In m l <-> length m = dim /\ Forall (fun x => x <= degree) m) /\
    length l = (degree + 1) ^ dim /\
    s_size Cube dim degree = if (Z.of_nat (length l) <? 2 ^ 32)%Z then Ok (Z.of_nat (length l)) else Ub.
Proof.
  intros dim degree H. destruct (dim_S dim H) as [d ->]. exists (spec_list Cube d degree).
  split; [apply s_list_Ok; exact I|]. split; [apply NoDup_spec_list|]. split; [intros m; apply (in_spec_list Cube)|].
  split; [apply cube_length|]. exact (s_size_spec Cube d degree I).
Qed.

Lemma rect_complete : forall dim degree, 1 <= dim ->
  exists l, s_list Rectangle dim degree = Ok l /\ NoDup l /\
    (forall x t, In (x :: t) l <-> length (x :: t) = dim /\ x <= degree /\ Forall (fun y => 2 * y <= degree) t) /\
    ~ In [] l /\
    s_size Rectangle dim degree = Ok (Z.of_nat (length l) mod 2 ^ 32)%Z.
Proof.
  intros dim degree H. destruct (dim_S dim H) as [d ->]. exists (spec_list Rectangle d degree).
  split; [apply s_list_Ok; exact I|]. split; [apply NoDup_spec_list|]. split; [intros x t; apply (in_spec_list Rectangle)|].
  split; [intros G; apply in_spec_list in G as [G _]; discriminate|]. exact (s_size_spec Rectangle d degree I).
Qed.

Lemma cross_complete : forall dim degree, 1 <= dim ->
  exists l, s_list Cross dim degree = Ok l /\ NoDup l /\
    (forall m, In m l <-> length m = dim /\ cross_prod m <= Nat.max 1 degree) /\
    s_size Cross dim degree = Ok (Z.of_nat (length l) mod 2 ^ 32)%Z.
Proof.
  intros dim degree H. destruct (dim_S dim H) as [d ->]. exists (spec_list Cross d degree).
  split; [apply s_list_Ok; exact I|]. split; [apply NoDup_spec_list|]. split; [intros m; apply (in_spec_list Cross)|].
  exact (s_size_spec Cross d degree I).
Qed.

Lemma nc_complete : forall dim degree, 1 <= dim -> nc_no_overflow dim degree ->
  exists l lt, s_list CrossNc dim degree = Ok l /\ NoDup l /\
    (forall m, In m l <-> length m = dim /\ cross_prod m <= Nat.max 1 degree) /\
    s_list Triangle dim (Nat.max 1 degree + dim - 1) = Ok lt /\
    l = filter (fun m => cross_prod m <=? Nat.max 1 degree) lt /\
    s_size CrossNc dim degree = Ok (Z.of_nat (length l) mod 2 ^ 32)%Z.
Proof.
  intros dim degree H Hok. destruct (dim_S dim H) as [d ->].
  exists (spec_list CrossNc d degree), (spec_list Triangle d (Nat.max 1 degree + d)).
  split; [apply s_list_Ok; exact Hok|]. split; [apply NoDup_spec_list|]. split; [intros m; apply (in_spec_list CrossNc)|].
  replace (Nat.max 1 degree + S d - 1) with (Nat.max 1 degree + d) by lia.
  split; [apply s_list_Ok; exact I|]. split; [reflexivity|].
  exact (s_size_spec CrossNc d degree Hok).
Qed.

(** the list functions return what the constructors built, whatever it is *)
Lemma s_list_of : forall s d degree l, iterator_list s (S d) degree = Ok l -> s_list s (S d) degree = Ok l.
Proof.
  intros s d degree l E. unfold s_list, make_iterator. rewrite E. cbn [bind it_list].
  unfold iterator_list in E. apply enumerate_inv in E as [Eh _].
  rewrite (collect_state l _ 0); [reflexivity| |lia|lia].
  unfold state_at. cbn [it_list it_table it_index_list it_multi_index it_full].
  destruct l as [|x l]; [discriminate|]. injection Eh as ->. repeat split; auto.
Qed.

Lemma nc_overflow : exists degree l m, s_list CrossNc 2 degree = Ok l /\ In m l /\ ~ cross_prod m <= Nat.max 1 degree.
Proof.
  remember (2 ^ 16) as B eqn:HB.
  assert (ZB : Z.of_nat B = (2 ^ 16)%Z) by (rewrite HB, Nat2Z.inj_pow; reflexivity). clear HB.
  change (2 ^ 16)%Z with 65536%Z in ZB.
  set (degree := 2 * B - 1).
  destruct (tri_target 1 (Nat.max 1 degree) ltac:(lia)) as [A [L2 [E HL]]].
  set (l := filter (ncp (Nat.max 1 degree)) (A ++ [nc_target (Nat.max 1 degree) 1])).
  assert (Hnd : NoDup l).
  { apply NoDup_filter. pose proof (NoDup_tri_spec 1 (Nat.max 1 degree + 1)) as N. rewrite E in N.
    replace (A ++ nc_target (Nat.max 1 degree) 1 :: L2) with ((A ++ [nc_target (Nat.max 1 degree) 1]) ++ L2) in N by (rewrite <- app_assoc; reflexivity).
    revert N. generalize (A ++ [nc_target (Nat.max 1 degree) 1]). clear. induction l as [|x l IH]; intros N; [constructor|].
    inversion N; subst. constructor; [intros G; apply H1, in_or_app; left; assumption|apply IH; assumption]. }
  assert (Hl : iterator_list CrossNc 2 degree = Ok l).
  { unfold iterator_list. change (repeat 0 2) with (zeros 2). cbn [increment_of].
    apply (nc_list 1 degree A L2); [unfold degree; lia|exact E|].
    apply (bounded_count 2 (degree + 1)) in Hnd; [replace (degree + 2) with (S (degree + 1)) by lia; exact Hnd|].
    intros m Hm. apply filter_In in Hm as [Hm _].
    assert (G : In m (tri_spec 1 (Nat.max 1 degree + 1))).
    { rewrite E. apply in_app_or in Hm as [Hm|[<-|[]]]; apply in_or_app; [left; assumption|right; left; reflexivity]. }
    apply in_tri_spec in G as [G1 G2]. split; [assumption|]. apply Forall_forall. intros x Hx. apply entry_le_sum in Hx. unfold degree in *. lia. }
  exists degree, l, [B; B]. split; [apply s_list_of; exact Hl|]. split.
  - unfold l. apply filter_In. split.
    + assert (G : In [B; B] (tri_spec 1 (Nat.max 1 degree + 1))).
      { apply in_tri_spec. split; [reflexivity|]. cbn [list_sum fold_right]. unfold degree. lia. }
      rewrite E in G. apply in_app_or in G as [G|[G|G]].
      * apply in_or_app. left. assumption.
      * unfold nc_target in G. cbn [repeat] in G. injection G as G1 G2. lia.
      * apply HL in G as [_ [_ [G|[G|[]]]]]; lia.
    + unfold ncp, nc_product. cbn [fold_left]. rewrite !MAX_max. replace (Nat.max B 1) with B by lia. rewrite ZB.
      apply Z.leb_le. change (u32 (u32 (1 * 65536) * 65536)) with 0%Z. lia.
  - unfold cross_prod. cbn [map fold_right]. replace (Nat.max 1 B) with B by lia. unfold degree. nia.
Qed.

(** prefixes *)
Lemma prefix_ok : forall s dim degree degree', s <> CrossNc -> 1 <= dim -> degree <= degree' ->
  exists l l', s_list s dim degree = Ok l /\ s_list s dim degree' = Ok l' /\ prefix l l'.
Proof.
  intros s dim degree degree' Hs H Hd. destruct (dim_S dim H) as [d ->].
  exists (spec_list s d degree), (spec_list s d degree'). split; [apply s_list_Ok; destruct s; try exact I; contradiction Hs; reflexivity|].
  split; [apply s_list_Ok; destruct s; try exact I; contradiction Hs; reflexivity|]. apply spec_list_prefix; assumption.
Qed.

Lemma prefix_nc_refuted : exists l l', s_list CrossNc 2 2 = Ok l /\ s_list CrossNc 2 3 = Ok l' /\ ~ prefix l l'.
Proof.
  eexists _, _. split; [vm_compute; reflexivity|]. split; [vm_compute; reflexivity|].
  intros [l3 H]. cbn [app] in H. discriminate.
Qed.

(** closed-form indices *)
Lemma tri_index_ok : forall m degree l i, 1 <= length m -> s_list Triangle (length m) degree = Ok l ->
  nth_error l i = Some m -> (Z.of_nat i < 2 ^ 32)%Z -> tri_index m = Ok (Z.of_nat i).
Proof.
  intros m degree l i H E Hi Hs. destruct (dim_S _ H) as [d Ed]. rewrite Ed in E. rewrite s_list_Ok in E by exact I.
  injection E as <-. eapply tri_index_nth; eassumption.
Qed.

Lemma cube_index_ok : forall m degree l i, 1 <= length m -> s_list Cube (length m) degree = Ok l ->
  nth_error l i = Some m -> (Z.of_nat i < 2 ^ 32)%Z -> m <> repeat 0 (length m) -> cube_index m = Ok (Z.of_nat i).
Proof.
  intros m degree l i H E Hi Hs Hz. destruct (dim_S _ H) as [d Ed]. rewrite Ed in E. rewrite s_list_Ok in E by exact I.
  injection E as <-. eapply cube_index_nth; [eassumption| |assumption]. rewrite Ed in Hz. exact Hz.
Qed.

Lemma cube_index_zero_ub : forall dim, 1 <= dim -> cube_index (repeat 0 dim) = Ub.
Proof. intros dim H. destruct (dim_S dim H) as [d ->]. apply cube_index_zero. Qed.

(** lookups *)
Lemma lookup_ok : forall s dim degree, 1 <= dim -> set_ok s dim degree ->
  exists it l, make_iterator s dim degree = Ok it /\ s_list s dim degree = Ok l /\
    (forall m, it_has it m = true <-> length m = dim /\ in_set s degree m) /\
    (forall m i, it_index it m = Ok i <-> nth_error l i = Some m) /\
    (forall m, it_has it m = false -> it_index it m = Throw "out_of_range").
Proof.
  intros s dim degree H Hok. destruct (dim_S dim H) as [d ->]. exists (fresh s d degree), (spec_list s d degree).
  split; [apply make_iterator_Ok; assumption|]. split; [apply s_list_Ok; assumption|].
  split; [intros m; rewrite it_has_fresh; apply in_spec_list|]. split; [intros; apply it_index_fresh|].
  intros m Hm. apply it_index_throw. intros G. apply it_has_fresh in G. congruence.
Qed.

(** histories *)
Lemma history_ok : forall s dim degree ops, 1 <= dim -> set_ok s dim degree ->
  exists it0 it l, make_iterator s dim degree = Ok it0 /\ run ops it0 = Ok it /\ s_list s dim degree = Ok l /\
    it_full it = (length l <=? since_reset ops) /\
    nth_error l (Nat.min (since_reset ops) (length l - 1)) = Some (it_multi_index it) /\
    (since_reset ops <= length l -> it_collect (S (length l)) it = Ok (skipn (since_reset ops) l)) /\
    it_reset it = it0.
Proof.
  intros s dim degree ops H Hok. destruct (dim_S dim H) as [d ->].
  destruct (run_state s d degree ops Hok) as [it [E Hs]].
  exists (fresh s d degree), it, (spec_list s d degree).
  split; [apply make_iterator_Ok; assumption|]. split; [assumption|]. split; [apply s_list_Ok; assumption|].
  pose proof Hs as [H1 [H2 [H3 [H4 H5]]]]. split; [assumption|]. split; [rewrite <- H3; assumption|].
  split; [intros Hk; eapply collect_state; [exact Hs|lia|lia]|]. eapply reset_state; eassumption.
Qed.

(** degree recovery *)
Lemma recover_ok : forall s dim degree l, 1 <= dim <= 4 -> degree <= 250 -> s_list s dim degree = Ok l ->
  exists degree', s_get_degree s dim (Z.of_nat (length l)) = Ok degree' /\
    s_size s dim degree = Ok (Z.of_nat (length l)) /\
    degree' = match s with Cross => Nat.max 1 degree | CrossNc => if degree =? 1 then 0 else degree | _ => degree end /\
    s_list s dim degree' = Ok l.
Proof.
  intros s dim degree l Hd Hg E. destruct (dim_S dim ltac:(lia)) as [d ->].
  assert (Hok : set_ok s (S d) 250) by (apply ok_dim4; lia).
  assert (Hok' : set_ok s (S d) degree) by (eapply set_ok_le; eassumption).
  assert (H32 : (Z.of_nat (length (spec_list s d 250)) < 2 ^ 32)%Z) by (apply fits_dim4; lia).
  rewrite s_list_Ok in E by assumption. injection E as <-. exists (recovered s degree).
  split; [apply get_degree_recover; assumption|].
  split; [apply s_size_Ok; [assumption|]; pose proof (spec_list_le s d degree 250 Hg); lia|].
  split; [reflexivity|].
  rewrite s_list_Ok; [rewrite spec_list_recovered; reflexivity|].
  destruct s; cbn [recovered]; try exact I. eapply set_ok_le; [|exact Hok]. destruct (degree =? 1); lia.
Qed.

Lemma recover_gen : forall s dim degree l l250, 1 <= dim -> degree <= 250 -> set_ok s dim 250 ->
  s_list s dim 250 = Ok l250 -> (Z.of_nat (length l250) < 2 ^ 32)%Z ->
  s_list s dim degree = Ok l ->
  exists degree', s_get_degree s dim (Z.of_nat (length l)) = Ok degree' /\ s_list s dim degree' = Ok l.
Proof.
  intros s dim degree l l250 Hd Hg Hok E2 H32 E. destruct (dim_S dim ltac:(lia)) as [d ->].
  assert (Hok' : set_ok s (S d) degree) by (eapply set_ok_le; eassumption).
  rewrite s_list_Ok in E by assumption. injection E as <-. rewrite s_list_Ok in E2 by assumption. injection E2 as <-.
  exists (recovered s degree).
  split; [apply get_degree_recover; assumption|].
  rewrite s_list_Ok; [rewrite spec_list_recovered; reflexivity|].
  destruct s; cbn [recovered]; try exact I. eapply set_ok_le; [|exact Hok]. destruct (degree =? 1); lia.
Qed.

Lemma bissect_total : forall image (f : nat -> Z) max,
  (exists x, pos_bissect image (fun x => Ok (f x)) max = Ok x /\ x <= max /\ f x = image) \/
  pos_bissect image (fun x => Ok (f x)) max = Exit 0 \/ pos_bissect image (fun x => Ok (f x)) max = Exit 1.
Proof. intros. apply pos_bissect_total. reflexivity. Qed.

Lemma bissect_complete : forall image (f : nat -> Z) max s,
  (forall x y, x <= y -> y <= max -> (f x <= f y)%Z) -> s <= max -> f s = image ->
  exists x, pos_bissect image (fun x => Ok (f x)) max = Ok x /\ x <= max /\ f x = image.
Proof. intros. eapply pos_bissect_complete; eauto. Qed.

Lemma get_degree_ub : forall s dim n, s = Triangle \/ s = Cube -> 5 <= dim -> s_get_degree s dim n = Ub.
Proof.
  intros s dim n Hs H. destruct (dim_S dim ltac:(lia)) as [d ->].
  destruct Hs as [-> | ->]; [apply get_degree_tri_ub; lia|apply get_degree_cube_ub; lia].
Qed.

Lemma get_degree_rect5 : exists n, s_size Rectangle 5 145 = Ok n /\
  n = fold_left Z.mul (map (fun f => Z.of_nat (145 / f) + 1)%Z [1; 2; 2; 2; 2]%nat) 1%Z /\
  s_get_degree Rectangle 5 n = Exit 0.
Proof. eexists. split; [vm_compute; reflexivity|]. split; vm_compute; reflexivity. Qed.

(** grids *)
Lemma grid_ok : forall bounds, bounds <> [] -> Forall (fun b => 1 <= b) bounds ->
  exists l, grid_list bounds = Ok l /\ NoDup l /\
    (forall m, In m l <-> Forall2 lt m bounds) /\
    (forall i j m m', nth_error l i = Some m -> nth_error l j = Some m' -> i < j -> lex_lt m m') /\
    (forall i m, nth_error l i = Some m -> (Z.of_nat i < 2 ^ 32)%Z -> grid_index bounds m = Ok (Z.of_nat i)).
Proof.
  intros bounds Hn Hp. exists (glist bounds). split; [apply grid_list_Ok; assumption|]. split; [apply NoDup_glist|].
  split; [intros; apply in_glist|]. split; [intros; eapply glist_sorted; eassumption|]. intros; apply grid_index_nth; assumption.
Qed.

(** machine words *)
Lemma no_wrap : forall s dim degree M, 1 <= dim -> set_ok s dim degree ->
  2 * (Nat.max 1 degree + dim) + 2 < M ->
  exists l, iterator_list_w M s dim degree = Ok l /\ s_list s dim degree = Ok l /\
    Forall (Forall (fun x => x <= Nat.max 1 degree)) l.
Proof.
  intros s dim degree M H Hok HM. destruct (dim_S dim H) as [d ->]. exists (spec_list s d degree).
  split; [rewrite iterator_list_no_wrap by assumption; apply iterator_list_Ok; assumption|].
  split; [apply s_list_Ok; assumption|]. apply Forall_forall. intros m Hm. apply in_spec_list in Hm as [Hl Hm].
  apply Forall_forall. intros x Hx.
  destruct s; cbn [in_set] in Hm.
  - apply entry_le_sum in Hx. lia.
  - rewrite Forall_forall in Hm. apply Hm in Hx. lia.
  - apply entry_le_cross in Hx. lia.
  - apply entry_le_cross in Hx. lia.
  - destruct m as [|y m]; [contradiction|]. destruct Hm as [H1 H2]. destruct Hx as [->|Hx]; [lia|].
    rewrite Forall_forall in H2. apply H2 in Hx. lia.
Qed.
