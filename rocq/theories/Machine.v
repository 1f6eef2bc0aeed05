(** Machine-word wrap-around never happens while enumerating an index set. *)
From Coq Require Import List Bool Arith ZArith Lia.
From Verif Require Import Base Lists IndexModel MachineModel Spec Traverse Triangle Binom Shell ShellList Cross CrossNc IndexSet.
Import ListNotations.

Lemma for_loop_ext_inv : forall S R (P : S -> Prop) (b1 b2 : nat -> S -> res (ctl S R)) lo hi,
  (forall i s, lo <= i < hi -> P s -> b1 i s = b2 i s) ->
  (forall i s s', lo <= i < hi -> P s -> b1 i s = Ok (Next s') -> P s') ->
  forall n i s, lo <= i -> i + n <= hi -> P s -> for_loop b1 n i s = for_loop b2 n i s.
Proof.
  intros S R P b1 b2 lo hi He Hp. induction n as [|n IH]; intros i s H1 H2 Hs; [reflexivity|].
  rewrite !for_loop_S. rewrite <- He by (try assumption; lia). destruct (b1 i s) as [c| | | |] eqn:E; cbn [bind]; try reflexivity.
  destruct c; try reflexivity. apply IH; [lia|lia|]. eapply Hp; [|eassumption|eassumption]. lia.
Qed.

(** the state at the end of a loop that was not left early *)
Lemma for_loop_end_inv : forall S R (P : S -> Prop) (b : nat -> S -> res (ctl S R)),
  (forall i s s', P s -> b i s = Ok (Next s') -> P s') ->
  forall n i s j s', P s -> for_loop b n i s = Ok (inr (j, s')) -> j = i + n -> P s'.
Proof.
  intros S R P b Hp. induction n as [|n IH]; intros i s j s' Hs H Hj.
  - cbn in H. injection H as _ <-. assumption.
  - rewrite for_loop_S in H. destruct (b i s) as [c| | | |] eqn:E; try discriminate. cbn [bind] in H. destruct c as [s1|s1|r].
    + eapply IH; [|exact H|lia]. eapply Hp; eassumption.
    + injection H as <- _. lia.
    + discriminate.
Qed.

Lemma for_loop_all_inv : forall S R (P : S -> Prop) (b : nat -> S -> res (ctl S R)),
  (forall i s s', P s -> b i s = Ok (Next s') -> P s') ->
  (forall i s s', P s -> b i s = Ok (Break s') -> P s') ->
  forall n i s j s', P s -> for_loop b n i s = Ok (inr (j, s')) -> P s'.
Proof.
  intros S R P b Hp Hb. induction n as [|n IH]; intros i s j s' Hs H.
  - cbn in H. injection H as _ <-. assumption.
  - rewrite for_loop_S in H. destruct (b i s) as [c| | | |] eqn:E; try discriminate. cbn [bind] in H. destruct c as [s1|s1|r].
    + eapply IH; [|exact H]. eapply Hp; eassumption.
    + injection H as _ <-. eapply Hb; eassumption.
    + discriminate.
Qed.

Lemma for_each_inv : forall S (P : S -> Prop) (b : nat -> S -> res S),
  (forall i s s', P s -> b i s = Ok s' -> P s') ->
  forall n i s s', P s -> for_each b n i s = Ok s' -> P s'.
Proof.
  intros S P b Hp. induction n as [|n IH]; intros i s s' Hs H.
  - injection H as <-. assumption.
  - rewrite for_each_S in H. destruct (b i s) as [s1| | | |] eqn:E; try discriminate. cbn [bind] in H.
    eapply IH; [|exact H]. eapply Hp; eassumption.
Qed.

Lemma for_each_ext_inv : forall S (P : S -> Prop) (b1 b2 : nat -> S -> res S),
  (forall i s, P s -> b1 i s = b2 i s) -> (forall i s s', P s -> b1 i s = Ok s' -> P s') ->
  forall n i s, P s -> for_each b1 n i s = for_each b2 n i s.
Proof.
  intros S P b1 b2 He Hp. induction n as [|n IH]; intros i s Hs; [reflexivity|].
  rewrite !for_each_S. rewrite <- He by assumption. destruct (b1 i s) as [s1| | | |] eqn:E; cbn [bind]; try reflexivity.
  apply IH. eapply Hp; eassumption.
Qed.

Lemma bind_ext2 : forall A B (x y : res A) (f g : A -> res B), x = y -> (forall a, y = Ok a -> f a = g a) -> bind x f = bind y g.
Proof. intros A B x y f g -> H. destruct y; cbn [bind]; try reflexivity. apply H. reflexivity. Qed.

Definition le_all (D : nat) (m : mi) : Prop := Forall (fun x => x <= D) m.

Lemma le_all_vget : forall D m i x, le_all D m -> vget m i = Ok x -> x <= D.
Proof.
  intros D m i x H E. unfold vget in E. destruct (nth_error m i) eqn:En; [|discriminate]. injection E as <-.
  apply nth_error_In in En. unfold le_all in H. rewrite Forall_forall in H. apply H. assumption.
Qed.

Lemma le_all_vset : forall D m i x m', le_all D m -> x <= D -> vset m i x = Ok m' -> le_all D m'.
Proof.
  intros D m i x m' H Hx E. unfold vset in E. destruct (i <? length m); [|discriminate]. injection E as <-.
  revert i. induction H; intros [|i]; cbn [upd]; try constructor; try assumption. apply IHForall.
Qed.

Section Word.
  Variable M : nat.

  Lemma wadd_small : forall x y, x + y < M -> wadd M x y = x + y.
  Proof. intros. unfold wadd. apply Nat.mod_small. assumption. Qed.
  Lemma wmul_small : forall x y, x * y < M -> wmul M x y = x * y.
  Proof. intros. unfold wmul. apply Nat.mod_small. assumption. Qed.

  Lemma tri_w : forall D degree m, le_all D m -> S D < M -> tri_increment_w M degree m = tri_increment degree m.
  Proof.
    intros D degree m Hm HM. unfold tri_increment_w, tri_increment. destruct (length m) as [|d]; [reflexivity|].
    apply bind_ext2; [reflexivity|]. intros [r|[i m1]] E; [reflexivity|].
    assert (H1 : le_all D m1).
    { eapply (for_loop_all_inv mi unit (le_all D)); [| |exact Hm|exact E].
      - intros j s s' Hs Hb. cbv beta in Hb. destruct (vget s (j + 1)) as [x| | | |] eqn:Ex; try discriminate. cbn [bind] in Hb.
        destruct (negb (x =? 0)); [destruct (vset s (j + 1) (x - 1)); cbn [bind] in Hb; discriminate|]. injection Hb as <-. assumption.
      - intros j s s' Hs Hb. cbv beta in Hb. destruct (vget s (j + 1)) as [x| | | |] eqn:Ex; try discriminate. cbn [bind] in Hb.
        destruct (negb (x =? 0)); [|discriminate]. destruct (vset s (j + 1) (x - 1)) eqn:Es; try discriminate. injection Hb as <-.
        eapply le_all_vset; [exact Hs| |exact Es]. apply le_all_vget with (1 := Hs) in Ex. lia. }
    apply bind_ext2; [reflexivity|]. intros x0 Ex. apply le_all_vget with (1 := H1) in Ex. rewrite wadd_small by lia. reflexivity.
  Qed.

  Lemma cube_argmax_le : forall D m max ind, le_all D m -> cube_argmax m = Ok (max, ind) -> max <= D.
  Proof.
    intros D m max ind Hm H. unfold cube_argmax in H.
    apply (for_each_inv (nat * nat) (fun p => fst p <= D)) in H; [exact H| |cbn; lia].
    intros i [a b] s' Ha E. cbn [fst] in Ha. destruct (vget m i) as [x| | | |] eqn:Ex; try discriminate. cbn [bind] in E.
    apply le_all_vget with (1 := Hm) in Ex. destruct (a <=? x); injection E as <-; cbn [fst]; assumption.
  Qed.

  Lemma cube_w : forall D degree m, le_all D m -> S D < M -> cube_increment_w M degree m = cube_increment degree m.
  Proof.
    intros D degree m Hm HM. unfold cube_increment_w, cube_increment. cbv zeta.
    apply bind_ext2; [reflexivity|]. intros [max ind] E. apply cube_argmax_le with (D := D) in E; [|assumption].
    apply bind_ext2.
    - apply (for_loop_ext_inv mi mi (le_all D)) with (lo := 0) (hi := length m); try lia; [| |assumption].
      + intros i s _ Hs. apply bind_ext2; [reflexivity|]. intros x Ex. apply le_all_vget with (1 := Hs) in Ex.
        rewrite !wadd_small by (destruct (i <? ind); lia). reflexivity.
      + intros i s s' _ Hs Hb. cbv beta in Hb. destruct (vget s i) as [x| | | |] eqn:Ex; try discriminate. cbn [bind] in Hb.
        destruct (_ <? _); [destruct (vset s i (wadd M x 1)); cbn [bind] in Hb; discriminate|].
        destruct (negb (i =? ind)); [|injection Hb as <-; assumption].
        destruct (vset s i 0) eqn:Es; try discriminate. injection Hb as <-. eapply le_all_vset; [exact Hs| |exact Es]. lia.
    - intros [m1|[i m1]] _; [reflexivity|]. rewrite wadd_small by lia. reflexivity.
  Qed.

  Lemma rect_factor_le : forall d i f, vget (rect_factors d) i = Ok f -> f <= 2.
  Proof.
    intros d i f H. apply (le_all_vget 2) in H; [assumption|]. unfold le_all, rect_factors.
    apply Forall_forall. intros x Hx. apply in_map_iff in Hx as [y [<- _]]. destruct (y =? 0); lia.
  Qed.

  Lemma rect_w : forall D degree m, le_all D m -> 2 * S D < M -> rect_increment_w M degree m = rect_increment degree m.
  Proof.
    intros D degree m Hm HM. unfold rect_increment_w, rect_increment. cbv zeta.
    apply bind_ext2.
    - apply (for_each_ext_inv (nat * nat) (fun _ => True)); auto. intros i [a b] _.
      apply bind_ext2; [reflexivity|]. intros x Ex. apply le_all_vget with (1 := Hm) in Ex.
      apply bind_ext2; [reflexivity|]. intros f Ef. apply rect_factor_le in Ef. rewrite wmul_small by nia. reflexivity.
    - intros [max ind] E.
      assert (Hmax : max <= 2 * D).
      { apply (for_each_inv (nat * nat) (fun p => fst p <= 2 * D)) in E; [exact E| |cbn; lia].
        intros i [a b] s' Ha Eb. cbn [fst] in Ha. destruct (vget m i) as [x| | | |] eqn:Ex; try discriminate. cbn [bind] in Eb.
        apply le_all_vget with (1 := Hm) in Ex.
        destruct (vget (rect_factors (length m)) i) as [f| | | |] eqn:Ef; try discriminate. cbn [bind] in Eb.
        apply rect_factor_le in Ef. destruct (a <=? x * f); injection Eb as <-; cbn [fst]; nia. }
      apply bind_ext2.
      + apply (for_loop_ext_inv mi mi (le_all D)) with (lo := 0) (hi := length m); try lia; [| |assumption].
        * intros i s _ Hs. apply bind_ext2; [reflexivity|]. intros x Ex. apply le_all_vget with (1 := Hs) in Ex.
          apply bind_ext2; [reflexivity|]. intros f Ef. apply rect_factor_le in Ef.
          rewrite (wadd_small x 1) by lia. rewrite wmul_small by nia. rewrite wadd_small by (destruct (i <? ind); lia). reflexivity.
        * intros i s s' _ Hs Hb. cbv beta in Hb. destruct (vget s i) as [x| | | |] eqn:Ex; try discriminate. cbn [bind] in Hb.
          destruct (vget (rect_factors (length m)) i) as [f| | | |] eqn:Ef; try discriminate. cbn [bind] in Hb.
          destruct (_ <? _); [destruct (vset s i (wadd M x 1)); cbn [bind] in Hb; discriminate|].
          destruct (negb (i =? ind)); [|injection Hb as <-; assumption].
          destruct (vset s i 0) eqn:Es; try discriminate. injection Hb as <-. eapply le_all_vset; [exact Hs| |exact Es]. lia.
      + intros [m1|[i m1]] _; [reflexivity|]. rewrite wadd_small by lia. reflexivity.
  Qed.

  (** entries and products along the cross *)
  Lemma cross_prod_upd : forall m i x y, nth_error m i = Some x -> Nat.max 1 x = Nat.max 1 y -> cross_prod (upd m i y) = cross_prod m.
  Proof.
    induction m as [|z m IH]; intros [|i] x y H E; try discriminate; cbn [upd]; rewrite !cross_prod_cons.
    - injection H as ->. rewrite E. reflexivity.
    - erewrite IH; [reflexivity|exact H|exact E].
  Qed.

  Lemma cross_prod_two : forall m i x0 x, nth_error m 0 = Some x0 -> nth_error m (S i) = Some x -> Nat.max 1 x0 * x <= cross_prod m.
  Proof.
    intros [|z m] i x0 x H0 H1; [discriminate|]. injection H0 as ->. cbn [nth_error] in H1. rewrite cross_prod_cons.
    apply nth_error_In, entry_le_cross in H1. nia.
  Qed.

  Lemma vget_nth : forall A (m : list A) i x, vget m i = Ok x -> nth_error m i = Some x.
  Proof. intros A m i x H. unfold vget in H. destruct (nth_error m i); [congruence|discriminate]. Qed.

  Lemma cross_w : forall D degree m, cross_prod m <= D -> S D < M -> cross_increment_w M degree m = cross_increment degree m.
  Proof.
    intros D degree m Hm HM. unfold cross_increment_w, cross_increment. cbv zeta.
    apply bind_ext2; [reflexivity|]. intros [m1|[i1 m1]] E; [reflexivity|].
    assert (H1 : cross_prod m1 <= D).
    { eapply (for_loop_all_inv mi mi (fun m => cross_prod m <= D)); [| |exact Hm|exact E].
      - intros j s s' Hs Hb. cbv beta in Hb. destruct (vget s j) as [x| | | |] eqn:Ex; try discriminate. cbn [bind] in Hb.
        destruct (x =? 1) eqn:E1.
        + unfold vset in Hb. destruct (j <? length s); [|discriminate]. injection Hb as <-. apply vget_nth in Ex.
          apply Nat.eqb_eq in E1. subst x. rewrite (cross_prod_upd s j 1 0 Ex) by reflexivity. assumption.
        + destruct (x =? 0); [destruct (vset s j 1); cbn [bind] in Hb; discriminate|]. injection Hb as <-. assumption.
      - intros j s s' Hs Hb. cbv beta in Hb. destruct (vget s j) as [x| | | |] eqn:Ex; try discriminate. cbn [bind] in Hb.
        destruct (x =? 1); [destruct (vset s j 0); cbn [bind] in Hb; discriminate|]. destruct (x =? 0); [destruct (vset s j 1); discriminate|]. discriminate. }
    destruct (degree =? 1); [reflexivity|]. destruct (length m) as [|dim1]; [reflexivity|].
    apply bind_ext2.
    - apply (for_loop_ext_inv mi unit (fun m => cross_prod m <= D)) with (lo := 0) (hi := dim1); try lia.
      + intros i s _ Hs. apply bind_ext2; [reflexivity|]. intros x Ex. destruct (x =? 0); [reflexivity|].
        apply bind_ext2; [reflexivity|]. intros x0 Ex0. apply vget_nth in Ex, Ex0. rewrite Nat.add_1_r in Ex.
        pose proof (cross_prod_two s i x0 x Ex0 Ex) as Hp. rewrite (MAX_max 1 x0).
        assert (Nat.max 1 x0 <= D). { pose proof (cross_prod_pos s). apply nth_error_In, entry_le_cross in Ex0. lia. }
        rewrite wmul_small by lia. rewrite wadd_small by lia. reflexivity.
      + intros i s s' _ Hs Hb. cbv beta in Hb. destruct (vget s (i + 1)) as [x| | | |] eqn:Ex; try discriminate. cbn [bind] in Hb.
        destruct (x =? 0); [injection Hb as <-; assumption|]. exfalso.
        destruct (vget s 0); cbn [bind] in Hb; try discriminate.
        destruct (cross_factor _ _); cbn [bind] in Hb; try discriminate.
        destruct (vset s i a0); cbn [bind] in Hb; try discriminate. destruct (_ && _); [discriminate|].
        destruct (vset _ _ _); cbn [bind] in Hb; discriminate.
    - intros [u|[i m2]] E2; [reflexivity|]. apply bind_ext2; [reflexivity|]. intros x0 Ex0.
      destruct (i =? dim1) eqn:Ei; [|reflexivity]. cbn [andb]. destruct (x0 =? degree); [reflexivity|].
      assert (H2 : cross_prod m2 <= D).
      { eapply (for_loop_end_inv mi unit (fun m => cross_prod m <= D)); [|exact H1|exact E2|apply Nat.eqb_eq in Ei; lia].
        intros j s s' Hs Hb. cbv beta in Hb. destruct (vget s (j + 1)) as [x| | | |] eqn:Ex; try discriminate. cbn [bind] in Hb.
        destruct (x =? 0); [injection Hb as <-; assumption|]. exfalso.
        destruct (vget s 0); cbn [bind] in Hb; try discriminate.
        destruct (cross_factor _ _); cbn [bind] in Hb; try discriminate.
        destruct (vset s j a0); cbn [bind] in Hb; try discriminate. destruct (_ && _); [discriminate|].
        destruct (vset _ _ _); cbn [bind] in Hb; discriminate. }
      rewrite (MAX_max 1 x0). pose proof (cross_prod_pos m2). apply vget_nth, nth_error_In, entry_le_cross in Ex0.
      rewrite wadd_small by lia. reflexivity.
  Qed.

  Lemma linked_next : forall (R : mi -> mi -> Prop) l x, linked R l -> In x l -> last_opt l = Some x \/ exists y, R x y /\ In y l.
  Proof.
    intros R. induction l as [|a l IH]; intros x Hl Hx; [contradiction|].
    destruct l as [|b l].
    - destruct Hx as [->|[]]. left. reflexivity.
    - cbn [linked] in Hl. destruct Hl as [Hab Hl]. destruct Hx as [->|Hx].
      + right. exists b. split; [assumption|]. right. left. reflexivity.
      + destruct (IH x Hl Hx) as [H|[y [H1 H2]]]; [left; exact H|]. right. exists y. split; [assumption|]. right. assumption.
  Qed.

  Lemma tri_step_sum : forall d D m m', length m = S d -> list_sum m <= D -> tri_increment D m = Ok (false, m') ->
    length m' = S d /\ list_sum m' <= D.
  Proof.
    intros d D m m' Hl Hs E. assert (Hin : In m (tri_spec d D)) by (apply in_tri_spec; auto).
    destruct (linked_next _ _ _ (tri_spec_linked d D) Hin) as [H|[y [H1 H2]]].
    - rewrite tri_spec_last in H. injection H as <-. rewrite tri_increment_end in E. discriminate.
    - unfold stepf in H1. rewrite E in H1. injection H1 as ->. apply in_tri_spec. assumption.
  Qed.

  Lemma nc_loop_w_eq : forall degree d, degree + d + 2 < M -> forall fuel m,
    length m = S d -> list_sum m <= degree + d -> nc_loop_w M degree fuel m = nc_loop degree fuel m.
  Proof.
    intros degree d HM. induction fuel as [|fuel IH]; intros m Hl Hs; [reflexivity|]. cbn [nc_loop_w nc_loop].
    rewrite Hl. rewrite wadd_small by lia. replace (degree + S d - 1) with (degree + d) by lia.
    assert (Ha : le_all (degree + d) m).
    { apply Forall_forall. intros x Hx. apply entry_le_sum in Hx. lia. }
    apply bind_ext2; [apply (tri_w (degree + d)); [assumption|lia]|].
    intros [full m'] E. destruct full; [reflexivity|].
    destruct (_ <? _)%Z; [|reflexivity]. apply tri_step_sum with (d := d) in E as [E1 E2]; auto.
  Qed.

  Lemma nc_w : forall d degree m, length m = S d -> list_sum m <= Nat.max 1 degree + d -> Nat.max 1 degree + d + 2 < M ->
    nc_increment_w M degree m = nc_increment degree m.
  Proof.
    intros d degree m Hl Hs HM. unfold nc_increment_w, nc_increment. cbv zeta.
    apply bind_ext2; [reflexivity|]. intros x0 _. apply bind_ext2; [reflexivity|]. intros full _. destruct full; [reflexivity|].
    rewrite MAX_max, (Nat.max_comm degree 1). apply nc_loop_w_eq with (d := d); lia.
  Qed.

  Lemma enumerate_ext : forall inc incw fuel m l, enumerate inc fuel m = Ok l ->
    (forall x, In x l -> incw x = inc x) -> enumerate incw fuel m = Ok l.
  Proof.
    intros inc incw. induction fuel as [|fuel IH]; intros m l H He; [discriminate|]. cbn [enumerate] in *.
    assert (Hm : In m l).
    { destruct (inc m) as [[st m']| | | |]; try discriminate. cbn [bind] in H. destruct st; [injection H as <-; left; reflexivity|].
      destruct (enumerate inc fuel m'); try discriminate. injection H as <-. left. reflexivity. }
    rewrite He by assumption. destruct (inc m) as [[st m']| | | |]; try discriminate. cbn [bind] in *. destruct st; [assumption|].
    destruct (enumerate inc fuel m') as [l'| | | |] eqn:E; try discriminate. injection H as <-.
    rewrite (IH m' l' E); [reflexivity|]. intros x Hx. apply He. right. assumption.
  Qed.

  Theorem iterator_list_no_wrap : forall s d degree, set_ok s (S d) degree -> 2 * (Nat.max 1 degree + S d) + 2 < M ->
    iterator_list_w M s (S d) degree = iterator_list s (S d) degree.
  Proof.
    intros s d degree Hok HM. rewrite (iterator_list_Ok s d degree Hok). unfold iterator_list_w.
    apply enumerate_ext with (inc := increment_of s degree); [exact (iterator_list_Ok s d degree Hok)|].
    intros m Hm. apply in_spec_list in Hm as [Hl Hm]. set (D := Nat.max 1 degree) in *.
    destruct s; cbn [increment_w increment_of in_set] in *.
    - apply (tri_w D); [|lia]. apply Forall_forall. intros x Hx. apply entry_le_sum in Hx. lia.
    - apply (cube_w D); [|lia]. eapply Forall_impl; [|exact Hm]. intros; cbv beta in *; lia.
    - apply (cross_w D); [exact Hm|lia].
    - apply nc_w with (d := d); [assumption| |lia]. apply cross_in_tri; assumption.
    - apply (rect_w D); [|lia]. destruct m as [|x m]; [constructor|]. destruct Hm as [H1 H2]. constructor; [lia|].
      eapply Forall_impl; [|exact H2]. intros; cbv beta in *; lia.
  Qed.
End Word.
