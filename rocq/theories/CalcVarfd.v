(** varfd: the matrix of an operator composed with a derivative. *)
From Coq Require Import String List Bool Arith ZArith Reals Lra Lia.
From Verif Require Import Base Lists IndexModel Spec IndexSet Degree Num Fnum LinModel LinSpec LinBase MatBase Sparse Facts1 Facts2 CalcModel CalcSpec CalcBase CalcHermite CalcReal CalcOps CalcVarf2.
Import ListNotations.
Local Open Scope R_scope.

Lemma with_entry_upd : forall A (m : list A) k v, (k < length m)%nat -> with_entry m k v = upd m k v.
Proof.
  intros A. induction m as [|a m IH]; intros [|k] v H; cbn [length] in H; try lia; [reflexivity|]. unfold with_entry in *. cbn [firstn skipn app upd]. f_equal. apply IH. lia.
Qed.

Lemma upd_upd : forall A (m : list A) k v w, upd (upd m k v) k w = upd m k w.
Proof. intros A. induction m as [|a m IH]; intros [|k] v w; cbn [upd]; try reflexivity. f_equal. apply IH. Qed.
Lemma upd_same : forall A (m : list A) k d, (k < length m)%nat -> upd m k (nth k m d) = m.
Proof. intros A. induction m as [|a m IH]; intros [|k] d H; cbn [length nth upd] in *; try lia; try reflexivity. f_equal. apply IH. lia. Qed.
Lemma upd_comm : forall A (m : list A) j k v w, j <> k -> upd (upd m j v) k w = upd (upd m k w) j v.
Proof. intros A. induction m as [|a m IH]; intros [|j] [|k] v w H; cbn [upd]; try reflexivity; [congruence|]. f_equal. apply IH. congruence. Qed.
Lemma nth_upd_at : forall A (m : list A) k v d, (k < length m)%nat -> nth k (upd m k v) d = v.
Proof. intros. rewrite nth_upd, Nat.eqb_refl. replace (k <? length m)%nat with true by (symmetry; apply Nat.ltb_lt; lia). reflexivity. Qed.
Lemma nth_upd_other : forall A (m : list A) j k v d, j <> k -> nth j (upd m k v) d = nth j m d.
Proof. intros. rewrite nth_upd. replace (j =? k)%nat with false by (symmetry; apply Nat.eqb_neq; assumption). reflexivity. Qed.

(** Index sets are closed under decreasing an entry. *)
Lemma in_set_lower : forall s degree m k v, (v <= nth k m 0)%nat -> in_set s degree m -> in_set s degree (upd m k v).
Proof.
  assert (Hf : forall (P : nat -> Prop), (forall x y, (x <= y)%nat -> P y -> P x) -> forall m k v, (v <= nth k m 0)%nat -> Forall P m -> Forall P (upd m k v)).
  { intros P HP. induction m as [|a m IH]; intros [|k] v Hv H; cbn [upd nth] in *; try assumption; inversion H; subst; constructor; auto. eapply HP; eassumption. }
  assert (Hs : forall m k v, (v <= nth k m 0)%nat -> (list_sum (upd m k v) <= list_sum m)%nat).
  { induction m as [|a m IH]; intros [|k] v Hv; cbn [upd nth] in *; try lia; rewrite ?list_sum_cons; [lia|]. specialize (IH k v Hv). change (a + list_sum (upd m k v) <= a + list_sum m)%nat. lia. }
  assert (Hc : forall m k v, (v <= nth k m 0)%nat -> (cross_prod (upd m k v) <= cross_prod m)%nat).
  { unfold cross_prod. induction m as [|a m IH]; intros [|k] v Hv; cbn [upd nth map fold_right] in *; try lia; [apply Nat.mul_le_mono; lia|]. specialize (IH k v Hv). apply Nat.mul_le_mono; lia. }
  intros s degree m k v Hv H. destruct s; cbn [in_set] in *.
  - specialize (Hs m k v Hv). lia.
  - apply Hf; auto. intros; lia.
  - specialize (Hc m k v Hv). lia.
  - specialize (Hc m k v Hv). lia.
  - destruct m as [|a m]; [assumption|]. destruct k as [|k]; cbn [upd nth] in *; destruct H as [H1 H2]; split; try assumption; try lia. apply Hf; auto. intros; lia.
Qed.

(** The basis function whose derivative involves number [n], and the factor. *)
Definition up (flag n : nat) : option nat :=
  if (flag =? 1)%nat then if (n =? 0)%nat then None else if Nat.even n then Some (n - 1)%nat else Some (n + 1)%nat else Some (n + 1)%nat.

Lemma up_dterm : forall flag n n', up flag n = Some n' -> snd (dterm flag n') = n.
Proof.
  intros flag n n' H. unfold up, dterm in *. destruct (flag =? 1)%nat.
  - destruct (Nat.eqb_spec n 0) as [|Hn]; [discriminate|]. destruct (Nat.even n) eqn:E; injection H as <-.
    + destruct n as [|n]; [lia|]. rewrite Nat.even_succ in E. rewrite Nat.sub_succ, Nat.sub_0_r. destruct (Nat.eqb_spec n 0) as [->|]; [discriminate|].
      rewrite <- Nat.negb_odd, E. cbn [negb snd]. lia.
    + destruct (Nat.eqb_spec (n + 1) 0); [lia|]. rewrite Nat.add_1_r, Nat.even_succ, <- Nat.negb_even, E. cbn [negb snd]. lia.
  - injection H as <-. cbn [snd]. lia.
Qed.

Lemma dterm_up : forall flag n, n <> 0%nat -> up flag (snd (dterm flag n)) = Some n.
Proof.
  intros flag n H. unfold up, dterm. destruct (flag =? 1)%nat.
  - destruct (Nat.eqb_spec n 0) as [|Hn]; [contradiction|]. destruct (Nat.even n) eqn:E; cbn [snd].
    + destruct n as [|n]; [lia|]. rewrite Nat.even_succ in E. rewrite Nat.sub_succ, Nat.sub_0_r. destruct (Nat.eqb_spec n 0) as [->|]; [discriminate|].
      rewrite <- Nat.negb_odd, E. cbn [negb]. f_equal. lia.
    + destruct (Nat.eqb_spec (n + 1) 0); [lia|]. rewrite Nat.add_1_r, Nat.even_succ, <- Nat.negb_even, E. cbn [negb]. f_equal. lia.
  - cbn [snd]. f_equal. lia.
Qed.

Lemma up_pos : forall flag n n', up flag n = Some n' -> n' <> 0%nat.
Proof.
  intros flag n n' H. unfold up in H. destruct (flag =? 1)%nat; [|injection H as <-; lia]. destruct (Nat.eqb_spec n 0) as [|Hn]; [discriminate|].
  destruct (Nat.even n) eqn:E; injection H as <-; [|lia]. destruct n as [|[|n]]; try lia. discriminate.
Qed.

Lemma collect_ok : forall s d degree, set_ok s (S d) degree -> collect_indices (fresh s d degree) (length (spec_list s d degree)) = Ok (spec_list s d degree).
Proof.
  intros s d degree H. unfold collect_indices. rewrite reset_fresh. rewrite (bind_snd _ _ _ _ (fun l => Ok l)).
  rewrite (for_each_it _ _ (fun _ m acc => Ok (acc ++ [m])) (spec_list s d degree)); [|shelve|apply fresh_state; assumption|reflexivity].
  cbn [skipn]. assert (G : forall (l : list mi) k acc, for_in (fun '(_, m) (acc : list mi) => Ok (acc ++ [m])) (combine (seq k (length l)) l) acc = Ok (acc ++ l)).
  { induction l as [|x l IH]; intros k acc; cbn [length seq combine for_in]; [rewrite app_nil_r; reflexivity|]. cbn [bind]. rewrite IH, <- app_assoc. reflexivity. }
  unfold enum. rewrite G. reflexivity.
  Unshelve. intros j it st _ _. cbn beta iota zeta. destruct (it_increment it); reflexivity.
Qed.

Lemma points_pos : forall s dim degree, usable s dim degree -> (0 < length (points s dim degree))%nat.
Proof.
  intros s dim degree Hu. destruct (dim_S dim) as [d Ed]; [apply Hu|]. subst dim. pose proof (usable_set_ok _ _ _ Hu) as H. rewrite points_spec_ok by assumption.
  pose proof (fresh_state s d degree H) as [_ [_ [_ [G _]]]]. cbn [fresh it_index_list] in G. destruct (spec_list s d degree); [discriminate|cbn; lia].
Qed.

Lemma entry_at : forall s dim degree (A : list (list R)), usable s dim degree -> mat_wf (length (points s dim degree)) (length (points s dim degree)) A ->
  forall r c, index_of s dim degree r -> index_of s dim degree c ->
  @entry num_R s dim degree A r c = mnth fnum_R A (idx (points s dim degree) r) (idx (points s dim degree) c) /\
  (idx (points s dim degree) r < length (points s dim degree))%nat /\ (idx (points s dim degree) c < length (points s dim degree))%nat.
Proof.
  intros s dim degree A Hu W r c Hr Hc. apply (points_In s dim degree _ Hu) in Hr. apply (points_In s dim degree _ Hu) in Hc.
  split; [|split; apply idx_lt; assumption]. unfold entry. apply (mvalue_nth num_R); auto. apply points_NoDup. assumption.
Qed.

Section Varfd.
Variables (C : calcops fnum_R) (rep : mtype fnum_R (co_ops fnum_R C) -> list (list R)) (wf : mtype fnum_R (co_ops fnum_R C) -> nat -> nat -> Prop).
Hypothesis HC : calc_ok fnum_R C rep wf.
Variables (s : iset) (dim degree k flag : nat).
Let n := length (points s dim degree).
Let l := points s dim degree.
Hypothesis Hu : usable s dim degree.
Hypothesis Hk : (k < dim)%nat.
Hypothesis Hflag : flag = 0%nat \/ flag = 1%nat.

Lemma points_nth : forall j, (j < n)%nat -> exists m, nth_error l j = Some m /\ index_of s dim degree m /\ idx l m = j /\ (k < length m)%nat.
Proof using Hu Hk.
  clear HC wf rep C Hflag. intros j Hj. destruct (nth_error l j) as [m|] eqn:E; [|apply nth_error_None in E; unfold l, n in *; lia]. exists m. split; [reflexivity|].
  assert (Hm : index_of s dim degree m) by (apply (points_In s dim degree); [assumption|eapply nth_error_In; exact E]).
  split; [assumption|]. split; [apply idx_of_nth; [apply points_NoDup; assumption|assumption]|]. destruct Hm as [-> _]. assumption.
Qed.

Definition tgt (col : nat) : option (list nat) :=
  let m := nth col l [] in match up flag (nth k m 0%nat) with None => None | Some n' => Some (upd m k n') end.
Definition sel (z : nat * nat * R) : bool := match tgt (snd (fst z)) with None => false | Some m => inb m l end.
Definition pos (z : nat * nat * R) : nat := match tgt (snd (fst z)) with None => 0%nat | Some m => idx l m end.
Definition val (z : nat * nat * R) : R := match tgt (snd (fst z)) with None => 0 | Some m => fst (dterm flag (nth k m 0%nat)) * snd z end.

Lemma varfd_gen : forall var, wf var n n -> (flag = 1%nat -> paired s dim degree k) ->
  exists out, varfd fnum_R C s dim degree k var flag = Ok out /\ wf out n n /\
    forall r c, index_of s dim degree r -> index_of s dim degree c ->
      @entry num_R s dim degree (rep out) r c = fst (dterm flag (nth k c 0%nat)) * @entry num_R s dim degree (rep var) r (with_entry c k (snd (dterm flag (nth k c 0%nat)))).
Proof.
  intros var Hw Hp. pose proof (cok_ops _ _ _ _ HC) as HO. pose proof (num_R_laws : num_laws fnum_R) as L.
  assert (Hpos : (0 < n)%nat) by (apply points_pos; assumption).
  destruct (dim_S dim) as [d Ed]; [apply Hu|].
  assert (Hset : set_ok s (S d) degree) by (rewrite <- Ed; apply usable_set_ok; assumption).
  assert (El : l = spec_list s d degree) by (unfold l; rewrite Ed; apply points_spec_ok; assumption).
  destruct (cok_entries _ _ _ _ HC var n n Hw) as [Hen Hen0].
  pose proof (points_NoDup s dim degree Hu) as Hnd. fold l in Hnd.
  assert (Hrun : varfd fnum_R C s dim degree k var flag = for_in (fun z A => if sel z then m_set fnum_R (co_ops fnum_R C) A (fst (fst z)) (pos z) (val z) else Ok A) (co_entries fnum_R C var) (m_construct fnum_R (co_ops fnum_R C) n n)).
  { unfold varfd. rewrite Ed at 1. rewrite make_iterator_Ok by assumption. cbn [bind]. rewrite (ok_size _ _ _ _ HO var n n Hw), (cok_size2 _ _ _ _ HC var n n Hw Hpos).
    replace n with (length (spec_list s d degree)) at 1 by (rewrite <- El; reflexivity). rewrite collect_ok by assumption. cbn [bind]. rewrite <- El.
    apply for_in_ext. intros [[row col] x] A Hin. destruct (Hen row col x Hin) as [Hr [Hc Hx]]. destruct (points_nth col Hc) as [m [Em [Hm [Hidx Hkm]]]].
    unfold sel, pos, val. cbn [fst snd]. unfold tgt. rewrite (nth_error_nth _ _ _ Em). unfold vget at 1. rewrite Em. cbn [bind]. rewrite (vget_nth_ok _ m k 0%nat) by assumption. cbn [bind].
    set (mc := nth k m 0%nat). unfold up.
    destruct Hflag as [Hf|Hf]; rewrite Hf; cbn [Nat.eqb].
    - rewrite vset_ok by assumption. cbn [bind]. rewrite it_has_inb, <- El. destruct (inb (upd m k (mc + 1)%nat) l) eqn:Ei; cbn [negb]; [|reflexivity].
      rewrite it_index_idx by (rewrite <- El; apply inb_In; assumption). rewrite <- El. cbn [bind]. f_equal. rewrite nth_upd_at by assumption. unfold dterm. cbn [Nat.eqb fst].
      cbn [nmul fsqrt fnum_R fn num_R]. unfold ofnat. cbn [fofZ fnum_R]. rewrite <- INR_IZR_INZ. apply Rmult_comm.
    - destruct (Nat.eqb_spec mc 0) as [|Hmc]; [reflexivity|]. rewrite vset_ok by assumption. cbn [bind].
      assert (Hev : (mc mod 2 =? 0)%nat = Nat.even mc) by (destruct (Nat.even mc) eqn:E; [apply Nat.eqb_eq; apply Nat.even_spec in E as [q ->]; rewrite Nat.mul_comm; apply Nat.mod_mul; lia|apply Nat.eqb_neq; intros G; apply Nat.mod_divides in G as [q G]; [|lia]; rewrite G, Nat.even_mul in E; discriminate]).
      rewrite Hev. assert (Hlast : forall v, (if Nat.even mc then Some (upd m k (mc - 1)%nat) else Some (upd m k (mc + 1)%nat)) = Some v -> In v l).
      { intros v Hv. apply (points_In s dim degree); [assumption|]. destruct (Nat.even mc) eqn:E; injection Hv as <-.
        - destruct Hm as [Hm1 Hm2]. split; [rewrite upd_length; assumption|]. apply in_set_lower; [fold mc; lia|assumption].
        - specialize (Hp Hf m Hm). fold mc in Hp. rewrite with_entry_upd in Hp by assumption. apply Hp. rewrite <- Nat.negb_even, E. reflexivity. }
      destruct (Nat.even mc) eqn:E.
      + specialize (Hlast _ eq_refl). rewrite it_index_idx by (rewrite <- El; assumption). rewrite <- El. cbn [bind]. replace (inb (upd m k (mc - 1)%nat) l) with true by (symmetry; apply inb_In; assumption). f_equal.
        rewrite nth_upd_at by assumption. destruct mc as [|q]; [lia|]. rewrite Nat.even_succ in E. rewrite Nat.sub_succ, Nat.sub_0_r. unfold dterm. cbn [Nat.eqb].
        destruct (Nat.eqb_spec q 0) as [->|]; [discriminate|]. rewrite <- Nat.negb_odd, E. cbn [negb fst]. cbn [nmul fnum_R fn num_R]. unfold ofnat. cbn [fofZ fnum_R]. rewrite <- INR_IZR_INZ. rewrite Nat.add_1_r. match goal with |- @eq _ ?x ?y => change (@eq R x y) end. ring.
      + specialize (Hlast _ eq_refl). rewrite it_index_idx by (rewrite <- El; assumption). rewrite <- El. cbn [bind]. replace (inb (upd m k (mc + 1)%nat) l) with true by (symmetry; apply inb_In; assumption). f_equal.
        rewrite nth_upd_at by assumption. unfold dterm. cbn [Nat.eqb]. destruct (Nat.eqb_spec (mc + 1) 0) as [|]; [lia|]. rewrite Nat.add_1_r, Nat.even_succ, <- Nat.negb_even, E. cbn [negb fst]. cbn [nmul fnum_R fn num_R]. unfold ofnat. cbn [fofZ fnum_R]. rewrite <- INR_IZR_INZ. match goal with |- @eq _ ?x ?y => change (@eq R x y) end. ring. }
  destruct (set_loop fnum_R _ _ _ HO _ sel (fun z => fst (fst z)) pos val n n (co_entries fnum_R C var) (m_construct fnum_R (co_ops fnum_R C) n n)) as [out [E1 [E2 [E3 E4]]]].
  - apply (ok_construct _ _ _ _ HO).
  - intros [[row col] x] Hin Hs. destruct (Hen row col x Hin) as [Hr [Hc Hx]]. split; [exact Hr|]. unfold sel, pos in *. cbn [fst snd] in *. destruct (tgt col); [|discriminate]. apply idx_lt, inb_In. assumption.
  - intros [[row col] x] [[row' col'] x'] Hi1 Hi2 S1 S2 Hpe Hqe. cbn [fst] in Hpe. subst row'. destruct (Hen _ _ _ Hi1) as [_ [Hc1 Hx1]]. destruct (Hen _ _ _ Hi2) as [_ [Hc2 Hx2]].
    unfold sel, pos, val in *. cbn [fst snd] in *. destruct (tgt col) as [m1|] eqn:T1; [|discriminate]. destruct (tgt col') as [m2|] eqn:T2; [|discriminate].
    apply inb_In in S1. apply inb_In in S2. apply (idx_inj l) in Hqe; try assumption. subst m2.
    assert (col = col').
    { destruct (points_nth col Hc1) as [m [Em [Hm [Hidx Hkm]]]]. destruct (points_nth col' Hc2) as [m' [Em' [Hm' [Hidx' Hkm']]]]. unfold tgt in T1, T2. rewrite (nth_error_nth _ _ _ Em) in T1. rewrite (nth_error_nth _ _ _ Em') in T2.
      destruct (up flag (nth k m 0%nat)) as [a|] eqn:U1; [|discriminate]. destruct (up flag (nth k m' 0%nat)) as [a'|] eqn:U2; [|discriminate]. injection T1 as <-. injection T2 as T2.
      assert (a = a') by (apply (f_equal (fun m => nth k m 0%nat)) in T2; rewrite !nth_upd_at in T2 by assumption; congruence). subst a'.
      assert (Q : nth k m 0%nat = nth k m' 0%nat) by (apply up_dterm in U1, U2; congruence).
      assert (m = m') by (rewrite <- (upd_same _ m k 0%nat), <- (upd_same _ m' k 0%nat), Q by assumption; rewrite <- (upd_upd _ m k a), <- (upd_upd _ m' k a), T2; reflexivity). congruence. }
    subst col'. rewrite Hx1, Hx2. reflexivity.
  - exists out. split; [rewrite Hrun; exact E1|]. split; [exact E2|]. intros r c Hr Hc.
    destruct (entry_at s dim degree (rep out) Hu (ok_mat _ _ _ _ HO _ _ _ E2) r c Hr Hc) as [N1 [N2 N3]]. fold l n in N1, N2, N3. rewrite N1. clear N1.
    assert (Hcl : (k < length c)%nat) by (destruct Hc as [-> _]; assumption).
    set (ck := nth k c 0%nat). rewrite with_entry_upd by assumption. set (c' := upd c k (snd (dterm flag ck))).
    destruct (Nat.eq_dec ck 0) as [Hz|Hz].
    + (* nothing is written in this column *)
      replace (fst (dterm flag ck)) with 0 by (rewrite Hz; unfold dterm; cbn; destruct (flag =? 1)%nat; cbn [fst]; [reflexivity|symmetry; apply sqrt_0]).
      rewrite Rmult_0_l. rewrite E4; [rewrite (proj2 (ok_construct _ _ _ _ HO n n)); apply mnth_construct|].
      intros [[row col] x] Hin S1 [_ Hq]. unfold sel, pos in *. cbn [fst snd] in *. destruct (tgt col) as [m1|] eqn:T; [|discriminate]. apply inb_In in S1.
      apply (idx_inj l) in Hq; [|assumption|apply (points_In s dim degree); assumption]. subst m1. destruct (Hen _ _ _ Hin) as [_ [Hcol _]]. destruct (points_nth col Hcol) as [m [Em [Hm [Hidx Hkm]]]].
      unfold tgt in T. rewrite (nth_error_nth _ _ _ Em) in T. destruct (up flag (nth k m 0%nat)) as [a|] eqn:U; [|discriminate]. injection T as T. apply up_pos in U. apply U. rewrite <- Hz. unfold ck. rewrite <- T. symmetry. apply nth_upd_at. assumption.
    + destruct (inb c' l) eqn:Hin'.
      * assert (Hc' : index_of s dim degree c') by (apply (points_In s dim degree); [assumption|apply inb_In; assumption]).
        destruct (entry_at s dim degree (rep var) Hu (ok_mat _ _ _ _ HO _ _ _ Hw) r c' Hr Hc') as [M1 [M2 M3]]. fold l n in M1, M2, M3. rewrite M1. clear M1.
        assert (T : tgt (idx l c') = Some c).
        { destruct (points_nth _ M3) as [m [Em [Hm [Hidx Hkm]]]]. apply (idx_inj l) in Hidx; [|apply (points_In s dim degree); assumption|apply inb_In; assumption]. subst m.
          unfold tgt. rewrite (nth_error_nth _ _ _ Em). unfold c' at 1. rewrite nth_upd_at by assumption. rewrite dterm_up by assumption. f_equal. unfold c'. rewrite upd_upd. apply upd_same. assumption. }
        destruct (in_dec (fun a b : nat * nat => ltac:(decide equality; apply Nat.eq_dec)) (idx l r, idx l c') (map fst (co_entries fnum_R C var))) as [Hi|Hi].
        -- apply in_map_iff in Hi as [[[row col] x] [Ei Hi]]. cbn [fst] in Ei. injection Ei as -> ->.
           assert (Hs : sel (idx l r, idx l c', x) = true) by (unfold sel; cbn [fst snd]; rewrite T; apply inb_In, (points_In s dim degree); assumption).
           specialize (E3 _ Hi Hs). unfold pos, val in E3. cbn [fst snd] in E3. rewrite T in E3. refine (eq_trans E3 _). fold ck. f_equal. apply (Hen _ _ _ Hi).
        -- rewrite (Hen0 (idx l r) (idx l c') M2 M3); [|intros x Hx; apply Hi; apply in_map_iff; exists (idx l r, idx l c', x); split; [reflexivity|assumption]].
           cbn [n0 fnum_R fn num_R]. rewrite Rmult_0_r. rewrite E4; [rewrite (proj2 (ok_construct _ _ _ _ HO n n)); apply mnth_construct|].
           intros [[row col] x] Hin S1 [Hrow Hq]. cbn [fst] in Hrow. subst row. unfold sel, pos in *. cbn [fst snd] in *. destruct (tgt col) as [m1|] eqn:T'; [|discriminate]. apply inb_In in S1.
           apply (idx_inj l) in Hq; [|assumption|apply (points_In s dim degree); assumption]. subst m1. apply Hi. apply in_map_iff. exists (idx l r, col, x). split; [|assumption]. cbn [fst]. f_equal.
           destruct (Hen _ _ _ Hin) as [_ [Hcol _]]. destruct (points_nth col Hcol) as [m [Em [Hm [Hidx Hkm]]]]. rewrite <- Hidx. f_equal. unfold tgt in T'. rewrite (nth_error_nth _ _ _ Em) in T'.
           destruct (up flag (nth k m 0%nat)) as [a|] eqn:U; [|discriminate]. injection T' as T'. apply up_dterm in U. unfold c', ck. rewrite <- T'. rewrite nth_upd_at, U, upd_upd by assumption. symmetry. apply upd_same. assumption.
      * exfalso. assert (H : In c' l); [|apply inb_In in H; congruence]. apply (points_In s dim degree); [assumption|].
        assert (Hlow : forall v, (v <= ck)%nat -> index_of s dim degree (upd c k v)) by (intros v Hv; destruct Hc as [Hc1 Hc2]; split; [rewrite upd_length; assumption|apply in_set_lower; assumption]).
        unfold c', dterm. destruct Hflag as [Hf|Hf]; rewrite Hf; cbn [Nat.eqb snd]; [apply Hlow; lia|]. destruct (Nat.eqb_spec ck 0) as [|]; [contradiction|].
        destruct (Nat.even ck) eqn:E; cbn [snd]; [apply Hlow; lia|]. specialize (Hp Hf c Hc). fold ck in Hp. rewrite with_entry_upd in Hp by assumption. apply Hp. rewrite <- Nat.negb_even, E. reflexivity.
Qed.
End Varfd.

Lemma for_in_throw : forall A St (P : St -> Prop) (f : A -> St -> res St) w l st,
  (forall x st, In x l -> P st -> (exists st', f x st = Ok st' /\ P st') \/ f x st = Throw w) ->
  (exists x, In x l /\ forall st, P st -> f x st = Throw w) -> P st -> for_in f l st = Throw w.
Proof.
  intros A St P f w. induction l as [|x l IH]; intros st H [y [Hy Ht]] Hp; [destruct Hy|]. cbn [for_in]. destruct Hy as [->|Hy].
  - rewrite Ht by assumption. reflexivity.
  - destruct (H x st (or_introl eq_refl) Hp) as [[st' [E Hp']]|E]; rewrite E; cbn [bind]; [|reflexivity]. apply IH; [intros; apply H; [right|]; assumption|exists y; auto|assumption].
Qed.

Lemma even_mod : forall m, (m mod 2 =? 0)%nat = Nat.even m.
Proof.
  intros m. destruct (Nat.even m) eqn:E.
  - apply Nat.eqb_eq. apply Nat.even_spec in E as [q ->]. rewrite Nat.mul_comm. apply Nat.mod_mul. lia.
  - apply Nat.eqb_neq. intros G. apply Nat.mod_divides in G as [q G]; [|lia]. rewrite G, Nat.even_mul in E. discriminate.
Qed.

Section Throw.
Variables (C : calcops fnum_R) (rep : mtype fnum_R (co_ops fnum_R C) -> list (list R)) (wf : mtype fnum_R (co_ops fnum_R C) -> nat -> nat -> Prop).
Hypothesis HC : calc_ok fnum_R C rep wf.
Variables (s : iset) (dim degree k : nat).
Let n := length (points s dim degree).
Let l := points s dim degree.
Hypothesis Hu : usable s dim degree.
Hypothesis Hk : (k < dim)%nat.

Lemma varfd_throw : forall var row col x m, wf var n n -> In (row, col, x) (co_entries fnum_R C var) -> nth_error l col = Some m ->
  Nat.odd (nth k m 0%nat) = true -> ~ index_of s dim degree (with_entry m k (nth k m 0 + 1)%nat) -> varfd fnum_R C s dim degree k var 1 = Throw "out_of_range".
Proof.
  intros var row col x m Hw Hin Hm Hodd Hnot. pose proof (cok_ops _ _ _ _ HC) as HO.
  assert (Hpos : (0 < n)%nat) by (apply points_pos; assumption).
  destruct (dim_S dim) as [d Ed]; [apply Hu|].
  assert (Hset : set_ok s (S d) degree) by (rewrite <- Ed; apply usable_set_ok; assumption).
  assert (El : l = spec_list s d degree) by (unfold l; rewrite Ed; apply points_spec_ok; assumption).
  destruct (cok_entries _ _ _ _ HC var n n Hw) as [Hen _].
  unfold varfd. rewrite Ed at 1. rewrite make_iterator_Ok by assumption. cbn [bind]. rewrite (ok_size _ _ _ _ HO var n n Hw), (cok_size2 _ _ _ _ HC var n n Hw Hpos).
  replace n with (length (spec_list s d degree)) at 1 by (rewrite <- El; reflexivity). rewrite collect_ok by assumption. cbn [bind]. rewrite <- El.
  apply (for_in_throw _ _ (fun A => wf A n n)).
  - intros [[r' c'] y] A Hi HA. destruct (Hen _ _ _ Hi) as [Hr [Hc _]]. destruct (points_nth s dim degree k Hu Hk c' Hc) as [m' [Em [Hm' [Hidx Hkm]]]].
    fold l in Em. replace (vget l c') with (Ok m') by (unfold vget; rewrite Em; reflexivity). cbn [bind]. rewrite (vget_nth_ok _ m' k 0%nat) by assumption. cbn [bind]. cbn [Nat.eqb].
    destruct (Nat.eqb_spec (nth k m' 0%nat) 0) as [|Hz]; [left; exists A; auto|]. rewrite vset_ok by assumption. cbn [bind].
    match goal with |- context [it_index _ ?q] => set (v := q) end. destruct (in_dec (list_eq_dec Nat.eq_dec) v l) as [Hv|Hv].
    + rewrite it_index_idx by (rewrite <- El; assumption). rewrite <- El. cbn [bind]. left.
      match goal with |- context [m_set _ _ _ _ _ ?w] => destruct (ok_set _ _ _ _ HO A n n r' (idx l v) w HA Hr (idx_lt l v Hv)) as [A' [E1 [E2 _]]] end. exists A'. auto.
    + right. rewrite it_index_throw by (rewrite <- El; assumption). reflexivity.
  - exists (row, col, x). split; [assumption|]. intros A _. destruct (Hen _ _ _ Hin) as [Hr [Hc _]]. destruct (points_nth s dim degree k Hu Hk col Hc) as [m' [Em [Hm' [Hidx Hkm]]]]. fold l in Em. rewrite Hm in Em. injection Em as <-.
    unfold vget at 1. rewrite Hm. cbn [bind]. rewrite (vget_nth_ok _ m k 0%nat) by assumption. cbn [bind Nat.eqb]. destruct (Nat.eqb_spec (nth k m 0%nat) 0) as [E|_]; [rewrite E in Hodd; discriminate|].
    rewrite vset_ok by assumption. cbn [bind]. rewrite even_mod, <- Nat.negb_odd, Hodd. cbn [negb]. rewrite with_entry_upd in Hnot by assumption.
    rewrite it_index_throw; [reflexivity|]. rewrite <- El. intros G. apply Hnot. apply (points_In s dim degree) in G; assumption.
  - apply (ok_construct _ _ _ _ HO).
Qed.
End Throw.

(** * the overload for mat *)
Definition dense_factor (flag n : nat) : R :=
  if (n =? 0)%nat then 0 else
  if (flag =? 1)%nat then IZR (u32 ((if Nat.even n then -1 else 1) * Z.of_nat ((if Nat.even n then n else n + 1) / 2))) else sqrt (INR n).

Section Dense.
Variables (s : iset) (dim degree k flag : nat).
Let n := length (points s dim degree).
Let l := points s dim degree.
Hypothesis Hu : usable s dim degree.
Hypothesis Hk : (k < dim)%nat.
Hypothesis Hflag : flag = 0%nat \/ flag = 1%nat.

Lemma dterm_in : (flag = 1%nat -> paired s dim degree k) -> forall c, index_of s dim degree c -> index_of s dim degree (upd c k (snd (dterm flag (nth k c 0%nat)))).
Proof.
  intros Hp c Hc. assert (Hcl : (k < length c)%nat) by (destruct Hc as [-> _]; assumption). set (ck := nth k c 0%nat).
  assert (Hlow : forall v, (v <= ck)%nat -> index_of s dim degree (upd c k v)) by (intros v Hv; destruct Hc as [Hc1 Hc2]; split; [rewrite upd_length; assumption|apply in_set_lower; assumption]).
  unfold dterm. destruct Hflag as [Hf|Hf]; rewrite Hf; cbn [Nat.eqb snd]; [apply Hlow; lia|]. destruct (Nat.eqb_spec ck 0) as [E|]; [cbn [snd]; apply Hlow; lia|].
  destruct (Nat.even ck) eqn:E; cbn [snd]; [apply Hlow; lia|]. specialize (Hp Hf c Hc). fold ck in Hp. rewrite with_entry_upd in Hp by assumption. apply Hp. rewrite <- Nat.negb_even, E. reflexivity.
Qed.

Lemma column_loop : forall (var M : list (list R)) j id f, mat_wf n n var -> mat_wf n n M -> (j < n)%nat -> (id < n)%nat ->
  exists M', for_each (fun i results => x <- mat_get fnum_R var i id ;; mat_set fnum_R results i j (f * x)) n 0 M = Ok M' /\ mat_wf n n M' /\
  forall p q, (p < n)%nat -> (q < n)%nat -> mnth fnum_R M' p q = if (q =? j)%nat then f * mnth fnum_R var p id else mnth fnum_R M p q.
Proof.
  intros var M j id f Hv HM Hj Hid. rewrite for_each_for_in. pose proof (mat_ops_ok fnum_R) as HO.
  destruct (set_loop fnum_R _ _ _ HO nat (fun _ => true) (fun i => i) (fun _ => j) (fun i => f * mnth fnum_R var i id) n n (seq 0 n) M) as [M' [E1 [E2 [E3 E4]]]].
  - exact HM.
  - intros z Hz _. apply in_seq in Hz. lia.
  - intros z z' _ _ _ _ -> _. reflexivity.
  - exists M'. split; [|split; [exact E2|]].
    + refine (eq_trans _ E1). apply for_in_ext. intros i A Hi. apply in_seq in Hi. cbn [mat_ops m_set]. pose proof (ok_get _ _ _ _ HO var n n i id Hv ltac:(lia) Hid) as G. cbn [mat_ops m_get] in G. rewrite G. reflexivity.
    + intros p q Hp Hq. destruct (Nat.eqb_spec q j) as [->|Hne].
      * apply (E3 p); [apply in_seq; lia|reflexivity].
      * apply E4. intros z _ _ [_ E]. lia.
Qed.

Lemma varfd_dense_gen : forall var : list (list R), mat_wf n n var -> (flag = 1%nat -> paired s dim degree k) ->
  exists out, varfd_dense fnum_R s dim degree k var flag = Ok out /\ mat_wf n n out /\
    forall r c, index_of s dim degree r -> index_of s dim degree c ->
      @entry num_R s dim degree out r c = dense_factor flag (nth k c 0%nat) * @entry num_R s dim degree var r (with_entry c k (snd (dterm flag (nth k c 0%nat)))).
Proof.
  intros var Hw Hp. destruct (dim_S dim) as [d Ed]; [apply Hu|].
  assert (Hset : set_ok s (S d) degree) by (rewrite <- Ed; apply usable_set_ok; assumption).
  assert (El : l = spec_list s d degree) by (unfold l; rewrite Ed; apply points_spec_ok; assumption).
  pose proof (points_NoDup s dim degree Hu) as Hnd. fold l in Hnd. pose proof (dterm_in Hp) as Hdt.
  set (body := fun (j : nat) (m : mi) (M : list (list R)) =>
     if (nth k m 0 =? 0)%nat then Ok M else
     for_each (fun i results => x <- mat_get fnum_R var i (idx l (upd m k (snd (dterm flag (nth k m 0%nat))))) ;; mat_set fnum_R results i j (dense_factor flag (nth k m 0%nat) * x)) n 0 M).
  assert (Hrun : varfd_dense fnum_R s dim degree k var flag = for_in (fun '(j, m) M => body j m M) (enum l) (mat_construct fnum_R n n)).
  { unfold varfd_dense. rewrite Ed at 1. rewrite make_iterator_Ok by assumption. cbn [bind]. rewrite reset_fresh. rewrite (bind_snd _ _ _ _ (fun r => Ok r)).
    destruct Hw as [Hw1 Hw2]. cbn [carrier fn fnum_R num_R] in *. rewrite Hw1.
    rewrite (for_each_it _ _ body l); [|shelve|rewrite El; apply fresh_state; assumption|reflexivity].
    cbn [skipn]. destruct (for_in _ _ _); reflexivity.
    Unshelve. intros j it M Hj Hst. destruct Hst as [S1 [S2 [S3 [S4 S5]]]]. rewrite S3, Nat.min_l in S4 by lia. cbn beta iota zeta.
    set (m := it_multi_index it) in *. destruct (points_nth s dim degree k Hu Hk j Hj) as [m' [Em [Hm [Hidx Hkm]]]]. fold l in Em, Hidx. rewrite S4 in Em. injection Em as <-.
    rewrite (vget_nth_ok _ m k 0%nat) by assumption. cbn [bind]. unfold body. set (mc := nth k m 0%nat).
    destruct (Nat.eqb_spec mc 0) as [Hz|Hz]; [reflexivity|]. rewrite vset_ok by assumption. cbn [bind]. rewrite even_mod.
    assert (Hd : (if flag =? 0 then mc - 1 else if Nat.even mc then mc - 1 else mc + 1)%nat = snd (dterm flag mc)).
    { unfold dterm. destruct Hflag as [-> | ->]; cbn [Nat.eqb snd]; [reflexivity|]. destruct (Nat.eqb_spec mc 0) as [|_]; [contradiction|]. destruct (Nat.even mc); reflexivity. }
    rewrite Hd.
    assert (Hi : it_index it (upd m k (snd (dterm flag mc))) = Ok (idx l (upd m k (snd (dterm flag mc))))).
    { specialize (Hdt m Hm). fold mc in Hdt. apply (points_In s dim degree) in Hdt; [|assumption]. fold l in Hdt. rewrite El in Hdt. pose proof (it_index_idx s d degree _ Hdt) as G. rewrite <- El in G. rewrite <- G.
      unfold it_index. rewrite S2. cbn [fresh it_table]. rewrite <- El. reflexivity. }
    rewrite Hi. cbn [bind].
    assert (Hf : (if (flag =? 1)%nat return R then fofZ (f := fnum_R) (u32 ((if Nat.even mc then -1 else 1) * Z.of_nat ((if Nat.even mc then mc else mc + 1) / 2))) else fsqrt (f := fnum_R) (ofnat fnum_R mc)) = dense_factor flag mc).
    { unfold dense_factor. destruct (Nat.eqb_spec mc 0) as [|_]; [contradiction|]. destruct (flag =? 1)%nat; [reflexivity|]. cbn [fsqrt fnum_R]. unfold ofnat. cbn [fofZ fnum_R]. rewrite <- INR_IZR_INZ. reflexivity. }
    rewrite Hf. reflexivity. }
  assert (Hloop : forall z M, (forall j m, In (j, m) z -> nth_error l j = Some m) -> mat_wf n n M ->
    exists M', for_in (fun '(j, m) M => body j m M) z M = Ok M' /\ mat_wf n n M' /\
      (forall p j, (p < n)%nat -> (j < n)%nat -> ~ In j (map fst z) -> mnth fnum_R M' p j = mnth fnum_R M p j) /\
      (forall p j m, (p < n)%nat -> In (j, m) z -> NoDup (map fst z) -> nth k m 0%nat <> 0%nat -> mnth fnum_R M' p j = dense_factor flag (nth k m 0%nat) * mnth fnum_R var p (idx l (upd m k (snd (dterm flag (nth k m 0%nat)))))) /\
      (forall p j m, (p < n)%nat -> In (j, m) z -> NoDup (map fst z) -> nth k m 0%nat = 0%nat -> mnth fnum_R M' p j = mnth fnum_R M p j)).
  { induction z as [|[j m] z IH]; intros M Hz HM.
    - exists M. split; [reflexivity|]. split; [assumption|]. split; [reflexivity|]. split; intros ? ? ? ? [].
    - assert (Hjm : nth_error l j = Some m) by (apply Hz; left; reflexivity).
      assert (Hj : (j < n)%nat) by (apply (proj1 (nth_error_Some l j)); rewrite Hjm; discriminate).
      assert (Hm : index_of s dim degree m) by (apply (points_In s dim degree); [assumption|eapply nth_error_In; exact Hjm]).
      assert (St : exists M1, body j m M = Ok M1 /\ mat_wf n n M1 /\ forall p q, (p < n)%nat -> (q < n)%nat -> mnth fnum_R M1 p q =
        if (q =? j)%nat then if (nth k m 0 =? 0)%nat then mnth fnum_R M p q else dense_factor flag (nth k m 0%nat) * mnth fnum_R var p (idx l (upd m k (snd (dterm flag (nth k m 0%nat))))) else mnth fnum_R M p q).
      { unfold body. destruct (nth k m 0 =? 0)%nat eqn:E0.
        - exists M. split; [reflexivity|]. split; [assumption|]. intros p q _ _. destruct (q =? j)%nat; reflexivity.
        - apply column_loop; try assumption. apply idx_lt. apply (points_In s dim degree); [assumption|]. apply Hdt. assumption. }
      destruct St as [M1 [E1 [W1 V1]]]. destruct (IH M1) as [M' [E2 [W2 [V2 [V3 V4]]]]]; [intros; apply Hz; right; assumption|assumption|].
      exists M'. split; [cbn [for_in]; rewrite E1; exact E2|]. split; [assumption|]. split; [|split].
      + intros p q Hp' Hq Hn. cbn [map fst] in Hn. rewrite V2 by (try assumption; intros G; apply Hn; right; assumption). rewrite V1 by assumption.
        destruct (Nat.eqb_spec q j) as [->|]; [exfalso; apply Hn; left; reflexivity|reflexivity].
      + intros p q m' Hp' Hi Hnd' Hne. cbn [map fst] in Hnd'. inversion Hnd' as [|? ? N1 N2]; subst. destruct Hi as [Hi|Hi].
        * injection Hi as -> ->. rewrite V2 by assumption. rewrite V1 by assumption. rewrite Nat.eqb_refl. destruct (Nat.eqb_spec (nth k m' 0%nat) 0) as [|_]; [contradiction|reflexivity].
        * apply V3; assumption.
      + intros p q m' Hp' Hi Hnd' He. cbn [map fst] in Hnd'. inversion Hnd' as [|? ? N1 N2]; subst. destruct Hi as [Hi|Hi].
        * injection Hi as -> ->. rewrite V2 by assumption. rewrite V1 by assumption. rewrite Nat.eqb_refl, He. reflexivity.
        * rewrite (V4 p q m') by assumption. assert (Hq : (q < n)%nat) by (specialize (Hz q m' (or_intror Hi)); apply (proj1 (nth_error_Some l q)); rewrite Hz; discriminate).
          rewrite V1 by assumption. destruct (Nat.eqb_spec q j) as [->|]; [|reflexivity]. exfalso. apply N1. apply in_map_iff. exists (j, m'). auto. }
  destruct (Hloop (enum l) (mat_construct fnum_R n n)) as [out [E1 [E2 [E3 [E4 E5]]]]].
  - intros j m Hin. apply enum_nth. assumption.
  - apply (ok_construct _ _ _ _ (mat_ops_ok fnum_R) n n).
  - exists out. split; [rewrite Hrun; exact E1|]. split; [exact E2|]. intros r c Hr Hc.
    assert (Hcl : (k < length c)%nat) by (destruct Hc as [-> _]; assumption).
    destruct (entry_at s dim degree out Hu E2 r c Hr Hc) as [N1 [N2 N3]]. fold l n in N1, N2, N3. rewrite N1. rewrite with_entry_upd by assumption.
    pose proof (Hdt c Hc) as Hc'. destruct (entry_at s dim degree var Hu Hw r _ Hr Hc') as [M1 [M2 M3]]. fold l n in M1, M2, M3. rewrite M1.
    assert (Hin : In (idx l c, c) (enum l)) by (apply enum_nth; apply idx_nth; apply (points_In s dim degree); assumption).
    assert (Hndf : NoDup (map fst (enum l))) by (unfold enum; clear; assert (G : forall (l : list (list nat)) a, map fst (combine (seq a (length l)) l) = seq a (length l)) by (induction l0 as [|x l0 IH]; intros a; cbn [length seq combine map fst]; [reflexivity|f_equal; apply IH]); rewrite G; apply seq_NoDup).
    destruct (Nat.eq_dec (nth k c 0%nat) 0) as [Hz|Hz].
    + rewrite (E5 _ _ c N2 Hin Hndf Hz). rewrite mnth_construct. unfold dense_factor. rewrite Hz. cbn [Nat.eqb]. symmetry. apply Rmult_0_l.
    + apply E4; assumption.
Qed.
End Dense.
