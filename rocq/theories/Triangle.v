(** Proofs about the triangle enumeration. *)
From Coq Require Import List Arith ZArith Lia Bool.
From Verif Require Import Base Lists IndexModel Spec Traverse.
Import ListNotations.

Definition tri_body (i : nat) (m : mi) : res (ctl mi unit) :=
  x <- vget m (i + 1) ;;
  if negb (x =? 0) then m' <- vset m (i + 1) (x - 1) ;; Ok (Break m') else Ok (Next m).

Lemma tri_scan_found : forall k p e t,
  p <> [] ->
  for_loop tri_body (k + S (length t)) (length p - 1) (p ++ zeros k ++ S e :: t)
  = Ok (inr (length p - 1 + k, p ++ zeros k ++ e :: t)).
Proof.
  induction k as [|k IH]; intros p e t Hp.
  - rewrite zeros_0. simpl. unfold tri_body at 1.
    assert (length p <> 0) by (destruct p; [contradiction|simpl; lia]).
    rewrite vget_app_hd by lia. cbn [bind]. rewrite vset_app_hd by lia. simpl.
    rewrite Nat.add_0_r, Nat.sub_0_r. reflexivity.
  - rewrite !zeros_S. cbn [plus app]. rewrite for_loop_S. unfold tri_body at 1.
    assert (length p <> 0) by (destruct p; [contradiction|simpl; lia]).
    rewrite vget_app_hd by lia. cbn.
    replace (p ++ 0 :: zeros k ++ S e :: t) with ((p ++ [0]) ++ zeros k ++ S e :: t)
      by (rewrite <- app_assoc; reflexivity).
    replace (S (length p - 1)) with (length (p ++ [0]) - 1) by (rewrite app_length; simpl; lia).
    rewrite IH by (destruct p; discriminate).
    rewrite app_length, <- app_assoc. cbn. do 3 f_equal. lia.
Qed.

Lemma tri_scan_none : forall k p,
  p <> [] ->
  for_loop tri_body k (length p - 1) (p ++ zeros k)
  = Ok (inr (length p - 1 + k, p ++ zeros k)).
Proof.
  induction k as [|k IH]; intros p Hp.
  - rewrite zeros_0. simpl. rewrite Nat.add_0_r. reflexivity.
  - rewrite !zeros_S. rewrite for_loop_S. unfold tri_body at 1.
    assert (length p <> 0) by (destruct p; [contradiction|simpl; lia]).
    rewrite vget_app_hd by lia. cbn.
    replace (p ++ 0 :: zeros k) with ((p ++ [0]) ++ zeros k) by (rewrite <- app_assoc; reflexivity).
    replace (S (length p - 1)) with (length (p ++ [0]) - 1) by (rewrite app_length; simpl; lia).
    rewrite IH by (destruct p; discriminate). rewrite app_length. simpl. do 3 f_equal. lia.
Qed.

(** [set0 k a rest]: the vector whose first entries after a reset are (0,..,0,a) *)
Definition front (k a : nat) : list nat := zeros k ++ [a].

Lemma tri_increment_step : forall degree a k e t,
  tri_increment degree (a :: zeros k ++ S e :: t)
  = Ok (false, front k (S a) ++ e :: t).
Proof.
  intros. unfold tri_increment.
  change (length (a :: zeros k ++ S e :: t)) with (S (length (zeros k ++ S e :: t))).
  cbv iota beta.
  rewrite app_length, zeros_length. simpl length.
  pose proof (tri_scan_found k [a] e t ltac:(discriminate)) as H.
  simpl app in H. simpl length in H. change (1 - 1) with 0 in H. unfold tri_body in H.
  rewrite H. cbn [bind]. cbv iota beta.
  change (vget (a :: zeros k ++ e :: t) 0) with (@Ok nat a). cbn [bind].
  rewrite (proj2 (Nat.eqb_neq (0 + k) (k + S (length t))) ltac:(lia)).
  cbn [andb plus].
  destruct k as [|k].
  - unfold front. simpl. reflexivity.
  - replace (a :: zeros (S k) ++ e :: t) with ((a :: zeros k) ++ 0 :: e :: t).
    2:{ rewrite <- zeros_snoc, <- app_assoc. reflexivity. }
    rewrite vset_app_hd by (simpl; rewrite zeros_length; reflexivity).
    cbn. unfold front. rewrite <- app_assoc, zeros_S. reflexivity.
Qed.

Lemma tri_increment_end : forall degree k,
  tri_increment degree (degree :: zeros k) = Ok (true, degree :: zeros k).
Proof.
  intros. unfold tri_increment. simpl length. rewrite zeros_length.
  pose proof (tri_scan_none k [degree] ltac:(discriminate)) as H.
  simpl app in H. simpl length in H. change (1 - 1) with 0 in H. unfold tri_body in H.
  rewrite H. cbn [bind]. cbv iota beta.
  change (vget (degree :: zeros k) 0) with (@Ok nat degree). cbn [bind].
  rewrite !Nat.eqb_refl. reflexivity.
Qed.

Lemma tri_increment_level : forall degree a k, a <> degree ->
  tri_increment degree (a :: zeros k) = Ok (false, front k (S a)).
Proof.
  intros degree a k Ha. unfold tri_increment. simpl length. rewrite zeros_length.
  pose proof (tri_scan_none k [a] ltac:(discriminate)) as H.
  simpl app in H. simpl length in H. change (1 - 1) with 0 in H. unfold tri_body in H.
  rewrite H. cbn [bind]. cbv iota beta.
  change (vget (a :: zeros k) 0) with (@Ok nat a). cbn [bind].
  apply Nat.eqb_neq in Ha. rewrite Ha, andb_false_r.
  destruct k as [|k].
  - reflexivity.
  - replace (a :: zeros (S k)) with ((a :: zeros k) ++ [0]) by (rewrite <- zeros_snoc; reflexivity).
    rewrite vset_app_hd by (simpl; rewrite zeros_length; reflexivity). reflexivity.
Qed.

(** Descending list n, n-1, ..., 0 *)
Fixpoint down (n : nat) : list nat := match n with 0 => [0] | S n' => n :: down n' end.

Lemma in_down : forall n x, In x (down n) <-> x <= n.
Proof.
  induction n as [|n IH]; intros x; simpl.
  - split; [intros [<-|[]]; lia|intros; left; lia].
  - rewrite IH. split; [intros [<-|H]; lia|]. intros. destruct (Nat.eq_dec (S n) x); [left; assumption|right; lia].
Qed.

Lemma NoDup_down : forall n, NoDup (down n).
Proof.
  induction n as [|n IH]; simpl; constructor; auto.
  - constructor.
  - rewrite in_down. lia.
Qed.

Lemma down_last : forall n, exists l, down n = l ++ [0].
Proof. induction n as [|n [l E]]; [exists []; reflexivity|]. exists (S n :: l). simpl. rewrite E. reflexivity. Qed.

Lemma linked_down : forall n, linked (fun a b => a = S b) (down n).
Proof. induction n as [|n IH]; simpl; [auto|]. split; [|assumption]. destruct n; reflexivity. Qed.

(** Vectors of length d+1 with sum n, in the code's order *)
Fixpoint lev (d n : nat) : list mi :=
  match d with
  | 0 => [[n]]
  | S d' => flat_map (fun e => map (fun v => v ++ [e]) (lev d' (n - e))) (down n)
  end.

Lemma in_lev : forall d n m, In m (lev d n) <-> length m = S d /\ list_sum m = n.
Proof.
  induction d as [|d IH]; intros n m.
  - simpl. split.
    + intros [<-|[]]. simpl. lia.
    + intros [Hl Hs]. destruct m as [|x [|]]; try discriminate. simpl in Hs. left. f_equal. lia.
  - simpl. rewrite in_flat_map. split.
    + intros [e [He Hm]]. apply in_map_iff in Hm as [v [<- Hv]]. apply IH in Hv as [Hl Hs].
      apply in_down in He. rewrite app_length, list_sum_app. simpl. lia.
    + intros [Hl Hs]. destruct m as [|x m0] using rev_ind; [discriminate|]. clear IHm0.
      rewrite app_length in Hl. rewrite list_sum_app in Hs. simpl in Hl, Hs.
      exists x. split; [apply in_down; lia|]. apply in_map_iff. exists m0. split; [reflexivity|].
      apply IH. lia.
Qed.

Lemma NoDup_lev : forall d n, NoDup (lev d n).
Proof.
  induction d as [|d IH]; intros n; simpl.
  - constructor; [simpl; tauto|constructor].
  - apply NoDup_flat_map; [apply NoDup_down| |].
    + intros e _. apply NoDup_map_inj; [|apply IH]. intros x y _ _ E. apply app_inj_tail in E. tauto.
    + intros a b x _ _ Ha Hb. apply in_map_iff in Ha as [v [<- _]]. apply in_map_iff in Hb as [w [E _]].
      apply app_inj_tail in E. symmetry. tauto.
Qed.

Lemma lev_ne : forall d n, lev d n <> [].
Proof.
  intros d n H. assert (Hin : In (zeros d ++ [n]) (lev d n)).
  { apply in_lev. rewrite app_length, list_sum_app, zeros_length. simpl.
    rewrite list_sum_zeros. lia. }
  rewrite H in Hin. exact Hin.
Qed.

Lemma lev_hd : forall d n, hd_error (lev d n) = Some (front d n).
Proof.
  induction d as [|d IH]; intros n; [reflexivity|].
  assert (down n = n :: tl (down n)) as E by (destruct n; reflexivity).
  simpl lev. rewrite E. rewrite hd_error_flat_map.
  - rewrite hd_error_map, IH. simpl. unfold front. rewrite Nat.sub_diag.
    rewrite zeros_snoc. reflexivity.
  - intro H. apply map_eq_nil in H. apply lev_ne in H. exact H.
Qed.

Lemma lev_last : forall d n, last_opt (lev d n) = Some (n :: zeros d).
Proof.
  induction d as [|d IH]; intros n; [reflexivity|].
  destruct (down_last n) as [l E].
  simpl lev. rewrite E. rewrite last_opt_flat_map_snoc.
  - rewrite last_opt_map, IH. simpl. rewrite Nat.sub_0_r, zeros_snoc. reflexivity.
  - intro H. apply map_eq_nil in H. apply lev_ne in H. exact H.
Qed.

Definition tstep (v w : mi) : Prop :=
  exists a k e t, v = a :: zeros k ++ S e :: t /\ w = front k (S a) ++ e :: t.

Lemma tstep_app : forall v w u, tstep v w -> tstep (v ++ u) (w ++ u).
Proof.
  intros v w u [a [k [e [t [-> ->]]]]]. exists a, k, e, (t ++ u). split.
  - simpl. rewrite <- app_assoc. reflexivity.
  - rewrite <- app_assoc. reflexivity.
Qed.

Lemma tstep_inc : forall degree v w, tstep v w -> tri_increment degree v = Ok (false, w).
Proof. intros degree v w [a [k [e [t [-> ->]]]]]. apply tri_increment_step. Qed.

Lemma linked_lev : forall d n, linked tstep (lev d n).
Proof.
  induction d as [|d IH]; intros n; [simpl; auto|].
  simpl lev. eapply linked_flat_map with (Q := fun a b => a = S b).
  - intros e _ H. apply map_eq_nil in H. apply lev_ne in H. exact H.
  - intros e _. eapply linked_map; [|apply IH]. intros. apply tstep_app. assumption.
  - apply linked_down.
  - intros a b x y Ha Hb -> Hx Hy. apply in_down in Ha. apply in_down in Hb.
    rewrite last_opt_map, lev_last in Hx. rewrite hd_error_map, lev_hd in Hy.
    injection Hx as <-. injection Hy as <-.
    exists (n - S b), d, b, []. split.
    + reflexivity.
    + replace (S (n - S b)) with (n - b) by lia. reflexivity.
Qed.

(** The whole triangle list *)
Definition tri_spec (d degree : nat) : list mi := flat_map (lev d) (seq 0 (S degree)).

Lemma in_tri_spec : forall d degree m,
  In m (tri_spec d degree) <-> length m = S d /\ list_sum m <= degree.
Proof.
  intros. unfold tri_spec. rewrite in_flat_map. split.
  - intros [n [Hn Hm]]. apply in_seq in Hn. apply in_lev in Hm. lia.
  - intros [Hl Hs]. exists (list_sum m). split; [apply in_seq; lia|apply in_lev; auto].
Qed.

Lemma NoDup_tri_spec : forall d degree, NoDup (tri_spec d degree).
Proof.
  intros. apply NoDup_flat_map.
  - apply seq_NoDup.
  - intros; apply NoDup_lev.
  - intros a b x _ _ Ha Hb. apply in_lev in Ha. apply in_lev in Hb. lia.
Qed.

Lemma linked_seq : forall n a, linked (fun x y => y = S x) (seq a n).
Proof.
  induction n as [|n IH]; intros a; simpl; [exact I|]. split; [|apply IH]. destruct n; reflexivity || exact I.
Qed.

Lemma tri_spec_linked : forall d degree, linked (stepf (tri_increment degree)) (tri_spec d degree).
Proof.
  intros. unfold tri_spec. eapply linked_flat_map with (Q := fun x y => y = S x).
  - intros; apply lev_ne.
  - intros. eapply linked_impl; [|apply linked_lev]. intros. apply tstep_inc. assumption.
  - apply linked_seq.
  - intros a b x y Ha Hb -> Hx Hy. apply in_seq in Ha. apply in_seq in Hb.
    rewrite lev_last in Hx. rewrite lev_hd in Hy. injection Hx as <-. injection Hy as <-.
    unfold stepf. apply tri_increment_level. lia.
Qed.

Lemma tri_spec_hd : forall d degree, hd_error (tri_spec d degree) = Some (zeros (S d)).
Proof.
  intros. unfold tri_spec. simpl seq. rewrite hd_error_flat_map by apply lev_ne.
  rewrite lev_hd. unfold front. rewrite zeros_snoc. reflexivity.
Qed.

Lemma tri_spec_last : forall d degree, last_opt (tri_spec d degree) = Some (degree :: zeros d).
Proof.
  intros. unfold tri_spec. rewrite seq_S. rewrite last_opt_flat_map_snoc by apply lev_ne. apply lev_last.
Qed.

Lemma tri_spec_prefix : forall d degree degree', degree <= degree' ->
  prefix (tri_spec d degree) (tri_spec d degree').
Proof.
  intros. unfold tri_spec. exists (flat_map (lev d) (seq (S degree) (degree' - degree))).
  rewrite <- flat_map_app. f_equal. replace (S degree') with (S degree + (degree' - degree)) by lia.
  rewrite seq_app. reflexivity.
Qed.

(** Size *)
Lemma binom_0_r : forall n, binom n 0 = 1.
Proof. destruct n; reflexivity. Qed.

Lemma binom_gt : forall n k, n < k -> binom n k = 0.
Proof.
  induction n as [|n IH]; intros [|k] H; simpl; try lia.
  rewrite !IH by lia. reflexivity.
Qed.

Lemma binom_diag : forall n, binom n n = 1.
Proof. induction n as [|n IH]; [reflexivity|]. simpl. rewrite IH, binom_gt by lia. reflexivity. Qed.

Lemma flat_map_length_sum : forall A B (f : A -> list B) l,
  length (flat_map f l) = list_sum (map (fun a => length (f a)) l).
Proof. induction l as [|a l IH]; [reflexivity|]. simpl. rewrite app_length, IH. reflexivity. Qed.

Lemma lev_S_snoc : forall d n,
  length (lev (S d) (S n)) = length (lev d (S n)) + length (lev (S d) n).
Proof.
  intros d n.
  assert (H : forall k, length (lev (S d) k) = list_sum (map (fun j => length (lev d j)) (seq 0 (S k)))).
  { intros k. simpl lev. rewrite flat_map_length_sum.
    erewrite map_ext_in by (intros a Ha; rewrite map_length; reflexivity).
    induction k as [|k IHk].
    - reflexivity.
    - rewrite seq_S. rewrite map_app, list_sum_app. simpl plus. 
      change (down (S k)) with (S k :: down k). rewrite map_cons, list_sum_cons.
      rewrite Nat.sub_diag.
      assert (E : list_sum (map (fun a => length (lev d (S k - a))) (down k))
               = list_sum (map (fun j => length (lev d j)) (seq 1 (S k)))).
      { clear. assert (G : forall c, list_sum (map (fun a => length (lev d (c + k - a))) (down k))
              = list_sum (map (fun j => length (lev d j)) (seq c (S k)))).
        { induction k as [|k IH]; intros c.
          - simpl. replace (c + 0 - 0) with c by lia. reflexivity.
          - change (down (S k)) with (S k :: down k). rewrite (map_cons _ (S k)).
            replace (seq c (S (S k))) with (c :: seq (S c) (S k)) by reflexivity.
            rewrite (map_cons _ c), !list_sum_cons. replace (c + S k - S k) with c by lia.
            f_equal. specialize (IH (S c)). rewrite <- IH. f_equal. apply map_ext. intros. f_equal. f_equal. lia. }
        exact (G 1). }
      rewrite E. simpl seq. 
      change (1 :: seq 2 k) with (seq 1 (S k)). rewrite (seq_S k 1).
      rewrite map_app, list_sum_app. simpl. lia. }
  rewrite !H. rewrite (seq_S (S n)). rewrite map_app, list_sum_app. simpl. lia.
Qed.

Lemma lev_length : forall d n, length (lev d n) = binom (n + d) d.
Proof.
  induction d as [|d IH]; intros n.
  - simpl. rewrite binom_0_r. reflexivity.
  - induction n as [|n IHn].
    + simpl. rewrite app_nil_r, map_length, IH. simpl. rewrite !binom_diag, binom_gt by lia. reflexivity.
    + rewrite lev_S_snoc, IH, IHn. 
      replace (S n + S d) with (S (S n + d)) by lia. replace (n + S d) with (S n + d) by lia. reflexivity.
Qed.

Lemma tri_spec_length : forall d degree, length (tri_spec d degree) = binom (degree + S d) (S d).
Proof.
  intros d degree. rewrite <- (lev_length (S d) degree).
  unfold tri_spec. induction degree as [|n IH].
  - simpl. rewrite !app_nil_r, map_length. reflexivity.
  - rewrite seq_S, flat_map_app, app_length, IH, lev_S_snoc. simpl. rewrite app_nil_r. lia.
Qed.
