(** Proofs about Position. *)
From Coq Require Import String List Bool Arith ZArith Lia Permutation Sorted.
From Verif Require Import Base Lists Num PyBase PosModel LinSpec PosSpec.
Import ListNotations.
Local Open Scope string_scope. Local Open Scope list_scope. Local Open Scope nat_scope.

(** built-ins *)
Lemma py_in_iff : forall d l, py_in d l = true <-> In d l.
Proof. intros d l. unfold py_in. rewrite existsb_exists. split; [intros [x [H E]]; apply Nat.eqb_eq in E; subst; assumption|]. intros H. exists d. split; [assumption|apply Nat.eqb_refl]. Qed.
Lemma py_in_false : forall d l, py_in d l = false <-> ~ In d l.
Proof. intros d l. rewrite <- py_in_iff. destruct (py_in d l); split; congruence. Qed.

Lemma py_count_occ : forall l d, py_count l d = count_occ Nat.eq_dec l d.
Proof. induction l as [|x l IH]; intros d; [reflexivity|]. cbn [py_count count_occ]. rewrite IH. destruct (Nat.eq_dec x d) as [->|H]; [rewrite Nat.eqb_refl; reflexivity|]. apply Nat.eqb_neq in H. rewrite H. reflexivity. Qed.

Lemma py_index_nth : forall l i d, NoDup l -> nth_error l i = Some d -> py_index l d = Ok i.
Proof.
  induction l as [|x l IH]; intros i d Hn Hi; [destruct i; discriminate|]. inversion Hn as [|? ? Hx Hn']; subst. destruct i as [|i]; cbn [nth_error py_index] in *.
  - injection Hi as ->. rewrite Nat.eqb_refl. reflexivity.
  - destruct (Nat.eqb_spec x d) as [->|]; [exfalso; apply Hx; eapply nth_error_In; eassumption|]. rewrite (IH i d Hn' Hi). reflexivity.
Qed.
Lemma py_index_in : forall l d, In d l -> exists i, py_index l d = Ok i /\ nth_error l i = Some d.
Proof.
  induction l as [|x l IH]; intros d H; [destruct H|]. cbn [py_index]. destruct (Nat.eqb_spec x d) as [->|Hx]; [exists 0; split; reflexivity|].
  destruct H as [H|H]; [contradiction|]. destruct (IH d H) as [i [E1 E2]]. exists (S i). rewrite E1. split; [reflexivity|exact E2].
Qed.
Lemma py_index_throw : forall l d, ~ In d l -> py_index l d = Throw "ValueError".
Proof.
  induction l as [|x l IH]; intros d H; [reflexivity|]. cbn [py_index]. destruct (Nat.eqb_spec x d) as [->|Hx]; [exfalso; apply H; left; reflexivity|].
  rewrite IH by (intros G; apply H; right; assumption). reflexivity.
Qed.

Lemma insert_perm : forall d l, Permutation (d :: l) (insert d l).
Proof.
  intros d. induction l as [|x l IH]; cbn [insert]; [reflexivity|]. destruct (d <=? x); [reflexivity|].
  rewrite perm_swap. apply perm_skip. exact IH.
Qed.
Lemma py_sorted_perm : forall l, Permutation l (py_sorted l).
Proof. induction l as [|x l IH]; cbn [py_sorted fold_right]; [reflexivity|]. fold (py_sorted l). rewrite <- insert_perm. apply perm_skip. exact IH. Qed.

Lemma insert_sorted : forall d l, StronglySorted le l -> StronglySorted le (insert d l).
Proof.
  intros d l H. induction H as [|x l H IH Hx]; cbn [insert]; [repeat constructor|]. destruct (Nat.leb_spec d x) as [E|E].
  - constructor; [constructor; assumption|]. constructor; [assumption|]. rewrite Forall_forall in *. intros y Hy. specialize (Hx y Hy). lia.
  - constructor; [exact IH|]. rewrite Forall_forall in *. intros y Hy. apply (Permutation_in _ (Permutation_sym (insert_perm d l))) in Hy. destruct Hy as [<-|Hy]; [lia|apply Hx; assumption].
Qed.
Lemma py_sorted_sorted : forall l, StronglySorted le (py_sorted l).
Proof. induction l as [|x l IH]; [constructor|]. cbn [py_sorted fold_right]. apply insert_sorted. exact IH. Qed.

Lemma sorted_nodup_increasing : forall l, StronglySorted le l -> NoDup l -> increasing l.
Proof.
  intros l H. induction H as [|x l H IH Hx]; intros Hn; [constructor|]. inversion Hn; subst. constructor; [apply IH; assumption|].
  rewrite Forall_forall in *. intros y Hy. specialize (Hx y Hy). assert (x <> y) by (intros ->; contradiction). lia.
Qed.
Lemma increasing_sorted : forall l, increasing l -> StronglySorted le l.
Proof. intros l H. induction H as [|x l H IH Hx]; constructor; [assumption|]. rewrite Forall_forall in *. intros y Hy. specialize (Hx y Hy). lia. Qed.
Lemma py_sorted_increasing : forall l, NoDup l -> increasing (py_sorted l).
Proof. intros l H. apply sorted_nodup_increasing; [apply py_sorted_sorted|]. eapply Permutation_NoDup; [apply py_sorted_perm|exact H]. Qed.

Lemma py_sorted_id : forall l, StronglySorted le l -> py_sorted l = l.
Proof.
  intros l H. induction H as [|x l H IH Hx]; [reflexivity|]. cbn [py_sorted fold_right]. fold (py_sorted l). rewrite IH. destruct l as [|y l]; [reflexivity|]. cbn [insert].
  inversion Hx; subst. replace (x <=? y) with true by (symmetry; apply Nat.leb_le; assumption). reflexivity.
Qed.

Lemma nats_eqb_eq : forall l l', nats_eqb l l' = true <-> l = l'.
Proof.
  induction l as [|x l IH]; intros [|y l']; cbn [nats_eqb]; split; try congruence; try reflexivity.
  - rewrite andb_true_iff, Nat.eqb_eq, IH. intros [-> ->]. reflexivity.
  - intros E. injection E as -> ->. rewrite Nat.eqb_refl. apply IH. reflexivity.
Qed.

(** positions *)
Section Pos.
Variable N : num.
Variable far : list (list N) -> bool.
Hypothesis Hfar : forall l, far (diag_mat N l) = false.
Implicit Types p a b r : position N.

Lemma py_get_ok : forall A (l : list A) i x, nth_error l i = Some x -> py_get l i = Ok x.
Proof. intros A l i x H. unfold py_get. rewrite H. reflexivity. Qed.

Lemma records_in : forall p d m v t, records p d m v t -> In d (p_dirs p).
Proof. intros p d m v t (i & row & H & _). eapply nth_error_In; exact H. Qed.

Lemma records_exists : forall p d, pos_ok p -> In d (p_dirs p) -> exists m v t, records p d m v t.
Proof.
  intros p d (Hn & Hm & [Hc1 Hc2] & Ht & _) Hin. apply In_nth_error in Hin as [i Hi]. assert (Hl : i < length (p_dirs p)) by (apply nth_error_Some; congruence).
  destruct (nth_error (p_mean p) i) as [m|] eqn:Em; [|apply nth_error_None in Em; lia].
  destruct (nth_error (p_cov p) i) as [row|] eqn:Ec; [|apply nth_error_None in Ec; lia].
  assert (Hr : length row = length (p_dirs p)) by (rewrite Forall_forall in Hc2; apply Hc2; eapply nth_error_In; exact Ec).
  destruct (nth_error row i) as [v|] eqn:Ev; [|apply nth_error_None in Ev; lia].
  destruct (nth_error (p_types p) i) as [t|] eqn:Et; [|apply nth_error_None in Et; lia].
  exists m, v, t, i, row. repeat split; assumption.
Qed.

Lemma records_unique : forall p d m v t m' v' t', pos_ok p -> records p d m v t -> records p d m' v' t' -> m = m' /\ v = v' /\ t = t'.
Proof.
  intros p d m v t m' v' t' (Hn & _) (i & row & H1 & H2 & H3 & H4 & H5) (i' & row' & G1 & G2 & G3 & G4 & G5).
  assert (i = i') by (rewrite NoDup_nth_error in Hn; apply Hn; [apply nth_error_Some; congruence|congruence]). subst i'. rewrite H3 in G3. injection G3 as <-. repeat split; congruence.
Qed.

Lemma records_get : forall p d m v t, pos_ok p -> records p d m v t -> exists i, py_index (p_dirs p) d = Ok i /\ py_get (p_mean p) i = Ok m /\ variance N p i = Ok v /\ py_get (p_types p) i = Ok t.
Proof.
  intros p d m v t (Hn & _) (i & row & H1 & H2 & H3 & H4 & H5). exists i. split; [apply py_index_nth; assumption|]. split; [apply py_get_ok; assumption|].
  split; [unfold variance; rewrite (py_get_ok _ _ _ _ H3); cbn [bind]; apply py_get_ok; assumption|apply py_get_ok; assumption].
Qed.

Lemma diag_mat_wf : forall l, mat_wf (length l) (length l) (diag_mat N l).
Proof.
  intros l. unfold diag_mat. split; [rewrite map_length, seq_length; reflexivity|]. apply Forall_forall. intros row H. apply in_map_iff in H as [i [<- _]]. rewrite map_length, seq_length. reflexivity.
Qed.
Lemma nth_error_map_seq : forall A (f : nat -> A) n i, i < n -> nth_error (map f (seq 0 n)) i = Some (f i).
Proof.
  intros A f n i H. rewrite (nth_error_nth' _ (f 0)) by (rewrite map_length, seq_length; assumption). rewrite map_nth, seq_nth by assumption. reflexivity.
Qed.
Lemma diag_mat_entry : forall l i v, nth_error l i = Some v -> exists row, nth_error (diag_mat N l) i = Some row /\ nth_error row i = Some v.
Proof.
  intros l i v H. assert (Hl : i < length l) by (apply nth_error_Some; congruence). unfold diag_mat. eexists. split; [apply nth_error_map_seq; assumption|].
  rewrite nth_error_map_seq by assumption. rewrite Nat.eqb_refl. f_equal. apply nth_error_nth. exact H.
Qed.
Lemma square_wf : forall n c, mat_wf n n c -> square N c = true.
Proof. intros n c [H1 H2]. unfold square. apply forallb_forall. intros row Hr. rewrite Forall_forall in H2. apply Nat.eqb_eq. rewrite H1. apply H2. exact Hr. Qed.

Lemma position_init_full : forall dim ms vs ts dirs, length ms = length dirs -> length vs = length dirs -> length ts = length dirs -> (dim = None \/ dim = Some (length dirs)) ->
  position_init N far dim (Some ms) (Some (diag_mat N vs)) (Some dirs) (Some ts) = Ok (Pos dirs ms (diag_mat N vs) ts true).
Proof.
  intros dim ms vs ts dirs H1 H2 H3 Hd. unfold position_init. cbn [bind option_map agrees]. destruct (diag_mat_wf vs) as [L1 _]. rewrite L1, H1, H2, H3, !Nat.eqb_refl.
  replace (agrees (length dirs) dim) with true by (destruct Hd as [-> | ->]; cbn [agrees]; [|rewrite Nat.eqb_refl]; reflexivity). cbn [andb require bind].
  rewrite (square_wf _ _ (diag_mat_wf vs)). cbn [require bind]. rewrite Hfar, andb_false_r. reflexivity.
Qed.

Lemma Pos_records : forall dirs ms vs ts k d m v t, nth_error dirs k = Some d -> nth_error ms k = Some m -> nth_error vs k = Some v -> nth_error ts k = Some t -> records (Pos dirs ms (diag_mat N vs) ts true) d m v t.
Proof.
  intros dirs ms vs ts k d m v t H1 H2 H3 H4. destruct (diag_mat_entry vs k v H3) as [row [R1 R2]]. exists k, row. repeat split; assumption.
Qed.
Lemma Pos_ok : forall dirs ms vs ts, NoDup dirs -> length ms = length dirs -> length vs = length dirs -> length ts = length dirs -> pos_ok (Pos dirs ms (diag_mat N vs) ts true).
Proof.
  intros dirs ms vs ts H0 H1 H2 H3. repeat split; cbn [p_dirs p_mean p_cov p_types]; try assumption; destruct (diag_mat_wf vs) as [D1 D2]; rewrite H2 in *; assumption.
Qed.

(** loop 1: the shared directions *)
Lemma check_loop : forall p1 p2 l, pos_ok p1 -> pos_ok p2 -> (forall d, In d l -> In d (p_dirs p1) /\ In d (p_dirs p2)) ->
  let run := for_in (fun d _ => i1 <- py_index (p_dirs p1) d ;; i2 <- py_index (p_dirs p2) d ;; m1 <- py_get (p_mean p1) i1 ;; m2 <- py_get (p_mean p2) i2 ;;
         if neqb m1 m2 then c1 <- variance N p1 i1 ;; c2 <- variance N p2 i2 ;; require (neqb c1 c2) "ValueError" else Throw "ValueError") l tt in
  (run = Ok tt /\ forall d m v t m' v' t', In d l -> records p1 d m v t -> records p2 d m' v' t' -> neqb m m' = true /\ neqb v v' = true) \/
  (run = Throw "ValueError" /\ exists d m v t m' v' t', records p1 d m v t /\ records p2 d m' v' t' /\ (neqb m m' = false \/ neqb v v' = false)).
Proof.
  intros p1 p2 l H1 H2. induction l as [|d l IH]; intros Hl run; subst run; cbn [for_in].
  - left. split; [reflexivity|]. intros d m v t m' v' t' [].
  - destruct (Hl d (or_introl eq_refl)) as [D1 D2]. destruct (records_exists p1 d H1 D1) as (m & v & t & R1). destruct (records_exists p2 d H2 D2) as (m' & v' & t' & R2).
    destruct (records_get p1 d m v t H1 R1) as (i & -> & E2 & E3 & _). destruct (records_get p2 d m' v' t' H2 R2) as (i' & -> & F2 & F3 & _).
    cbn [bind]. rewrite E2. cbn [bind]. rewrite F2. cbn [bind]. rewrite E3, F3. cbn [bind].
    destruct (neqb m m') eqn:Em; [|right; split; [reflexivity|exists d, m, v, t, m', v', t'; auto]].
    destruct (neqb v v') eqn:Ev; cbn [require bind]; [|right; split; [reflexivity|exists d, m, v, t, m', v', t'; auto]].
    destruct (IH (fun d Hd => Hl d (or_intror Hd))) as [[E G]|[E G]]; [left|right; split; [exact E|exact G]].
    split; [exact E|]. intros d0 a b c a' b' c' [<-|Hd0] S1 S2; [|apply (G d0 a b c a' b' c'); assumption].
    destruct (records_unique p1 d a b c m v t H1 S1 R1) as [-> [-> _]]. destruct (records_unique p2 d a' b' c' m' v' t' H2 S2 R2) as [-> [-> _]]. split; assumption.
Qed.

(** loop 2: collecting *)
Lemma collect_loop : forall (sel : nat -> position N) l ms vs ts, (forall d, In d l -> pos_ok (sel d) /\ In d (p_dirs (sel d))) ->
  exists ms' vs' ts', for_in (fun d '(mean, cov, types) => index <- py_index (p_dirs (sel d)) d ;; m <- py_get (p_mean (sel d)) index ;; c <- variance N (sel d) index ;; t <- py_get (p_types (sel d)) index ;;
         Ok (mean ++ [m], cov ++ [c], types ++ [t])) l (ms, vs, ts) = Ok (ms ++ ms', vs ++ vs', ts ++ ts') /\
    length ms' = length l /\ length vs' = length l /\ length ts' = length l /\
    forall k d, nth_error l k = Some d -> exists m v t, nth_error ms' k = Some m /\ nth_error vs' k = Some v /\ nth_error ts' k = Some t /\ records (sel d) d m v t.
Proof.
  intros sel. induction l as [|d l IH]; intros ms vs ts Hl.
  - exists [], [], []. rewrite !app_nil_r. repeat split. intros [|k] d H; discriminate.
  - destruct (Hl d (or_introl eq_refl)) as [H1 H2]. destruct (records_exists _ _ H1 H2) as (m & v & t & R). destruct (records_get _ _ _ _ _ H1 R) as (i & E1 & E2 & E3 & E4).
    cbn [for_in]. rewrite E1. cbn [bind]. rewrite E2. cbn [bind]. rewrite E3. cbn [bind]. rewrite E4. cbn [bind].
    destruct (IH (ms ++ [m]) (vs ++ [v]) (ts ++ [t]) (fun d Hd => Hl d (or_intror Hd))) as (ms' & vs' & ts' & E & L1 & L2 & L3 & G).
    exists (m :: ms'), (v :: vs'), (t :: ts'). rewrite E. rewrite <- !app_assoc. cbn [app length]. repeat split; try congruence.
    intros [|k] d0 Hk; cbn [nth_error] in *; [injection Hk as <-; exists m, v, t; auto|apply G; exact Hk].
Qed.

Lemma NoDup_filter_nat : forall (f : nat -> bool) l, NoDup l -> NoDup (filter f l).
Proof. intros f l H. apply NoDup_filter. exact H. Qed.

Lemma nodup_app : forall (l l' : list nat), NoDup l -> NoDup l' -> (forall x, In x l -> ~ In x l') -> NoDup (l ++ l').
Proof.
  intros l l' H H' D. induction H as [|x l Hx H IH]; [exact H'|]. cbn [app]. constructor; [|apply IH; intros y Hy; apply D; right; exact Hy].
  intros G. apply in_app_or in G as [G|G]; [contradiction|]. apply (D x (or_introl eq_refl) G).
Qed.

Lemma tensorize2_spec : forall p1 p2, pos_ok p1 -> pos_ok p2 ->
  (exists r, tensorize2 N far p1 p2 = Ok r /\ pos_ok r /\ increasing (p_dirs r) /\
    (forall d, In d (p_dirs r) <-> (In d (p_dirs p1) /\ ~ In d (p_dirs p2)) \/ (In d (p_dirs p2) /\ ~ In d (p_dirs p1))) /\
    (forall d m v t, In d (p_dirs r) -> records p1 d m v t \/ records p2 d m v t -> records r d m v t) /\
    (forall d m v t m' v' t', records p1 d m v t -> records p2 d m' v' t' -> neqb m m' = true /\ neqb v v' = true)) \/
  (tensorize2 N far p1 p2 = Throw "ValueError" /\ exists d m v t m' v' t', records p1 d m v t /\ records p2 d m' v' t' /\ (neqb m m' = false \/ neqb v v' = false)).
Proof.
  intros p1 p2 H1 H2. unfold tensorize2. set (diff1 := filter (fun d => negb (py_in d (p_dirs p2))) (p_dirs p1)). set (diff2 := filter (fun d => negb (py_in d (p_dirs p1))) (p_dirs p2)).
  set (l := py_sorted (diff1 ++ diff2)).
  assert (D1 : forall d, In d diff1 <-> In d (p_dirs p1) /\ ~ In d (p_dirs p2)) by (intros d; unfold diff1; rewrite filter_In, negb_true_iff, py_in_false; reflexivity).
  assert (D2 : forall d, In d diff2 <-> In d (p_dirs p2) /\ ~ In d (p_dirs p1)) by (intros d; unfold diff2; rewrite filter_In, negb_true_iff, py_in_false; reflexivity).
  assert (Hl : forall d, In d l <-> (In d (p_dirs p1) /\ ~ In d (p_dirs p2)) \/ (In d (p_dirs p2) /\ ~ In d (p_dirs p1))).
  { intros d. rewrite <- D1, <- D2, <- in_app_iff. unfold l. split; apply Permutation_in; [apply Permutation_sym|]; apply py_sorted_perm. }
  assert (Hinc : increasing l). { apply py_sorted_increasing. apply nodup_app; [apply NoDup_filter_nat, H1|apply NoDup_filter_nat, H2|]. intros d Hd1 Hd2. apply D1 in Hd1. apply D2 in Hd2. tauto. }
  assert (Hnd : NoDup l) by (eapply Permutation_NoDup; [apply py_sorted_perm|]; apply nodup_app; [apply NoDup_filter_nat, H1|apply NoDup_filter_nat, H2|]; intros d Hd1 Hd2; apply D1 in Hd1; apply D2 in Hd2; tauto).
  destruct (check_loop p1 p2 (filter (fun d => py_in d (p_dirs p2)) (p_dirs p1)) H1 H2) as [[E G]|[E G]].
  { intros d Hd. apply filter_In in Hd as [Hd1 Hd2]. apply py_in_iff in Hd2. split; assumption. }
  2:{ right. rewrite E. split; [reflexivity|exact G]. }
  left. rewrite E. cbn [bind].
  destruct (collect_loop (fun d => if py_in d (p_dirs p1) then p1 else p2) l [] [] []) as (ms & vs & ts & E2 & L1 & L2 & L3 & R).
  { intros d Hd. apply Hl in Hd. destruct (py_in d (p_dirs p1)) eqn:Ep; [apply py_in_iff in Ep; split; assumption|]. apply py_in_false in Ep. split; [assumption|tauto]. }
  cbv zeta. rewrite E2. cbn [bind app]. rewrite (position_init_full None) by auto. eexists. split; [reflexivity|].
  split; [apply Pos_ok; assumption|]. split; [exact Hinc|]. split; [exact Hl|]. split.
  - intros d m v t Hd HR. cbn [p_dirs] in Hd. pose proof Hd as Hd'. apply In_nth_error in Hd as [k Hk]. destruct (R k d Hk) as (m' & v' & t' & K1 & K2 & K3 & K4).
    assert (Eq : m = m' /\ v = v' /\ t = t').
    { apply Hl in Hd'. destruct (py_in d (p_dirs p1)) eqn:Ep.
      - apply py_in_iff in Ep. destruct HR as [HR|HR]; [apply (records_unique p1 d m v t m' v' t'); assumption|]. apply records_in in HR. tauto.
      - apply py_in_false in Ep. destruct HR as [HR|HR]; [apply records_in in HR; contradiction|]. apply (records_unique p2 d m v t m' v' t'); assumption. }
    destruct Eq as [-> [-> ->]]. apply (Pos_records l ms vs ts k); assumption.
  - intros d m v t m' v' t' R1 R2. apply (G d m v t m' v' t'); [|assumption|assumption]. apply filter_In. split; [eapply records_in; exact R1|]. apply py_in_iff. eapply records_in; exact R2.
Qed.

(** the check that no direction appears three times *)
Lemma count_check : forall l acc,
  let run := for_in (fun d dirs => _ <- require (py_count dirs d <=? 1) "ValueError" ;; Ok (dirs ++ [d])) l acc in
  (run = Ok (acc ++ l) /\ forall d, In d l -> count_occ Nat.eq_dec (acc ++ l) d <= 2) \/ (run = Throw "ValueError" /\ exists d, 3 <= count_occ Nat.eq_dec (acc ++ l) d).
Proof.
  induction l as [|x l IH]; intros acc run; subst run; cbn [for_in].
  - left. rewrite app_nil_r. split; [reflexivity|intros d []].
  - destruct (py_count acc x <=? 1) eqn:E; cbn [require bind].
    + destruct (IH (acc ++ [x])) as [[E1 E2]|[E1 [d E2]]].
      * left. rewrite E1. rewrite <- app_assoc in *. split; [reflexivity|]. intros d [<-|Hd]; [|apply E2; exact Hd].
        destruct (in_dec Nat.eq_dec x l) as [Hx|Hx]; [apply E2; exact Hx|]. rewrite count_occ_app. cbn [count_occ app]. destruct (Nat.eq_dec x x); [|contradiction]. apply (count_occ_not_In Nat.eq_dec) in Hx. rewrite Hx.
        apply Nat.leb_le in E. rewrite py_count_occ in E. lia.
      * right. rewrite <- app_assoc in E2. split; [exact E1|exists d; exact E2].
    + right. split; [reflexivity|]. exists x. apply Nat.leb_gt in E. rewrite py_count_occ in E. rewrite count_occ_app. cbn [count_occ]. destruct (Nat.eq_dec x x); [lia|contradiction].
Qed.

Lemma dirs_check : forall args acc, Forall pos_ok args ->
  let run := for_in (fun a dirs => _ <- require (p_is_diag a) "ValueError" ;; for_in (fun d dirs => _ <- require (py_count dirs d <=? 1) "ValueError" ;; Ok (dirs ++ [d])) (p_dirs a) dirs) args acc in
  (run = Ok (acc ++ concat (map p_dirs args)) /\ forall d, In d (concat (map p_dirs args)) -> count_occ Nat.eq_dec (acc ++ concat (map p_dirs args)) d <= 2) \/
  (run = Throw "ValueError" /\ exists d, 3 <= count_occ Nat.eq_dec (acc ++ concat (map p_dirs args)) d).
Proof.
  induction args as [|a args IH]; intros acc Hok run; subst run; cbn [for_in map concat].
  - left. rewrite app_nil_r. split; [reflexivity|intros d []].
  - inversion Hok as [|? ? Ha Hok']; subst. destruct Ha as (_ & _ & _ & _ & ->). cbn [require bind].
    destruct (count_check (p_dirs a) acc) as [[E1 E2]|[E1 [d E2]]]; rewrite E1; cbn [bind].
    + destruct (IH (acc ++ p_dirs a) Hok') as [[F1 F2]|[F1 [d F2]]].
      * left. rewrite <- app_assoc in F1, F2. split; [exact F1|]. intros d Hd. apply in_app_or in Hd.
        destruct (in_dec Nat.eq_dec d (concat (map p_dirs args))) as [Hc|Hc]; [apply F2; exact Hc|]. destruct Hd as [Hd|Hd]; [|contradiction].
        rewrite app_assoc, count_occ_app. apply (count_occ_not_In Nat.eq_dec) in Hc. rewrite Hc. specialize (E2 d Hd). lia.
      * right. rewrite <- app_assoc in F2. split; [exact F1|exists d; exact F2].
    + right. split; [reflexivity|]. exists d. rewrite app_assoc, count_occ_app. lia.
Qed.

(** the fold *)
Definition rep (pre : list (position N)) r : Prop :=
  pos_ok r /\ (forall d, In d (p_dirs r) <-> owners pre d = 1) /\ (forall a d m v t, In a pre -> In d (p_dirs r) -> records a d m v t -> records r d m v t).

Lemma owners_app : forall (pre post : list (position N)) d, owners (pre ++ post) d = owners pre d + owners post d.
Proof. intros. unfold owners. rewrite map_app, concat_app, count_occ_app. reflexivity. Qed.
Lemma owners_one : forall a d, pos_ok a -> owners [a] d = if in_dec Nat.eq_dec d (p_dirs a) then 1 else 0.
Proof.
  intros a d (Hn & _). unfold owners. cbn [map concat]. rewrite app_nil_r. destruct (in_dec Nat.eq_dec d (p_dirs a)) as [H|H].
  - apply NoDup_count_occ' with (decA := Nat.eq_dec) in H; assumption.
  - apply count_occ_not_In. exact H.
Qed.
Lemma owners_pos : forall (pre : list (position N)) d, 1 <= owners pre d -> exists a, In a pre /\ In d (p_dirs a).
Proof.
  intros pre d H. assert (G : In d (concat (map p_dirs pre))) by (apply (count_occ_In Nat.eq_dec); unfold owners in H; lia).
  apply in_concat in G as [l [G1 G2]]. apply in_map_iff in G1 as [a [<- Ha]]. exists a. split; assumption.
Qed.
Lemma owners_in : forall (pre : list (position N)) a d, In a pre -> In d (p_dirs a) -> 1 <= owners pre d.
Proof. intros pre a d Ha Hd. unfold owners. apply (count_occ_In Nat.eq_dec). apply in_concat. exists (p_dirs a). split; [apply in_map; exact Ha|exact Hd]. Qed.

Lemma fold_spec : forall rest pre acc, Forall pos_ok rest -> Forall pos_ok pre -> rep pre acc -> (forall d, owners (pre ++ rest) d <= 2) ->
  (exists r, for_in (fun a result => tensorize2 N far result a) rest acc = Ok r /\ rep (pre ++ rest) r /\ (rest <> [] -> increasing (p_dirs r)) /\
    forall i j a b d m v t m' v' t', i < j -> length pre <= j -> nth_error (pre ++ rest) i = Some a -> nth_error (pre ++ rest) j = Some b -> records a d m v t -> records b d m' v' t' -> neqb m m' = true /\ neqb v v' = true) \/
  (for_in (fun a result => tensorize2 N far result a) rest acc = Throw "ValueError" /\ conflict (pre ++ rest)).
Proof.
  induction rest as [|a rest IH]; intros pre acc Hrest Hpre (R1 & R2 & R3) Hown.
  - left. exists acc. rewrite app_nil_r. split; [reflexivity|]. split; [repeat split; try apply R1; try assumption; apply R2|]. split; [congruence|].
    intros i j b b' d m v t m' v' t' Hij Hj Hi Hj'. apply nth_error_None in Hj. congruence.
  - inversion Hrest as [|? ? Ha Hrest']; subst. cbn [for_in].
    assert (Hsrc : forall d m v t, records acc d m v t -> exists i b, i < length pre /\ nth_error pre i = Some b /\ records b d m v t).
    { intros d m v t HR. assert (Hd : In d (p_dirs acc)) by (eapply records_in; exact HR). pose proof (proj1 (R2 d) Hd) as Ho. destruct (owners_pos pre d ltac:(lia)) as [b [Hb1 Hb2]].
      assert (Hb : pos_ok b) by (rewrite Forall_forall in Hpre; apply Hpre; exact Hb1). destruct (records_exists b d Hb Hb2) as (m0 & v0 & t0 & HRb).
      pose proof (R3 b d m0 v0 t0 Hb1 Hd HRb) as HR'. destruct (records_unique acc d m v t m0 v0 t0 R1 HR HR') as [-> [-> ->]].
      apply In_nth_error in Hb1 as [i Hi]. exists i, b. split; [apply nth_error_Some; congruence|]. split; assumption. }
    destruct (tensorize2_spec acc a R1 Ha) as [(r & E & T1 & T2 & T3 & T4 & T5)|(E & d & m & v & t & m' & v' & t' & C1 & C2 & C3)].
    + rewrite E. cbn [bind]. assert (O1 : forall d, owners (pre ++ [a]) d = owners pre d + (if in_dec Nat.eq_dec d (p_dirs a) then 1 else 0)) by (intros d; rewrite owners_app, owners_one by assumption; reflexivity).
      assert (O2 : forall d, owners (pre ++ [a]) d <= 2). { intros d. specialize (Hown d). change (pre ++ a :: rest) with (pre ++ ([a] ++ rest)) in Hown. rewrite app_assoc, owners_app in Hown. lia. }
      assert (Hrep : rep (pre ++ [a]) r).
      { split; [exact T1|]. split.
        - intros d. rewrite T3, R2. rewrite O1. specialize (O2 d). rewrite O1 in O2. destruct (in_dec Nat.eq_dec d (p_dirs a)) as [Hd|Hd]; split; intros H.
          + destruct H as [[_ H]|[_ H]]; [contradiction|lia].
          + right. split; [assumption|lia].
          + destruct H as [[H _]|[H _]]; [lia|contradiction].
          + left. split; [lia|assumption].
        - intros b d m v t Hb Hd HR. apply T4; [exact Hd|]. apply in_app_or in Hb as [Hb|[<-|[]]]; [left|right; exact HR]. apply (R3 b); [exact Hb| |exact HR].
          apply R2. assert (1 <= owners pre d) by (eapply owners_in; [exact Hb|eapply records_in; exact HR]). apply T3 in Hd. destruct Hd as [[Hd _]|[Hd Hd']]; [apply R2; exact Hd|].
          specialize (O2 d). rewrite O1 in O2. destruct (in_dec Nat.eq_dec d (p_dirs a)); [lia|contradiction]. }
      destruct (IH (pre ++ [a]) r Hrest') as [(r' & F1 & F2 & F3 & F4)|[F1 F2]]; try assumption.
      * apply Forall_app. split; [assumption|constructor; [assumption|constructor]].
      * intros d. rewrite <- app_assoc. apply Hown.
      * left. exists r'. rewrite <- app_assoc in F2, F4. cbn [app] in F2, F4. split; [exact F1|]. split; [exact F2|]. split.
        { intros _. destruct rest as [|b rest]; [cbn [for_in] in F1; injection F1 as <-; exact T2|apply F3; discriminate]. }
        intros i j b b' d m v t m' v' t' Hij Hj Hi Hj' HR HR'. destruct (Nat.eq_dec j (length pre)) as [->|Hne].
        { rewrite nth_error_app2 in Hj' by lia. rewrite Nat.sub_diag in Hj'. cbn [nth_error] in Hj'. injection Hj' as <-.
          rewrite nth_error_app1 in Hi by lia. assert (Hb : In b pre) by (eapply nth_error_In; exact Hi). assert (Hb0 : pos_ok b) by (rewrite Forall_forall in Hpre; apply Hpre; exact Hb).
          assert (Hd : In d (p_dirs acc)). { apply R2. specialize (O2 d). rewrite O1 in O2. pose proof (records_in _ _ _ _ _ HR') as Ga. assert (1 <= owners pre d) by (eapply owners_in; [exact Hb|eapply records_in; exact HR]). destruct (in_dec Nat.eq_dec d (p_dirs a)); [lia|contradiction]. }
          apply (T5 d m v t m' v' t'); [|exact HR']. apply (R3 b); assumption. }
        apply (F4 i j b b' d m v t m' v' t'); try assumption. rewrite app_length. cbn [length]. lia.
      * right. rewrite <- app_assoc in F2. split; assumption.
    + right. rewrite E. split; [reflexivity|]. destruct (Hsrc d m v t C1) as (i & b & Hi1 & Hi2 & Hi3).
      exists i, (length pre), b, a, d, m, v, t, m', v', t'. split; [assumption|]. split; [rewrite nth_error_app1 by assumption; exact Hi2|].
      split; [rewrite nth_error_app2, Nat.sub_diag by lia; reflexivity|]. split; [exact Hi3|]. split; [exact C2|exact C3].
Qed.

Lemma rep_one : forall a, pos_ok a -> rep [a] a.
Proof.
  intros a Ha. split; [exact Ha|]. split.
  - intros d. rewrite owners_one by exact Ha. destruct (in_dec Nat.eq_dec d (p_dirs a)); split; intros; try lia; auto; contradiction.
  - intros b d m v t [<-|[]] _ HR. exact HR.
Qed.

Theorem tensorize_spec : forall args, args <> [] -> Forall pos_ok args ->
  (exists r, pos_tensorize N far args = Ok r /\ pos_ok r /\ (2 <= length args -> increasing (p_dirs r)) /\ (forall d, In d (p_dirs r) <-> owners args d = 1) /\
    (forall a d m v t, In a args -> In d (p_dirs r) -> records a d m v t -> records r d m v t) /\ (forall d, owners args d <= 2) /\ ~ conflict args) \/
  (pos_tensorize N far args = Throw "ValueError" /\ ((exists d, 3 <= owners args d) \/ conflict args)).
Proof.
  intros args Hne Hok. destruct args as [|a rest]; [contradiction|]. unfold pos_tensorize.
  destruct (dirs_check (a :: rest) [] Hok) as [[E1 E2]|[E1 [d E2]]]; rewrite E1; cbn [bind app]; [|right; split; [reflexivity|left; exists d; exact E2]].
  assert (Hown : forall d, owners (a :: rest) d <= 2).
  { intros d. unfold owners. destruct (in_dec Nat.eq_dec d (concat (map p_dirs (a :: rest)))) as [H|H]; [apply E2; exact H|]. apply (count_occ_not_In Nat.eq_dec) in H. lia. }
  inversion Hok as [|? ? Ha Hrest]; subst.
  destruct (fold_spec rest [a] a Hrest) as [(r & F1 & (F2 & F3 & F4) & F5 & F6)|[F1 F2]].
  - constructor; [assumption|constructor].
  - apply rep_one. exact Ha.
  - exact Hown.
  - left. exists r. split; [exact F1|]. split; [exact F2|]. split; [intros H; apply F5; destruct rest; [cbn in H; lia|discriminate]|]. split; [exact F3|]. split; [exact F4|]. split; [exact Hown|].
    intros (i & j & b & b' & d & m & v & t & m' & v' & t' & Hij & Hi & Hj & R1 & R2 & [C|C]); destruct (F6 i j b b' d m v t m' v' t') as [G1 G2]; try assumption; try congruence; cbn [length]; lia.
  - right. split; [exact F1|right; exact F2].
Qed.

(** project *)
Theorem project_spec : forall p directions, pos_ok p -> NoDup directions -> incl directions (p_dirs p) -> increasing directions ->
  exists r, pos_project N far p directions = Ok r /\ pos_ok r /\ p_dirs r = directions /\ forall d m v t, In d directions -> records p d m v t -> records r d m v t.
Proof.
  intros p directions Hp Hn Hincl Hinc. unfold pos_project. replace (p_is_diag p) with true by (symmetry; apply Hp).
  replace (nats_eqb directions (py_sorted directions)) with true by (symmetry; apply nats_eqb_eq; symmetry; apply py_sorted_id, increasing_sorted; exact Hinc). cbn [andb require bind].
  assert (G : forall l, incl l (p_dirs p) -> exists rel ms vs ts, mapM (py_index (p_dirs p)) l = Ok rel /\ mapM (py_get (p_mean p)) rel = Ok ms /\ mapM (variance N p) rel = Ok vs /\ mapM (py_get (p_types p)) rel = Ok ts /\
    length ms = length l /\ length vs = length l /\ length ts = length l /\
    forall k d, nth_error l k = Some d -> exists m v t, nth_error ms k = Some m /\ nth_error vs k = Some v /\ nth_error ts k = Some t /\ records p d m v t).
  { induction l as [|d l IH]; intros Hl.
    - exists [], [], [], []. repeat split. intros [|k] d H; discriminate.
    - destruct (IH (fun x Hx => Hl x (or_intror Hx))) as (rel & ms & vs & ts & E1 & E2 & E3 & E4 & L1 & L2 & L3 & R).
      destruct (records_exists p d Hp (Hl d (or_introl eq_refl))) as (m & v & t & HR). destruct (records_get p d m v t Hp HR) as (i & F1 & F2 & F3 & F4).
      exists (i :: rel), (m :: ms), (v :: vs), (t :: ts). cbn [mapM]. rewrite F1, E1. cbn [bind mapM]. rewrite F2, E2, F3, E3, F4, E4. cbn [bind length]. repeat split; try congruence.
      intros [|k] d0 Hk; cbn [nth_error] in *; [injection Hk as <-; exists m, v, t; auto|apply R; exact Hk]. }
  destruct (G directions Hincl) as (rel & ms & vs & ts & E1 & E2 & E3 & E4 & L1 & L2 & L3 & R). rewrite E1. cbn [bind]. rewrite E2. cbn [bind]. rewrite E3. cbn [bind]. rewrite E4. cbn [bind].
  rewrite position_init_full by auto. eexists. split; [reflexivity|]. split; [apply Pos_ok; assumption|]. split; [reflexivity|].
  intros d m v t Hd HR. apply In_nth_error in Hd as [k Hk]. destruct (R k d Hk) as (m' & v' & t' & K1 & K2 & K3 & K4). destruct (records_unique p d m v t m' v' t' Hp HR K4) as [-> [-> ->]].
  apply (Pos_records directions ms vs ts k); assumption.
Qed.

Theorem project_throws : forall p directions, pos_ok p -> (~ StronglySorted le directions \/ ~ incl directions (p_dirs p)) -> pos_project N far p directions = Throw "ValueError".
Proof.
  intros p directions Hp H. unfold pos_project. replace (p_is_diag p) with true by (symmetry; apply Hp). cbn [andb].
  destruct (nats_eqb directions (py_sorted directions)) eqn:E; cbn [require bind]; [|reflexivity].
  apply nats_eqb_eq in E. destruct H as [H|H]; [exfalso; apply H; rewrite E; apply py_sorted_sorted|]. clear E.
  assert (G : mapM (py_index (p_dirs p)) directions = Throw "ValueError").
  { induction directions as [|d l IH]; [exfalso; apply H; intros x []|]. cbn [mapM]. destruct (in_dec Nat.eq_dec d (p_dirs p)) as [Hd|Hd].
    - destruct (py_index_in _ _ Hd) as [i [-> _]]. cbn [bind]. rewrite IH; [reflexivity|]. intros Hl. apply H. intros x [<-|Hx]; auto.
    - rewrite py_index_throw by exact Hd. reflexivity. }
  rewrite G. reflexivity.
Qed.
End Pos.

(** the constructor *)
Section Init.
Variable N : num.
Variable far : list (list N) -> bool.

Lemma agrees_true : forall n x, agrees n x = true <-> forall k, x = Some k -> k = n.
Proof. intros n [y|]; cbn [agrees]; [rewrite Nat.eqb_eq; split; [intros -> k E; congruence|intros H; symmetry; apply H; reflexivity]|split; [intros _ k E; discriminate|reflexivity]]. Qed.
Lemma agrees_len : forall A n (x : option (list A)), agrees n (option_map (@length _) x) = true <-> forall l, x = Some l -> length l = n.
Proof. intros A n [l|]; cbn [agrees option_map]; [rewrite Nat.eqb_eq; split; [intros -> k E; congruence|intros H; symmetry; apply H; reflexivity]|split; [intros _ k E; discriminate|reflexivity]]. Qed.
Lemma square_iff : forall m : list (list N), square N m = true <-> mat_wf (length m) (length m) m.
Proof.
  intros m. split; [|apply square_wf]. unfold square. rewrite forallb_forall. intros H. split; [reflexivity|]. apply Forall_forall. intros row Hr. apply Nat.eqb_eq. apply H. exact Hr.
Qed.

Lemma init_ok_iff : forall dim mean cov dirs types p,
  position_init N far dim mean cov dirs types = Ok p <->
  exists n, args_agree n dim mean cov dirs types /\ (dim <> None \/ dirs <> None) /\
    p = Pos (given dirs (seq 0 n)) (given mean (repeat n0 n)) (given cov (eye N n)) (given types (repeat "hermite" n)) (negb ((0 <? n) && far (given cov (eye N n)))).
Proof.
  intros dim mean cov dirs types p. unfold position_init.
  assert (Ey : forall n, mat_wf n n (eye N n)) by (intros n; unfold eye; pose proof (diag_mat_wf N (repeat n1 n)) as W; rewrite repeat_length in W; exact W).
  assert (Main : forall n, (mean <> None -> n = length (given mean [])) -> (mean = None -> cov <> None -> n = length (given cov [])) -> (mean = None -> cov = None -> dirs <> None -> n = length (given dirs [])) -> (mean = None -> cov = None -> dirs = None -> dim = Some n) ->
    (( _ <- require (agrees n (option_map (@length _) mean) && agrees n (option_map (@length _) cov) && agrees n (option_map (@length _) dirs) && agrees n dim && agrees n (option_map (@length _) types)) "ValueError" ;;
  self_dirs <- match dirs, dim with Some d, _ => Ok d | None, Some n => Ok (seq 0 n) | None, None => Throw "TypeError" end ;;
  let self_mean := match mean with Some m => m | None => zeros N n end in
  let self_cov := match cov with Some c => c | None => eye N n end in
  let self_types := match types with Some t => t | None => repeat "hermite" n end in
  _ <- require (square N self_cov) "LinAlgError" ;;
  Ok (Pos self_dirs self_mean self_cov self_types (negb ((0 <? length self_dirs) && far self_cov)))) = Ok p <->
   exists n, args_agree n dim mean cov dirs types /\ (dim <> None \/ dirs <> None) /\
    p = Pos (given dirs (seq 0 n)) (given mean (repeat n0 n)) (given cov (eye N n)) (given types (repeat "hermite" n)) (negb ((0 <? n) && far (given cov (eye N n)))))).
  { intros n N1 N2 N3 N4. split.
    - intros H. destruct (agrees n (option_map (@length _) mean) && agrees n (option_map (@length _) cov) && agrees n (option_map (@length _) dirs) && agrees n dim && agrees n (option_map (@length _) types)) eqn:E; cbn [require bind] in H; [|discriminate].
      rewrite !andb_true_iff, !agrees_len, agrees_true in E. destruct E as [[[[E1 E2] E3] E4] E5].
      assert (Hd : dim <> None \/ dirs <> None) by (destruct dirs, dim; cbn [bind] in H; try discriminate; [right|right|left]; discriminate).
      assert (Hs : exists sd, sd = given dirs (seq 0 n) /\ length sd = n /\ match dirs, dim with Some d, _ => Ok d | None, Some n => Ok (seq 0 n) | None, None => Throw "TypeError" end = Ok sd).
      { destruct dirs as [d|]; [exists d; auto|]. destruct dim as [k|]; [|destruct Hd as [Hd|Hd]; contradiction]. exists (seq 0 k). rewrite (E4 k eq_refl). split; [reflexivity|]. split; [apply seq_length|reflexivity]. }
      destruct Hs as (sd & S1 & S2 & S3). rewrite S3 in H. cbn [bind] in H. cbv zeta in H.
      destruct (square N match cov with Some c => c | None => eye N n end) eqn:Sq; cbn [require bind] in H; [|discriminate]. injection H as <-.
      exists n. split; [|split; [exact Hd|]].
      + repeat split; try assumption; destruct cov as [c|]; try discriminate; injection H as <-; apply square_iff in Sq; rewrite (E2 c eq_refl) in Sq; apply Sq.
      + rewrite S1. destruct cov, mean, types; cbn [given]; rewrite <- ?S1, S2; reflexivity.
    - intros (n' & (A1 & A2 & A3 & A4 & A5) & Hd & ->).
      assert (n' = n). { destruct mean as [m|]; [rewrite (N1 ltac:(discriminate)); cbn [given]; symmetry; apply A2; reflexivity|]. destruct cov as [c|]; [rewrite (N2 eq_refl ltac:(discriminate)); cbn [given]; symmetry; apply (A3 c eq_refl)|].
        destruct dirs as [d|]; [rewrite (N3 eq_refl eq_refl ltac:(discriminate)); cbn [given]; symmetry; apply A4; reflexivity|]. symmetry. apply A1. apply N4; reflexivity. } subst n'.
      replace (agrees n (option_map (@length _) mean) && agrees n (option_map (@length _) cov) && agrees n (option_map (@length _) dirs) && agrees n dim && agrees n (option_map (@length _) types)) with true.
      2:{ symmetry. rewrite !andb_true_iff, !agrees_len, agrees_true. repeat split; try assumption. intros c Hc. apply (A3 c Hc). }
      cbn [require bind].
      assert (Hs : exists sd, sd = given dirs (seq 0 n) /\ length sd = n /\ match dirs, dim with Some d, _ => Ok d | None, Some n => Ok (seq 0 n) | None, None => Throw "TypeError" end = Ok sd).
      { destruct dirs as [d|]; [exists d; auto|]. destruct dim as [k|]; [|destruct Hd as [Hd|Hd]; contradiction]. exists (seq 0 k). rewrite (A1 k eq_refl). split; [reflexivity|]. split; [apply seq_length|reflexivity]. }
      destruct Hs as (sd & S1 & S2 & S3). rewrite S3. cbn [bind]. cbv zeta.
      replace (square N match cov with Some c => c | None => eye N n end) with true by (symmetry; apply (square_wf N n); destruct cov as [c|]; [apply A3; reflexivity|apply Ey]).
      cbn [require bind]. rewrite <- S1, S2. destruct cov, mean, types; reflexivity. }
  destruct mean as [m|]; [|destruct cov as [c|]; [|destruct dirs as [d|]; [|destruct dim as [k|]]]]; cbn [bind]; try (apply Main; intros; try congruence; reflexivity).
  split; [discriminate|]. intros (n & _ & [H|H] & _); contradiction.
Qed.

Theorem init_spec : forall dim mean cov dirs types,
  (exists p, position_init N far dim mean cov dirs types = Ok p) <-> exists n, args_agree n dim mean cov dirs types /\ (dim <> None \/ dirs <> None).
Proof.
  intros. split.
  - intros [p H]. apply init_ok_iff in H as (n & H1 & H2 & _). exists n. split; assumption.
  - intros (n & H1 & H2). eexists. apply init_ok_iff. exists n. split; [exact H1|]. split; [exact H2|reflexivity].
Qed.

Theorem init_fields : forall dim mean cov dirs types n p, args_agree n dim mean cov dirs types -> position_init N far dim mean cov dirs types = Ok p ->
  length (p_dirs p) = n /\ length (p_mean p) = n /\ length (p_types p) = n /\ mat_wf n n (p_cov p) /\
  (forall l, dirs = Some l -> p_dirs p = l) /\ (dirs = None -> p_dirs p = seq 0 n) /\
  (forall l, mean = Some l -> p_mean p = l) /\ (mean = None -> forall i, i < n -> nth_error (p_mean p) i = Some n0) /\
  (forall l, types = Some l -> p_types p = l) /\ (types = None -> forall i, i < n -> nth_error (p_types p) i = Some "hermite") /\
  (forall m, cov = Some m -> p_cov p = m) /\ (cov = None -> forall i j, i < n -> j < n -> exists row, nth_error (p_cov p) i = Some row /\ nth_error row j = Some (id_entry i j)).
Proof.
  intros dim mean cov dirs types n p HA Hi. apply init_ok_iff in Hi as (n' & HA' & Hd & ->).
  assert (n' = n). { destruct HA as (A1 & A2 & A3 & A4 & A5), HA' as (B1 & B2 & B3 & B4 & B5). destruct Hd as [Hd|Hd]; [destruct dim as [k|]; [|contradiction]; rewrite <- (A1 k eq_refl); symmetry; apply B1; reflexivity|].
    destruct dirs as [d|]; [|contradiction]. rewrite <- (A4 d eq_refl). symmetry. apply B4. reflexivity. } subst n'. clear HA'. destruct HA as (A1 & A2 & A3 & A4 & A5). cbn [p_dirs p_mean p_types p_cov].
  assert (Rn : forall A (x : A) i, i < n -> nth_error (repeat x n) i = Some x) by (intros A x i Hi; rewrite (nth_error_nth' _ x) by (rewrite repeat_length; exact Hi); rewrite nth_repeat; reflexivity).
  split; [destruct dirs as [d|]; cbn [given]; [apply A4; reflexivity|apply seq_length]|].
  split; [destruct mean as [d|]; cbn [given]; [apply A2; reflexivity|apply repeat_length]|].
  split; [destruct types as [d|]; cbn [given]; [apply A5; reflexivity|apply repeat_length]|].
  split; [destruct cov as [d|]; cbn [given]; [apply A3; reflexivity|]; unfold eye; pose proof (diag_mat_wf N (repeat n1 n)) as W; rewrite repeat_length in W; exact W|].
  split; [intros l ->; reflexivity|]. split; [intros ->; reflexivity|]. split; [intros l ->; reflexivity|]. split; [intros ->; cbn [given]; apply Rn|]. split; [intros l ->; reflexivity|]. split; [intros ->; cbn [given]; apply Rn|].
  split; [intros l ->; reflexivity|]. intros -> i j Hi Hj. cbn [given]. unfold eye, diag_mat. rewrite repeat_length. eexists. split; [apply nth_error_map_seq; exact Hi|]. rewrite nth_error_map_seq by exact Hj. rewrite (nth_error_nth _ _ n0 (Rn N n1 i Hi)). reflexivity.
Qed.

Theorem init_no_dim : forall mean cov types, position_init N far None mean cov None types = Throw "TypeError" \/ position_init N far None mean cov None types = Throw "ValueError".
Proof.
  intros mean cov types. unfold position_init. destruct mean as [m|]; [|destruct cov as [c|]; [|right; reflexivity]]; cbn [bind]; match goal with |- context [require ?b _] => destruct b end; cbn [require bind]; auto.
Qed.

Theorem tensorize_nondiag : forall args a, In a args -> p_is_diag a = false -> pos_tensorize N far args = Throw "ValueError".
Proof.
  intros args a Ha Hd. unfold pos_tensorize.
  assert (G : forall acc, for_in (fun a dirs => _ <- require (p_is_diag a) "ValueError" ;; for_in (fun d dirs => _ <- require (py_count dirs d <=? 1) "ValueError" ;; Ok (dirs ++ [d])) (p_dirs a) dirs) args acc = Throw "ValueError").
  { induction args as [|b args IH]; intros acc; [destruct Ha|]. cbn [for_in]. destruct Ha as [->|Ha]; [rewrite Hd; reflexivity|]. destruct (p_is_diag b); cbn [require bind]; [|reflexivity].
    destruct (count_check (p_dirs b) acc) as [[E _]|[E _]]; rewrite E; cbn [bind]; [apply IH; exact Ha|reflexivity]. }
  rewrite G. reflexivity.
Qed.
End Init.

Theorem tensorize_ok : forall (N : num) far (args : list (position N)), (forall l, far (diag_mat N l) = false) -> 2 <= length args -> Forall pos_ok args ->
  (forall d, owners args d <= 2) -> ~ conflict args ->
  exists r, pos_tensorize N far args = Ok r /\ pos_ok r /\ increasing (p_dirs r) /\ (forall d, In d (p_dirs r) <-> owners args d = 1) /\
    forall a d m v t, In a args -> In d (p_dirs r) -> records a d m v t -> records r d m v t.
Proof.
  intros N far args Hfar Hl Hok Ho Hc. destruct (tensorize_spec N far Hfar args ltac:(destruct args; [cbn in Hl; lia|discriminate]) Hok) as [(r & E1 & E2 & E3 & E4 & E5 & _)|[_ [[d H]|H]]].
  - exists r. auto.
  - specialize (Ho d). lia.
  - contradiction.
Qed.

Theorem tensorize_raises : forall (N : num) far (args : list (position N)), (forall l, far (diag_mat N l) = false) -> args <> [] -> Forall pos_ok args ->
  (exists d, 3 <= owners args d) \/ conflict args -> pos_tensorize N far args = Throw "ValueError".
Proof.
  intros N far args Hfar Hne Hok H. destruct (tensorize_spec N far Hfar args Hne Hok) as [(r & _ & _ & _ & _ & _ & G1 & G2)|[E _]]; [|exact E].
  destruct H as [[d H]|H]; [specialize (G1 d); lia|contradiction].
Qed.

Theorem types_not_compared : exists a b r : position num_Z, pos_ok a /\ pos_ok b /\ records a 0 0%Z 1%Z "hermite" /\ records b 0 0%Z 1%Z "fourier" /\
  pos_tensorize num_Z (fun _ => false) [a; b] = Ok r /\ p_dirs r = [].
Proof.
  exists (@Pos num_Z [0] [0%Z] [[1%Z]] ["hermite"] true), (@Pos num_Z [0] [0%Z] [[1%Z]] ["fourier"] true), (@Pos num_Z [] [] [] [] true).
  repeat split; repeat constructor; try (exists 0, [1%Z]; repeat split); cbn; intuition.
Qed.

Theorem project_increasing : forall (N : num) far (p : position N) directions, (forall l, far (diag_mat N l) = false) -> pos_ok p -> incl directions (p_dirs p) -> increasing directions ->
  exists r, pos_project N far p directions = Ok r /\ pos_ok r /\ p_dirs r = directions /\ forall d m v t, In d directions -> records p d m v t -> records r d m v t.
Proof.
  intros N far p directions Hfar Hp Hi Hs. apply project_spec; try assumption. clear Hi. induction Hs as [|x l Hs IH Hx]; constructor; [|exact IH].
  intros G. rewrite Forall_forall in Hx. specialize (Hx x G). lia.
Qed.
