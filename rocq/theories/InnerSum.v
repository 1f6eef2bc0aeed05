(** inner.cpp: the value of the contraction. *)
From Coq Require Import String List Bool Arith ZArith Lia Sorted Permutation.
From Verif Require Import Base Lists IndexModel Spec Machine IndexSet Degree Num LinModel LinSpec LinBase MatBase Project Tensorize Dirs Inner.
Import ListNotations.

(** writing one position of [map f d] *)
Lemma upd_map : forall (d : list nat) (f : nat -> nat) p (y x : nat), NoDup d -> p < length d -> nth p d 0 = x ->
  upd (map f d) p y = map (fun z => if z =? x then y else f z) d.
Proof.
  intros d f p y x Hn Hp Hx. apply list_ext_nth with (d := 0); [rewrite upd_length, !map_length; reflexivity|]. intros q Hq.
  rewrite upd_length, map_length in Hq. rewrite (nth_map_lt _ _ _ d q 0 0) by assumption. destruct (Nat.eqb_spec (nth q d 0) x) as [E|E].
  - assert (q = p) by (apply (proj1 (NoDup_nth d 0) Hn); congruence). subst. apply nth_upd_eq. rewrite map_length. assumption.
  - rewrite nth_upd_neq by (intros ->; contradiction). apply nth_map_lt. assumption.
Qed.

(** partial copy of the first k entries *)
Definition overk (k : nat) (a m : list nat) (f : nat -> nat) (x : nat) : nat := if memb x (firstn k a) then lookup a m x else f x.
Lemma overk_all : forall a m f x, overk (length a) a m f x = over a m f x.
Proof. intros. unfold overk, over. rewrite firstn_all. reflexivity. Qed.
Lemma overk_S : forall a m f k x, NoDup a -> k < length a -> length m = length a ->
  overk (S k) a m f x = if x =? nth k a 0 then nth k m 0 else overk k a m f x.
Proof.
  intros a m f k x Hn Hk Hl. unfold overk. rewrite memb_firstn_S by assumption. destruct (Nat.eqb_spec x (nth k a 0)) as [->|].
  - rewrite orb_true_r. apply lookup_nth; auto. rewrite (nth_error_nth' _ 0) by assumption. reflexivity.
  - rewrite orb_false_r. reflexivity.
Qed.

Section Put.
Variable d1 d2 : list nat.
Hypothesis H1 : increasing d1.
Hypothesis H2 : increasing d2.
Variable st : merge_state.
Hypothesis M : merged d1 d2 (length d1) (length d2) st.
Notation dres := (ms_result st).
Notation dinn := (ms_inner st).

Lemma res_in : forall x, In x dres <-> (In x d1 /\ ~ In x d2) \/ (In x d2 /\ ~ In x d1).
Proof.
  intros x. rewrite (mg_res_in _ _ _ _ _ M). split; (intros [G|G]; [left|right]).
  - destruct G as [p [Hp [<- G]]]. split; [apply nth_In; assumption|assumption].
  - destruct G as [p [Hp [<- G]]]. split; [apply nth_In; assumption|assumption].
  - destruct G as [G1 G2]. apply in_nth_ex in G1 as [p [Hp G1]]. exists p. auto.
  - destruct G as [G1 G2]. apply in_nth_ex in G1 as [p [Hp G1]]. exists p. auto.
Qed.
Lemma inn_in : forall x, In x dinn <-> In x d1 /\ In x d2.
Proof.
  intros x. rewrite (mg_inn_in _ _ _ _ _ M). split.
  - intros (p & q & Hp & Hq & <- & G). split; [apply nth_In; assumption|]. rewrite <- G. apply nth_In. assumption.
  - intros [G1 G2]. apply in_nth_ex in G1 as [p [Hp G1]], G2 as [q [Hq G2]]. exists p, q. auto.
Qed.

Lemma ND1 : NoDup d1. Proof. apply increasing_NoDup. assumption. Qed.
Lemma ND2 : NoDup d2. Proof. apply increasing_NoDup. assumption. Qed.
Lemma NDr : NoDup dres. Proof. apply increasing_NoDup, (mg_res_inc _ _ _ _ _ M). Qed.
Lemma NDi : NoDup dinn. Proof. apply increasing_NoDup, (mg_inn_inc _ _ _ _ _ M). Qed.

Lemma put_result_ok : forall mr f1 f2, length mr = length dres ->
  inner_put_result st mr (map f1 d1) (map f2 d2) = Ok (map (over dres mr f1) d1, map (over dres mr f2) d2).
Proof.
  intros mr f1 f2 Hl. unfold inner_put_result.
  match goal with |- for_each ?bd _ _ _ = _ => set (body := bd) end.
  destruct (for_each_state _ (fun k '((m1, m2) : list nat * list nat) => m1 = map (overk k dres mr f1) d1 /\ m2 = map (overk k dres mr f2) d2)
    body (length dres) 0 (map f1 d1, map f2 d2)) as [[m1 m2] [E [G1 G2]]].
  - intros k [m1 m2] Hk [-> ->]. unfold body.
    rewrite (vget_nth_ok _ _ k false) by (rewrite (mg_len_in1 _ _ _ _ _ M); lia). cbn [bind].
    rewrite (vget_nth_ok _ _ k 0) by (rewrite (mg_len_free _ _ _ _ _ M); lia). cbn [bind].
    rewrite (vget_nth_ok _ mr k 0) by lia. cbn [bind]. pose proof (mg_free _ _ _ _ _ M k ltac:(lia)) as F.
    assert (Hin : In (nth k dres 0) dres) by (apply nth_In; lia). apply res_in in Hin.
    replace (k + 1) with (S k) by lia.
    assert (Skip : forall d f, ~ In (nth k dres 0) d -> map (overk k dres mr f) d = map (overk (S k) dres mr f) d).
    { intros d f Hn. apply map_ext_in. intros x Hx. rewrite overk_S by (auto; try apply NDr; lia). destruct (Nat.eqb_spec x (nth k dres 0)) as [->|]; [contradiction|reflexivity]. }
    assert (Put : forall d f p, NoDup d -> p < length d -> nth p d 0 = nth k dres 0 -> upd (map (overk k dres mr f) d) p (nth k mr 0) = map (overk (S k) dres mr f) d).
    { intros d f p Hn Hp Hx. rewrite (upd_map d _ p _ (nth k dres 0)) by assumption. apply map_ext. intros x. rewrite overk_S by (auto; try apply NDr; lia). reflexivity. }
    destruct (nth k (ms_in1 st) false).
    + destruct F as [F1 F2]. rewrite vset_ok by (rewrite map_length; assumption). cbn [bind]. eexists. split; [reflexivity|].
      split; [apply Put; auto; apply ND1|]. apply Skip. assert (In (nth k dres 0) d1) by (rewrite <- F2; apply nth_In; assumption). tauto.
    + destruct F as [F1 F2]. rewrite vset_ok by (rewrite map_length; assumption). cbn [bind]. eexists. split; [reflexivity|].
      split; [|apply Put; auto; apply ND2]. apply Skip. assert (In (nth k dres 0) d2) by (rewrite <- F2; apply nth_In; assumption). tauto.
  - split; apply map_ext; reflexivity.
  - rewrite E. f_equal. cbn [plus] in *. subst. f_equal; apply map_ext; intros; apply overk_all.
Qed.

Lemma put_inner_ok : forall mq f1 f2, length mq = length dinn ->
  inner_put_inner st mq (map f1 d1) (map f2 d2) = Ok (map (over dinn mq f1) d1, map (over dinn mq f2) d2).
Proof.
  intros mq f1 f2 Hl. unfold inner_put_inner. destruct (mg_pos1 _ _ _ _ _ M) as [P1 P1']. destruct (mg_pos2 _ _ _ _ _ M) as [P2 P2'].
  match goal with |- for_each ?bd _ _ _ = _ => set (body := bd) end.
  destruct (for_each_state _ (fun k '((m1, m2) : list nat * list nat) => m1 = map (overk k dinn mq f1) d1 /\ m2 = map (overk k dinn mq f2) d2)
    body (length dinn) 0 (map f1 d1, map f2 d2)) as [[m1 m2] [E [G1 G2]]].
  - intros k [m1 m2] Hk [-> ->]. unfold body.
    rewrite (vget_nth_ok _ (ms_ind1 st) k 0) by lia. cbn [bind]. rewrite (vget_nth_ok _ (ms_ind2 st) k 0) by lia. cbn [bind].
    rewrite (vget_nth_ok _ mq k 0) by lia. cbn [bind]. destruct (P1' k ltac:(lia)) as [Q1 Q1']. destruct (P2' k ltac:(lia)) as [Q2 Q2'].
    rewrite vset_ok by (rewrite map_length; assumption). cbn [bind]. rewrite vset_ok by (rewrite map_length; assumption). cbn [bind].
    eexists. split; [reflexivity|]. replace (k + 1) with (S k) by lia.
    assert (Put : forall d f p, NoDup d -> p < length d -> nth p d 0 = nth k dinn 0 -> upd (map (overk k dinn mq f) d) p (nth k mq 0) = map (overk (S k) dinn mq f) d).
    { intros d f p Hn Hp Hx. rewrite (upd_map d _ p _ (nth k dinn 0)) by assumption. apply map_ext. intros x. rewrite overk_S by (auto; try apply NDi; lia). reflexivity. }
    split; apply Put; auto; [apply ND1|apply ND2].
  - split; apply map_ext; reflexivity.
  - rewrite E. f_equal. cbn [plus] in *. subst. f_equal; apply map_ext; intros; apply overk_all.
Qed.

(** the two multi-indices *)
Definition pick (d r q : list nat) : list nat := reindex (dres ++ dinn) d (r ++ q).

Lemma lookup_app : forall a b m n x, length m = length a -> lookup (a ++ b) (m ++ n) x = if memb x a then lookup a m x else lookup b n x.
Proof.
  induction a as [|y a IH]; intros b m n x Hl; destruct m as [|e m]; try discriminate; [reflexivity|]. injection Hl as Hl. cbn [app lookup memb existsb].
  rewrite (Nat.eqb_sym x y). destruct (y =? x); [reflexivity|]. cbn [orb]. apply IH. assumption.
Qed.

Lemma pick_over : forall d r q, length r = length dres -> pick d r q = map (over dinn q (over dres r (fun _ => 0))) d.
Proof.
  intros d r q Hl. unfold pick, reindex. apply map_ext. intros x. rewrite lookup_app by assumption. unfold over at 1.
  destruct (memb x dinn) eqn:E.
  - replace (memb x dres) with false; [reflexivity|]. symmetry. apply memb_notIn. intros G. apply res_in in G. apply memb_In in E. apply inn_in in E. tauto.
  - rewrite over_lookup. destruct (memb x dres) eqn:E'; [reflexivity|]. rewrite lookup_notin by (apply memb_notIn; assumption).
    symmetry. apply lookup_notin. apply memb_notIn. assumption.
Qed.

Lemma over_over : forall a m m' f x, over a m (over a m' f) x = over a m f x.
Proof. intros. unfold over. destruct (memb x a); reflexivity. Qed.

End Put.

Section Sum.
Variable N : num.
(** Adding zero changes no product and no sum; other numbers may be rounded. *)
Hypothesis Hadd0 : forall x y : N, nadd n0 (nmul x y) = nmul x y.
Hypothesis Hadd00 : nadd (n0 : N) n0 = n0.
Hypothesis Haddr : forall x y : N, nadd (nadd x y) n0 = nadd x y.
Hypothesis mul0l : forall x : N, nmul n0 x = n0.
Hypothesis mul0r : forall x : N, nmul x n0 = n0.

Lemma points_spec : forall s d degree, usable s (S d) degree -> points s (S d) degree = spec_list s d degree.
Proof. intros s d degree Hu. unfold points. rewrite s_list_Ok by (apply usable_set_ok; assumption). reflexivity. Qed.

Lemma enum_seq_fold : forall A (f : A -> N) l (r : list N), length r = length l ->
  fold_left (fun st (x : nat * A) => upd st (fst x) (f (snd x))) (enum l) r = map f l.
Proof.
  intros A f l r Hr.
  destruct (fold_scatter _ _ (fun _ => true) fst (fun x : nat * A => f (snd x)) n0 (enum l) r) as [Hl [G1 G2]].
  { intros [i m] [i' m'] H H' _ _ Ep. cbn [fst snd] in *. subst i'. apply enum_nth in H, H'. congruence. }
  { intros [i m] H _. cbn [fst]. rewrite Hr. apply enum_nth in H. apply nth_error_Some. congruence. }
  cbv beta iota in Hl, G1, G2. apply list_ext_nth with (d := n0); [rewrite map_length; congruence|]. intros p Hp. rewrite Hl in Hp.
  destruct (nth_error l p) as [x|] eqn:E; [|apply nth_error_None in E; lia].
  rewrite (nth_error_nth (map f l) p n0 (x := f x)) by (rewrite nth_error_map, E; reflexivity).
  apply (G1 (p, x)); [|reflexivity]. apply enum_nth. assumption.
Qed.

Lemma upd_same : forall A (v : list A) i d, i < length v -> upd v i (nth i v d) = v.
Proof.
  intros A. induction v as [|x v IH]; intros i d Hi; [reflexivity|]. destruct i as [|i]; [reflexivity|]. cbn [upd nth]. f_equal. apply IH. cbn [length] in Hi. lia.
Qed.
Lemma upd_upd : forall A (v : list A) i x y, upd (upd v i x) i y = upd v i y.
Proof. intros A. induction v as [|z v IH]; intros i x y; [reflexivity|]. destruct i as [|i]; [reflexivity|]. cbn [upd]. f_equal. apply IH. Qed.

(** filling position i on turn i, starting from zeros *)
Lemma for_in_pos : forall A (l : list A) (f : A -> N) body,
  (forall i x res, In x l -> i < length l -> length res = length l -> nth i res n0 = n0 -> body (i, x) res = Ok (upd res i (f x))) ->
  for_in body (enum l) (repeat n0 (length l)) = Ok (fold_left (fun st (x : nat * A) => upd st (fst x) (f (snd x))) (enum l) (repeat n0 (length l))).
Proof.
  intros A l f body H.
  assert (G : forall t k res, length res = length l -> k + length t = length l -> incl t l -> (forall i, k <= i -> nth i res n0 = n0) ->
    for_in body (combine (seq k (length t)) t) res = Ok (fold_left (fun st (x : nat * A) => upd st (fst x) (f (snd x))) (combine (seq k (length t)) t) res)).
  { induction t as [|x t IH]; intros k res Hl Hk Ht Hz; [reflexivity|]. cbn [length seq combine for_in fold_left fst snd]. cbn [length] in Hk.
    rewrite H; [|apply Ht; left; reflexivity|lia|assumption|apply Hz; lia]. cbn [bind]. apply IH; [rewrite upd_length; assumption|lia|intros z Hz'; apply Ht; right; assumption|].
    intros i Hi. rewrite nth_upd_neq by lia. apply Hz. lia. }
  unfold enum. apply G; [apply repeat_length|reflexivity|intros z Hz; exact Hz|intros; apply nth_repeat].
Qed.

Variable d1 d2 : list nat.
Hypothesis H1 : increasing d1.
Hypothesis H2 : increasing d2.
Variable (s : iset) (p1 p2 degree : nat).
Hypothesis L1 : length d1 = S p1.
Hypothesis L2 : length d2 = S p2.
Hypothesis U1 : usable s (S p1) degree.
Hypothesis U2 : usable s (S p2) degree.
Variable v1 v2 : list N.
Notation l1 := (spec_list s p1 degree).
Notation l2 := (spec_list s p2 degree).
Hypothesis V1 : length v1 = length l1.
Hypothesis V2 : length v2 = length l2.

Definition term (dres dinn r q : list nat) : N :=
  nmul (value n0 l1 v1 (reindex (dres ++ dinn) d1 (r ++ q))) (value n0 l2 v2 (reindex (dres ++ dinn) d2 (r ++ q))).

Lemma in_list1 : forall m, length m = S p1 -> in_set s degree m -> In m l1.
Proof. intros. apply in_spec_list. split; assumption. Qed.

Lemma inner_list : exists dres dinn out, increasing dres /\ increasing dinn /\
  (forall x, In x dres <-> (In x d1 /\ ~ In x d2) \/ (In x d2 /\ ~ In x d1)) /\ (forall x, In x dinn <-> In x d1 /\ In x d2) /\
  ((dres <> [] -> usable s (length dres) degree) -> inner N s v1 v2 d1 d2 = Ok out /\
   out = map (fun r => nsum (map (term dres dinn r) (points s (length dinn) degree))) (points s (length dres) degree)).
Proof.
  destruct (inner_merge_ok d1 d2 H1 H2 (length d1 + length d2) 0 0
    {| ms_in1 := []; ms_free := []; ms_result := []; ms_inner := []; ms_ind1 := []; ms_ind2 := [] |}) as [st [E M]].
  { constructor; cbn [ms_result ms_inner ms_in1 ms_free ms_ind1 ms_ind2].
    - lia.
    - lia.
    - intros x. split; [contradiction|]. intros [[p [Hp _]]|[p [Hp _]]]; lia.
    - intros x. split; [contradiction|]. intros (p & q & Hp & _); lia.
    - constructor.
    - constructor.
    - intros; lia.
    - intros; lia.
    - reflexivity.
    - reflexivity.
    - cbn [length]. intros; lia.
    - split; [reflexivity|]. cbn [length]. intros; lia.
    - split; [reflexivity|]. cbn [length]. intros; lia. }
  { lia. }
  exists (ms_result st), (ms_inner st). eexists. split; [apply (mg_res_inc _ _ _ _ _ M)|]. split; [apply (mg_inn_inc _ _ _ _ _ M)|].
  split; [apply (res_in d1 d2 st M)|]. split; [apply (inn_in d1 d2 st M)|]. intros Ures. split; [|reflexivity].
  set (dres := ms_result st) in *. set (dinn := ms_inner st) in *.
  assert (Rin : forall x, In x dres <-> (In x d1 /\ ~ In x d2) \/ (In x d2 /\ ~ In x d1)) by (apply (res_in d1 d2 st M)).
  assert (Iin : forall x, In x dinn <-> In x d1 /\ In x d2) by (apply (inn_in d1 d2 st M)).
  assert (Ires : increasing dres) by (apply (mg_res_inc _ _ _ _ _ M)). assert (Iinn : increasing dinn) by (apply (mg_inn_inc _ _ _ _ _ M)).
  unfold inner. rewrite E. cbn [bind]. fold dres dinn. unfold usize. rewrite V1, L1.
  rewrite usable_get_degree by assumption. cbn [bind]. rewrite L2. rewrite !usable_make_iterator by assumption. cbn [bind].
  assert (Hinn_le : length dinn <= S p1) by (rewrite <- L1; apply NoDup_incl_length; [apply increasing_NoDup; assumption|intros x Hx; apply Iin in Hx; tauto]).
  (* terms *)
  assert (T1 : forall m, In m l1 -> exists x, (ind <- it_index (fresh s p1 degree) m;; vget v1 ind) = Ok x /\ x = value n0 l1 v1 m).
  { intros m Hm. rewrite it_index_idx by assumption. cbn [bind]. rewrite (vget_nth_ok _ v1 _ n0) by (rewrite V1; apply idx_lt; assumption).
    eexists. split; [reflexivity|]. symmetry. apply value_idx; auto. apply NoDup_spec_list. }
  assert (T2 : forall m, In m l2 -> exists x, (ind <- it_index (fresh s p2 degree) m;; vget v2 ind) = Ok x /\ x = value n0 l2 v2 m).
  { intros m Hm. rewrite it_index_idx by assumption. cbn [bind]. rewrite (vget_nth_ok _ v2 _ n0) by (rewrite V2; apply idx_lt; assumption).
    eexists. split; [reflexivity|]. symmetry. apply value_idx; auto. apply NoDup_spec_list. }
  assert (Z1 : repeat 0 (S p1) = map (fun _ => 0) d1) by (rewrite <- L1; apply repeat_map0).
  assert (Z2 : repeat 0 (S p2) = map (fun _ => 0) d2) by (rewrite <- L2; apply repeat_map0).
  destruct (Nat.eqb_spec (length dinn) 0) as [Ei|Ei].
  - (* disjoint directions *)
    assert (Edinn : dinn = []) by (destruct dinn; [reflexivity|discriminate]).
    assert (Hsub : incl d1 dres /\ incl d2 dres).
    { split; intros x Hx; apply Rin; [left|right]; (split; [assumption|]); intros G; assert (Hbad : In x dinn) by (apply Iin; split; assumption); rewrite Edinn in Hbad; contradiction. }
    assert (Hne : dres <> []) by (destruct d1 as [|x d1']; [discriminate|]; intros G; destruct Hsub as [Hs _]; specialize (Hs x (or_introl eq_refl)); rewrite G in Hs; contradiction).
    specialize (Ures Hne). destruct (length dres) as [|pr] eqn:Er; [destruct dres; [contradiction|discriminate]|].
    rewrite usable_make_iterator by assumption. cbn [bind]. rewrite usable_s_size by assumption. cbn [bind]. rewrite Nat2Z.id.
    rewrite it_for_fresh by (apply usable_set_ok; assumption). rewrite points_spec by assumption. set (lr := spec_list s pr degree).
    assert (Ep : points s (length dinn) degree = [[]]) by (rewrite Ei; reflexivity). rewrite Ep. cbn [map].
    assert (Hpick : forall d r, incl d dres -> increasing d -> In r lr -> in_set s degree (reindex (dres ++ dinn) d (r ++ []))).
    { intros d r Hs Hd Hr. apply in_spec_list in Hr as [_ Hr]. rewrite Edinn, !app_nil_r. apply in_set_sub; assumption. }
    rewrite <- (enum_seq_fold _ (fun r => nsum [term dres dinn r []]) lr (repeat n0 (length lr))) by apply repeat_length.
    refine (proj1 (for_in_fold _ _ (fun r : list N => length r = length lr) _ _ _ _ _ _)); [|apply repeat_length].
    intros [i r] res Hin Hres. apply enum_nth in Hin. assert (Hr : In r lr) by (eapply nth_error_In; exact Hin).
    assert (Hi : i < length lr) by (apply nth_error_Some; congruence).
    assert (Lr : length r = length (ms_result st)) by (apply in_spec_list in Hr; fold dres; lia).
    rewrite Z1, Z2, (put_result_ok d1 d2 H1 H2 st M r) by assumption. cbn [bind].
    assert (Q : forall d, map (over (ms_result st) r (fun _ => 0)) d = reindex (dres ++ dinn) d (r ++ [])).
    { intros d. rewrite Edinn, !app_nil_r. unfold reindex. apply map_ext. intros x. apply over_lookup. }
    rewrite !Q. destruct (T1 (reindex (dres ++ dinn) d1 (r ++ []))) as [x1 [X1 Y1]].
    { apply in_spec_list. split; [rewrite reindex_length; assumption|]. apply Hpick; tauto. }
    destruct (T2 (reindex (dres ++ dinn) d2 (r ++ []))) as [x2 [X2 Y2]].
    { apply in_spec_list. split; [rewrite reindex_length; assumption|]. apply Hpick; tauto. }
    destruct (it_index (fresh s p1 degree) _); try discriminate. cbn [bind] in *. destruct (it_index (fresh s p2 degree) _); try discriminate. cbn [bind] in *.
    rewrite X1. cbn [bind]. rewrite X2. cbn [bind]. rewrite vset_ok by lia. cbn [fst snd]. split; [|rewrite upd_length; assumption].
    f_equal. f_equal. unfold nsum, term. cbn [fold_left]. rewrite Hadd0, Y1, Y2. reflexivity.
  - destruct (length dinn) as [|pi] eqn:Epi; [contradiction|].
    assert (Uinn : usable s (S pi) degree) by (eapply usable_sub; [exact U1|lia]).
    rewrite (points_spec s pi) by assumption. set (li := spec_list s pi degree).
    destruct (Nat.eqb_spec (length dres) 0) as [Er|Er].
    + (* identical directions *)
      assert (Edres : dres = []) by (destruct dres; [reflexivity|discriminate]).
      assert (Edir : d1 = d2 /\ dinn = d1).
      { assert (G1 : incl d1 d2). { intros x Hx. destruct (in_dec Nat.eq_dec x d2); [assumption|]. assert (Hbad : In x dres) by (apply Rin; left; split; assumption). rewrite Edres in Hbad. contradiction. }
        assert (G2 : incl d2 d1). { intros x Hx. destruct (in_dec Nat.eq_dec x d1); [assumption|]. assert (Hbad : In x dres) by (apply Rin; right; split; assumption). rewrite Edres in Hbad. contradiction. }
        split; apply increasing_perm; auto; apply NoDup_Permutation; try (apply increasing_NoDup; assumption).
        - intros x. split; [apply G1|apply G2].
        - intros x. rewrite Iin. split; [tauto|]. intros Hx. split; [assumption|apply G1; assumption]. }
      destruct Edir as [Ed Edi]. rewrite usable_make_iterator by assumption. cbn [bind].
      rewrite reset_fresh, it_for_fresh by (apply usable_set_ok; assumption). fold li.
      assert (Ep : points s (length dres) degree = [[]]) by (rewrite Er; reflexivity). rewrite Ep. cbn [map].
      match goal with |- (_ <- for_in ?bd _ _ ;; _) = _ => set (body := bd) end.
      assert (G : forall t acc f1 f2, incl t (enum li) -> (forall x, over dinn (repeat 0 (S pi)) f1 x = over dinn (repeat 0 (S pi)) (fun _ => 0) x) ->
        (forall x, over dinn (repeat 0 (S pi)) f2 x = over dinn (repeat 0 (S pi)) (fun _ => 0) x) ->
        exists m1 m2, for_in body t ([acc], map f1 d1, map f2 d2) = Ok ([fold_left nadd (map (term dres dinn []) (map snd t)) acc], m1, m2)).
      { induction t as [|[i q] t IH]; intros acc f1 f2 Ht F1 F2; [exists (map f1 d1), (map f2 d2); reflexivity|].
        cbn [for_in map fold_left snd]. unfold body at 1. assert (Hq : In (i, q) (enum li)) by (apply Ht; left; reflexivity).
        apply enum_nth in Hq. apply nth_error_In in Hq. assert (Lq : length q = length dinn) by (apply in_spec_list in Hq; lia).
        rewrite (put_inner_ok d1 d2 H1 H2 st M q) by exact Lq. cbn [bind]. fold dinn.
        assert (Q1 : map (over dinn q f1) d1 = reindex (dres ++ dinn) d1 ([] ++ q)).
        { rewrite Edres. cbn [app]. unfold reindex. apply map_ext_in. intros x Hx. unfold over. rewrite <- Edi in Hx. apply memb_In in Hx. rewrite Hx. reflexivity. }
        assert (Q2 : map (over dinn q f2) d2 = reindex (dres ++ dinn) d2 ([] ++ q)).
        { rewrite Edres. cbn [app]. unfold reindex. apply map_ext_in. intros x Hx. unfold over. rewrite <- Ed, <- Edi in Hx. apply memb_In in Hx. rewrite Hx. reflexivity. }
        assert (In1 : In (map (over dinn q f1) d1) l1).
        { rewrite Q1. apply in_spec_list. split; [rewrite reindex_length; assumption|]. rewrite Edres. cbn [app]. rewrite Edi.
          rewrite reindex_id by (try (apply increasing_NoDup; assumption); congruence). apply in_spec_list in Hq. tauto. }
        assert (In2 : In (map (over dinn q f2) d2) l2).
        { rewrite Q2. apply in_spec_list. split; [rewrite reindex_length; assumption|]. rewrite Edres. cbn [app]. rewrite Edi, Ed.
          rewrite reindex_id by (try (apply increasing_NoDup; assumption); congruence). apply in_spec_list in Hq. tauto. }
        destruct (T1 _ In1) as [x1 [X1 Y1]]. destruct (T2 _ In2) as [x2 [X2 Y2]].
        destruct (it_index (fresh s p1 degree) _); try discriminate. cbn [bind] in *. destruct (it_index (fresh s p2 degree) _); try discriminate. cbn [bind] in *.
        rewrite X1. cbn [bind]. rewrite X2. cbn [bind]. change (vget [acc] 0) with (Ok acc). cbn [bind].
        change (vset [acc] 0 (nadd acc (nmul x1 x2))) with (Ok [nadd acc (nmul x1 x2)]). cbn [bind].
        replace (nadd acc (nmul x1 x2)) with (nadd acc (term dres dinn [] q)) by (unfold term; rewrite Y1, Y2, Q1, Q2; reflexivity).
        apply IH; [intros z Hz; apply Ht; right; assumption| |]; intros x; rewrite over_over; [apply F1|apply F2]. }
      rewrite Z1, Z2. destruct (G (enum li) n0 (fun _ => 0) (fun _ => 0)) as (m1 & m2 & Eg); [intros z Hz; exact Hz|reflexivity|reflexivity|].
      rewrite Eg. cbn [bind]. rewrite map_snd_enum. reflexivity.
    + (* general case *)
      destruct (length dres) as [|pr] eqn:Epr; [contradiction|].
      assert (Hne : dres <> []) by (intros G; rewrite G in Epr; discriminate). specialize (Ures Hne).
      rewrite usable_s_size by assumption. cbn [bind]. rewrite Nat2Z.id. rewrite !usable_make_iterator by assumption. cbn [bind].
      rewrite it_for_fresh by (apply usable_set_ok; assumption). rewrite points_spec by assumption. set (lr := spec_list s pr degree).
      rewrite <- (enum_seq_fold _ (fun r => nsum (map (term dres dinn r) li)) lr (repeat n0 (length lr))) by apply repeat_length.
      pose proof (for_in_pos _ lr (fun r => nsum (map (term dres dinn r) li))
        (fun '(i, mr) result =>
          '(m1, m2) <- inner_put_result st mr (repeat 0 (S p1)) (repeat 0 (S p2));;
          '(result0, _, _) <- it_for (fun (_ : nat) (mi : list nat) '(result0, m0, m3) =>
              '(m4, m5) <- inner_put_inner st mi m0 m3;;
              if negb (it_has (fresh s p1 degree) m4) || negb (it_has (fresh s p2 degree) m5) then Ok (result0, m4, m5)
              else ind1 <- it_index (fresh s p1 degree) m4;; ind2 <- it_index (fresh s p2 degree) m5;;
                x1 <- vget v1 ind1;; x2 <- vget v2 ind2;; ri <- vget result0 i;;
                result1 <- vset result0 i (nadd ri (nmul x1 x2));; Ok (result1, m4, m5))
            (it_reset (fresh s pi degree)) (result, m1, m2);;
          Ok result0))
        as Gfin. cbv beta in Gfin. refine (Gfin _). clear Gfin.
      intros i r res Hr Hi Hlen Hzero.
      assert (Lr : length r = length (ms_result st)) by (apply in_spec_list in Hr; fold dres; lia).
      rewrite Z1, Z2, (put_result_ok d1 d2 H1 H2 st M r) by assumption. cbn [bind]. fold dres.
      rewrite reset_fresh, it_for_fresh by (apply usable_set_ok; assumption). fold li.
      match goal with |- (_ <- for_in ?bd _ _ ;; _) = _ => set (body := bd) end.
      set (summed := fun x : N => x = n0 \/ exists a b, x = nadd a b).
      assert (Hs0 : forall x, summed x -> nadd x n0 = x) by (intros x [->|(a & b & ->)]; [apply Hadd00|apply Haddr]).
      assert (G : forall t res f1 f2, incl t (enum li) -> i < length res -> summed (nth i res n0) ->
        (forall q x, over dinn q f1 x = over dinn q (over dres r (fun _ => 0)) x) ->
        (forall q x, over dinn q f2 x = over dinn q (over dres r (fun _ => 0)) x) ->
        exists m1 m2, for_in body t (res, map f1 d1, map f2 d2) = Ok (upd res i (fold_left nadd (map (term dres dinn r) (map snd t)) (nth i res n0)), m1, m2)).
      { clear res Hlen Hzero. induction t as [|[j q] t IH]; intros res f1 f2 Ht Hires Hsum F1 F2.
        - exists (map f1 d1), (map f2 d2). cbn [for_in map fold_left]. f_equal. f_equal. f_equal. symmetry. apply upd_same. assumption.
        - cbn [for_in map fold_left snd]. unfold body at 1. assert (Hq : In (j, q) (enum li)) by (apply Ht; left; reflexivity).
          apply enum_nth in Hq. apply nth_error_In in Hq. assert (Lq : length q = length dinn) by (apply in_spec_list in Hq; lia).
          rewrite (put_inner_ok d1 d2 H1 H2 st M q) by exact Lq. cbn [bind]. fold dinn.
          assert (Q1 : map (over dinn q f1) d1 = reindex (dres ++ dinn) d1 (r ++ q)).
          { rewrite (map_ext _ _ (F1 q)). symmetry. apply (pick_over d1 d2 st M). exact Lr. }
          assert (Q2 : map (over dinn q f2) d2 = reindex (dres ++ dinn) d2 (r ++ q)).
          { rewrite (map_ext _ _ (F2 q)). symmetry. apply (pick_over d1 d2 st M). exact Lr. }
          assert (F1' : forall q' x, over dinn q' (over dinn q f1) x = over dinn q' (over dres r (fun _ => 0)) x) by (intros; rewrite over_over; apply F1).
          assert (F2' : forall q' x, over dinn q' (over dinn q f2) x = over dinn q' (over dres r (fun _ => 0)) x) by (intros; rewrite over_over; apply F2).
          assert (Ht' : incl t (enum li)) by (intros z Hz; apply Ht; right; assumption).
          rewrite !it_has_inb.
          destruct (inb (map (over dinn q f1) d1) l1) eqn:S1; cbn [negb orb].
          + destruct (inb (map (over dinn q f2) d2) l2) eqn:S2; cbn [negb orb].
            * apply inb_In in S1, S2. destruct (T1 _ S1) as [x1 [X1 Y1]]. destruct (T2 _ S2) as [x2 [X2 Y2]].
              destruct (it_index (fresh s p1 degree) _); try discriminate. cbn [bind] in *. destruct (it_index (fresh s p2 degree) _); try discriminate. cbn [bind] in *.
              rewrite X1. cbn [bind]. rewrite X2. cbn [bind]. rewrite (vget_nth_ok _ res i n0) by assumption. cbn [bind].
              rewrite vset_ok by assumption. cbn [bind].
              destruct (IH (upd res i (nadd (nth i res n0) (nmul x1 x2))) (over dinn q f1) (over dinn q f2) Ht') as (m1 & m2 & Eg); [rewrite upd_length; assumption|rewrite nth_upd_eq by assumption; right; eexists; eexists; reflexivity|assumption|assumption|].
              exists m1, m2. rewrite Eg. f_equal. f_equal. f_equal. rewrite nth_upd_eq by assumption. rewrite upd_upd. f_equal. f_equal. f_equal.
              unfold term. rewrite Y1, Y2, Q1, Q2. reflexivity.
            * assert (Ez : term dres dinn r q = n0).
              { unfold term. rewrite <- Q2, (value_notin _ n0 l2) by (rewrite <- inb_In, S2; discriminate). apply mul0r. }
              rewrite Ez, Hs0 by assumption. cbn [bind]. apply IH; assumption.
          + assert (Ez : term dres dinn r q = n0).
            { unfold term. rewrite <- Q1, (value_notin _ n0 l1) by (rewrite <- inb_In, S1; discriminate). apply mul0l. }
            rewrite Ez, Hs0 by assumption. cbn [bind]. apply IH; assumption. }
      destruct (G (enum li) res (over dres r (fun _ => 0)) (over dres r (fun _ => 0))) as (m1 & m2 & Eg); [intros z Hz; exact Hz|lia|left; exact Hzero|reflexivity|reflexivity|].
      rewrite Eg. cbn [bind]. rewrite map_snd_enum, Hzero. reflexivity.
Qed.

End Sum.
