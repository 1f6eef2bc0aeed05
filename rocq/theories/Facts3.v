(** Proofs behind Properties2: tensor products. *)
From Coq Require Import String List Bool Arith ZArith Lia Sorted Permutation.
From Verif Require Import Base Lists IndexModel Spec Machine IndexSet Degree Facts1 Num LinModel LinSpec LinBase MatBase Project Tensorize Dirs Sparse TensorMat Inner InnerSum Facts2.
Import ListNotations.

Lemma combine_map_r : forall A B C (g : B -> C) (la : list A) lb, combine la (map g lb) = map (fun x => (fst x, g (snd x))) (combine la lb).
Proof. intros A B C g. induction la as [|x la IH]; intros [|y lb]; try reflexivity. cbn [map combine fst snd]. f_equal. apply IH. Qed.

Section Facts3.
Variable N : num.

Lemma tensorize_vec_coef : forall s degree dirs (inputs : list (list N)) dim, dim = length (concat dirs) -> usable s dim degree ->
  dirs_ok dim dirs -> Forall2 (fun dj v => vec_for s (length dj) degree v) dirs inputs ->
  exists out, tensorize_vec N s inputs dirs = Ok out /\ vec_for s dim degree out /\
    forall m, index_of s dim degree m -> coef s dim degree out m = vproduct s dim degree dirs inputs m.
Proof.
  intros s degree dirs inputs dim Hdim Hu Hd H2. assert (Hsum : list_sum (map (@length nat) dirs) = dim).
  { rewrite Hdim. clear. induction dirs as [|d dirs IH]; [reflexivity|]. cbn [map concat]. rewrite list_sum_cons, app_length, IH. reflexivity. }
  clear Hdim. destruct (dim_S dim) as [d ->]; [apply Hu|].
  assert (Hsub : forall dj, In dj dirs -> points s (length dj) degree = spec_list s (pred (length dj)) degree).
  { intros dj Hj. apply (points_sub s (S d)); [assumption|]. apply dirs_in_length. unfold dirs_ok in Hd. rewrite Forall_forall in Hd. exact (Hd dj Hj). }
  rewrite (tensorize_vec_list N s d degree dirs inputs Hsum Hd Hu).
  - eexists. split; [reflexivity|]. unfold vec_for, coef. rewrite points_spec by assumption. split; [apply map_length|].
    intros m Hm. rewrite value_map by (apply in_spec_list; assumption). unfold vproduct. f_equal. apply map_ext_in. intros [dj v] Hj.
    apply in_combine_l in Hj. unfold factor, coef. cbn [fst snd]. rewrite Hsub by assumption. reflexivity.
  - clear Hsum Hd. induction H2 as [|dj v dirs inputs Hv H2 IH]; [constructor|]. constructor; [|apply IH; intros; apply Hsub; right; assumption].
    unfold vec_for in Hv. rewrite Hsub in Hv by (left; reflexivity). assumption.
Qed.

Section Laws.
Hypothesis L : num_laws N.

Lemma length_ge1 : forall (dj : list nat), dj <> [] -> 1 <= length dj.
Proof. intros [|x dj] H; [contradiction|cbn [length]; lia]. Qed.

Lemma sub_length : forall (dirs : list (list nat)) dj, In dj dirs -> length dj <= length (concat dirs).
Proof. induction dirs as [|d dirs IH]; intros dj H; [contradiction|]. cbn [concat]. rewrite app_length. destruct H as [->|H]; [lia|]. specialize (IH dj H). lia. Qed.

Lemma tensorize_sp_entry : forall s degree dirs (inputs : list (spmat N)) d, increasing d -> Permutation d (concat dirs) ->
  usable s (length d) degree -> Forall (fun dj => increasing dj /\ dj <> []) dirs ->
  Forall2 (fun dj A => sp_for s (length dj) degree A) dirs inputs ->
  exists C, tensorize_sps N s inputs dirs = Ok C /\ sp_for s (length d) degree C /\
    forall r c, index_of s (length d) degree r -> index_of s (length d) degree c ->
      entry s (length d) degree (dense C) r c = mproduct s degree d dirs (map (@dense N) inputs) r c.
Proof.
  intros s degree dirs inputs d Hd Hp Hu Hdirs H2. pose proof (Permutation_length Hp) as Hl.
  destruct (dim_S (length d)) as [p Ep]; [apply Hu|]. rewrite Ep in *.
  assert (Hnd : NoDup (concat dirs)) by (eapply Permutation_NoDup; [exact Hp|apply increasing_NoDup; assumption]).
  rewrite Forall_forall in Hdirs.
  assert (Hsub : forall dj, In dj dirs -> points s (length dj) degree = spec_list s (pred (length dj)) degree).
  { intros dj Hj. apply (points_sub s (S p)); [assumption|]. split; [apply length_ge1, (Hdirs dj Hj)|]. rewrite Hl. apply sub_length. assumption. }
  destruct (tensorize_sps_list N (law_mul_0 _ L) (mul0r N L) (law_mul_1 _ L) s p degree dirs inputs) as (d' & C & D1 & D2 & D3 & D4 & D5); auto.
  - apply Forall_forall. assumption.
  - clear - H2 Hsub. induction H2 as [|dj A dirs inputs HA H2 IH]; [constructor|]. constructor; [|apply IH; intros; apply Hsub; right; assumption].
    unfold sp_for in HA. rewrite Hsub in HA by (left; reflexivity). exact HA.
  - assert (d' = d) by (apply increasing_perm; auto; etransitivity; [exact D2|apply Permutation_sym; assumption]). subst d'.
    exists C. split; [assumption|]. unfold sp_for, entry. rewrite points_spec by assumption. split; [exact D4|].
    intros r c Hr Hc. rewrite D5 by (apply in_spec_list; assumption). unfold mproduct. f_equal.
    rewrite combine_map_r, map_map. apply map_ext_in. intros [dj A] Hj. apply in_combine_l in Hj. unfold mfactor, entry. cbn [fst snd]. rewrite Hsub by assumption. reflexivity.
Qed.

Lemma tensorize_mat_entry : forall s degree dirs (inputs : list (list (list N))) d, increasing d -> Permutation d (concat dirs) ->
  usable s (length d) degree -> Forall (fun dj => increasing dj /\ dj <> []) dirs ->
  Forall2 (fun dj A => mat_for s (length dj) degree A) dirs inputs ->
  exists C, tensorize_mats N s inputs dirs = Ok C /\ mat_for s (length d) degree C /\
    forall r c, index_of s (length d) degree r -> index_of s (length d) degree c ->
      entry s (length d) degree C r c = mproduct s degree d dirs inputs r c.
Proof.
  intros s degree dirs inputs d Hd Hp Hu Hdirs H2.
  assert (Hpos : forall dj, In dj dirs -> 0 < length (points s (length dj) degree)).
  { intros dj Hj. rewrite Forall_forall in Hdirs. destruct (Hdirs dj Hj) as [_ Hne]. apply length_ge1 in Hne.
    assert (Hus : usable s (length dj) degree) by (eapply usable_sub; [exact Hu|]; split; [assumption|]; rewrite (Permutation_length Hp); apply sub_length; assumption).
    destruct (points s (length dj) degree) eqn:E; [|cbn [length]; lia]. exfalso.
    assert (G : In (zeros (length dj)) (points s (length dj) degree)); [|rewrite E in G; contradiction].
    destruct (dim_S (length dj) Hne) as [k Ek]. rewrite Ek in *. rewrite points_spec by assumption.
    pose proof (iterator_list_first s k degree (usable_set_ok _ _ _ Hus)) as Hh. destruct (spec_list s k degree); [discriminate|]. injection Hh as ->. left. reflexivity. }
  assert (Hconv : exists Bs, mapM (to_spmat N) inputs = Ok Bs /\ map (@dense N) Bs = inputs /\ Forall2 (fun dj A => sp_for s (length dj) degree A) dirs Bs).
  { clear Hp Hdirs. induction H2 as [|dj A dirs inputs HA H2 IH]; [exists []; repeat split; constructor|].
    destruct (to_spmat_ok N (law_eqb _ L) _ _ A HA) as (B & E1 & E2 & E3); [apply Hpos; left; reflexivity|].
    destruct IH as (Bs & F1 & F2 & F3); [intros; apply Hpos; right; assumption|].
    exists (B :: Bs). cbn [mapM map]. rewrite E1, F1. split; [reflexivity|]. split; [congruence|]. constructor; [exact E2|assumption]. }
  destruct Hconv as (Bs & F1 & F2 & F3). destruct (tensorize_sp_entry s degree dirs Bs d Hd Hp Hu Hdirs F3) as (C & E & W & G).
  unfold tensorize_mats. rewrite F1. cbn [bind]. rewrite E. cbn [bind]. destruct W as [W1 [W2 W3]]. rewrite full_ok by assumption.
  eexists. split; [reflexivity|]. split; [unfold mat_for; rewrite <- W2 at 1; rewrite <- W3; apply dense_wf; assumption|].
  intros r c Hr Hc. rewrite G by assumption. rewrite F2. reflexivity.
Qed.

(** * order of the arguments *)
Lemma combine_split_l : forall A B (la : list A) (lb : list B), length la = length lb -> map fst (combine la lb) = la.
Proof. induction la as [|x la IH]; intros [|y lb] H; try discriminate; [reflexivity|]. cbn [combine map fst]. f_equal. apply IH. cbn [length] in H. lia. Qed.

Lemma Forall2_combine : forall A B (P : A -> B -> Prop) la lb, length la = length lb -> Forall2 P la lb <-> Forall (fun x => P (fst x) (snd x)) (combine la lb).
Proof.
  intros A B P. induction la as [|x la IH]; intros [|y lb] H; try discriminate; [split; constructor|]. cbn [combine length] in *.
  split; intros G; inversion G; subst; constructor; auto; apply IH; auto; lia.
Qed.

Lemma perm_concat : forall B (dirs dirs' : list (list nat)) (a a' : list B), length a = length dirs -> length a' = length dirs' ->
  Permutation (combine dirs a) (combine dirs' a') -> Permutation dirs dirs' /\ Permutation (concat dirs) (concat dirs').
Proof.
  intros B dirs dirs' a a' H H' Hp. apply (Permutation_map fst) in Hp. rewrite !combine_split_l in Hp by lia. split; [assumption|].
  clear - Hp. induction Hp; cbn [concat].
  - reflexivity.
  - apply Permutation_app_head. assumption.
  - rewrite !app_assoc. apply Permutation_app_tail, Permutation_app_comm.
  - etransitivity; eassumption.
Qed.

Lemma Forall_perm : forall A (P : A -> Prop) l l', Permutation l l' -> Forall P l -> Forall P l'.
Proof. intros A P l l' Hp H. rewrite Forall_forall in *. intros x Hx. apply H. eapply Permutation_in; [apply Permutation_sym; exact Hp|assumption]. Qed.

Lemma tensorize_vec_perm : forall s degree dirs dirs' (inputs inputs' : list (list N)), usable s (length (concat dirs)) degree ->
  dirs_ok (length (concat dirs)) dirs -> Forall2 (fun dj v => vec_for s (length dj) degree v) dirs inputs ->
  length inputs' = length dirs' -> Permutation (combine dirs inputs) (combine dirs' inputs') ->
  exists out, tensorize_vec N s inputs dirs = Ok out /\ tensorize_vec N s inputs' dirs' = Ok out.
Proof.
  intros s degree dirs dirs' inputs inputs' Hu Hd H2 Hl' Hp. pose proof (Forall2_length _ _ _ _ _ H2) as Hl.
  destruct (perm_concat _ dirs dirs' inputs inputs' ltac:(lia) Hl' Hp) as [P1 P2]. pose proof (Permutation_length P2) as Pl.
  destruct (tensorize_vec_coef s degree dirs inputs _ eq_refl Hu Hd H2) as (out & E & W & G).
  destruct (tensorize_vec_coef s degree dirs' inputs' (length (concat dirs)) ltac:(assumption) Hu) as (out' & E' & W' & G').
  - unfold dirs_ok in *. eapply Forall_perm; [exact P1|]. assumption.
  - apply Forall2_combine; [lia|]. eapply Forall_perm; [exact Hp|]. exact (proj1 (Forall2_combine _ _ _ _ _ Hl) H2).
  - exists out. split; [assumption|]. rewrite E'. f_equal. apply (coef_ext N s (length (concat dirs)) degree); auto.
    intros m Hm. rewrite G, G' by assumption. apply nprod_perm; [assumption|]. apply Permutation_map, Permutation_sym. assumption.
Qed.

Lemma tensorize_sp_perm : forall s degree dirs dirs' (inputs inputs' : list (spmat N)) d, increasing d -> Permutation d (concat dirs) ->
  usable s (length d) degree -> Forall (fun dj => increasing dj /\ dj <> []) dirs ->
  Forall2 (fun dj A => sp_for s (length dj) degree A) dirs inputs ->
  length inputs' = length dirs' -> Permutation (combine dirs inputs) (combine dirs' inputs') ->
  exists C C', tensorize_sps N s inputs dirs = Ok C /\ tensorize_sps N s inputs' dirs' = Ok C' /\ dense C = dense C'.
Proof.
  intros s degree dirs dirs' inputs inputs' d Hd Hpd Hu Hdirs H2 Hl' Hp. pose proof (Forall2_length _ _ _ _ _ H2) as Hl.
  destruct (perm_concat _ dirs dirs' inputs inputs' ltac:(lia) Hl' Hp) as [P1 P2].
  destruct (tensorize_sp_entry s degree dirs inputs d Hd Hpd Hu Hdirs H2) as (C & E & W & G).
  destruct (tensorize_sp_entry s degree dirs' inputs' d Hd) as (C' & E' & W' & G'); auto.
  - etransitivity; eassumption.
  - eapply Forall_perm; eassumption.
  - apply Forall2_combine; [lia|]. eapply Forall_perm; [exact Hp|]. exact (proj1 (Forall2_combine _ _ _ _ _ Hl) H2).
  - exists C, C'. split; [assumption|]. split; [assumption|]. 
    assert (mf : forall C : spmat N, sp_for s (length d) degree C -> mat_for s (length d) degree (dense C)).
    { intros X [X1 [X2 X3]]. unfold mat_for. rewrite <- X2 at 1. rewrite <- X3. apply dense_wf. assumption. }
    apply (entry_ext N s (length d) degree); auto. intros r c Hr Hc. rewrite G, G' by assumption. apply nprod_perm; [assumption|].
    rewrite !combine_map_r, !map_map. apply Permutation_map. assumption.
Qed.

(** * projection after tensorization *)
Lemma lookup_zeros : forall d n x, lookup d (zeros n) x = 0.
Proof. induction d as [|y d IH]; intros n x; [reflexivity|]. destruct n; [reflexivity|]. rewrite zeros_S. cbn [lookup]. rewrite IH. destruct (y =? x); reflexivity. Qed.

Lemma reindex_zeros : forall d d' m, (forall x, In x d' -> ~ In x d) -> reindex d d' m = zeros (length d').
Proof.
  intros d d' m H. unfold reindex. assert (E : map (lookup d m) d' = map (fun _ => 0) d').
  { apply map_ext_in. intros x Hx. apply lookup_notin, H. assumption. }
  rewrite E, <- repeat_map0. reflexivity.
Qed.

Lemma project_tensorize : forall s degree dirs1 dk dirs2 (in1 : list (list N)) vk in2 dim,
  dim = length (concat (dirs1 ++ dk :: dirs2)) -> usable s dim degree -> dirs_ok dim (dirs1 ++ dk :: dirs2) -> NoDup (concat (dirs1 ++ dk :: dirs2)) ->
  Forall2 (fun dj v => vec_for s (length dj) degree v) dirs1 in1 -> vec_for s (length dk) degree vk ->
  Forall2 (fun dj v => vec_for s (length dj) degree v) dirs2 in2 ->
  (s = Rectangle -> In 0 dk) ->
  exists t out, tensorize_vec N s (in1 ++ vk :: in2) (dirs1 ++ dk :: dirs2) = Ok t /\ project_vec N s t dim dk = Ok out /\
    out = map (nmul (nprod (map (fun '(dj, v) => coef s (length dj) degree v (zeros (length dj))) (combine (dirs1 ++ dirs2) (in1 ++ in2))))) vk.
Proof.
  intros s degree dirs1 dk dirs2 in1 vk in2 dim Hdim Hu Hd Hnd HA Hk HB Hrect.
  assert (H2 : Forall2 (fun dj v => vec_for s (length dj) degree v) (dirs1 ++ dk :: dirs2) (in1 ++ vk :: in2)) by (apply Forall2_app; [assumption|constructor; assumption]).
  destruct (tensorize_vec_coef s degree _ _ dim Hdim Hu Hd H2) as (t & E & W & G).
  assert (Hdk : increasing dk /\ dk <> [] /\ Forall (fun x => x < dim) dk).
  { unfold dirs_ok in Hd. rewrite Forall_forall in Hd. apply Hd. apply in_app_iff. right. left. reflexivity. }
  destruct Hdk as (K1 & K2 & K3). assert (Kd : dirs_in dim dk) by (split; [assumption|split; assumption]). pose proof (dirs_in_length _ _ Kd) as Kl.
  destruct (project_vec_coef N s dim degree dk t Hu W K1 K2 K3) as (out & Eo & Wo & Go).
  exists t, out. split; [assumption|]. split; [assumption|].
  assert (Uk : usable s (length dk) degree) by (eapply usable_sub; [exact Hu|assumption]).
  apply (coef_ext N s (length dk) degree); auto; [unfold vec_for; rewrite map_length; assumption|].
  intros m Hm. rewrite Go by assumption.
  assert (Hemb : index_of s dim degree (reindex dk (seq 0 dim) m)).
  { split; [rewrite reindex_length, seq_length; reflexivity|]. apply in_set_reindex; [apply seq_NoDup| |apply Hm].
    intros Hs x Hx Eh. specialize (Hrect Hs). destruct dk as [|y dk']; [contradiction|]. injection Eh as ->.
    destruct dim as [|dim']; [contradiction|]. cbn [seq tl] in Hx. apply in_seq in Hx. destruct Hrect as [->|Hin]; [lia|].
    inversion K1 as [|? ? _ Hf]; subst. rewrite Forall_forall in Hf. apply Hf in Hin. lia. }
  rewrite G by assumption. unfold coef at 1.
  replace (value n0 (points s (length dk) degree) (map (nmul (nprod (map (fun '(dj, v) => coef s (length dj) degree v (zeros (length dj)))
    (combine (dirs1 ++ dirs2) (in1 ++ in2))))) vk) m) with (nmul (nprod (map (fun '(dj, v) => coef s (length dj) degree v (zeros (length dj)))
    (combine (dirs1 ++ dirs2) (in1 ++ in2)))) (value n0 (points s (length dk) degree) vk m)).
  2: { rewrite <- (value_vmap _ _ n0 (nmul _)). rewrite mul0r by assumption. reflexivity. }
  pose proof (Forall2_length _ _ _ _ _ HA) as Hl1. pose proof (Forall2_length _ _ _ _ _ HB) as Hl2.
  assert (Hcomb : forall A B (a1 a2 : list A) (b1 b2 : list B), length a1 = length b1 -> combine (a1 ++ a2) (b1 ++ b2) = combine a1 b1 ++ combine a2 b2).
  { clear. intros A B. induction a1 as [|x a1 IH]; intros a2 [|y b1] b2 H; try discriminate; [reflexivity|]. cbn [app combine]. f_equal. apply IH. cbn [length] in H. lia. }
  unfold vproduct. rewrite !Hcomb by assumption. cbn [combine]. rewrite !map_app. cbn [map]. rewrite !nprod_app, nprod_cons by assumption.
  assert (Hself : reindex (seq 0 dim) dk (reindex dk (seq 0 dim) m) = m).
  { apply (restrict_embed dim dk m Kd). apply Hm. }
  rewrite Hself.
  assert (Hoth : forall dj, In dj (dirs1 ++ dirs2) -> reindex (seq 0 dim) dj (reindex dk (seq 0 dim) m) = zeros (length dj)).
  { intros dj Hj. rewrite reindex_reindex.
    - apply reindex_zeros. intros x Hx Hxk. rewrite concat_app in Hnd. cbn [concat] in Hnd. apply in_app_iff in Hj as [Hj|Hj].
      + apply (NoDup_app_disj _ _ _ Hnd x); [apply in_concat; exists dj; split; assumption|apply in_app_iff; left; assumption].
      + apply NoDup_app_r in Hnd. apply (NoDup_app_disj _ _ _ Hnd x); [assumption|apply in_concat; exists dj; split; assumption].
    - intros x Hx. left. unfold dirs_ok in Hd. rewrite Forall_forall in Hd. assert (Hj' : In dj (dirs1 ++ dk :: dirs2)).
      { apply in_app_iff in Hj as [Hj|Hj]; apply in_app_iff; [left; assumption|right; right; assumption]. }
      destruct (Hd dj Hj') as (_ & _ & F). rewrite Forall_forall in F. apply F in Hx. apply in_seq. lia. }
  assert (M1 : forall (a : list (list nat)) (b : list (list N)), incl a (dirs1 ++ dirs2) ->
    map (fun '(dj, v) => coef s (length dj) degree v (reindex (seq 0 dim) dj (reindex dk (seq 0 dim) m))) (combine a b) =
    map (fun '(dj, v) => coef s (length dj) degree v (zeros (length dj))) (combine a b)).
  { intros a b Hi. apply map_ext_in. intros [dj v] Hj. apply in_combine_l in Hj. rewrite Hoth by (apply Hi; assumption). reflexivity. }
  rewrite !M1 by (intros x Hx; apply in_app_iff; tauto). unfold coef at 2.
  rewrite (law_mul_comm _ L (value n0 (points s (length dk) degree) vk m)), (law_mul_assoc _ L). reflexivity.
Qed.

End Laws.
End Facts3.
