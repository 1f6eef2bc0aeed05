(** Facts on the functions of LibModel.v. *)
From Coq Require Import String List Bool Arith ZArith Lia Sorted.
From Verif Require Import Base Lists IndexModel Spec Num LinModel LinSpec LinBase MatBase Sparse Facts2 Facts3 CoreModel LibModel LibSpec.
Import ListNotations.
Local Open Scope nat_scope.

Lemma aligned_loop : forall (m : list nat) dir n i, i + n = length m ->
  for_loop (fun j (_ : unit) => x <- vget m j ;; if negb (x =? 0) && negb (j =? dir) then Ok (Return false) else Ok (Next tt)) n i tt =
  if forallb (fun j => (nth j m 0 =? 0) || (j =? dir)) (seq i n) then Ok (inr (length m, tt)) else Ok (inl false).
Proof.
  intros m dir n. induction n as [|n IH]; intros i Hi; [cbn; repeat f_equal; lia|]. cbn [for_loop seq forallb].
  assert (V : vget m i = Ok (nth i m 0)) by (unfold vget; rewrite (nth_error_nth' m 0) by lia; reflexivity). rewrite V. cbn [bind].
  rewrite <- negb_orb. destruct ((nth i m 0 =? 0) || (i =? dir)) eqn:B; cbn [negb bind andb]; [|reflexivity]. apply IH. lia.
Qed.

Theorem aligned_dir : forall m dir, exists b, is_aligned_dir m dir = Ok b /\ (b = true <-> forall j, j <> dir -> nth j m 0 = 0) /\ is_aligned m [dir] = Ok b.
Proof.
  intros m dir. set (b := forallb (fun j => (nth j m 0 =? 0) || (j =? dir)) (seq 0 (length m))).
  assert (A : b = true <-> forall j, j <> dir -> nth j m 0 = 0).
  { unfold b. rewrite forallb_forall. split.
    - intros H j Hj. destruct (le_lt_dec (length m) j) as [L|L]; [apply nth_overflow; exact L|]. specialize (H j ltac:(apply in_seq; lia)). apply orb_true_iff in H as [H|H]; [apply Nat.eqb_eq; exact H|apply Nat.eqb_eq in H; contradiction].
    - intros H j _. destruct (Nat.eqb_spec j dir) as [->|Hj]; [apply orb_true_r|]. rewrite (H j Hj). reflexivity. }
  exists b. split; [|split; [exact A|]].
  - unfold is_aligned_dir. rewrite (aligned_loop m dir (length m) 0 eq_refl). unfold b. destruct (forallb _ _); reflexivity.
  - rewrite is_aligned_ok. f_equal. apply eq_true_iff_eq. rewrite A. unfold alignedb. rewrite forallb_forall. split.
    + intros H j Hj. destruct (le_lt_dec (length m) j) as [L|L]; [apply nth_overflow; exact L|]. specialize (H j ltac:(apply in_seq; lia)). cbn in H.
      destruct (nth j m 0 =? 0) eqn:Z; [apply Nat.eqb_eq; exact Z|]. cbn in H. rewrite ?orb_false_r in H. apply Nat.eqb_eq in H. congruence.
    + intros H j _. destruct (Nat.eq_dec j dir) as [->|Hj]; [cbn; rewrite Nat.eqb_refl; apply orb_true_r|]. rewrite (H j Hj). reflexivity.
Qed.

Lemma u32_add : forall a b, u32 (a + u32 b) = u32 (a + b).
Proof. intros a b. unfold u32. apply Zplus_mod_idemp_r. Qed.
Lemma u32_mul_r : forall a b, u32 (a * u32 b) = u32 (a * b).
Proof. intros a b. unfold u32. apply Zmult_mod_idemp_r. Qed.
Lemma u32_mul_l : forall a b, u32 (u32 a * b) = u32 (a * b).
Proof. intros a b. unfold u32. apply Zmult_mod_idemp_l. Qed.
Lemma u32_add_l : forall a b, u32 (u32 a + b) = u32 (a + b).
Proof. intros a b. unfold u32. apply Zplus_mod_idemp_l. Qed.

Lemma hash_loop : forall base v i r un n, i + n = length v ->
  exists un', for_each (fun i '(result, unit) => x <- vget v i ;; Ok (u32 (result + u32 (Z.of_nat x * unit)), u32 (unit * u32 base))) n i (u32 r, u32 un) = Ok (u32 (r + un * digits base (skipn i v)), un').
Proof.
  intros base v i r un n. revert i r un. induction n as [|n IH]; intros i r un Hi.
  - exists (u32 un). cbn [for_each]. rewrite skipn_all2 by lia. cbn [digits]. rewrite Z.mul_0_r, Z.add_0_r. reflexivity.
  - cbn [for_each]. assert (V : vget v i = Ok (nth i v 0)) by (unfold vget; rewrite (nth_error_nth' v 0) by lia; reflexivity). rewrite V. cbn [bind].
    assert (E1 : forall x : Z, u32 (u32 r + u32 (x * u32 un)) = u32 (r + x * un)) by (intros x; rewrite u32_mul_r, u32_add, u32_add_l; reflexivity).
    assert (E2 : u32 (u32 un * u32 base) = u32 (un * base)) by (rewrite u32_mul_r, u32_mul_l; reflexivity). rewrite E1, E2.
    destruct (IH (S i) (r + Z.of_nat (nth i v 0%nat) * un)%Z (un * base)%Z ltac:(lia)) as (un' & H). exists un'. rewrite H. do 3 f_equal.
    assert (K : skipn i v = nth i v 0 :: skipn (S i) v). { clear - Hi. assert (L : i < length v) by lia. clear Hi. revert i L. induction v as [|x v IH]; intros i L; [cbn in L; lia|]. destruct i; [reflexivity|]. cbn [skipn nth]. apply IH. cbn in L. lia. }
    rewrite K. cbn [digits]. ring.
Qed.

Theorem hash_value : forall v degree, (- 2 ^ 31 <= degree < 2 ^ 31 - 1)%Z -> hash_multi_ind v degree = Ok (digits (degree + 1) v mod 2 ^ 32)%Z.
Proof.
  intros v degree Hd. unfold hash_multi_ind. destruct (Z.eqb_spec degree (2 ^ 31 - 1)) as [->|_]; [lia|].
  destruct (hash_loop (degree + 1) v 0 0 1 (length v) eq_refl) as (un & H). change (u32 0) with 0%Z in H. change (u32 1) with 1%Z in H. rewrite H. cbn [bind fst skipn]. unfold u32. do 2 f_equal. ring.
Qed.

Lemma digits_bound : forall b v, (1 <= b)%Z -> Forall (fun x => Z.of_nat x < b)%Z v -> (0 <= digits b v < b ^ Z.of_nat (length v))%Z.
Proof.
  intros b v Hb. induction v as [|x v IH]; intros Hv; [cbn; lia|]. inversion Hv as [|? ? H1 H2]; subst. specialize (IH H2). cbn [digits length]. rewrite Nat2Z.inj_succ, Z.pow_succ_r by lia. nia.
Qed.
Lemma digits_inj : forall b v w, (1 <= b)%Z -> length v = length w -> Forall (fun x => Z.of_nat x < b)%Z v -> Forall (fun x => Z.of_nat x < b)%Z w -> digits b v = digits b w -> v = w.
Proof.
  intros b v. induction v as [|x v IH]; intros [|y w] Hb Hl Hv Hw He; try discriminate Hl; [reflexivity|]. inversion Hv as [|? ? V1 V2]; inversion Hw as [|? ? W1 W2]; subst. cbn [digits] in He.
  assert (X : Z.of_nat x = Z.of_nat y).
  { rewrite <- (Z.mod_small (Z.of_nat x) b) by lia. rewrite <- (Z.mod_small (Z.of_nat y) b) by lia. rewrite <- (Z_mod_plus_full (Z.of_nat x) (digits b v) b), <- (Z_mod_plus_full (Z.of_nat y) (digits b w) b). f_equal. lia. }
  f_equal; [lia|]. apply IH; try assumption; [injection Hl; auto|]. nia.
Qed.

Theorem hash_injective : forall v w degree, length v = length w -> Forall (fun x => x <= degree) v -> Forall (fun x => x <= degree) w -> ((Z.of_nat degree + 1) ^ Z.of_nat (length v) <= 2 ^ 32)%Z -> (Z.of_nat degree < 2 ^ 31 - 1)%Z ->
  hash_multi_ind v (Z.of_nat degree) = hash_multi_ind w (Z.of_nat degree) -> v = w.
Proof.
  intros v w degree Hl Hv Hw Hs Hd H. rewrite !hash_value in H by lia. injection H as H.
  assert (C : forall u, Forall (fun x => x <= degree) u -> Forall (fun x => Z.of_nat x < Z.of_nat degree + 1)%Z u) by (intros u Hu; eapply Forall_impl; [|exact Hu]; cbv beta; intros; lia).
  pose proof (digits_bound (Z.of_nat degree + 1) v ltac:(lia) (C v Hv)). pose proof (digits_bound (Z.of_nat degree + 1) w ltac:(lia) (C w Hw)) as Hb. rewrite <- Hl in Hb.
  rewrite !Z.mod_small in H by lia. exact (digits_inj (Z.of_nat degree + 1) v w ltac:(lia) Hl (C v Hv) (C w Hw) H).
Qed.

Theorem hash_collision : hash_multi_ind (single 33 32 1) 1 = hash_multi_ind (single 33 0 0) 1 /\ single 33 32 1 <> single 33 0 0.
Proof. split; [vm_compute; reflexivity|discriminate]. Qed.

Lemma reindex_single : forall dim dir k, dir < dim -> reindex [dir] (seq 0 dim) [k] = single dim dir k.
Proof. intros dim dir k H. unfold reindex, single. apply map_ext. intros j. cbn. destruct (Nat.eqb_spec dir j), (Nat.eqb_spec j dir); congruence. Qed.

Theorem project_one : forall (N : num) name s dim degree dir (v : list N), named name = Some s -> usable s dim degree -> vec_for s dim degree v -> dir < dim ->
  exists out, project_vec_1d N v dim dir name = Ok out /\ vec_for s 1 degree out /\ forall k, index_of s 1 degree [k] -> coef s 1 degree out [k] = coef s dim degree v (single dim dir k).
Proof.
  intros N name s dim degree dir v Hn Hu Hv Hd.
  destruct (project_vec_coef N s dim degree [dir] v Hu Hv) as (out & O1 & O2 & O3); [repeat constructor|discriminate|repeat constructor; exact Hd|].
  exists out. split; [unfold project_vec_1d, project_vec_nd, cpp_set; rewrite Hn; exact O1|]. split; [exact O2|]. intros k Hk. refine (eq_trans (O3 [k] Hk) _). rewrite reindex_single by exact Hd. reflexivity.
Qed.
Theorem project_one_mat : forall (N : num) name s dim degree dir (A : list (list N)), named name = Some s -> usable s dim degree -> mat_for s dim degree A -> dir < dim ->
  exists out, project_mat_1d N (mat_ops N) A dim dir name = Ok out /\ mat_for s 1 degree out /\
    forall r c, index_of s 1 degree [r] -> index_of s 1 degree [c] -> entry s 1 degree out [r] [c] = entry s dim degree A (single dim dir r) (single dim dir c).
Proof.
  intros N name s dim degree dir A Hn Hu Hv Hd.
  destruct (project_mat_entry N s dim degree [dir] A Hu Hv) as (out & O1 & O2 & O3); [repeat constructor|discriminate|repeat constructor; exact Hd|].
  exists out. split; [unfold project_mat_1d, project_mat_nd, cpp_set; rewrite Hn; exact O1|]. split; [exact O2|]. intros r c Hr Hc. refine (eq_trans (O3 [r] [c] Hr Hc) _). rewrite !reindex_single by exact Hd. reflexivity.
Qed.
Theorem project_one_sp : forall (N : num) name s dim degree dir (A : spmat N), named name = Some s -> usable s dim degree -> sp_for s dim degree A -> dir < dim ->
  exists out, project_mat_1d N (spmat_ops N) A dim dir name = Ok out /\ sp_for s 1 degree out /\
    forall r c, index_of s 1 degree [r] -> index_of s 1 degree [c] -> entry s 1 degree (dense out) [r] [c] = entry s dim degree (dense A) (single dim dir r) (single dim dir c).
Proof.
  intros N name s dim degree dir A Hn Hu Hv Hd.
  destruct (project_sp_entry N s dim degree [dir] A Hu Hv) as (out & O1 & O2 & O3); [repeat constructor|discriminate|repeat constructor; exact Hd|].
  exists out. split; [unfold project_mat_1d, project_mat_nd, cpp_set; rewrite Hn; exact O1|]. split; [exact O2|]. intros r c Hr Hc. refine (eq_trans (O3 [r] [c] Hr Hc) _). rewrite !reindex_single by exact Hd. reflexivity.
Qed.
Theorem project_unknown : forall (N : num) name, ~ In name ["triangle"; "cross"; "cross_nc"; "cube"; "rectangle"]%string ->
  (forall v dim dir, project_vec_1d N v dim dir name = Exit 1) /\ forall O A dim dir, project_mat_1d N O A dim dir name = Exit 1.
Proof.
  intros N name H. assert (X : cpp_set name = Exit 1).
  { unfold cpp_set, named. repeat (match goal with |- context [String.eqb ?a ?b] => destruct (String.eqb_spec a b) as [->|_]; [exfalso; apply H; cbn; tauto|] end). reflexivity. }
  split; intros; unfold project_vec_1d, project_vec_nd, project_mat_1d, project_mat_nd; rewrite X; reflexivity.
Qed.
