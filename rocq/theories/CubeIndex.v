(** The closed-form cube index is the position in the enumeration. *)
From Coq Require Import List Bool Arith ZArith Lia.
From Verif Require Import Base Lists IndexModel Spec Traverse Triangle Binom Shell ShellList IndexSet.
Import ListNotations.

Lemma nth_flat_map : forall A B (f : A -> list B) l i x,
  nth_error (flat_map f l) i = Some x ->
  exists l1 a l2 j, l = l1 ++ a :: l2 /\ nth_error (f a) j = Some x /\ i = length (flat_map f l1) + j.
Proof.
  induction l as [|a l IH]; intros i x H; [destruct i; discriminate|]. cbn [flat_map] in H.
  destruct (Nat.lt_ge_cases i (length (f a))) as [Hi|Hi].
  - rewrite nth_error_app1 in H by assumption. exists [], a, l, i. repeat split; auto.
  - rewrite nth_error_app2 in H by assumption. apply IH in H as [l1 [b [l2 [j [-> [Hj E]]]]]].
    exists (a :: l1), b, l2, j. repeat split; auto. cbn [flat_map]. rewrite app_length. lia.
Qed.

Lemma filter_all_true : forall A (p : A -> bool) l, Forall (fun x => p x = true) l -> filter p l = l.
Proof. induction 1 as [|x l Hx Hl IH]; [reflexivity|]. simpl. rewrite Hx, IH. reflexivity. Qed.

Lemma seq_split : forall l1 a l2 s n, seq s n = l1 ++ a :: l2 -> l1 = seq s (length l1) /\ a = s + length l1 /\ length l1 < n.
Proof.
  induction l1 as [|x l1 IH]; intros a l2 s n H; destruct n; try discriminate; injection H as E H.
  - cbn. repeat split; lia.
  - apply IH in H as [H1 [H2 H3]]. subst x. cbn [length seq]. rewrite <- H1. repeat split; lia.
Qed.

(** mixed-radix value, first entry fastest *)
Fixpoint bidx (cs v : list nat) : nat :=
  match cs, v with c :: cs', x :: v' => x + S c * bidx cs' v' | _, _ => 0 end.

Lemma box_bidx : forall cs j v, nth_error (box cs) j = Some v -> j = bidx cs v.
Proof.
  induction cs as [|c cs IH]; intros j v H.
  - cbn in H. destruct j as [|j]; [injection H as <-; reflexivity|]. cbn in H. destruct j; discriminate.
  - rewrite box_cons in H. apply nth_flat_map in H as [l1 [t [l2 [i [E [Hi ->]]]]]].
    assert (Ht : nth_error (box cs) (length l1) = Some t) by (rewrite E, nth_error_app2, Nat.sub_diag by lia; reflexivity).
    apply IH in Ht. rewrite nth_error_map in Hi. destruct (nth_error (seq 0 (S c)) i) as [y|] eqn:Ey; [|discriminate].
    assert (Hlt : i < S c). { rewrite <- (seq_length (S c) 0). apply nth_error_Some. congruence. }
    rewrite (nth_error_nth' _ 0) in Ey by (rewrite seq_length; assumption). rewrite seq_nth in Ey by assumption.
    injection Ey as <-. injection Hi as <-. cbn [bidx].
    assert (Hl : forall l : list (list nat), length (flat_map (fun t => map (fun x => x :: t) (seq 0 (S c))) l) = S c * length l).
    { induction l as [|a l IHl]; [simpl; lia|]. cbn [flat_map]. rewrite app_length, IHl, map_length, seq_length. cbn [length]. lia. }
    rewrite Hl, <- Ht. simpl. lia.
Qed.

Lemma bidx_app : forall ca va cb vb, length ca = length va ->
  bidx (ca ++ cb) (va ++ vb) = bidx ca va + fold_right Nat.mul 1 (map S ca) * bidx cb vb.
Proof.
  induction ca as [|c ca IH]; intros [|x va] cb vb H; try discriminate; cbn [app bidx map fold_right]; [lia|].
  rewrite IH by (simpl in H; lia). lia.
Qed.

Lemma prod_repeat : forall c n, fold_right Nat.mul 1 (map S (repeat c n)) = S c ^ n.
Proof. induction n as [|n IH]; [reflexivity|]. cbn [repeat map fold_right Nat.pow]. rewrite IH. reflexivity. Qed.

Lemma cap_a_ones : forall n M, cap_a (repeat 1 n) M = repeat M n.
Proof. induction n as [|n IH]; intros M; [reflexivity|]. unfold cap_a in *. cbn [repeat map]. rewrite IH, Nat.div_1_r. reflexivity. Qed.
Lemma cap_b_ones : forall n M, cap_b (repeat 1 n) M = repeat (M - 1) n.
Proof. induction n as [|n IH]; intros M; [reflexivity|]. unfold cap_b in *. cbn [repeat map]. rewrite IH, Nat.div_1_r. reflexivity. Qed.

Lemma firstn_repeat : forall A (x : A) k n, k <= n -> firstn k (repeat x n) = repeat x k.
Proof. induction k as [|k IH]; intros [|n] H; try reflexivity; [lia|]. cbn [repeat firstn]. rewrite IH by lia. reflexivity. Qed.
Lemma skipn_repeat : forall A (x : A) k n, skipn k (repeat x n) = repeat x (n - k).
Proof. induction k as [|k IH]; intros [|n]; try reflexivity. cbn [repeat skipn]. rewrite IH. reflexivity. Qed.

Lemma wk_ones : forall n k, wk (repeat 1 n) k = 1.
Proof. intros. unfold wk. destruct (Nat.lt_ge_cases k n); [apply nth_repeat|apply nth_overflow; rewrite repeat_length; assumption]. Qed.

(** block sizes of the cube *)
Definition cblk (M dim i : nat) : nat := M ^ (dim - i - 1) * S M ^ i.

Lemma blk_ones_length : forall M dim k, 1 <= M -> k < dim -> length (blk (repeat 1 dim) M k) = cblk M dim k.
Proof.
  intros M dim k HM Hk. unfold blk. rewrite map_length, box_length, map_app, fold_right_app.
  rewrite firstn_repeat, skipn_repeat by lia. rewrite cap_a_ones, cap_b_ones.
  rewrite prod_repeat. assert (E : forall l a, fold_right Nat.mul a l = fold_right Nat.mul 1 l * a).
  { clear. induction l; intros; simpl; [lia|]. rewrite IHl. lia. }
  rewrite E, prod_repeat. unfold cblk. replace (S (M - 1)) with M by lia. replace (dim - k - 1) with (dim - S k) by lia. lia.
Qed.

Definition csum (M dim k : nat) : nat := list_sum (map (cblk M dim) (seq 0 k)).

(** position of a nonzero element of the cube list *)
Lemma cube_position : forall d degree i m, nth_error (spec_list Cube d degree) i = Some m -> m <> zeros (S d) ->
  exists M va vb, 1 <= M /\ m = va ++ M :: vb /\ length va + length vb = d /\
    Forall (fun x => x <= M) va /\ Forall (fun x => x < M) vb /\
    i = M ^ S d + csum M (S d) (length va) + (bidx (repeat M (length va)) va + S M ^ length va * bidx (repeat (M - 1) (length vb)) vb).
Proof.
  intros d degree i m H Hnz. cbn [spec_list] in H. unfold shell_spec in H.
  set (ws := repeat 1 (S d)) in *.
  assert (Lws : length ws = S d) by apply repeat_length.
  apply nth_flat_map in H as [l1 [M [l2 [j [E [Hj ->]]]]]]. apply seq_split in E as [El1 [EM Hlt]]. cbn [plus] in EM.
  assert (HM : 1 <= M).
  { destruct M; [|lia]. exfalso. assert (Hn : hd_error ws = Some 1) by reflexivity.
    rewrite lvl_0 in Hj; [|apply ones_pos|exact Hn].
    destruct j as [|j]; [|cbn in Hj; destruct j; discriminate]. cbn in Hj. injection Hj as <-. apply Hnz. rewrite repeat_length. reflexivity. }
  assert (Hlen1 : length (flat_map (lvl ws) l1) = M ^ S d).
  { rewrite El1, <- EM. destruct M as [|M']; [lia|]. change (flat_map (lvl ws) (seq 0 (S M'))) with (shell_spec ws M').
    rewrite shell_length; [|apply ones_pos|reflexivity].
    unfold ws. generalize (S d) as n. induction n as [|n IH]; [reflexivity|].
    cbn [repeat map fold_right Nat.pow]. rewrite IH, Nat.div_1_r. reflexivity. }
  rewrite Hlen1. clear l2 Hlt El1 EM Hlen1.
  unfold lvl in Hj.
  assert (Hval : filter (valid ws M) (seq 0 (length ws)) = seq 0 (S d)).
  { rewrite Lws. apply filter_all_true. apply Forall_forall. intros k _. unfold valid, ws. rewrite wk_ones, Nat.mod_1_r.
    replace (M =? 0) with false by (symmetry; apply Nat.eqb_neq; lia). reflexivity. }
  rewrite Hval in Hj. apply nth_flat_map in Hj as [l3 [k [l4 [j2 [E [Hj ->]]]]]]. apply seq_split in E as [El3 [Ek Hlt]]. cbn [plus] in Ek.
  assert (Hlen3 : length (flat_map (blk ws M) l3) = csum M (S d) k).
  { rewrite El3, <- Ek, flat_map_length_sum. unfold csum. f_equal. apply map_ext_in. intros x Hx. apply in_seq in Hx.
    apply blk_ones_length; [assumption|lia]. }
  rewrite Hlen3. assert (Hk : k < S d) by lia. clear l4 Hlt El3 Ek Hlen3 l3 Hval l1.
  unfold blk in Hj. unfold ws in Hj. rewrite wk_ones, Nat.div_1_r in Hj. rewrite nth_error_map in Hj.
  rewrite firstn_repeat, skipn_repeat in Hj by lia. rewrite cap_a_ones, cap_b_ones in Hj.
  destruct (nth_error (box _) j2) as [v|] eqn:Ev; [|discriminate]. injection Hj as <-.
  pose proof (box_bidx _ _ _ Ev) as Ej. apply nth_error_In, in_box in Ev.
  apply Forall2_app_inv_r in Ev as [va [vb [Ha [Hb ->]]]].
  apply Forall2_repeat in Ha as [La Ha]. apply Forall2_repeat in Hb as [Lb Hb].
  rewrite firstn_app_exact, skipn_app_exact by assumption.
  exists M, va, vb. split; [assumption|]. split; [reflexivity|]. split; [lia|]. split; [assumption|]. split.
  - eapply Forall_impl; [|exact Hb]. intros; cbv beta in *; lia.
  - rewrite Ej. rewrite bidx_app by (rewrite repeat_length; symmetry; assumption). rewrite prod_repeat, La, Lb. lia.
Qed.

(** the argmax of such a vector *)
Lemma cube_argmax_block : forall M va vb, 1 <= M -> Forall (fun x => x <= M) va -> Forall (fun x => x < M) vb ->
  cube_argmax (va ++ M :: vb) = Ok (M, length va).
Proof.
  intros M va vb HM Ha Hb. rewrite cube_argmax_gen.
  assert (E : repeat 1 (length (va ++ M :: vb)) = repeat 1 (length va) ++ 1 :: repeat 1 (length vb)).
  { rewrite app_length. cbn [length]. rewrite repeat_app. reflexivity. }
  rewrite E. apply gen_argmax_block with (X := M).
  - lia.
  - left. lia.
  - apply Forall2_repeat. split; [reflexivity|]. eapply Forall_impl; [|exact Ha]. intros; cbv beta in *; lia.
  - apply Forall2_repeat. split; [reflexivity|]. eapply Forall_impl; [|exact Hb]. intros; cbv beta in *; lia.
Qed.

Definition cidx_body (zmax : Z) (dim i : nat) (result : Z) : res Z :=
  d2u (result + zmax ^ (Z.of_nat (dim - i - 1)) * (zmax + 1) ^ Z.of_nat i)%Z.

Lemma csum_S : forall M dim k, csum M dim (S k) = csum M dim k + cblk M dim k.
Proof.
  intros. unfold csum. rewrite seq_S, map_app, list_sum_app. cbn [plus map]. rewrite list_sum_cons. cbn [list_sum fold_right]. lia.
Qed.

Lemma cblk_Z : forall M dim i, (Z.of_nat M ^ Z.of_nat (dim - i - 1) * (Z.of_nat M + 1) ^ Z.of_nat i = Z.of_nat (cblk M dim i))%Z.
Proof.
  intros. unfold cblk. rewrite Nat2Z.inj_mul, !Nat2Z.inj_pow. do 2 f_equal. lia.
Qed.

Lemma cidx_loop1 : forall M dim n i result, (0 <= result)%Z ->
  (result + Z.of_nat (csum M dim (i + n)) - Z.of_nat (csum M dim i) < 2 ^ 32)%Z ->
  for_each (cidx_body (Z.of_nat M) dim) n i result = Ok (result + Z.of_nat (csum M dim (i + n)) - Z.of_nat (csum M dim i))%Z.
Proof.
  induction n as [|n IH]; intros i result Hr H.
  - cbn [for_each]. rewrite Nat.add_0_r. f_equal. lia.
  - assert (Hmono : forall a b, csum M dim a <= csum M dim (a + b)).
    { intros a b. induction b as [|b IHb]; [rewrite Nat.add_0_r; lia|]. rewrite Nat.add_succ_r, csum_S. lia. }
    rewrite for_each_S. unfold cidx_body at 1. rewrite cblk_Z. replace (i + S n) with (S i + n) in * by lia.
    specialize (Hmono (S i) n). pose proof (csum_S M dim i).
    rewrite d2u_small by lia. cbn [bind]. rewrite IH by lia. f_equal. lia.
Qed.

Definition cidx_body2 (m : list nat) (ind : nat) (zmax : Z) (i : nat) (st : Z * Z) : res (Z * Z) :=
  let '(result, factor) := st in
  if i =? ind then Ok (result, factor)
  else
    x <- vget m i ;;
    Ok (u32 (result + u32 (factor * Z.of_nat x))%Z,
        u32 (factor * (if (i <? ind)%nat then zmax + 1 else zmax))%Z).

Lemma u32_add : forall a b, u32 (u32 a + b) = u32 (a + b).
Proof. intros. unfold u32. apply Zplus_mod_idemp_l. Qed.
Lemma u32_add_r : forall a b, u32 (a + u32 b) = u32 (a + b).
Proof. intros. unfold u32. apply Zplus_mod_idemp_r. Qed.
Lemma u32_mul : forall a b, u32 (u32 a * b) = u32 (a * b).
Proof. intros. unfold u32. apply Zmult_mod_idemp_l. Qed.

Lemma cidx_loop2 : forall q p c ind zmax n result factor rest,
  (forall i, length p <= i < length p + length q -> i <> ind /\
     (if (i <? ind)%nat then zmax + 1 else zmax)%Z = Z.of_nat (S c)) ->
  for_each (cidx_body2 (p ++ q ++ rest) ind zmax) (length q + n) (length p) (u32 result, u32 factor)
  = for_each (cidx_body2 (p ++ q ++ rest) ind zmax) n (length p + length q)
      (u32 (result + factor * Z.of_nat (bidx (repeat c (length q)) q)), u32 (factor * Z.of_nat (S c ^ length q))).
Proof.
  induction q as [|x q IH]; intros p c ind zmax n result factor rest H.
  - cbn [length repeat bidx Nat.pow plus app]. rewrite Nat.add_0_r. do 3 f_equal; lia.
  - cbn [length plus]. rewrite for_each_S. unfold cidx_body2 at 1.
    destruct (H (length p) ltac:(cbn [length]; lia)) as [Hi Hc]. apply Nat.eqb_neq in Hi. rewrite Hi.
    cbn [app]. rewrite vget_app_hd by reflexivity. cbn [bind]. rewrite Hc.
    rewrite u32_add_r, !u32_mul, u32_add.
    assert (E1 : u32 (result + u32 factor * Z.of_nat x) = u32 (result + factor * Z.of_nat x)).
    { rewrite <- u32_add_r, u32_mul, u32_add_r. reflexivity. }
    rewrite E1.
    specialize (IH (p ++ [x]) c ind zmax n (result + factor * Z.of_nat x)%Z (factor * Z.of_nat (S c))%Z rest).
    rewrite app_length in IH. cbn [length] in IH. rewrite <- app_assoc in IH. cbn [app] in IH.
    replace (length p + 1) with (S (length p)) in IH by lia. rewrite IH.
    + replace (length p + S (length q)) with (S (length p) + length q) by lia. do 2 f_equal.
      * f_equal. cbn [repeat bidx]. rewrite !Nat2Z.inj_add, !Nat2Z.inj_mul. ring.
      * f_equal. cbn [Nat.pow]. rewrite Nat2Z.inj_mul. ring.
    + intros i Hi2. apply H. cbn [length]. lia.
Qed.

Theorem cube_index_nth : forall d degree i m, nth_error (spec_list Cube d degree) i = Some m -> m <> zeros (S d) ->
  (Z.of_nat i < 2 ^ 32)%Z -> cube_index m = Ok (Z.of_nat i).
Proof.
  intros d degree i m Hi Hnz H32. destruct (cube_position _ _ _ _ Hi Hnz) as [M [va [vb [HM [-> [Hl [Ha [Hb E]]]]]]]].
  clear Hi Hnz. unfold cube_index. rewrite cube_argmax_block by assumption. cbn [bind].
  assert (Hdim : length (va ++ M :: vb) = S d) by (rewrite app_length; cbn [length]; lia). rewrite Hdim.
  rewrite <- Nat2Z.inj_pow. assert (1 <= M ^ S d) by (apply Nat.neq_0_lt_0, Nat.pow_nonzero; lia).
  rewrite d2u_small by lia. cbn [bind].
  pose proof (cidx_loop1 M (S d) (length va) 0 (Z.of_nat (M ^ S d) - 1)%Z ltac:(lia)) as L1.
  unfold cidx_body in L1. cbn [plus] in L1. change (csum M (S d) 0) with 0 in L1. rewrite L1 by lia. clear L1. cbn [bind].
  set (R := Z.of_nat (M ^ S d + csum M (S d) (length va))).
  assert (ER : u32 (Z.of_nat (M ^ S d) - 1 + Z.of_nat (csum M (S d) (length va)) - Z.of_nat 0 + 1) = u32 R) by (unfold R; f_equal; lia).
  rewrite ER.
  pose proof (cidx_loop2 va [] M (length va) (Z.of_nat M) (S (length vb)) R 1%Z (M :: vb)) as L2.
  cbn [app length plus] in L2. 
  replace (S d) with (length va + S (length vb)) by lia. replace (u32 R, 1%Z) with (u32 R, u32 1) by reflexivity.
  unfold cidx_body2 in L2. rewrite L2. clear L2.
  2:{ intros j Hj. split; [lia|]. replace (j <? length va) with true by (symmetry; apply Nat.ltb_lt; lia). lia. }
  rewrite for_each_S. rewrite Nat.eqb_refl. cbn [bind].
  pose proof (cidx_loop2 vb (va ++ [M]) (M - 1) (length va) (Z.of_nat M) 0
    (R + 1 * Z.of_nat (bidx (repeat M (length va)) va))%Z (1 * Z.of_nat (S M ^ length va))%Z []) as L3.
  rewrite app_nil_r, app_length, Nat.add_0_r, <- app_assoc in L3. cbn [app length] in L3.
  replace (length va + 1) with (S (length va)) in L3 by lia.
  unfold cidx_body2 in L3. rewrite L3. clear L3.
  2:{ intros j Hj. split; [lia|]. replace (j <? length va) with false by (symmetry; apply Nat.ltb_ge; lia). lia. }
  cbn [for_each bind]. f_equal. rewrite u32_small; unfold R; lia.
Qed.

Theorem cube_index_zero : forall d, cube_index (repeat 0 (S d)) = Ub.
Proof.
  intros d. unfold cube_index.
  assert (E : exists k, cube_argmax (repeat 0 (S d)) = Ok (0, k)).
  { unfold cube_argmax. assert (G : forall n i k, i + n <= length (repeat 0 (S d)) -> exists k',
      for_each (fun i '(max, ind) => x <- vget (repeat 0 (S d)) i ;; Ok (if max <=? x then (x, i) else (max, ind))) n i (0, k) = Ok (0, k')).
    { induction n as [|n IH]; intros i k Hn; [exists k; reflexivity|]. rewrite for_each_S.
      rewrite repeat_length in Hn. rewrite vget_repeat by lia. cbn [bind]. change (0 <=? 0) with true. cbv iota. apply IH. rewrite repeat_length. lia. }
    apply G. lia. }
  destruct E as [k ->]. cbn [bind]. rewrite repeat_length.
  change (Z.of_nat 0) with 0%Z. rewrite Z.pow_0_l by lia. reflexivity.
Qed.
