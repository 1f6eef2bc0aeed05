(** discretize. *)
From Coq Require Import List Bool Arith ZArith Reals Lra Lia.
From Verif Require Import Base Lists IndexModel Spec Grid Num Fnum LinModel LinSpec LinBase MatBase Tensorize Sparse CalcModel CalcSpec CalcBase CalcTransform CalcReal.
Import ListNotations.

Lemma fill_loop : forall A (d : A) (target : list A) (body : nat -> list A -> res (list A)) n v, n = length target ->
  (forall j v, j < length target -> length v = length target -> body j v = Ok (upd v j (nth j target d))) ->
  length v = length target -> for_each body n 0 v = Ok target.
Proof.
  intros A d target body n v -> H Hv.
  destruct (for_each_state (list A) (fun j v => length v = length target /\ forall k, k < j -> nth k v d = nth k target d) body (length target) 0 v) as [w [E [H1 H2]]].
  - intros j u Hj [Hu1 Hu2]. exists (upd u j (nth j target d)). split; [apply H; [lia|assumption]|]. split; [rewrite upd_length; assumption|].
    intros k Hk. rewrite nth_upd. replace (j <? length u) with true by (symmetry; apply Nat.ltb_lt; lia). rewrite andb_true_r. destruct (Nat.eqb_spec k j) as [->|]; [reflexivity|]. apply Hu2. lia.
  - split; [assumption|]. intros k Hk. lia.
  - rewrite E. f_equal. apply (list_ext_nth _ _ _ d); [assumption|]. intros k Hk. apply H2. lia.
Qed.

Section Discretize.
Variables (F : fnum) (junk : F) (func : list F -> F) (nodes : list (list F)) (t : list F) (D : list (list F)).
Let dim := length nodes.
Let bounds := map (@length F) nodes.
Hypothesis Hdim : nodes <> [].
Hypothesis Hgrid : (Z.of_nat (length (glist bounds)) < 2 ^ 32)%Z.
Hypothesis Ht : length t = dim.
Hypothesis HD : mat_wf dim dim D.

Lemma affine_length : forall x : list F, length (affine t D x) = dim.
Proof. intros x. unfold affine. rewrite map_length, combine_length. destruct HD as [H _]. rewrite Ht. fold dim. lia. Qed.

Lemma affine_nth : forall x i, i < dim -> nth i (affine t D x) n0 = fold_left (fun y '(a, xj) => nadd y (nmul a xj)) (combine (nth i D []) x) (nth i t n0).
Proof.
  intros x i Hi. unfold affine. destruct HD as [H _]. rewrite (nth_map_lt _ _ _ _ _ _ (n0, [])) by (rewrite combine_length; lia). rewrite combine_nth by lia. reflexivity.
Qed.

Lemma map_point_ok : forall node mapped, length node = dim -> length mapped = dim -> map_point F t D node mapped = Ok (affine t D node).
Proof.
  intros node mapped Hn Hm. unfold map_point. rewrite Ht. apply (fill_loop _ (n0 : F)); [rewrite affine_length; reflexivity| |rewrite affine_length; assumption].
  intros i v Hi Hv. rewrite affine_length in Hi, Hv. rewrite (vget_nth_ok _ t i n0) by lia. cbn [bind]. rewrite vset_ok by lia. cbn [bind].
  rewrite affine_nth by assumption. set (row := nth i D []).
  assert (Hrow : length row = dim) by (unfold row; destruct HD as [H1 H2]; rewrite Forall_forall in H2; apply H2, nth_In; lia).
  assert (G : forall n j w y, j + n = dim -> length w = dim -> nth i w n0 = y ->
    for_each (fun j mapped => y <- vget mapped i ;; a <- mat_get F D i j ;; x <- vget node j ;; vset mapped i (nadd y (nmul a x))) n j w =
    Ok (upd w i (fold_left (fun y '(a, xj) => nadd y (nmul a xj)) (skipn j (combine row node)) y))).
  { induction n as [|n IH]; intros j w y Hj Hw Hy.
    - rewrite skipn_all2 by (rewrite combine_length; lia). cbn [for_each fold_left]. f_equal. rewrite <- Hy. apply (list_ext_nth _ _ _ n0); [rewrite upd_length; reflexivity|].
      intros k Hk. rewrite nth_upd. destruct (Nat.eqb_spec k i) as [->|]; [|reflexivity]. replace (i <? length w) with true by (symmetry; apply Nat.ltb_lt; lia). reflexivity.
    - rewrite for_each_S. rewrite (vget_nth_ok _ w i n0) by lia. cbn [bind].
      assert (Hg : mat_get F D i j = Ok (nth j row n0)). { unfold mat_get. destruct HD as [H1 H2]. rewrite (vget_nth_ok _ D i []) by lia. cbn [bind]. apply vget_nth_ok. fold row. lia. }
      rewrite Hg. cbn [bind]. rewrite (vget_nth_ok _ node j n0) by lia. cbn [bind]. rewrite vset_ok by lia. cbn [bind]. rewrite Hy.
      rewrite (IH (S j) _ (nadd y (nmul (nth j row n0) (nth j node n0)))).
      + f_equal. assert (Eu : forall a b : F, upd (upd w i a) i b = upd w i b) by (clear; revert i; induction w as [|x w IHw]; intros [|i] a b; cbn [upd]; try reflexivity; f_equal; apply IHw).
        rewrite Eu. f_equal. rewrite (skipn_nth _ (combine row node) j (nth j row n0, nth j node n0)); [reflexivity|].
        rewrite (nth_error_nth' _ (n0, n0)) by (rewrite combine_length; lia). rewrite combine_nth by lia. reflexivity.
      + lia.
      + rewrite upd_length. assumption.
      + rewrite nth_upd, Nat.eqb_refl. replace (i <? length w) with true by (symmetry; apply Nat.ltb_lt; lia). reflexivity. }
  rewrite (G dim 0 _ (nth i t n0)).
  - f_equal. cbn [skipn]. generalize (fold_left (fun y '(a, xj) => nadd y (nmul a xj)) (combine row node) (nth i t n0)). generalize (nth i t n0). clear. revert i. induction v as [|x v IH]; intros [|i] ? ?; cbn [upd]; try reflexivity. f_equal. apply IH.
  - lia.
  - rewrite upd_length. assumption.
  - rewrite nth_upd, Nat.eqb_refl. replace (i <? length v) with true by (symmetry; apply Nat.ltb_lt; lia). reflexivity.
Qed.

Lemma point_at_length : forall p, length p = dim -> length (point_at n0 nodes p) = dim.
Proof. intros p Hp. unfold point_at. rewrite map_length, combine_length. fold dim. lia. Qed.

Lemma discretize_ok : discretize F junk func nodes t D = Ok (map (fun p => func (affine t D (point_at n0 nodes p))) (glist bounds)).
Proof.
  unfold discretize. fold dim bounds. rewrite n_points_tot_Ok by exact Hgrid. set (G := glist bounds).
  set (body := fun (i : nat) (p : list nat) (st : list F * list F * list F) => let '(node, mapped, result) := st in
      node <- for_each (fun j node => pj <- vget p j ;; nj <- vget nodes j ;; x <- vget nj pj ;; vset node j x) dim 0 node ;;
      mapped <- map_point F t D node mapped ;; result <- vset result i (func mapped) ;; Ok (node, mapped, result)).
  assert (Hb : bounds <> []) by (unfold bounds; destruct nodes; [contradiction|discriminate]).
  assert (Hg : forall p, In p G -> length p = dim /\ forall j, j < dim -> nth j p 0 < length (nth j nodes [])).
  { intros p Hp. apply in_glist in Hp. unfold bounds in Hp. assert (Hl : length p = dim) by (apply Forall2_length in Hp; rewrite map_length in Hp; exact Hp). split; [assumption|]. intros j Hj.
    pose proof (Forall2_nth _ _ _ p (map (@length F) nodes) j 0 0 Hp ltac:(lia)) as H. cbv beta in H. rewrite (nth_map_lt _ _ _ _ _ _ []) in H by assumption. exact H. }
  transitivity (st <- for_in (fun '(i, p) st => body i p st) (skipn 0 (enum G)) (repeat junk dim, repeat junk dim, repeat n0 (length G)) ;; Ok (snd st)).
  - rewrite <- (for_each_grid _ (fun i '(p, (node, mapped, result)) =>
      node <- for_each (fun j node => pj <- vget p j ;; nj <- vget nodes j ;; x <- vget nj pj ;; vset node j x) dim 0 node ;;
      mapped <- map_point F t D node mapped ;; result <- vset result i (func mapped) ;; '(_, p) <- grid_increment bounds p ;; Ok (p, (node, mapped, result))) body bounds Hb) with (p := repeat 0 dim) (n := length G).
    + match goal with |- bind ?x _ = _ => destruct x as [[? [[? ?] ?]]| | | |]; reflexivity end.
    + intros i p [[node mapped] result] _. unfold body. rewrite !bind_assoc. apply bind_ext. intros node' _. rewrite !bind_assoc. apply bind_ext. intros mapped' _. rewrite !bind_assoc. apply bind_ext. intros result' _. reflexivity.
    + unfold dim. rewrite <- (map_length (@length F) nodes). apply grid_at_0.
    + reflexivity.
  - cbn [skipn].
    assert (K : forall post pre node mapped rest, length node = dim -> length mapped = dim -> G = pre ++ post -> length rest = length post ->
      exists node' mapped', for_in (fun '(i, p) st => body i p st) (combine (seq (length pre) (length post)) post) (node, mapped, map (fun p => func (affine t D (point_at n0 nodes p))) pre ++ rest) =
        Ok (node', mapped', map (fun p => func (affine t D (point_at n0 nodes p))) G)).
    { induction post as [|p post IH]; intros pre node mapped rest Hn Hm Hpre Hrest.
      - destruct rest; [|discriminate]. exists node, mapped. rewrite app_nil_r in Hpre |- *. subst pre. reflexivity.
      - destruct rest as [|y rest]; [discriminate|]. assert (Hp : In p G) by (rewrite Hpre; apply in_or_app; right; left; reflexivity). destruct (Hg p Hp) as [Hpl Hpb].
        cbn [length seq combine for_in]. unfold body at 1.
        rewrite (fill_loop _ (n0 : F) (point_at n0 nodes p)); [|rewrite point_at_length by assumption; reflexivity| |].
        + cbn [bind]. rewrite map_point_ok by (try assumption; apply point_at_length; assumption). cbn [bind].
          rewrite vset_ok by (rewrite app_length, map_length; cbn [length]; lia). cbn [bind].
          assert (Eu : upd (map (fun p => func (affine t D (point_at n0 nodes p))) pre ++ y :: rest) (length pre) (func (affine t D (point_at n0 nodes p))) =
                       map (fun p => func (affine t D (point_at n0 nodes p))) (pre ++ [p]) ++ rest).
          { rewrite map_app, <- app_assoc. cbn [map app]. clear. induction pre as [|q pre IH]; [reflexivity|]. cbn [map app length upd]. f_equal. exact IH. }
          rewrite Eu. replace (S (length pre)) with (length (pre ++ [p])) by (rewrite app_length; cbn; lia).
          apply IH; [apply point_at_length; assumption|apply affine_length|rewrite <- app_assoc; exact Hpre|cbn [length] in Hrest; lia].
        + intros j v Hj Hv. rewrite point_at_length in Hj, Hv by assumption. rewrite (vget_nth_ok _ p j 0) by lia. cbn [bind]. rewrite (vget_nth_ok _ nodes j []) by (fold dim; lia). cbn [bind].
          rewrite (vget_nth_ok _ (nth j nodes []) (nth j p 0) n0) by (apply Hpb; assumption). cbn [bind]. rewrite vset_ok by lia. f_equal. f_equal.
          unfold point_at. rewrite (nth_map_lt _ _ _ _ _ _ ([], 0)) by (rewrite combine_length; fold dim; lia). rewrite combine_nth by (fold dim; lia). reflexivity.
        + rewrite point_at_length by assumption. assumption. }
    destruct (K G [] (repeat junk dim) (repeat junk dim) (repeat n0 (length G))) as [node' [mapped' E]]; try reflexivity; try apply repeat_length.
    unfold enum. cbn [map app length] in E. rewrite E. reflexivity.
Qed.
End Discretize.

(** over the reals *)
Local Open Scope R_scope.
Lemma affine_R : forall (t : list R) (D : list (list R)) (x : list R), @affine num_R t D x =
  map (fun '(ti, row) => ti + rsum (map (fun '(a, xj) => a * xj) (combine row x))) (combine t D).
Proof.
  intros t D x. unfold affine. apply map_ext. intros [ti row]. cbn [carrier nadd nmul num_R]. generalize (combine row x). intros l. revert ti. induction l as [|[a y] l IH]; intros ti; cbn [fold_left map].
  - unfold rsum. cbn [fold_right]. symmetry. apply Rplus_0_r.
  - refine (eq_trans (IH _) _). rewrite rsum_cons. apply Rplus_assoc.
Qed.
