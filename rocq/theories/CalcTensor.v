(** Sums over tensor grids of products of functions of disjoint groups of directions. *)
From Coq Require Import List Bool Arith ZArith Reals Lra Lia Permutation.
From Verif Require Import Base Lists IndexModel Spec Grid IndexSet Degree Num Fnum LinModel LinSpec LinBase MatBase Facts1 Facts2 CalcModel CalcSpec CalcReal CalcTriple CalcQuad CalcVarf2.
Import ListNotations.
Local Open Scope R_scope.

Fixpoint cart {A : Type} (ls : list (list A)) : list (list A) :=
  match ls with
  | [] => [[]]
  | l :: ls' => flat_map (fun x => map (cons x) (cart ls')) l
  end.

Lemma cart_length : forall A (ls : list (list A)), length (cart ls) = fold_right Nat.mul 1%nat (map (@length A) ls).
Proof.
  induction ls as [|l ls IH]; [reflexivity|]. cbn [cart map fold_right]. rewrite <- IH. clear IH.
  induction l as [|x l IH]; [reflexivity|]. cbn [flat_map length Nat.mul]. rewrite app_length, map_length, IH. reflexivity.
Qed.

Lemma in_cart : forall A (ls : list (list A)) qs, In qs (cart ls) <-> Forall2 (@In A) qs ls.
Proof.
  induction ls as [|l ls IH]; intros qs; cbn [cart]; split; intros H.
  - destruct H as [<-|[]]. constructor.
  - inversion H. left. reflexivity.
  - apply in_flat_map in H as [x [Hx H]]. apply in_map_iff in H as [q [<- H]]. constructor; [assumption|]. apply IH. assumption.
  - inversion H as [|x l' q ls' Hx Hq]; subst. apply in_flat_map. exists x. split; [assumption|]. apply in_map. apply IH. assumption.
Qed.

Lemma rsum_cart : forall A (Gs : list (A -> R)) (ls : list (list A)), length Gs = length ls ->
  rsum (map (fun qs => rprod (map (fun '(G, q) => G q) (combine Gs qs))) (cart ls)) = rprod (map (fun '(G, l) => rsum (map G l)) (combine Gs ls)).
Proof.
  intros A. induction Gs as [|G Gs IH]; intros [|l ls] Hl; try discriminate; [unfold rsum, rprod; cbn; lra|].
  cbn [cart combine map]. rewrite rprod_cons, <- IH by (cbn in Hl; lia). rewrite rsum_flat_map, <- rsum_map_mult_r. apply rsum_map_ext. intros x _.
  rewrite map_map. cbn [combine map]. erewrite rsum_map_ext; [|intros q _; rewrite rprod_cons; reflexivity]. apply rsum_map_mult.
Qed.

Lemma NoDup_map_inj : forall A B (f : A -> B) l, NoDup l -> (forall x y, In x l -> In y l -> f x = f y -> x = y) -> NoDup (map f l).
Proof.
  intros A B f. induction l as [|x l IH]; intros Hn Hf; [constructor|]. inversion Hn as [|? ? H1 H2]; subst. cbn [map]. constructor.
  - intros H. apply in_map_iff in H as [y [E Hy]]. apply H1. rewrite (Hf x y); auto; [left; reflexivity|right; assumption].
  - apply IH; [assumption|]. intros y z Hy Hz. apply Hf; right; assumption.
Qed.

Lemma rprod_perm : forall l l', Permutation l l' -> rprod l = rprod l'.
Proof. intros l l' H. induction H; rewrite ?rprod_cons; try congruence; try reflexivity. ring. Qed.
Lemma rsum_perm : forall l l', Permutation l l' -> rsum l = rsum l'.
Proof. intros l l' H. induction H; rewrite ?rsum_cons; try congruence; try reflexivity. ring. Qed.
Lemma mul_perm : forall l l', Permutation l l' -> fold_right Nat.mul 1%nat l = fold_right Nat.mul 1%nat l'.
Proof. intros l l' H. induction H; cbn [fold_right]; try congruence; try reflexivity. lia. Qed.

Lemma rprod_concat : forall A (g : A -> R) ls, rprod (map g (concat ls)) = rprod (map (fun l => rprod (map g l)) ls).
Proof. intros A g. induction ls as [|l ls IH]; [reflexivity|]. cbn [concat map]. rewrite map_app, rprod_app, IH, rprod_cons. reflexivity. Qed.
Lemma mul_concat : forall (g : nat -> nat) ls, fold_right Nat.mul 1%nat (map g (concat ls)) = fold_right Nat.mul 1%nat (map (fun l => fold_right Nat.mul 1%nat (map g l)) ls).
Proof.
  intros g. induction ls as [|l ls IH]; [reflexivity|]. cbn [concat map fold_right]. rewrite map_app, <- IH. generalize (map g (concat ls)). intros l2.
  induction (map g l) as [|x l1 IH1]; cbn [app fold_right]; [lia|]. rewrite IH1. lia.
Qed.

Lemma pick_all : forall A (d : A) l, pick d l (seq 0 (length l)) = l.
Proof.
  intros A d l. apply (list_ext_nth _ _ _ d); unfold pick; [rewrite map_length, seq_length; reflexivity|]. intros i Hi. rewrite map_length, seq_length in Hi.
  rewrite (nth_map_lt _ _ _ _ _ _ 0%nat) by (rewrite seq_length; assumption). rewrite seq_nth by assumption. reflexivity.
Qed.

Lemma in_row_major : forall sizes p, In p (row_major sizes) <-> length p = length sizes /\ forall k, (k < length sizes)%nat -> (nth k p 0 < nth k sizes 0)%nat.
Proof.
  intros sizes p. rewrite row_major_glist, in_glist. revert p. induction sizes as [|n sizes IH]; intros p; split.
  - intros H. inversion H. split; [reflexivity|]. cbn. lia.
  - intros [H _]. destruct p; [constructor|discriminate].
  - intros H. inversion H as [|x ? q ? H1 H2]; subst. apply IH in H2 as [H2 H3]. split; [cbn; congruence|]. intros [|k] Hk; cbn [nth]; [assumption|]. apply H3. cbn in Hk. lia.
  - intros [H1 H2]. destruct p as [|x q]; [discriminate|]. constructor; [apply (H2 0%nat); cbn; lia|]. apply IH. split; [cbn in H1; congruence|]. intros k Hk. apply (H2 (S k)). cbn. lia.
Qed.

Lemma row_major_length : forall sizes, length (row_major sizes) = fold_right Nat.mul 1%nat sizes.
Proof. intros. rewrite row_major_glist. apply glist_length. Qed.

Section Groups.
Variables (dim : nat) (dirs : list (list nat)).
Hypothesis HP : Permutation (seq 0 dim) (concat dirs).

Lemma in_dirs : forall x, (x < dim)%nat <-> exists dj, In dj dirs /\ In x dj.
Proof.
  intros x. split; intros H.
  - assert (Hx : In x (concat dirs)) by (apply (Permutation_in x HP), in_seq; lia). apply in_concat in Hx as [dj [H1 H2]]. exists dj. auto.
  - destruct H as [dj [H1 H2]]. assert (Hx : In x (seq 0 dim)) by (apply (Permutation_in x (Permutation_sym HP)), in_concat; exists dj; auto). apply in_seq in Hx. lia.
Qed.

Lemma split_grid : forall sizes, length sizes = dim ->
  Permutation (map (fun p => map (pick 0%nat p) dirs) (row_major sizes)) (cart (map (fun dj => row_major (pick 0%nat sizes dj)) dirs)).
Proof.
  intros sizes Hl. apply NoDup_Permutation_bis.
  - apply NoDup_map_inj; [rewrite row_major_glist; apply NoDup_glist|]. intros p p' Hp Hp' E. apply in_row_major in Hp as [L1 _]. apply in_row_major in Hp' as [L2 _].
    apply (list_ext_nth _ _ _ 0%nat); [congruence|]. intros k Hk. rewrite L1, Hl in Hk. apply in_dirs in Hk as [dj [H1 H2]].
    assert (E1 : pick 0%nat p dj = pick 0%nat p' dj) by (revert E; clear -H1; intros E; induction dirs as [|d l IH]; [contradiction|]; cbn [map] in E; injection E as E1 E2; destruct H1 as [->|H1]; auto).
    unfold pick in E1. revert E1. clear -H2. intros E. induction dj as [|d l IH]; [contradiction|]. cbn [map] in E. injection E as E1 E2. destruct H2 as [->|H2]; auto.
  - rewrite map_length, cart_length, map_map, row_major_length. apply Nat.eq_le_incl.
    erewrite (map_ext _ (fun dj => fold_right Nat.mul 1%nat (map (fun x => nth x sizes 0%nat) dj))) by (intros; apply row_major_length).
    rewrite <- mul_concat. rewrite <- (mul_perm _ _ (Permutation_map _ HP)). rewrite <- Hl. f_equal. change (pick 0%nat sizes (seq 0 (length sizes)) = sizes). apply pick_all.
  - intros qs H. apply in_map_iff in H as [p [<- Hp]]. apply in_row_major in Hp as [L1 B]. apply in_cart.
    assert (Hd : forall dj x, In dj dirs -> In x dj -> (x < dim)%nat) by (intros dj x H1 H2; apply in_dirs; exists dj; auto).
    clear HP. induction dirs as [|dj l IH]; cbn [map]; constructor.
    + apply in_row_major. unfold pick. rewrite !map_length. split; [reflexivity|]. intros k Hk. rewrite !(nth_map_lt _ _ _ _ _ _ 0%nat) by assumption.
      apply B. rewrite Hl. apply (Hd dj); [left; reflexivity|apply nth_In; assumption].
    + apply IH. intros d x H1 H2. apply (Hd d x); [right; assumption|assumption].
Qed.

Lemma rsum_groups : forall X (prs : list (list nat * X)) sizes (G : list nat * X -> list nat -> R), map fst prs = dirs -> length sizes = dim ->
  rsum (map (fun p => rprod (map (fun pr => G pr (pick 0%nat p (fst pr))) prs)) (row_major sizes)) =
  rprod (map (fun pr => rsum (map (G pr) (row_major (pick 0%nat sizes (fst pr))))) prs).
Proof.
  intros X prs sizes G Hd Hl.
  assert (E1 : forall l p, map (fun pr => G pr (pick 0%nat p (fst pr))) l = map (fun '(g, q) => g q) (combine (map G l) (map (pick 0%nat p) (map fst l)))).
  { induction l as [|dj l IH]; intros p; [reflexivity|]. cbn [map combine]. rewrite IH. reflexivity. }
  assert (E2 : forall l, map (fun pr => rsum (map (G pr) (row_major (pick 0%nat sizes (fst pr))))) l = map (fun '(g, l) => rsum (map g l)) (combine (map G l) (map (fun dj => row_major (pick 0%nat sizes dj)) (map fst l)))).
  { induction l as [|dj l IH]; [reflexivity|]. cbn [map combine]. rewrite IH. reflexivity. }
  rewrite E2, Hd, <- rsum_cart by (rewrite !map_length, <- Hd, map_length; reflexivity). erewrite rsum_map_ext; [|intros p _; rewrite E1, Hd; reflexivity].
  etransitivity; [|apply rsum_perm, Permutation_map, (split_grid sizes Hl)]. rewrite map_map. reflexivity.
Qed.

Lemma phi_seq : forall flags m x, length flags = dim -> length m = dim -> length x = dim ->
  phi flags m x = rprod (map (fun k => basis (nth k flags 0%nat) (nth k m 0%nat) (nth k x 0)) (seq 0 dim)).
Proof.
  clear HP. induction dim as [|n IH]; intros [|f flags] [|a m] [|t x] H1 H2 H3; try discriminate; [reflexivity|]. rewrite phi_cons, IH by (cbn in *; lia).
  cbn [seq map]. rewrite rprod_cons. cbn [nth]. f_equal. rewrite <- seq_shift, map_map. reflexivity.
Qed.
End Groups.

Lemma phi_groups : forall dim dirs flags m x, Permutation (seq 0 dim) (concat dirs) -> length flags = dim -> length m = dim -> length x = dim ->
  phi flags m x = rprod (map (fun dj => phi (pick 0%nat flags dj) (pick 0%nat m dj) (pick 0 x dj)) dirs).
Proof.
  intros dim dirs flags m x HP H1 H2 H3. rewrite (phi_seq dim) by assumption. rewrite (rprod_perm _ _ (Permutation_map _ HP)), rprod_concat. f_equal. apply map_ext. intros dj.
  rewrite (phi_seq (length dj)) by (unfold pick; apply map_length). f_equal.
  apply (list_ext_nth _ _ _ 0); [rewrite !map_length, seq_length; reflexivity|]. intros k Hk. rewrite map_length in Hk.
  rewrite (nth_map_lt _ _ _ _ _ _ 0%nat) by assumption. rewrite (nth_map_lt _ _ _ _ _ _ 0%nat) by (rewrite seq_length; assumption). rewrite seq_nth by assumption. cbn [Nat.add].
  unfold pick. rewrite !(nth_map_lt _ _ _ _ _ _ 0%nat) by assumption. reflexivity.
Qed.

Lemma rprod_groups : forall dim dirs (ws : list R), Permutation (seq 0 dim) (concat dirs) -> length ws = dim ->
  rprod ws = rprod (map (fun dj => rprod (pick 0 ws dj)) dirs).
Proof.
  intros dim dirs ws HP H. rewrite <- (pick_all _ 0 ws) at 1. unfold pick at 1. rewrite H, (rprod_perm _ _ (Permutation_map _ HP)), rprod_concat. reflexivity.
Qed.

Lemma at_pos_pick : forall rules p dj, length p = length rules -> Forall (fun x => (x < length rules)%nat) dj ->
  pick 0 (at_pos rules p) dj = at_pos (pick [] rules dj) (pick 0%nat p dj).
Proof.
  intros rules p dj Hl H. induction H as [|x dj Hx H IH]; [reflexivity|].
  change (nth x (at_pos rules p) 0 :: pick 0 (at_pos rules p) dj = nth (nth x p 0%nat) (nth x rules []) 0 :: at_pos (pick [] rules dj) (pick 0%nat p dj)).
  rewrite IH, at_pos_nth by assumption. reflexivity.
Qed.

Lemma rprod_map_mult : forall A (f g : A -> R) l, rprod (map (fun x => f x * g x) l) = rprod (map f l) * rprod (map g l).
Proof. intros A f g. induction l as [|x l IH]; cbn [map]; [unfold rprod; cbn; ring|]. rewrite !rprod_cons, IH. ring. Qed.

(** * Quadrature of products *)
Section Quadrature.
Variables (nodes weights : list (list R)) (flags : list nat) (dirs : list (list nat)) (factors : list (list R)).
Let dim := length nodes.
Hypothesis HP : Permutation (seq 0 dim) (concat dirs).
Hypothesis Hflags : length flags = dim.
Hypothesis Hmatch : rules_match nodes weights.
Hypothesis Hf : Forall2 (fun dj f => length f = length (grid (pick [] nodes dj))) dirs factors.

Lemma quadrature_value : forall nodes weights vals g, length vals = length (grid nodes) ->
  quadrature nodes weights vals g = rsum (map (fun p => value 0 (grid nodes) vals p * rprod (at_pos weights p) * g (at_pos nodes p)) (grid nodes)).
Proof.
  clear. intros nodes weights vals g Hl. unfold quadrature. set (l := grid nodes) in *. assert (Hn : NoDup l) by (unfold l, grid; rewrite row_major_glist; apply NoDup_glist).
  assert (G : forall (W : list nat -> R) l vals, NoDup l -> length vals = length l -> rsum (map (fun '(y, p) => y * W p) (combine vals l)) = rsum (map (fun p => value 0 l vals p * W p) l)).
  { clear. intros W. induction l as [|p l IH]; intros [|y vals] Hn Hl; try discriminate; [reflexivity|]. inversion Hn as [|? ? H1 H2]; subst. cbn [combine map value].
    rewrite !rsum_cons, IH by (auto; cbn in Hl; lia). rewrite (proj2 (mi_eqb_spec p p) eq_refl). f_equal. apply rsum_map_ext. intros q Hq.
    destruct (mi_eqb p q) eqn:E; [|reflexivity]. apply mi_eqb_spec in E. congruence. }
  specialize (G (fun p => rprod (at_pos weights p) * g (at_pos nodes p)) l vals Hn Hl). etransitivity; [|etransitivity; [exact G|]].
  - apply rsum_map_ext. intros [y p] _. ring.
  - apply rsum_map_ext. intros p _. ring.
Qed.

Lemma product_values_length : length (product_values nodes dirs factors) = length (grid nodes).
Proof. unfold product_values. apply map_length. Qed.

Lemma dirs_lt : forall dj, In dj dirs -> Forall (fun x => (x < dim)%nat) dj.
Proof. intros dj Hd. apply Forall_forall. intros x Hx. apply (in_dirs dim dirs HP). exists dj. auto. Qed.

Lemma grid_pick : forall dj, Forall (fun x => (x < dim)%nat) dj -> grid (pick [] nodes dj) = row_major (pick 0%nat (map (@length R) nodes) dj).
Proof.
  intros dj H. unfold grid. f_equal. unfold pick. rewrite map_map. apply map_ext_in. intros x Hx. rewrite Forall_forall in H. specialize (H x Hx).
  rewrite (nth_map_lt _ _ _ _ _ _ []) by assumption. reflexivity.
Qed.

(** g is a product of functions of the groups. *)
Lemma quadrature_groups : forall (g : list R -> R) (gs : list nat -> list R -> R),
  (forall x, length x = dim -> g x = rprod (map (fun dj => gs dj (pick 0 x dj)) dirs)) ->
  quadrature nodes weights (product_values nodes dirs factors) g =
  rprod (map (fun '(dj, f) => quadrature (pick [] nodes dj) (pick [] weights dj) f (gs dj)) (combine dirs factors)).
Proof.
  intros g gs Hg. assert (Hlf : length dirs = length factors) by (eapply Forall2_length; exact Hf). assert (Hw : length weights = dim) by (symmetry; eapply Forall2_length; exact Hmatch).
  assert (Hfst : map fst (combine dirs factors) = dirs) by (clear -Hlf; revert factors Hlf; induction dirs as [|d l IH]; intros [|f fs] H; try discriminate; [reflexivity|]; cbn [combine map fst]; rewrite IH by (cbn in H; lia); reflexivity).
  unfold product_values. rewrite quadrature_map.
  set (G := fun (pr : list nat * list R) (q : list nat) => value 0 (grid (pick [] nodes (fst pr))) (snd pr) q * rprod (at_pos (pick [] weights (fst pr)) q) * gs (fst pr) (at_pos (pick [] nodes (fst pr)) q)).
  transitivity (rsum (map (fun p => rprod (map (fun pr => G pr (pick 0%nat p (fst pr))) (combine dirs factors))) (row_major (map (@length R) nodes)))).
  - apply rsum_map_ext. intros p Hp. assert (Lp : length p = dim) by (apply in_row_major in Hp as [Lp _]; rewrite map_length in Lp; exact Lp).
    assert (La : length (at_pos nodes p) = dim) by (apply at_pos_length; exact Lp). assert (Lw : length (at_pos weights p) = dim) by (rewrite at_pos_length; congruence).
    rewrite (Hg _ La), (rprod_groups dim dirs (at_pos weights p) HP Lw).
    assert (Em : forall (k : list nat -> R), rprod (map k dirs) = rprod (map (fun pr => k (fst pr)) (combine dirs factors))) by (intros k; rewrite <- Hfst at 1; rewrite map_map; reflexivity).
    rewrite !Em, <- !rprod_map_mult. f_equal. apply map_ext_in. intros [dj f] Hin. cbn [fst snd]. unfold G. cbn [fst snd]. pose proof (dirs_lt dj (in_combine_l _ _ _ _ Hin)) as Hlt.
    rewrite !at_pos_pick; try reflexivity; try assumption; try congruence; rewrite Hw; assumption.
  - rewrite (rsum_groups dim dirs HP _ (combine dirs factors) (map (@length R) nodes) G Hfst) by (rewrite map_length; reflexivity).
    f_equal. apply map_ext_in. intros [dj f] Hin. cbn [fst]. pose proof (dirs_lt dj (in_combine_l _ _ _ _ Hin)) as Hlt.
    rewrite <- grid_pick by assumption. rewrite quadrature_value; [reflexivity|].
    clear -Hf Hin. induction Hf as [|d g ds gs H1 H2 IH]; [contradiction|]. destruct Hin as [E|Hin]; [injection E as -> ->; assumption|apply IH; assumption].
Qed.
End Quadrature.
