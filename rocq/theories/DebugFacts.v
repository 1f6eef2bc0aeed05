(** Lemmas for C107. *)
From Coq Require Import List Bool Arith ZArith Lia Permutation.
From Verif Require Import Base IndexModel Num LinModel Lists IndexSet Degree Spec LinSpec LinBase Sparse InnerSum Facts2 Facts3 SeriesFacts DebugModel.
Import ListNotations.
Local Open Scope list_scope. Local Open Scope nat_scope.

(** The two nested loops are one. *)
Lemma for_in_concat : forall A S (f : A -> S -> res S) ll s, for_in (fun l s => for_in f l s) ll s = for_in f (concat ll) s.
Proof.
  intros A S f ll. induction ll as [|l ll IH]; intros s; [reflexivity|]. cbn [for_in concat]. assert (X : forall l' l s, for_in f (l ++ l') s = bind (for_in f l s) (for_in f l')).
  { clear. intros l' l. induction l as [|x l IH]; intros s; [reflexivity|]. cbn [app for_in]. destruct (f x s); try reflexivity. cbn [bind]. apply IH. }
  rewrite X. destruct (for_in f l s); try reflexivity. cbn [bind]. apply IH.
Qed.

Definition mark (dir : nat) (present : list bool) : res (list bool) := b <- vget present dir ;; if b : bool then Exit 1 else vset present dir true.

(** [present] marks exactly the elements of [seen]. *)
Definition marks (present : list bool) (seen : list nat) : Prop := forall i, i < length present -> (nth i present false = true <-> In i seen).

Lemma mark_loop : forall l present seen, marks present seen -> Forall (fun x => x < length present) l ->
  (NoDup l -> (forall x, In x l -> ~ In x seen) -> exists p, for_in mark l present = Ok p /\ length p = length present /\ marks p (seen ++ l)) /\
  (~ (NoDup l /\ forall x, In x l -> ~ In x seen) -> for_in mark l present = Exit 1).
Proof.
  induction l as [|x l IH]; intros present seen M F.
  - split; [intros _ _; exists present; rewrite app_nil_r; repeat split; [apply M|apply M]; assumption|]. intros H. exfalso. apply H. split; [constructor|intros x []].
  - inversion F as [|x0 l0 Hx Hl]; subst. cbn [for_in]. unfold mark at 1 3. unfold vget. rewrite (nth_error_nth' present false Hx). cbn [bind].
    destruct (nth x present false) eqn:Eb.
    + split; [intros H1 H2; exfalso; apply (H2 x (or_introl eq_refl)), M; assumption|]. reflexivity.
    + unfold vset. rewrite (proj2 (Nat.ltb_lt _ _) Hx). cbn [bind]. assert (M' : marks (upd present x true) (seen ++ [x])).
      { intros i Hi. rewrite upd_length in Hi. rewrite nth_upd. destruct (Nat.eqb_spec i x) as [->|Hn].
        - rewrite (proj2 (Nat.ltb_lt _ _) Hx). split; [intros _; apply in_or_app; right; left; reflexivity|reflexivity].
        - rewrite (M i Hi). split; [intros H; apply in_or_app; left; exact H|]. intros H. apply in_app_or in H as [H|[H|[]]]; [exact H|congruence]. }
      assert (F' : Forall (fun y => y < length (upd present x true)) l) by (rewrite upd_length; exact Hl).
      assert (Hx' : ~ In x seen) by (intros H; apply M in H; [congruence|exact Hx]).
      destruct (IH _ _ M' F') as (IH1 & IH2). split.
      * intros H1 H2. inversion H1 as [|x0 l0 H3 H4]; subst. destruct IH1 as (p & P1 & P2 & P3); [exact H4|intros y Hy H; apply in_app_or in H as [H|[H|[]]]; [apply (H2 y (or_intror Hy) H)|subst; contradiction]|].
        exists p. split; [exact P1|]. split; [rewrite P2; apply upd_length|]. rewrite <- app_assoc in P3. exact P3.
      * intros H. apply IH2. intros (H1 & H2). apply H. split; [constructor; [|exact H1]; intros Hi; apply (H2 x Hi), in_or_app; right; left; reflexivity|]. intros y [<-|Hy]; [exact Hx'|]. intros Hs. apply (H2 y Hy), in_or_app. left. exact Hs.
Qed.

Lemma all_marked : forall present, for_in (fun (b : bool) _ => if b then Ok tt else Exit 1) present tt = if forallb (fun b => b) present then Ok tt else Exit 1.
Proof. induction present as [|[] l IH]; [reflexivity|exact IH|reflexivity]. Qed.

Lemma no_marks : forall dim, marks (repeat false dim) [].
Proof. intros dim i _. rewrite nth_repeat. split; [discriminate|intros []]. Qed.

(** In range: the check passes exactly for the partitions of 0 .. dim - 1. *)
Lemma check_dims_ok : forall dirs dim, Forall (fun x => x < dim) (concat dirs) ->
  (Permutation (concat dirs) (seq 0 dim) -> check_dims dirs dim = Ok tt) /\ (~ Permutation (concat dirs) (seq 0 dim) -> check_dims dirs dim = Exit 1).
Proof.
  intros dirs dim F. unfold check_dims. change (fun di present => for_in _ di present) with (fun di present => for_in mark di present). rewrite for_in_concat.
  assert (F' : Forall (fun x => x < length (repeat false dim)) (concat dirs)) by (rewrite repeat_length; exact F). destruct (mark_loop (concat dirs) (repeat false dim) [] (no_marks dim) F') as (A & B). split.
  - intros P. destruct A as (p & P1 & P2 & P3); [apply (Permutation_NoDup (Permutation_sym P)), seq_NoDup|intros x _ []|]. rewrite P1. cbn [bind]. rewrite all_marked. rewrite repeat_length in P2.
    replace (forallb (fun b => b) p) with true; [reflexivity|]. symmetry. apply forallb_forall. intros b Hb. apply In_nth with (d := false) in Hb as (i & Hi & <-). apply P3; [exact Hi|]. apply (Permutation_in i (Permutation_sym P)), in_seq. lia.
  - intros P. destruct (ListDec.NoDup_dec Nat.eq_dec (concat dirs)) as [D|D]; [|rewrite B; [reflexivity|intros (H & _); contradiction]].
    destruct A as (p & P1 & P2 & P3); [exact D|intros x _ []|]. rewrite P1. cbn [bind]. rewrite all_marked. rewrite repeat_length in P2. destruct (forallb (fun b => b) p) eqn:G; [|reflexivity]. exfalso. apply P.
    apply NoDup_Permutation; [exact D|apply seq_NoDup|]. intros x. rewrite in_seq. split; [intros Hx; rewrite Forall_forall in F; specialize (F x Hx); lia|]. intros Hx. apply (P3 x); [lia|]. rewrite forallb_forall in G. apply (G (nth x p false)), nth_In. lia.
Qed.

(** The first direction out of range, after different ones: undefined. *)
Lemma check_dims_ub : forall dirs dim l1 x l2, concat dirs = l1 ++ x :: l2 -> NoDup l1 -> Forall (fun y => y < dim) l1 -> dim <= x -> check_dims dirs dim = Ub.
Proof.
  intros dirs dim l1 x l2 E D F Hx. unfold check_dims. change (fun di present => for_in _ di present) with (fun di present => for_in mark di present). rewrite for_in_concat, E.
  assert (X : forall l' l s, for_in mark (l ++ l') s = bind (for_in mark l s) (for_in mark l')).
  { clear. intros l' l. induction l as [|x l IH]; intros s; [reflexivity|]. cbn [app for_in]. destruct (mark x s); try reflexivity. cbn [bind]. apply IH. }
  rewrite X. assert (F' : Forall (fun x => x < length (repeat false dim)) l1) by (rewrite repeat_length; exact F). destruct (mark_loop l1 (repeat false dim) [] (no_marks dim) F') as (A & _). destruct A as (p & P1 & P2 & P3); [exact D|intros y _ []|]. rewrite P1. cbn [bind for_in]. unfold mark at 1, vget. rewrite repeat_length in P2. replace (nth_error p x) with (@None bool) by (symmetry; apply nth_error_None; lia). reflexivity.
Qed.

(** The check of one size. *)
Lemma check_degree_ok : forall s dim degree n, usable s dim degree -> (Z.of_nat n < 2 ^ 32)%Z -> check_degree s (u32 (Z.of_nat n)) dim (recovered s degree) = if n =? length (points s dim degree) then Ok tt else Exit 1.
Proof.
  intros s dim degree n U Hn. destruct dim as [|d]; [destruct U as [U _]; lia|]. unfold check_degree. rewrite u32_of_small by exact Hn.
  rewrite (s_size_Ok s d (recovered s degree)); [|apply usable_recovered_ok; exact U|rewrite spec_list_recovered; apply usable_length; exact U]. cbn [bind]. rewrite spec_list_recovered, <- (points_spec s d degree) by exact U.
  destruct (Nat.eqb_spec n (length (points s (S d) degree))) as [->|H]; [rewrite Z.eqb_refl; reflexivity|]. rewrite (proj2 (Z.eqb_neq _ _)) by lia. reflexivity.
Qed.

(** The loop over the sizes. *)
Lemma check_degrees_ok : forall s degree sizes dirs first, length sizes = length dirs -> Forall (fun n => (Z.of_nat n < 2 ^ 32)%Z) sizes -> Forall (fun d : list nat => usable s (length d) degree) dirs -> first <= length dirs ->
  let good := Forall2 (fun d n => n = length (points s (length d) degree)) (skipn first dirs) (skipn first sizes) in
  (good -> check_degrees s (map (fun n => u32 (Z.of_nat n)) sizes) dirs first (recovered s degree) (length dirs) = Ok tt) /\
  (~ good -> check_degrees s (map (fun n => u32 (Z.of_nat n)) sizes) dirs first (recovered s degree) (length dirs) = Exit 1).
Proof.
  intros s degree sizes dirs first L F U Hf good. unfold check_degrees. rewrite Forall_forall in F, U. set (f := fun (i : nat) (_ : unit) => size <- vget _ i ;; _). remember (length dirs - first) as k eqn:Ek. revert first Hf good Ek. induction k as [|k IH]; intros first Hf good Ek.
  - assert (first = length dirs) by lia. subst first. split; [reflexivity|]. intros G. exfalso. apply G. unfold good. rewrite !skipn_all2 by lia. constructor.
  - destruct (nth_error dirs first) as [d|] eqn:Ed; [|apply nth_error_None in Ed; lia]. destruct (nth_error sizes first) as [n|] eqn:En; [|apply nth_error_None in En; lia].
    assert (Sd : skipn first dirs = d :: skipn (S first) dirs) by (clear -Ed; revert first Ed; induction dirs as [|y l IHl]; intros [|f] H; try discriminate H; [injection H as ->; reflexivity|exact (IHl f H)]).
    assert (Sn : skipn first sizes = n :: skipn (S first) sizes) by (clear -En; revert first En; induction sizes as [|y l IHl]; intros [|f] H; try discriminate H; [injection H as ->; reflexivity|exact (IHl f H)]).
    destruct (IH (S first) ltac:(lia) ltac:(lia)) as (A & B). cbn [for_each]. assert (Hs : f first tt = if n =? length (points s (length d) degree) then Ok tt else Exit 1).
    { unfold f, vget. rewrite nth_error_map, En, Ed. cbn [option_map bind]. apply check_degree_ok; [apply U|apply F]; eapply nth_error_In; eassumption. }
    rewrite Hs. clearbody f.
    unfold good. rewrite Sd, Sn. destruct (Nat.eqb_spec n (length (points s (length d) degree))) as [->|Hne]; cbn [bind].
    + split; [intros G; inversion G; subst; apply A; assumption|]. intros G. apply B. intros G'. apply G. constructor; [reflexivity|exact G'].
    + split; [intros G; inversion G; subst; contradiction|reflexivity].
Qed.

Lemma dims_sum : forall dirs : list (list nat), list_sum (map (@length nat) dirs) = length (concat dirs).
Proof. induction dirs as [|d l IH]; [reflexivity|]. cbn [map list_sum fold_right concat]. rewrite app_length, <- IH. reflexivity. Qed.

Lemma dirs_in_range : forall dim dirs, dirs_ok dim dirs -> Forall (fun x => x < dim) (concat dirs).
Proof. intros dim dirs H. induction H as [|d l (_ & _ & Hd) H IH]; [constructor|]. cbn [concat]. apply Forall_app. split; assumption. Qed.

Lemma dirs_usable : forall s dim degree dirs, dirs_ok dim dirs -> dim = length (concat dirs) -> usable s dim degree -> Forall (fun d : list nat => usable s (length d) degree) dirs.
Proof.
  intros s dim degree dirs H E U. assert (X : forall d, In d dirs -> length d <= length (concat dirs)).
  { clear. induction dirs as [|e l IH]; intros d []; cbn [concat]; rewrite app_length; [subst; lia|]. specialize (IH d H). lia. }
  unfold dirs_ok in H. rewrite Forall_forall in *. intros d Hd. apply (usable_sub s dim); [exact U|]. specialize (X d Hd). destruct (H d Hd) as (_ & H1 & _). destruct d; [contradiction|]. cbn [length] in *. lia.
Qed.

Lemma first_degree : forall s dim degree n, usable s dim degree -> n = length (points s dim degree) -> s_get_degree s dim (u32 (Z.of_nat n)) = Ok (recovered s degree).
Proof. intros s dim degree n U ->. destruct dim as [|d]; [destruct U as [U _]; lia|]. rewrite points_spec by exact U. apply usable_get_degree. exact U. Qed.

Fixpoint remove1 (x : nat) (l : list nat) : list nat :=
  match l with
  | [] => []
  | y :: t => if x =? y then t else y :: remove1 x t
  end.
Lemma remove1_perm : forall x l, In x l -> Permutation (x :: remove1 x l) l.
Proof.
  intros x l. induction l as [|y l IH]; intros H; [destruct H|]. cbn [remove1]. destruct (Nat.eqb_spec x y) as [->|D]; [reflexivity|]. destruct H as [->|H]; [congruence|]. apply (Permutation_trans (perm_swap y x (remove1 x l))). constructor. apply IH. exact H.
Qed.
Lemma Permutation_dec_nat : forall l l' : list nat, {Permutation l l'} + {~ Permutation l l'}.
Proof.
  induction l as [|x l IH]; intros l'; [destruct l' as [|y l']; [left; constructor|right; intros H; apply Permutation_nil in H; discriminate H]|].
  destruct (in_dec Nat.eq_dec x l') as [H|H]; [|right; intros P; apply H, (Permutation_in x P); left; reflexivity].
  destruct (IH (remove1 x l')) as [P|P]; [left|right].
  - apply (Permutation_trans (perm_skip x P)), remove1_perm. exact H.
  - intros Q. apply P. apply (Permutation_cons_inv (a := x)). apply (Permutation_trans Q), Permutation_sym, remove1_perm. exact H.
Qed.

Section Facts.
Variable N : num.

(** Vectors. *)
Lemma vec_checks : forall s degree dirs (inputs : list (list N)) dim, dim = length (concat dirs) -> usable s dim degree -> dirs_ok dim dirs -> length inputs = length dirs ->
  Forall (fun v => (Z.of_nat (length v) < 2 ^ 32)%Z) inputs -> (forall d v, nth_error dirs 0 = Some d -> nth_error inputs 0 = Some v -> vec_for s (length d) degree v) ->
  let good := Permutation (concat dirs) (seq 0 dim) /\ Forall2 (fun d v => vec_for s (length d) degree v) dirs inputs in
  (good -> tensorize_vec_debug N s inputs dirs = tensorize_vec N s inputs dirs) /\ (~ good -> tensorize_vec_debug N s inputs dirs = Exit 1).
Proof.
  intros s degree dirs inputs dim E U D L F H0 good. destruct dirs as [|d0 dirs]; [exfalso; subst; destruct U as [U _]; cbn in U; lia|]. destruct inputs as [|v0 inputs]; [discriminate L|]. specialize (H0 d0 v0 eq_refl eq_refl).
  pose proof (dirs_usable _ _ _ _ D E U) as UD.
  assert (M : exists l, mapM (fun d => make_iterator s d (recovered s degree)) (map (@length nat) (d0 :: dirs)) = Ok l).
  { clear -UD. induction UD as [|d l Hd UD IH]; [exists []; reflexivity|]. destruct IH as (r & IH). cbn [map mapM]. destruct (length d) as [|k] eqn:Ek; [destruct Hd as [Hd _]; lia|]. rewrite usable_make_iterator by exact Hd. cbn [bind]. rewrite IH. cbn [bind]. eexists. reflexivity. }
  destruct M as (l & M).
  assert (EV : tensorize_vec_debug N s (v0 :: inputs) (d0 :: dirs) = (_ <- check_dims (d0 :: dirs) dim ;; _ <- check_degrees s (map (fun n => u32 (Z.of_nat n)) (map (@length N) (v0 :: inputs))) (d0 :: dirs) 0 (recovered s degree) (length (d0 :: dirs)) ;; tensorize_vec N s (v0 :: inputs) (d0 :: dirs))).
  { unfold tensorize_vec_debug. rewrite dims_sum, <- E, map_map. change (vget (map (@length nat) (d0 :: dirs)) 0) with (Ok (length d0)). change (vget (v0 :: inputs) 0) with (Ok v0). cbn [bind]. change (usize v0) with (u32 (Z.of_nat (length v0))).
    rewrite (first_degree s (length d0) degree (length v0)) by (try exact H0; inversion UD; assumption). cbn [bind]. rewrite M. reflexivity. }
  rewrite EV. destruct (check_dims_ok (d0 :: dirs) dim (dirs_in_range _ _ D)) as (A & B).
  destruct (check_degrees_ok s degree (map (@length N) (v0 :: inputs)) (d0 :: dirs) 0) as (A' & B'); [rewrite map_length; exact L|rewrite Forall_map; exact F|exact UD|lia|]. cbn [skipn] in A', B'.
  assert (G : Forall2 (fun d v => vec_for s (length d) degree v) (d0 :: dirs) (v0 :: inputs) <-> Forall2 (fun d n => n = length (points s (length d) degree)) (d0 :: dirs) (map (@length N) (v0 :: inputs))).
  { clear. generalize (d0 :: dirs), (v0 :: inputs). intros ds vs. split; [intros H; induction H; constructor; assumption|]. revert vs. induction ds as [|d ds IH]; intros [|v vs] H; inversion H; subst; constructor; [assumption|apply IH; assumption]. }
  split.
  - intros (G1 & G2). rewrite A by exact G1. cbn [bind]. rewrite A' by (apply G; exact G2). reflexivity.
  - intros H. destruct (Permutation_dec_nat (concat (d0 :: dirs)) (seq 0 dim)) as [P|P]; [|rewrite B by exact P; reflexivity].
    rewrite A by exact P. cbn [bind]. rewrite B'; [reflexivity|]. intros G'. apply H. split; [exact P|apply G; exact G'].
Qed.

(** Matrices: the checks. *)
Lemma mat_checks : forall s degree dirs rows dim, dim = length (concat dirs) -> usable s dim degree -> dirs_ok dim dirs -> length rows = length dirs ->
  Forall (fun n => (Z.of_nat n < 2 ^ 32)%Z) rows -> (forall d n, nth_error dirs 0 = Some d -> nth_error rows 0 = Some n -> n = length (points s (length d) degree)) ->
  let good := Permutation (concat dirs) (seq 0 dim) /\ Forall2 (fun d n => n = length (points s (length d) degree)) dirs rows in
  (good -> check_mats s rows dirs = Ok tt) /\ (~ good -> check_mats s rows dirs = Exit 1).
Proof.
  intros s degree dirs rows dim E U D L F H0 good. destruct dirs as [|d0 dirs]; [exfalso; subst; destruct U as [U _]; cbn in U; lia|]. destruct rows as [|n0 rows]; [discriminate L|]. specialize (H0 d0 n0 eq_refl eq_refl).
  pose proof (dirs_usable _ _ _ _ D E U) as UD. unfold check_mats. rewrite dims_sum, <- E. destruct (check_dims_ok (d0 :: dirs) dim (dirs_in_range _ _ D)) as (A & B).
  destruct (check_degrees_ok s degree (n0 :: rows) (d0 :: dirs) 1) as (A' & B'); [exact L|exact F|exact UD|cbn; lia|]. rewrite L. cbn [skipn] in A', B'.
  split.
  - intros (G1 & G2). rewrite A by exact G1. cbn [map vget nth_error bind]. rewrite (first_degree s (length d0) degree n0) by (try exact H0; inversion UD; assumption). cbn [bind]. apply A'. inversion G2; assumption.
  - intros H. destruct (Permutation_dec_nat (concat (d0 :: dirs)) (seq 0 dim)) as [P|P]; [|rewrite B by exact P; reflexivity].
    rewrite A by exact P. cbn [map vget nth_error bind]. rewrite (first_degree s (length d0) degree n0) by (try exact H0; inversion UD; assumption). cbn [bind]. apply B'. intros G. apply H. split; [exact P|constructor; [exact H0|exact G]].
Qed.
End Facts.
