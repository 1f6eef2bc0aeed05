(** List lemmas shared by the proofs. *)
From Coq Require Import List Arith Lia Bool.
From Verif Require Import Base.
Import ListNotations.

Definition zeros (n : nat) : list nat := repeat 0 n.
Arguments zeros : simpl never.

Fixpoint last_opt {A} (l : list A) : option A :=
  match l with [] => None | [x] => Some x | _ :: t => last_opt t end.

(** consecutive elements are related *)
Fixpoint linked {A} (R : A -> A -> Prop) (l : list A) : Prop :=
  match l with
  | [] => True
  | x :: t => match t with [] => True | y :: _ => R x y end /\ linked R t
  end.

Lemma last_opt_app : forall A (l1 l2 : list A),
  last_opt (l1 ++ l2) = match l2 with [] => last_opt l1 | _ => last_opt l2 end.
Proof.
  induction l1 as [|x l1 IH]; intros l2.
  - destruct l2; reflexivity.
  - destruct l2 as [|y l2].
    + rewrite app_nil_r. reflexivity.
    + simpl app. destruct (l1 ++ y :: l2) eqn:E.
      * destruct l1; discriminate.
      * rewrite <- E. change (last_opt (x :: l1 ++ y :: l2)) with
          (match l1 ++ y :: l2 with [] => Some x | _ => last_opt (l1 ++ y :: l2) end).
        rewrite E. rewrite <- E. rewrite IH. reflexivity.
Qed.

Lemma last_opt_snoc : forall A (l : list A) x, last_opt (l ++ [x]) = Some x.
Proof. intros. rewrite last_opt_app. reflexivity. Qed.

Lemma last_opt_cons_ne : forall A x (l : list A), l <> [] -> last_opt (x :: l) = last_opt l.
Proof. destruct l; intros; [contradiction|reflexivity]. Qed.

Lemma last_opt_map : forall A B (f : A -> B) l,
  last_opt (map f l) = option_map f (last_opt l).
Proof.
  induction l as [|x l IH]; [reflexivity|].
  destruct l; [reflexivity|]. simpl map in *. 
  change (last_opt (f a :: map f l) = option_map f (last_opt (a :: l))). exact IH.
Qed.

Lemma last_opt_None : forall A (l : list A), last_opt l = None -> l = [].
Proof.
  induction l as [|x l IH]; intros H; [reflexivity|].
  destruct l; [discriminate|]. change (last_opt (a :: l) = None) in H. apply IH in H. discriminate.
Qed.

Lemma last_opt_Some_app : forall A (l : list A) x, last_opt l = Some x -> exists l', l = l' ++ [x].
Proof.
  induction l as [|y l IH]; intros x H; [discriminate|].
  destruct l.
  - injection H as ->. exists []. reflexivity.
  - change (last_opt (a :: l) = Some x) in H. apply IH in H as [l' E]. exists (y :: l'). rewrite E. reflexivity.
Qed.

Lemma hd_error_app : forall A (l1 l2 : list A),
  hd_error (l1 ++ l2) = match l1 with [] => hd_error l2 | _ => hd_error l1 end.
Proof. destruct l1; reflexivity. Qed.

Lemma hd_error_map : forall A B (f : A -> B) l, hd_error (map f l) = option_map f (hd_error l).
Proof. destruct l; reflexivity. Qed.

Lemma linked_app : forall A (R : A -> A -> Prop) l1 l2,
  linked R l1 -> linked R l2 ->
  (forall x y, last_opt l1 = Some x -> hd_error l2 = Some y -> R x y) ->
  linked R (l1 ++ l2).
Proof.
  induction l1 as [|x l1 IH]; intros l2 H1 H2 H; [exact H2|].
  simpl app. simpl. destruct H1 as [H1a H1b]. split.
  - destruct l1 as [|z l1]; simpl.
    + destruct l2 as [|y l2]; [exact I|]. apply H; reflexivity.
    + exact H1a.
  - apply IH; [assumption|assumption|]. intros a b Ha Hb. apply H; [|assumption].
    destruct l1; [discriminate|exact Ha].
Qed.

Lemma linked_app_inv_l : forall A (R : A -> A -> Prop) l1 l2, linked R (l1 ++ l2) -> linked R l1.
Proof.
  induction l1 as [|x l1 IH]; intros l2 H; [exact I|].
  simpl in H |- *. destruct H as [Ha Hb]. split; [|eapply IH; eassumption].
  destruct l1; [exact I|exact Ha].
Qed.

Lemma linked_map : forall A B (f : A -> B) (R : A -> A -> Prop) (Q : B -> B -> Prop) l,
  (forall x y, R x y -> Q (f x) (f y)) -> linked R l -> linked Q (map f l).
Proof.
  induction l as [|x l IH]; intros H HL; [exact I|].
  simpl in *. destruct HL as [Ha Hb]. split; [|apply IH; assumption].
  destruct l; [exact I|]. simpl. apply H, Ha.
Qed.

Lemma linked_impl : forall A (R Q : A -> A -> Prop) l,
  (forall x y, In x l -> In y l -> R x y -> Q x y) -> linked R l -> linked Q l.
Proof.
  induction l as [|x l IH]; intros H HL; [exact I|].
  simpl in *. destruct HL as [Ha Hb]. split.
  - destruct l; [exact I|]. apply H; simpl; auto.
  - apply IH; [|assumption]. intros; apply H; auto.
Qed.

Lemma flat_map_ne : forall A B (f : A -> list B) l,
  l <> [] -> (forall a, In a l -> f a <> []) -> flat_map f l <> [].
Proof.
  destruct l as [|a l]; intros H H'; [contradiction|].
  simpl. intro E. apply app_eq_nil in E as [E _]. apply (H' a); [left; reflexivity|exact E].
Qed.

Lemma hd_error_flat_map : forall A B (f : A -> list B) a l,
  f a <> [] -> hd_error (flat_map f (a :: l)) = hd_error (f a).
Proof. intros. simpl. rewrite hd_error_app. destruct (f a); [contradiction|reflexivity]. Qed.

Lemma last_opt_flat_map_snoc : forall A B (f : A -> list B) a l,
  f a <> [] -> last_opt (flat_map f (l ++ [a])) = last_opt (f a).
Proof.
  intros. rewrite flat_map_app, last_opt_app. simpl. rewrite app_nil_r.
  destruct (f a); [contradiction|reflexivity].
Qed.

Lemma linked_flat_map : forall A B (f : A -> list B) (Q : A -> A -> Prop) (R : B -> B -> Prop) l,
  (forall a, In a l -> f a <> []) ->
  (forall a, In a l -> linked R (f a)) ->
  linked Q l ->
  (forall a b x y, In a l -> In b l -> Q a b -> last_opt (f a) = Some x -> hd_error (f b) = Some y -> R x y) ->
  linked R (flat_map f l).
Proof.
  induction l as [|a l IH]; intros Hne Hl HQ Hb; [exact I|].
  simpl flat_map. destruct HQ as [Qa Ql]. apply linked_app.
  - apply Hl; left; reflexivity.
  - apply IH; try assumption.
    + intros; apply Hne; right; assumption.
    + intros; apply Hl; right; assumption.
    + intros a' b' x y Ha Hb'. apply Hb; right; assumption.
  - intros x y Hx Hy. destruct l as [|b l]; [discriminate|].
    rewrite hd_error_flat_map in Hy by (apply Hne; right; left; reflexivity).
    eapply Hb; [left; reflexivity|right; left; reflexivity|exact Qa|exact Hx|exact Hy].
Qed.

Lemma NoDup_app_intro : forall A (l1 l2 : list A),
  NoDup l1 -> NoDup l2 -> (forall x, In x l1 -> In x l2 -> False) -> NoDup (l1 ++ l2).
Proof.
  induction l1 as [|x l1 IH]; intros l2 H1 H2 H; [exact H2|].
  inversion H1; subst. simpl. constructor.
  - intro Hin. apply in_app_or in Hin as [Hin|Hin]; [contradiction|].
    apply (H x); [left; reflexivity|assumption].
  - apply IH; [assumption|assumption|]. intros y Hy1 Hy2. apply (H y); [right|]; assumption.
Qed.

Lemma NoDup_flat_map : forall A B (f : A -> list B) l,
  NoDup l -> (forall a, In a l -> NoDup (f a)) ->
  (forall a b x, In a l -> In b l -> In x (f a) -> In x (f b) -> a = b) ->
  NoDup (flat_map f l).
Proof.
  induction l as [|a l IH]; intros Hn Hf Hd; [constructor|].
  simpl. inversion Hn; subst. apply NoDup_app_intro.
  - apply Hf; left; reflexivity.
  - apply IH; [assumption| |].
    + intros; apply Hf; right; assumption.
    + intros a' b x Ha Hb. apply Hd; right; assumption.
  - intros x Hx Hx'. apply in_flat_map in Hx' as [b [Hb Hxb]].
    assert (a = b) by (apply (Hd a b x); [left; reflexivity|right; assumption|assumption|assumption]).
    subst. contradiction.
Qed.

Lemma NoDup_map_inj : forall A B (f : A -> B) l,
  (forall x y, In x l -> In y l -> f x = f y -> x = y) -> NoDup l -> NoDup (map f l).
Proof.
  induction l as [|x l IH]; intros Hi Hn; [constructor|].
  inversion Hn; subst. simpl. constructor.
  - intro Hin. apply in_map_iff in Hin as [y [E Hy]].
    assert (y = x) by (apply Hi; [right; assumption|left; reflexivity|exact E]). subst. contradiction.
  - apply IH; [|assumption]. intros a b Ha Hb. apply Hi; right; assumption.
Qed.

(** vget / upd / vset *)
Lemma vget_Ok : forall A (v : list A) i x, vget v i = Ok x <-> nth_error v i = Some x.
Proof. intros. unfold vget. destruct (nth_error v i); split; intros H; congruence. Qed.

Lemma vget_app_hd : forall A (p : list A) x t i, i = length p -> vget (p ++ x :: t) i = Ok x.
Proof. intros; subst. unfold vget. rewrite nth_error_app2, Nat.sub_diag by lia. reflexivity. Qed.

Lemma vget_nth : forall A (v : list A) i d, i < length v -> vget v i = Ok (nth i v d).
Proof. intros. unfold vget. rewrite (nth_error_nth' v d) by assumption. reflexivity. Qed.

Lemma vget_ub : forall A (v : list A) i, length v <= i -> vget v i = Ub.
Proof. intros. unfold vget. destruct (nth_error v i) eqn:E; [|reflexivity].
  exfalso. assert (nth_error v i <> None) by congruence. apply nth_error_Some in H0. lia. Qed.

Lemma upd_app_hd : forall A (p : list A) x y t i, i = length p -> upd (p ++ x :: t) i y = p ++ y :: t.
Proof. intros; subst. induction p as [|z p IH]; simpl; [reflexivity|]. rewrite IH. reflexivity. Qed.

Lemma vset_app_hd : forall A (p : list A) x y t i, i = length p -> vset (p ++ x :: t) i y = Ok (p ++ y :: t).
Proof.
  intros. unfold vset. rewrite upd_app_hd by assumption. subst.
  assert (length p <? length (p ++ x :: t) = true) as ->; [|reflexivity].
  apply Nat.ltb_lt. rewrite app_length. simpl. lia.
Qed.

Lemma upd_length : forall A (v : list A) i x, length (upd v i x) = length v.
Proof. induction v as [|y v IH]; intros [|i] x; simpl; auto. Qed.

Lemma nth_upd : forall A (v : list A) i j x d,
  nth j (upd v i x) d = if (j =? i) && (i <? length v) then x else nth j v d.
Proof.
  induction v as [|y v IH]; intros [|i] [|j] x d; simpl; try reflexivity.
  - rewrite Bool.andb_comm; reflexivity.
  - rewrite IH. reflexivity.
Qed.

Lemma nth_error_upd : forall A (v : list A) i j x,
  nth_error (upd v i x) j = if (j =? i) && (i <? length v) then Some x else nth_error v j.
Proof.
  induction v as [|y v IH]; intros [|i] [|j] x; simpl; try reflexivity.
  - rewrite Bool.andb_comm; reflexivity.
  - rewrite IH. reflexivity.
Qed.

Lemma vset_Ok : forall A (v : list A) i x, i < length v -> vset v i x = Ok (upd v i x).
Proof. intros. unfold vset. apply Nat.ltb_lt in H. rewrite H. reflexivity. Qed.

Lemma list_ext_nth : forall A (l1 l2 : list A) d,
  length l1 = length l2 -> (forall i, i < length l1 -> nth i l1 d = nth i l2 d) -> l1 = l2.
Proof. intros. eapply nth_ext; eassumption. Qed.

Lemma zeros_length : forall n, length (zeros n) = n.
Proof. intros. apply repeat_length. Qed.

Lemma zeros_snoc : forall n, zeros n ++ [0] = zeros (S n).
Proof. induction n as [|n IH]; [reflexivity|]. unfold zeros in *. simpl in *. rewrite IH. reflexivity. Qed.

Lemma nth_zeros : forall n i, nth i (zeros n) 0 = 0.
Proof. intros n i. unfold zeros. revert i. induction n; destruct i; simpl; auto. Qed.

Lemma Forall_zero_zeros : forall l, Forall (fun x => x = 0) l -> l = zeros (length l).
Proof. induction l as [|x l IH]; intros H; [reflexivity|]. inversion H; subst. simpl. rewrite IH at 1 by assumption. reflexivity. Qed.

Lemma for_in_app : forall A S (f : A -> S -> res S) l1 l2 s,
  for_in f (l1 ++ l2) s = bind (for_in f l1 s) (for_in f l2).
Proof.
  induction l1 as [|x l1 IH]; intros; simpl; [reflexivity|].
  destruct (f x s); simpl; auto.
Qed.

Lemma mapM_Ok_map : forall A B (f : A -> res B) (g : A -> B) l,
  (forall x, In x l -> f x = Ok (g x)) -> mapM f l = Ok (map g l).
Proof.
  induction l as [|x l IH]; intros H; [reflexivity|].
  simpl. rewrite H by (left; reflexivity). simpl. rewrite IH by (intros; apply H; right; assumption). reflexivity.
Qed.

Lemma mapM_length : forall A B (f : A -> res B) l r, mapM f l = Ok r -> length r = length l.
Proof.
  induction l as [|x l IH]; intros r H; simpl in H.
  - injection H as <-. reflexivity.
  - destruct (f x); simpl in H; try discriminate. destruct (mapM f l) eqn:E; simpl in H; try discriminate.
    injection H as <-. simpl. f_equal. apply IH. reflexivity.
Qed.

Lemma zeros_0 : zeros 0 = [].
Proof. reflexivity. Qed.

Lemma zeros_S : forall n, zeros (S n) = 0 :: zeros n.
Proof. reflexivity. Qed.

Lemma list_sum_cons : forall x l, list_sum (x :: l) = x + list_sum l.
Proof. reflexivity. Qed.

Lemma list_sum_zeros : forall n, list_sum (zeros n) = 0.
Proof. induction n as [|n IH]; [reflexivity|]. rewrite zeros_S. simpl. exact IH. Qed.

Lemma Forall2_length : forall A B (R : A -> B -> Prop) l1 l2, Forall2 R l1 l2 -> length l1 = length l2.
Proof. induction 1; simpl; auto. Qed.

Lemma firstn_app_exact : forall A (l1 l2 : list A) n, length l1 = n -> firstn n (l1 ++ l2) = l1.
Proof. intros. subst. rewrite firstn_app, Nat.sub_diag, firstn_all, firstn_O, app_nil_r. reflexivity. Qed.

Lemma skipn_app_exact : forall A (l1 l2 : list A) n, length l1 = n -> skipn n (l1 ++ l2) = l2.
Proof. intros. subst. rewrite skipn_app, Nat.sub_diag, skipn_all, skipn_O. reflexivity. Qed.

Lemma for_loop_S : forall S R (body : nat -> S -> res (ctl S R)) n i s,
  for_loop body (Datatypes.S n) i s =
  bind (body i s) (fun c => match c with
      | Next s' => for_loop body n (Datatypes.S i) s'
      | Break s' => Ok (inr (i, s'))
      | Return r => Ok (inl r)
      end).
Proof. reflexivity. Qed.

Lemma for_each_S : forall S (body : nat -> S -> res S) n i s,
  for_each body (Datatypes.S n) i s = bind (body i s) (fun s' => for_each body n (Datatypes.S i) s').
Proof. reflexivity. Qed.

Global Opaque zeros.

Lemma filter_all_false : forall A (p : A -> bool) l, Forall (fun x => p x = false) l -> filter p l = [].
Proof. induction 1 as [|x l Hx Hl IH]; [reflexivity|]. simpl. rewrite Hx. exact IH. Qed.
