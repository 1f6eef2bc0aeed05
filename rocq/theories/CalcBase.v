(** Loops that step an iterator or a grid position together with a counter. *)
From Coq Require Import String List Bool Arith ZArith Lia.
From Verif Require Import Base Lists IndexModel Spec Machine IndexSet Grid LinBase.
Import ListNotations.

Lemma bind_assoc : forall A B C (x : res A) (f : A -> res B) (g : B -> res C),
  bind (bind x f) g = bind x (fun a => bind (f a) g).
Proof. intros. destruct x; reflexivity. Qed.

Lemma bind_ext : forall A B (x : res A) (f g : A -> res B), (forall a, x = Ok a -> f a = g a) -> bind x f = bind x g.
Proof. intros. destruct x; cbn [bind]; auto. Qed.

Lemma bind_snd : forall A B C (x : res (A * B)) (f : B -> res C),
  bind x (fun '(_, b) => f b) = bind (bind x (fun ab => Ok (snd ab))) f.
Proof. intros. destruct x as [[a b]| | | |]; reflexivity. Qed.

Lemma skipn_nth : forall A (l : list A) k x, nth_error l k = Some x -> skipn k l = x :: skipn (S k) l.
Proof.
  intros A. induction l as [|y l IH]; intros [|k] x E; try discriminate; [injection E as ->; reflexivity|].
  cbn [nth_error] in E. cbn [skipn]. rewrite (IH k x E). reflexivity.
Qed.

Lemma enum_length : forall A (l : list A), length (enum l) = length l.
Proof. intros. unfold enum. rewrite combine_length, seq_length. lia. Qed.

Lemma nth_error_enum : forall A (l : list A) k x, nth_error l k = Some x -> nth_error (enum l) k = Some (k, x).
Proof.
  intros A l k x. unfold enum. change (Some (k, x)) with (Some (0 + k, x)). generalize 0. revert k.
  induction l as [|y l IH]; intros [|k] i H; try discriminate.
  - injection H as ->. cbn. rewrite Nat.add_0_r. reflexivity.
  - cbn [length seq combine nth_error] in *. rewrite (IH k (S i) H). f_equal. f_equal. lia.
Qed.

Lemma for_each_it : forall St (B : nat -> iterator * St -> res (iterator * St)) (body : nat -> mi -> St -> res St) l,
  (forall j it st, j < length l -> state_at l j it ->
     B j (it, st) = (st' <- body j (it_multi_index it) st ;; it' <- it_increment it ;; Ok (it', st'))) ->
  forall n k it st, state_at l k it -> k + n = length l ->
  (r <- for_each B n k (it, st) ;; Ok (snd r)) = for_in (fun '(i, m) st => body i m st) (skipn k (enum l)) st.
Proof.
  intros St B body l HB. induction n as [|n IH]; intros k it st Hs Hk.
  - rewrite skipn_all2 by (rewrite enum_length; lia). reflexivity.
  - rewrite for_each_S. rewrite HB by (assumption || lia). destruct (it_increment_state l k it Hs) as [it' [E1 E2]].
    pose proof Hs as [H1 [H2 [H3 [H4 H5]]]]. rewrite H3, Nat.min_l in H4 by lia.
    rewrite (skipn_nth _ _ _ _ (nth_error_enum _ _ _ _ H4)). cbn [for_in].
    destruct (body k (it_multi_index it) st) as [st'| | | |]; cbn [bind]; try reflexivity.
    rewrite E1. cbn [bind]. apply IH; [assumption|lia].
Qed.

(** A grid position after k increments. *)
Definition grid_at (bounds : list nat) (k : nat) (p : list nat) : Prop := k < length (glist bounds) -> nth_error (glist bounds) k = Some p.

Lemma linked_nth : forall A (Rl : A -> A -> Prop) l k x y, linked Rl l -> nth_error l k = Some x -> nth_error l (S k) = Some y -> Rl x y.
Proof.
  intros A Rl. induction l as [|a l IH]; intros k x y Hl Hx Hy; [destruct k; discriminate|].
  destruct l as [|b l]; [destruct k; discriminate|]. destruct Hl as [H1 H2]. destruct k as [|k].
  - injection Hx as <-. injection Hy as <-. assumption.
  - eapply IH; eassumption.
Qed.

Lemma last_opt_nth : forall A (l : list A), last_opt l = nth_error l (length l - 1).
Proof.
  intros A. induction l as [|a l IH]; [reflexivity|]. destruct l as [|b l]; [reflexivity|].
  rewrite last_opt_cons_ne by discriminate. rewrite IH. cbn [length]. replace (S (S (length l)) - 1) with (S (S (length l) - 1)) by lia. reflexivity.
Qed.

Lemma pos_of_length : forall bounds, 0 < length (glist bounds) -> pos_bounds bounds.
Proof.
  intros bounds. rewrite glist_length. induction bounds as [|b bs IH]; intros H; [constructor|]. cbn [fold_right] in H.
  constructor; [nia|]. apply IH. nia.
Qed.

Lemma grid_at_step : forall bounds k p, bounds <> [] -> k < length (glist bounds) -> grid_at bounds k p ->
  exists b p', grid_increment bounds p = Ok (b, p') /\ grid_at bounds (S k) p'.
Proof.
  intros bounds k p Hne Hk Hp. specialize (Hp Hk). pose proof (pos_of_length bounds ltac:(lia)) as Hpos.
  destruct (Nat.eq_dec (S k) (length (glist bounds))) as [E|E].
  - destruct (grid_increment_end bounds Hpos Hne) as [m Hm]. pose proof (glist_last bounds Hpos) as Hl. rewrite last_opt_nth in Hl.
    replace (length (glist bounds) - 1) with k in Hl by lia. rewrite Hp in Hl. injection Hl as ->.
    exists true, m. split; [assumption|]. intros H. lia.
  - destruct (nth_error (glist bounds) (S k)) as [q|] eqn:Eq; [|apply nth_error_None in Eq; lia].
    exists false, q. split; [|intros _; assumption]. apply grid_increment_step. eapply linked_nth; [apply linked_glist; assumption| |]; eassumption.
Qed.

Lemma grid_at_0 : forall bounds, grid_at bounds 0 (repeat 0 (length bounds)).
Proof.
  intros bounds H. pose proof (glist_hd bounds (pos_of_length bounds H)) as G. destruct (glist bounds) as [|x l]; [discriminate|].
  injection G as ->. reflexivity.
Qed.

Lemma for_each_grid : forall St (B : nat -> list nat * St -> res (list nat * St)) (body : nat -> list nat -> St -> res St) bounds,
  bounds <> [] ->
  (forall j p st, nth_error (glist bounds) j = Some p ->
     B j (p, st) = (st' <- body j p st ;; '(_, p') <- grid_increment bounds p ;; Ok (p', st'))) ->
  forall n k p st, grid_at bounds k p -> k + n = length (glist bounds) ->
  (r <- for_each B n k (p, st) ;; Ok (snd r)) = for_in (fun '(i, m) st => body i m st) (skipn k (enum (glist bounds))) st.
Proof.
  intros St B body bounds Hne HB. induction n as [|n IH]; intros k p st Hs Hk.
  - rewrite skipn_all2 by (rewrite enum_length; lia). reflexivity.
  - rewrite for_each_S. pose proof (Hs ltac:(lia)) as H4. rewrite HB by assumption. destruct (grid_at_step bounds k p Hne ltac:(lia) Hs) as [b [p' [E1 E2]]].
    rewrite (skipn_nth _ _ _ _ (nth_error_enum _ _ _ _ H4)). cbn [for_in].
    destruct (body k p st) as [st'| | | |]; cbn [bind]; try reflexivity.
    rewrite E1. cbn [bind]. apply IH; [assumption|lia].
Qed.

(** 32-bit product of the bounds *)
Lemma fold_u32 : forall l a, (0 <= a)%Z -> fold_left (fun acc n => u32 (acc * Z.of_nat n)) l (u32 a) = u32 (a * Z.of_nat (fold_right Nat.mul 1 l)).
Proof.
  induction l as [|n l IH]; intros a Ha; cbn [fold_left fold_right].
  - rewrite Z.mul_1_r. reflexivity.
  - replace (u32 (u32 a * Z.of_nat n)) with (u32 (a * Z.of_nat n)).
    + rewrite IH by lia. rewrite Nat2Z.inj_mul, Z.mul_assoc. reflexivity.
    + apply u32_eq. unfold u32. rewrite Zmult_mod_idemp_l. reflexivity.
Qed.

(** sequences of writes: an array loop that updates slot j to [g j] of the old slot *)
Lemma for_each_pointwise : forall St (P : St -> nat -> Prop) (b : nat -> St -> res St) n i s,
  (forall j s, i <= j < i + n -> (forall k, i <= k < j -> P s k) -> exists s', b j s = Ok s' /\ forall k, i <= k <= j -> P s' k) ->
  exists s', for_each b n i s = Ok s' /\ forall k, i <= k < i + n -> P s' k.
Proof.
  intros St P b n i s H.
  assert (G : forall n' s, n' <= n -> (forall k, i <= k < i + (n - n') -> P s k) -> exists s', for_each b n' (i + (n - n')) s = Ok s' /\ forall k, i <= k < i + n -> P s' k).
  { induction n' as [|n' IH]; intros s0 Hn Hs.
    - exists s0. split; [reflexivity|]. intros; apply Hs. lia.
    - rewrite for_each_S. destruct (H (i + (n - S n')) s0 ltac:(lia) ltac:(intros; apply Hs; lia)) as [s1 [E1 H1]].
      rewrite E1. cbn [bind]. replace (S (i + (n - S n'))) with (i + (n - n')) by lia. apply IH; [lia|]. intros; apply H1; lia. }
  destruct (G n s (le_n n)) as [s' Hs']; [intros; lia|]. exists s'. rewrite Nat.sub_diag, Nat.add_0_r in Hs'. exact Hs'.
Qed.
