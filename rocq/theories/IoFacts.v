(** The printed texts, and that they can be read back. *)
From Coq Require Import String Ascii List Bool Arith Lia Decimal DecimalString DecimalNat.
From Verif Require Import Base IndexModel HashPrint VecModel VecFacts3 IoSpec.
Import ListNotations.
Local Open Scope string_scope.

Lemma concat_cons : forall s x l, String.concat s (x :: l) = x ++ fold_right (fun y r => s ++ y ++ r) "" l.
Proof.
  intros s x l. revert x. induction l as [|y l IH]; intros x.
  - simpl. induction x; simpl; congruence.
  - change (String.concat s (x :: y :: l)) with (x ++ s ++ String.concat s (y :: l)). rewrite IH. reflexivity.
Qed.

Lemma seq_text : forall (A : Type) (p : A -> res string) (ok : A -> bool) (t : A -> string) sep close,
  (forall x, p x = if ok x then Ok (t x) else Ub) ->
  forall l, print sep close p l = if nonempty l && forallb ok l then Ok ("[" ++ String.concat sep (map t l) ++ close) else Ub.
Proof.
  intros A p ok t sep close P [|x l]; [reflexivity|]. cbn [nonempty andb].
  destruct (forallb ok (x :: l)) eqn:F.
  - apply print_ok; [discriminate|]. intros a Ha. rewrite P. rewrite forallb_forall in F. rewrite (F a Ha). reflexivity.
  - assert (B : exists a, In a (x :: l) /\ ok a = false).
    { clear P. revert F. generalize (x :: l). induction l0 as [|a l0 IH]; [discriminate|]. cbn [forallb].
      destruct (ok a) eqn:E; [|intros _; exists a; split; [left; reflexivity|exact E]].
      intros F. destruct (IH F) as (b & Hb & Eb). exists b. split; [right; exact Hb|exact Eb]. }
    destruct B as (a & Ha & Ea). apply (print_bad _ _ _ _ (x :: l) a); [|exact Ha|rewrite P, Ea; reflexivity].
    intros b. rewrite P. destruct (ok b); [left; eexists; reflexivity|right; reflexivity].
Qed.

Lemma vec_print : forall v, print_vec to_string v = if vec_ok v then Ok (vec_text v) else Ub.
Proof.
  intros v. unfold print_vec. rewrite (seq_text _ _ (fun _ => true) digits) by reflexivity.
  assert (F : forallb (fun _ : nat => true) v = true) by (clear; induction v; auto).
  rewrite F, andb_true_r. reflexivity.
Qed.

Lemma mat_print : forall m, print_mat to_string m = if mat_ok m then Ok (mat_text m) else Ub.
Proof. exact (seq_text _ _ vec_ok vec_text _ _ vec_print). Qed.

Lemma cube_print : forall c, print_cube to_string c = if cube_ok c then Ok (cube_text c) else Ub.
Proof. exact (seq_text _ _ mat_ok mat_text _ _ mat_print). Qed.

(** Reading back. *)
Definition is_digit (c : ascii) : bool := (Nat.leb 48 (nat_of_ascii c) && Nat.leb (nat_of_ascii c) 57)%bool.
Fixpoint all_digits (s : string) : bool := match s with "" => true | String c r => is_digit c && all_digits r end.
Definition head_nondigit (s : string) : bool := match s with "" => true | String c r => negb (is_digit c) end.

Lemma digits_all : forall n, all_digits (digits n) = true.
Proof. intros n. unfold digits. induction (Nat.to_uint n); simpl; auto. Qed.

Lemma digits_cancel : forall a b s t, all_digits a = true -> all_digits b = true -> head_nondigit s = true -> head_nondigit t = true ->
  a ++ s = b ++ t -> a = b /\ s = t.
Proof.
  induction a as [|c a IH]; intros [|d b] s t Ha Hb Hs Ht E; simpl in *.
  - auto.
  - subst s. simpl in Hs. apply andb_prop in Hb as [Hb _]. rewrite Hb in Hs. discriminate.
  - subst t. simpl in Ht. apply andb_prop in Ha as [Ha _]. rewrite Ha in Ht. discriminate.
  - injection E as <- E. apply andb_prop in Ha as [_ Ha]. apply andb_prop in Hb as [_ Hb].
    destruct (IH _ _ _ Ha Hb Hs Ht E) as [-> ->]. auto.
Qed.

Section Read.
Context {A : Type}.
Variables (ok : A -> bool) (t : A -> string) (c : ascii) (sep : string) (good : string -> Prop).
Hypothesis C : c <> "]"%char.
Hypothesis G1 : forall s, good (String c s).
Hypothesis G2 : forall s, good (String "]" s).
Hypothesis T : forall x y r s, ok x = true -> ok y = true -> good r -> good s -> t x ++ r = t y ++ s -> x = y /\ r = s.

Let body (l : list A) (r : string) : string := fold_right (fun y r => String c sep ++ y ++ r) "" (map t l) ++ String "]" r.

Lemma body_good : forall l r, good (body l r).
Proof. intros [|x l] r; [apply G2|apply G1]. Qed.

Lemma body_cons : forall x l r, body (x :: l) r = String c (sep ++ t x ++ body l r).
Proof. intros. unfold body. simpl. rewrite !append_assoc_str. reflexivity. Qed.

Lemma prefix_cancel : forall s a b, s ++ a = s ++ b -> a = b.
Proof. induction s; simpl; intros; [assumption|]. injection H. auto. Qed.

Lemma body_inj : forall l k r s, forallb ok l = true -> forallb ok k = true -> body l r = body k s -> l = k /\ r = s.
Proof.
  induction l as [|x l IH]; intros [|y k] r s Hl Hk E.
  - injection E. auto.
  - rewrite body_cons in E. unfold body in E. simpl in E. injection E as E _. congruence.
  - rewrite body_cons in E. unfold body in E. simpl in E. injection E as E _. congruence.
  - rewrite !body_cons in E. injection E as E. apply prefix_cancel in E.
    simpl in Hl, Hk. apply andb_prop in Hl as [Hx Hl]. apply andb_prop in Hk as [Hy Hk].
    apply T in E as [-> E]; [|assumption..|apply body_good|apply body_good]. apply IH in E as [-> ->]; auto.
Qed.

Lemma read_inj : forall l k r s, nonempty l && forallb ok l = true -> nonempty k && forallb ok k = true ->
  String.concat (String c sep) (map t l) ++ String "]" r = String.concat (String c sep) (map t k) ++ String "]" s -> l = k /\ r = s.
Proof.
  intros [|x l] [|y k] r s Hl Hk E; try discriminate. simpl map in E. rewrite !concat_cons, !append_assoc_str in E.
  simpl in Hl, Hk. apply andb_prop in Hl as [Hx Hl]. apply andb_prop in Hk as [Hy Hk].
  apply T in E as [-> E]; [|assumption..|apply (body_good l r)|apply (body_good k s)].
  apply body_inj in E as [-> ->]; auto.
Qed.
End Read.

Lemma vec_read : forall v w r s, vec_ok v = true -> vec_ok w = true -> vec_text v ++ r = vec_text w ++ s -> v = w /\ r = s.
Proof.
  intros v w r s Hv Hw E. unfold vec_text in E. rewrite !append_assoc_str in E. injection E as E.
  assert (F : forall l : list nat, forallb (fun _ => true) l = true) by (induction l; auto).
  refine (read_inj (fun _ => true) digits "," " " (fun s => head_nondigit s = true) _ _ _ _ v w r s _ _ E); try discriminate; try reflexivity.
  - intros x y a b _ _ Ha Hb H. apply digits_cancel in H as [H ->]; auto using digits_all.
    split; [|reflexivity]. apply to_string_inj. exact H.
  - rewrite F, andb_true_r. exact Hv.
  - rewrite F, andb_true_r. exact Hw.
Qed.

Lemma mat_read : forall v w r s, mat_ok v = true -> mat_ok w = true -> mat_text v ++ r = mat_text w ++ s -> v = w /\ r = s.
Proof.
  intros v w r s Hv Hw E. unfold mat_text in E. rewrite !append_assoc_str in E. injection E as E.
  refine (read_inj vec_ok vec_text "010" " " (fun _ => True) _ _ _ _ v w r s Hv Hw E); try discriminate; try exact (fun _ => I).
  intros x y a b Hx Hy _ _. apply vec_read; assumption.
Qed.

Lemma cube_read : forall v w r s, cube_ok v = true -> cube_ok w = true -> cube_text v ++ r = cube_text w ++ s -> v = w /\ r = s.
Proof.
  intros v w r s Hv Hw E. unfold cube_text in E. rewrite !append_assoc_str in E. injection E as E.
  assert (H : v = w /\ newline ++ r = newline ++ s).
  { refine (read_inj mat_ok mat_text "010" "  " (fun _ => True) _ _ _ _ v w _ _ Hv Hw E); try discriminate; try exact (fun _ => I).
    intros x y a b Hx Hy _ _. apply mat_read; assumption. }
  destruct H as [-> H]. injection H as ->. auto.
Qed.

Section Injective.
Context {A : Type}.
Variables (p : A -> res string) (ok : A -> bool) (t : A -> string).
Hypothesis P : forall x, p x = if ok x then Ok (t x) else Ub.
Hypothesis R : forall v w r s, ok v = true -> ok w = true -> t v ++ r = t w ++ s -> v = w /\ r = s.
Lemma print_inj : forall a b a' b' r s, p a = Ok r -> p b = Ok s -> r ++ a' = s ++ b' -> a = b /\ a' = b'.
Proof.
  intros a b a' b' r s. rewrite !P. destruct (ok a) eqn:Ea; [|discriminate]. destruct (ok b) eqn:Eb; [|discriminate].
  intros [= <-] [= <-] H. exact (R _ _ _ _ Ea Eb H).
Qed.
End Injective.
