(** Facts on the dictionaries of parameters. *)
From Coq Require Import String List Bool Arith Lia.
From Verif Require Import Base PyBase OpModel OpArithModel EqnModel ParamModel ParamSpec.
Import ListNotations.
Local Open Scope string_scope. Local Open Scope list_scope. Local Open Scope nat_scope.

Section Facts.
Context {E : Type}.

Lemma get_given (p : list (string * E)) k v : is_dict p -> In (k, v) p -> d_get E p k = Ok v.
Proof.
  unfold is_dict. induction p as [|[k' v'] p IH]; intros N H; [destruct H|].
  cbn [map fst] in N. apply NoDup_cons_iff in N. destruct N as [N1 N2]. cbn [d_get].
  destruct (String.eqb_spec k' k) as [->|D].
  - destruct H as [H|H]; [congruence|]. exfalso. apply N1. apply in_map_iff. exists (k, v). split; [reflexivity|exact H].
  - destruct H as [H|H]; [congruence|]. exact (IH N2 H).
Qed.
Lemma get_missing (p : list (string * E)) k : ~ In k (map fst p) -> d_get E p k = Throw "KeyError".
Proof.
  induction p as [|[k' v'] p IH]; intros H; [reflexivity|]. cbn [d_get map fst] in *.
  destruct (String.eqb_spec k' k) as [->|D]; [exfalso; apply H; now left|]. apply IH. intros H'. apply H. now right.
Qed.
(** A key is missing, or it has a value. *)
Lemma get_or (p : list (string * E)) k : d_get E p k = Throw "KeyError" /\ ~ In k (map fst p) \/ exists v, d_get E p k = Ok v /\ In k (map fst p).
Proof.
  induction p as [|[k' v'] p IH]; [left; split; [reflexivity|intros []]|]. cbn [d_get map fst].
  destruct (String.eqb_spec k' k) as [->|D]; [right; exists v'; split; [reflexivity|now left]|].
  destruct IH as [[H1 H2]|[v [H1 H2]]]; [left|right; exists v]; (split; [exact H1|]); [intros [H|H]; [congruence|exact (H2 H)]|now right].
Qed.
Lemma has_in (p : list (string * E)) k : In k (map fst p) -> d_has E p k = true.
Proof.
  intros H. apply in_map_iff in H. destruct H as [[k' v] [<- H]]. apply existsb_exists. exists (k', v). split; [exact H|]. apply String.eqb_refl.
Qed.
Lemma has_not_in (p : list (string * E)) k : ~ In k (map fst p) -> d_has E p k = false.
Proof.
  intros H. apply not_true_iff_false. intros H'. apply existsb_exists in H'. destruct H' as [[k' v] [H1 H2]].
  apply String.eqb_eq in H2. subst k'. apply H. apply in_map_iff. exists (k, v). split; [reflexivity|exact H1].
Qed.
Lemma has_app (p q : list (string * E)) k : d_has E (p ++ q) k = d_has E p k || d_has E q k.
Proof. apply existsb_app. Qed.
Lemma get_app (p q : list (string * E)) k : In k (map fst p) -> d_get E (p ++ q) k = d_get E p k.
Proof.
  induction p as [|[k' v'] p IH]; intros H; [destruct H|]. cbn [d_get map fst app] in *.
  destruct (String.eqb_spec k' k) as [->|D]; [reflexivity|]. apply IH. destruct H as [H|H]; [congruence|exact H].
Qed.
Lemma given_in (p : list (string * E)) k v : In (k, v) p -> In k (map fst p).
Proof. intros H. apply in_map_iff. exists (k, v). split; [reflexivity|exact H]. Qed.
End Facts.

(** Use all the values of a dictionary that are given. *)
Ltac use_given N H :=
  unfold given in H;
  repeat match type of H with
  | Forall _ (_ :: _) => let H1 := fresh in apply Forall_cons_iff in H; destruct H as [H1 H]; rewrite ?(get_given _ _ _ N H1); cbn [bind]
  end.
(** A missing key: every lookup gives a value or raises a KeyError, and one of them raises. *)
Ltac use_lacks H :=
  unfold lacks in H;
  repeat match goal with
  | |- bind (d_get ?E ?p ?k) _ = _ =>
      let v := fresh "v" in let G := fresh in let I := fresh in
      destruct (get_or p k) as [[G I]|[v [G I]]]; rewrite G; cbn [bind]; [reflexivity|]
  end;
  exfalso; repeat (apply Exists_cons in H; destruct H as [H|H]; [contradiction|]); inversion H.
