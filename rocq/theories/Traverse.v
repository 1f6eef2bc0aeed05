(** Enumerating a list by a successor function. *)
From Coq Require Import List Arith Lia Bool.
From Verif Require Import Base Lists IndexModel.
Import ListNotations.

Definition stepf (inc : mi -> res (bool * mi)) (a b : mi) : Prop := inc a = Ok (false, b).

Lemma enumerate_linked : forall inc l fuel m x x',
  hd_error l = Some m ->
  linked (stepf inc) l ->
  last_opt l = Some x -> inc x = Ok (true, x') ->
  length l <= fuel ->
  enumerate inc fuel m = Ok l.
Proof.
  induction l as [|a l IH]; intros fuel m x x' Hh HL Hx Hs Hf; [discriminate|].
  injection Hh as ->. destruct fuel as [|fuel]; [simpl in Hf; lia|].
  simpl. destruct l as [|b l].
  - injection Hx as ->. rewrite Hs. reflexivity.
  - destruct HL as [Hab HL]. unfold stepf in Hab. rewrite Hab. simpl bind.
    rewrite (IH fuel b x x'); try assumption; try reflexivity.
    simpl in Hf |- *. lia.
Qed.

Lemma enumerate_fuel_mono : forall inc f f' m l,
  enumerate inc f m = Ok l -> f <= f' -> enumerate inc f' m = Ok l.
Proof.
  induction f as [|f IH]; intros f' m l H Hle; [discriminate|].
  destruct f' as [|f']; [lia|]. simpl in *. destruct (inc m) as [[[|] m']| | | |]; simpl in *; try discriminate.
  - exact H.
  - destruct (enumerate inc f m') eqn:E; simpl in H; try discriminate.
    rewrite (IH f' m' a E) by lia. exact H.
Qed.

(** Conversely every enumeration is linked. *)
Lemma enumerate_inv : forall inc fuel m l,
  enumerate inc fuel m = Ok l ->
  hd_error l = Some m /\ linked (stepf inc) l /\
  exists x x', last_opt l = Some x /\ inc x = Ok (true, x').
Proof.
  induction fuel as [|f IH]; intros m l H; [discriminate|].
  simpl in H. destruct (inc m) as [[[|] m']| | | |] eqn:E; simpl in H; try discriminate.
  - injection H as <-. repeat split. exists m, m'. split; [reflexivity|assumption].
  - destruct (enumerate inc f m') eqn:E'; simpl in H; try discriminate.
    injection H as <-. apply IH in E' as [Hh [HL [x [x' [Hx Hs]]]]].
    split; [reflexivity|]. split.
    + simpl. split; [|assumption]. destruct a; [exact I|]. injection Hh as ->. exact E.
    + exists x, x'. split; [|assumption]. destruct a; [discriminate|exact Hx].
Qed.
