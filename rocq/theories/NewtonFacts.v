(** Quad.newton_cotes. *)
From Coq Require Import String List Bool Arith ZArith Lia Reals Lra.
From Verif Require Import Base Num Fnum PyBase PosModel PosSpec CalcModel CalcSpec CalcReal CalcHermite QuadModel PyQuadModel PyQuadSpec QuadMakeModel QuadMakeSpec.
Import ListNotations.
Local Open Scope R_scope.

Lemma rsum_seq_S : forall (f : nat -> R) n, rsum (map f (seq 0 (S n))) = rsum (map f (seq 0 n)) + f n.
Proof. intros f n. rewrite seq_S, map_app, rsum_app. cbn [map Nat.add]. f_equal. exact (Rplus_0_r _). Qed.
(** Half weights at the ends. *)
Lemma ends_halved : forall (f : nat -> R) h N, rsum (map (fun k => (if ((k =? 0) || (k =? S N))%nat then 1 / 2 else 1) * h * f k) (seq 0 (S (S N)))) = rsum (map (fun k => h * ((f k + f (S k)) / 2)) (seq 0 (S N))).
Proof.
  intros f h N. assert (A : forall N, rsum (map (fun k => h * ((f k + f (S k)) / 2)) (seq 0 (S N))) = rsum (map (fun k => (if (k =? 0)%nat then 1 / 2 else 1) * h * f k) (seq 0 (S N))) + 1 / 2 * h * f (S N)).
  { clear N. intros N. induction N as [|N IH].
    - cbn. field.
    - rewrite rsum_seq_S, IH, (rsum_seq_S _ (S N)). cbn [Nat.eqb]. field. }
  rewrite A, rsum_seq_S. rewrite Nat.eqb_refl, orb_true_r. f_equal. apply rsum_map_ext. intros k Hk. apply in_seq in Hk. destruct (Nat.eqb_spec k (S N)); [lia|]. rewrite orb_false_r. reflexivity.
Qed.

Lemma newton_ok : forall e n, (2 <= n)%nat -> exists xs ws, newton_rule fnum_R exp e n = Ok (xs, ws) /\ length xs = n /\ length ws = n /\
  (forall k, (k < n)%nat -> nth k xs 0 = - e + 2 * e / INR (n - 1) * INR k) /\
  forall g, rsum (map (fun '(x, w) => w * g x) (combine xs ws)) = trapezoidal (n - 1) (- e) e (fun x => g x * gaussian_density x).
Proof.
  intros e n Hn. destruct n as [|[|N]]; try lia. set (M := S (S N)).
  set (node := fun k => - e + INR k * ((e - - e) / INR (M - 1))). set (h := 2 * e / INR (M - 1)).
  set (wt := fun k => (if ((k =? 0) || (k =? M - 1))%nat then 1 / 2 else 1) * (1 / sqrt (2 * PI) * exp (- (node k * node k) / 2)) * h).
  exists (map node (seq 0 M)), (map wt (seq 0 M)). split; [|split; [rewrite map_length, seq_length; reflexivity|split; [rewrite map_length, seq_length; reflexivity|split]]].
  - unfold newton_rule. cbn [Nat.eqb M negb require bind]. apply f_equal. apply f_equal2.
    + unfold linspace. apply map_ext. intros k. rewrite !ofnat_R. reflexivity.
    + unfold linspace. rewrite map_map. transitivity (map (fun k => @nmul fnum_R (@nmul fnum_R (if ((k =? 0) || (k =? M - 1))%nat then (1 / 2)%R else 1%R) (1 / sqrt (2 * PI) * exp (- (node k * node k) / 2))%R) h) (seq 0 M)); [|reflexivity].
      assert (C : forall A (f g : nat -> A) l, combine (map f l) (map g l) = map (fun k => (f k, g k)) l) by (clear; intros A f g l; induction l as [|x l IH]; cbn [map combine]; congruence).
      etransitivity; [apply (f_equal (map _)); exact (C _ _ _ _)|]. rewrite map_map. apply map_ext. intros k. unfold node, h. rewrite !ofnat_R. reflexivity.
  - intros k Hk. fold M in Hk |- *. rewrite (nth_indep _ 0 (node 0%nat)) by (rewrite map_length, seq_length; exact Hk). rewrite map_nth, seq_nth by exact Hk. unfold node. cbn [Nat.add]. unfold Rdiv. match goal with |- @eq _ ?a ?b => change (@eq R a b) end.
    unfold h, Rdiv. ring.
  - intros g. assert (C : forall (l : list nat), combine (map node l) (map wt l) = map (fun k => (node k, wt k)) l) by (clear; intros l; induction l as [|x l IH]; cbn [map combine]; congruence).
    rewrite C, map_map. fold M. unfold trapezoidal. replace (M - 1)%nat with (S N) by (unfold M; lia).
    transitivity (rsum (map (fun k => (if ((k =? 0) || (k =? S N))%nat then 1 / 2 else 1) * h * (g (node k) * gaussian_density (node k))) (seq 0 M))).
    + apply rsum_map_ext. intros k _. unfold wt, gaussian_density. replace (M - 1)%nat with (S N) by (unfold M; lia). replace (node k ^ 2) with (node k * node k) by ring. unfold Rdiv. ring.
    + unfold M. rewrite ends_halved. apply rsum_map_ext. intros k _. unfold h, node. replace (M - 1)%nat with (S N) by (unfold M; lia).
      replace (- e + INR k * ((e - - e) / INR (S N))) with (- e + (e - - e) / INR (S N) * INR k) by ring. replace (- e + INR (S k) * ((e - - e) / INR (S N))) with (- e + (e - - e) / INR (S N) * INR (S k)) by ring. replace (2 * e) with (e - - e) by ring. reflexivity.
Qed.
Lemma newton_one : forall e, newton_rule fnum_R exp e 1 = Throw "ZeroDivisionError" /\ newton_rule fnum_R exp e 0 = Throw "IndexError".
Proof. intros e. split; reflexivity. Qed.
