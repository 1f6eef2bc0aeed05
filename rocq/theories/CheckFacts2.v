(** Further proofs about the comparison with stored results: vectors of different lengths, and quiet comparisons. *)
From Coq Require Import String List Bool Arith Lia Reals Lra.
From Verif Require Import Base Num PyBase CoreModel LinSpec CheckModel CheckSpec CheckFacts.
Import ListNotations.
Local Open Scope string_scope. Local Open Scope list_scope. Local Open Scope nat_scope.

Section Facts.
Variable spectral : nat -> nat -> (nat -> nat -> R) -> R.

Lemma zero_squares : forall (g : nat -> R) l, (forall i, In i l -> g i = 0%R) -> fold_right Rplus 0%R (map (fun i => (g i * g i)%R) l) = 0%R.
Proof. induction l as [|x l IH]; intros H; [reflexivity|]. cbn. rewrite (H x (or_introl eq_refl)), IH by (intros i Hi; apply H; right; exact Hi). ring. Qed.

Lemma check_lengths : forall u v n m, a_shape u = [n] -> a_shape v = [m] -> n <> m ->
  (n <> 1 -> m <> 1 -> checked spectral false false (VArr u) (VArr v) = Throw "ValueError") /\
  (n = 1 \/ m = 1 -> (forall i j, i < n -> j < m -> a_at u [i] = a_at v [j]) -> checked spectral false false (VArr u) (VArr v) = Ok (VArr u)).
Proof.
  intros u v n m Hu Hv Hnm. unfold checked. cbn [the_error is_sparse Bool.eqb]. unfold arr_sub. rewrite Hu, Hv. cbn [rev app bshape]. rewrite (proj2 (Nat.eqb_neq n m) Hnm). split.
  - intros H1 H2. rewrite (proj2 (Nat.eqb_neq n 1) H1), (proj2 (Nat.eqb_neq m 1) H2). reflexivity.
  - intros H1 He.
    assert (Hz : forall k, k <> 1 -> (forall i, i < k -> (a_at u (clip [n] [i]) - a_at v (clip [m] [i]))%R = 0%R) ->
      below (sqrt (fold_right Rplus 0%R (map (fun i => ((a_at u (clip [n] [i]) - a_at v (clip [m] [i])) * (a_at u (clip [n] [i]) - a_at v (clip [m] [i])))%R) (seq 0 k)))) = true).
    { intros k _ Hk. rewrite (zero_squares (fun i => (a_at u (clip [n] [i]) - a_at v (clip [m] [i]))%R)) by (intros i Hi; apply Hk; apply in_seq in Hi; lia). rewrite sqrt_0. apply below_iff. unfold tolerance. lra. }
    destruct H1 as [H1|H1].
    + rewrite (proj2 (Nat.eqb_eq n 1) H1). cbn [bind rev app norm2 a_shape a_at]. cbn [truth bind]. rewrite Hz; [reflexivity|lia|].
      intros i Hi. unfold clip. cbn [rev app combine map]. rewrite (proj2 (Nat.eqb_eq n 1) H1), (proj2 (Nat.eqb_neq m 1)) by lia. rewrite (He 0 i) by lia. ring.
    + rewrite (proj2 (Nat.eqb_eq m 1) H1), (proj2 (Nat.eqb_neq n 1)) by lia. cbn [bind rev app norm2 a_shape a_at]. cbn [truth bind]. rewrite Hz; [reflexivity|lia|].
      intros i Hi. unfold clip. cbn [rev app combine map]. rewrite (proj2 (Nat.eqb_eq m 1) H1), (proj2 (Nat.eqb_neq n 1)) by lia. rewrite (He i 0) by lia. ring.
Qed.

Lemma check_quiet : forall sparse_cache,
  (forall x y, checked spectral true sparse_cache (VNum x) (VNum y) = Ok (VNum x)) /\
  (forall u v, a_shape u = a_shape v -> plain (a_shape u) -> checked spectral true sparse_cache (VArr u) (VArr v) = Ok (VArr u)) /\
  (forall c c' : csr num_R, length (c_data c) = length (c_data c') -> checked spectral true sparse_cache (VCsr c) (VCsr c') = Ok (VCsr c)).
Proof.
  intros sc. split; [reflexivity|]. split.
  - intros u v Hs Hp. destruct (sub_same u v Hs) as (d & D1 & D2 & D3). unfold checked. cbn [the_error]. rewrite D1. cbn [bind]. unfold norm2. rewrite D2.
    destruct Hp as [(n & ->)|(n & m & Hn & Hm & ->)]; [reflexivity|]. rewrite (proj2 (Nat.eqb_neq n 0)), (proj2 (Nat.eqb_neq m 0)) by lia. reflexivity.
  - intros c c' Hl. destruct (sub_same (arr_list (c_data c)) (arr_list (c_data c'))) as (d & D1 & D2 & D3); [cbn; f_equal; exact Hl|]. unfold checked. cbn [the_error]. rewrite D1. cbn [bind]. unfold norm2. rewrite D2. reflexivity.
Qed.
End Facts.
