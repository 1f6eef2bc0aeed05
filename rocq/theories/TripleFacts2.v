(** Lemmas on core.triple_products_fourier: the table is the only one, and it is symmetric. *)
From Coq Require Import String List Bool Arith ZArith Reals Lia Lra.
From Verif Require Import Base Num Fnum LinModel LinSpec CalcModel CalcSpec CalcHermite CalcTriple CalcFourierQuad Facts6 TripleModel TripleFacts.
Import ListNotations.
Local Open Scope R_scope.

(** The coefficient of f_m is the quadrature of the function times f_m. *)
Lemma fourier_coefficient : forall n mf (a : nat -> R) (f : R -> R) m, (2 * mf < n)%nat -> (forall x, f x = sumn (2 * mf + 1) (fun k => a k * fourier k x)) -> (m <= 2 * mf)%nat ->
  a m = sumn n (fun q => 2 * PI / INR n * (f (fnode n q) * fourier m (fnode n q))).
Proof.
  intros n mf a f m Hn H Hm.
  transitivity (sumn (2 * mf + 1) (fun k => a k * sumn n (fun q => 2 * PI / INR n * (fourier k (fnode n q) * fourier m (fnode n q))))).
  - rewrite (sumn_single _ _ m); [|lia|].
    + rewrite (fourier_orth n mf m m), Nat.eqb_refl by lia. ring.
    + intros k Hk Hn'. rewrite (fourier_orth n mf k m) by lia. destruct (Nat.eqb_spec k m); [contradiction|ring].
  - transitivity (sumn (2 * mf + 1) (fun k => sumn n (fun q => a k * (2 * PI / INR n * (fourier k (fnode n q) * fourier m (fnode n q)))))); [apply sumn_ext; intros k _; symmetry; apply sumn_mult|].
    rewrite sumn_swap. apply sumn_ext. intros q _. rewrite H. rewrite (Rmult_comm (sumn _ _)), <- !sumn_mult. apply sumn_ext. intros k _. ring.
Qed.

Lemma fourier_entry : forall n d T i j k, triple_products_fourier fnum_R d = Ok T -> (i <= d)%nat -> (j <= d)%nat -> (k <= 2 * d)%nat -> (2 * d < n)%nat ->
  cell T k i j = sumn n (fun q => 2 * PI / INR n * (fourier i (fnode n q) * fourier j (fnode n q) * fourier k (fnode n q))).
Proof.
  intros n d T i j k E Hi Hj Hk Hn. destruct (Nat.even d) eqn:Ev; [|rewrite (triple_fourier_odd fnum_R d Ev) in E; discriminate E].
  destruct (triple_fourier d Ev) as (U & E1 & _ & _ & H). rewrite E in E1. injection E1 as <-.
  exact (fourier_coefficient n d (fun k => cell T k i j) (fun x => fourier i x * fourier j x) k Hn (fun x => H i j x Hi Hj) Hk).
Qed.

Lemma fourier_tables_agree : forall d d' T T' k i j, triple_products_fourier fnum_R d = Ok T -> triple_products_fourier fnum_R d' = Ok T' -> (i <= d)%nat -> (j <= d)%nat -> (i <= d')%nat -> (j <= d')%nat -> (k <= 2 * d)%nat -> (k <= 2 * d')%nat -> cell T k i j = cell T' k i j.
Proof. intros. rewrite (fourier_entry (2 * d + 2 * d' + 1) d T), (fourier_entry (2 * d + 2 * d' + 1) d' T') by (assumption || lia). reflexivity. Qed.

Lemma fourier_table_symmetric : forall d T i j k, triple_products_fourier fnum_R d = Ok T -> (i <= d)%nat -> (j <= d)%nat -> (k <= d)%nat -> cell T k i j = cell T i j k /\ cell T k i j = cell T k j i.
Proof.
  intros d T i j k E Hi Hj Hk. rewrite !(fourier_entry (2 * d + 1) d T) by (assumption || lia). split; apply sumn_ext; intros q _; ring.
Qed.

(** Cubes with the same shape and the same entries are the same. *)
Lemma cube_ext : forall K n (T T' : list (list (list R))), cube_for K n T -> cube_for K n T' -> (forall k i j, (k < K)%nat -> (i < n)%nat -> (j < n)%nat -> cell T' k i j = cell T k i j) -> T' = T.
Proof.
  intros K n T T' (L & W) (L' & W') C.
  apply (nth_ext _ _ [] []); [congruence|]. intros k Hk. assert (HT : (k < length T)%nat) by lia.
  pose proof (proj1 (Forall_forall _ _) W' (nth k T' []) (nth_In T' [] Hk)) as (A1 & A2). pose proof (proj1 (Forall_forall _ _) W (nth k T []) (nth_In T [] HT)) as (B1 & B2).
  apply (nth_ext _ _ [] []); [congruence|]. intros i Hi. assert (HU : (i < length (nth k T []))%nat) by lia.
  pose proof (proj1 (Forall_forall _ _) A2 (nth i (nth k T' []) []) (nth_In (nth k T' []) [] Hi)) as A3. pose proof (proj1 (Forall_forall _ _) B2 (nth i (nth k T []) []) (nth_In (nth k T []) [] HU)) as B3. cbn beta in A3, B3.
  apply (nth_ext _ _ 0 0); [congruence|]. intros j Hj. apply C; lia.
Qed.

Lemma fourier_table_unique : forall d (T T' : list (list (list R))), triple_products_fourier fnum_R d = Ok T -> cube_for (2 * d + 1) (d + 1) T' ->
  (forall i j x, (i <= d)%nat -> (j <= d)%nat -> fourier i x * fourier j x = rsum (map (fun k => cell T' k i j * fourier k x) (seq 0 (2 * d + 1)))) -> T' = T.
Proof.
  intros d T T' E W' H'. destruct (Nat.even d) eqn:Ev; [|rewrite (triple_fourier_odd fnum_R d Ev) in E; discriminate E].
  destruct (triple_fourier d Ev) as (U & E1 & W & _ & _). rewrite E in E1. injection E1 as <-.
  apply (cube_ext (2 * d + 1) (d + 1) T T' W W'). intros k i j Hk Hi Hj. rewrite (fourier_entry (2 * d + 1) d T) by (assumption || lia).
  apply (fourier_coefficient (2 * d + 1) d (fun k => cell T' k i j) (fun x => fourier i x * fourier j x)); [lia| |lia]. intros x. apply H'; lia.
Qed.

Lemma py_fourier_nat : forall n T, py_triple_products_fourier fnum_R (Z.of_nat n) = Ok T -> triple_products_fourier fnum_R n = Ok T.
Proof.
  intros n T H. destruct (py_cases fnum_R (Z.of_nat n)) as (H1 & H2 & _ & H4).
  destruct (Z.lt_ge_cases (Z.of_nat n) (2 ^ 30)); [rewrite (proj2 (H4 ltac:(lia))), Nat2Z.id in H; exact H|].
  destruct (Z.lt_ge_cases (Z.of_nat n) (2 ^ 31)); [rewrite (proj2 (H2 ltac:(lia))) in H|rewrite (proj2 (H1 ltac:(lia))) in H]; discriminate H.
Qed.
