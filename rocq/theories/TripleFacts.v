(** Lemmas on core.triple_products: which degrees are accepted, and that the tables are the only ones. *)
From Coq Require Import String List Bool Arith ZArith Reals Lia Lra.
From Verif Require Import Base Num Fnum LinModel LinSpec CalcModel CalcSpec CalcHermite CalcTriple Facts6 Facts10 TripleModel.
Import ListNotations.
Local Open Scope R_scope.

Lemma size_cases : forall d,
  ((d < - 2 ^ 31 \/ 2 ^ 31 <= d)%Z -> as_int d = Throw "OverflowError"%string) /\
  ((- 2 ^ 31 <= d < - 2 ^ 30 \/ 2 ^ 30 <= d < 2 ^ 31)%Z -> as_int d = Ok d /\ products_size d = Ub) /\
  ((- 2 ^ 30 <= d < 0)%Z -> as_int d = Ok d /\ products_size d = Throw "RuntimeError"%string) /\
  ((0 <= d < 2 ^ 30)%Z -> as_int d = Ok d /\ products_size d = Ok (2 * Z.to_nat d + 1, Z.to_nat d + 1)%nat).
Proof.
  intros d. unfold as_int, products_size, int_result, vector_size. change (2 ^ 31)%Z with 2147483648%Z. change (2 ^ 30)%Z with 1073741824%Z.
  split; [intros H|split; [intros H; split|split; intros H; split]];
  repeat (match goal with |- context [(?a <=? ?b)%Z] => destruct (Z.leb_spec a b); try lia | |- context [(?a <? ?b)%Z] => destruct (Z.ltb_spec a b); try lia end; cbn [andb bind]); try reflexivity.
  do 2 f_equal; lia.
Qed.

Lemma sum_deriv : forall N (a : nat -> R) x, derivable_pt_lim (fun y => sumn N (fun k => a k * hermite k y)) x (sumn N (fun k => a k * (sqrt (INR k) * hermite (k - 1) x))).
Proof.
  induction N as [|N IH]; intros a x; [exact (derivable_pt_lim_const 0 x)|].
  rewrite sumn_S. intros eps He. destruct (derivable_pt_lim_plus _ _ _ _ _ (IH a x) (derivable_pt_lim_scal _ (a N) _ _ (hermite_deriv N x)) eps He) as (del & H). exists del. intros h H1 H2. rewrite !sumn_S. exact (H h H1 H2).
Qed.

(** A combination of the first N Hermite polynomials that vanishes everywhere has no coefficients other than 0. *)
Lemma hermite_independent : forall N (a : nat -> R), (forall x, sumn N (fun k => a k * hermite k x) = 0) -> forall k, (k < N)%nat -> a k = 0.
Proof.
  induction N as [|N IH]; intros a H k Hk; [lia|].
  assert (S' : forall j, (j < N)%nat -> a (S j) * sqrt (INR (S j)) = 0).
  { apply (IH (fun j => a (S j) * sqrt (INR (S j)))). intros x.
    assert (D0 : derivable_pt_lim (fun y => sumn (S N) (fun k => a k * hermite k y)) x 0).
    { intros eps He. exists (mkposreal 1 Rlt_0_1). intros h _ _. rewrite !H. replace ((0 - 0) / h - 0) with 0 by (unfold Rdiv; ring). rewrite Rabs_R0. exact He. }
    pose proof (uniqueness_limite _ _ _ _ (sum_deriv (S N) a x) D0) as U. rewrite sumn_shift in U. change (INR 0) with 0 in U. rewrite sqrt_0 in U. rewrite <- U.
    rewrite Rmult_0_l, Rmult_0_r, Rplus_0_l. apply sumn_ext. intros j _. replace (S j - 1)%nat with j by lia. ring. }
  assert (Z : forall j, (j < N)%nat -> a (S j) = 0).
  { intros j Hj. pose proof (S' j Hj) as P. apply Rmult_integral in P as [P|P]; [exact P|]. exfalso. pose proof (lt_0_INR (S j) (Nat.lt_0_succ j)) as Q. apply sqrt_lt_R0 in Q. lra. }
  destruct k as [|k]; [|apply Z; lia].
  pose proof (H 0) as P. rewrite sumn_shift, hermite_0, Rmult_1_r in P. rewrite sumn_0 in P; [lra|]. intros j Hj. rewrite Z by exact Hj. ring.
Qed.

(** Two expansions of the same function have the same coefficients. *)
Lemma hermite_unique : forall N M (a b : nat -> R), (forall x, sumn N (fun k => a k * hermite k x) = sumn M (fun k => b k * hermite k x)) -> (N <= M)%nat -> forall k, (k < M)%nat -> b k = if (k <? N)%nat then a k else 0.
Proof.
  intros N M a b H L k Hk. enough (b k - (if (k <? N)%nat then a k else 0) = 0) by lra.
  apply (hermite_independent M (fun k => b k - (if (k <? N)%nat then a k else 0))); [|exact Hk]. intros x.
  assert (P : forall K, sumn K (fun k => (if (k <? N)%nat then a k else 0) * hermite k x) = sumn (Nat.min K N) (fun k => a k * hermite k x)).
  { induction K as [|K IH]; [reflexivity|]. rewrite sumn_S, IH. destruct (Nat.ltb_spec K N).
    - replace (Nat.min (S K) N) with (S (Nat.min K N)) by lia. rewrite sumn_S. replace (Nat.min K N) with K by lia. reflexivity.
    - replace (Nat.min (S K) N) with (Nat.min K N) by lia. ring. }
  pose proof (P M) as Q. replace (Nat.min M N) with N in Q by lia. rewrite H in Q.
  transitivity (sumn M (fun k => b k * hermite k x) + (-1) * sumn M (fun k => (if (k <? N)%nat then a k else 0) * hermite k x)); [|rewrite Q; ring].
  rewrite <- sumn_mult, <- sumn_plus. apply sumn_ext. intros j _. ring.
Qed.

Lemma sumn_swap : forall N M (f : nat -> nat -> R), sumn N (fun l => sumn M (fun m => f l m)) = sumn M (fun m => sumn N (fun l => f l m)).
Proof.
  induction N as [|N IH]; intros M f; [symmetry; apply sumn_0; reflexivity|]. rewrite sumn_S, IH, <- sumn_plus. apply sumn_ext. intros m _. rewrite sumn_S. reflexivity.
Qed.

(** A table of coefficients of the products of the polynomials up to D. *)
Section Table.
Variables (D : nat) (t : nat -> nat -> nat -> R).
Hypothesis zero : forall k i j, (i <= D)%nat -> (j <= D)%nat -> (i + j < k \/ k + i < j \/ k + j < i)%nat -> t k i j = 0.
Hypothesis table : forall i j x, (i <= D)%nat -> (j <= D)%nat -> hermite i x * hermite j x = sumn (2 * D + 1) (fun k => t k i j * hermite k x).

Lemma combine_tables : forall x a b i j k l, (i <= D)%nat -> (j <= D)%nat -> (k <= D)%nat -> (l <= D)%nat ->
  a * (hermite i x * hermite j x) + b * (hermite k x * hermite l x) = sumn (2 * D + 1) (fun m => (a * t m i j + b * t m k l) * hermite m x).
Proof.
  intros x a b i j k l Hi Hj Hk Hl. rewrite (table i j), (table k l) by assumption. rewrite <- !sumn_mult, <- sumn_plus. apply sumn_ext. intros m _. ring.
Qed.

Lemma t_diag : forall n, (n < D)%nat -> t 0 n n = 1.
Proof.
  induction n as [|n IH]; intros Hn.
  - assert (H : forall x, sumn 1 (fun _ => 1 * hermite 0 x) = sumn (2 * D + 1) (fun k => t k 0 0 * hermite k x)).
    { intros x. rewrite <- table by lia. unfold sumn, rsum. cbn [seq map fold_right]. rewrite hermite_0. ring. }
    assert (H' : forall x, sumn 1 (fun k => 1 * hermite k x) = sumn (2 * D + 1) (fun k => t k 0 0 * hermite k x)) by (intros x; rewrite <- H; reflexivity).
    exact (hermite_unique 1 (2 * D + 1) (fun _ => 1) (fun k => t k 0 0) H' ltac:(lia) 0%nat ltac:(lia)).
  - pose proof (IH ltac:(lia)) as P.
    assert (H : forall x, sumn (2 * D + 1) (fun m => (sqrt (INR (S n)) * t m (S n) (S n) + sqrt (INR n) * t m (n - 1) (S n)) * hermite m x) = sumn (2 * D + 1) (fun m => (sqrt (INR (S (S n))) * t m (S (S n)) n + sqrt (INR (S n)) * t m n n) * hermite m x)).
    { intros x. rewrite <- !combine_tables by lia. transitivity ((x * hermite n x) * hermite (S n) x); [rewrite hermite_x; ring|].
      transitivity ((x * hermite (S n) x) * hermite n x); [ring|]. rewrite hermite_x. replace (S n - 1)%nat with n by lia. ring. }
    pose proof (hermite_unique _ _ _ _ H (le_n _) 0%nat ltac:(lia)) as U. cbn beta in U. destruct (Nat.ltb_spec 0 (2 * D + 1)); [|lia].
    rewrite (zero 0 (S (S n)) n), (zero 0 (n - 1) (S n)), P in U by lia. pose proof (lt_0_INR (S n) (Nat.lt_0_succ n)) as Q. apply sqrt_lt_R0 in Q. nra.
Qed.

Lemma t_0 : forall l k, (l <= D)%nat -> (k < D)%nat -> t 0 l k = if (l =? k)%nat then 1 else 0.
Proof. intros l k Hl Hk. destruct (Nat.eqb_spec l k) as [->|N]; [apply t_diag; exact Hk|apply zero; lia]. Qed.

Lemma triple_expand : forall i j k x, (i + j <= D)%nat -> (k < D)%nat ->
  hermite i x * hermite j x * hermite k x = sumn (2 * D + 1) (fun m => sumn (D + 1) (fun l => t l i j * t m l k) * hermite m x).
Proof.
  intros i j k x Hij Hk. rewrite table by lia.
  assert (C : forall N, (D + 1 <= N)%nat -> sumn N (fun l => t l i j * hermite l x) = sumn (D + 1) (fun l => t l i j * hermite l x)).
  { induction N as [|N IH]; intros HN; [lia|]. destruct (Nat.eq_dec (D + 1) (S N)) as [->|Ne]; [reflexivity|]. rewrite sumn_S, IH by lia. rewrite zero by lia. ring. }
  rewrite C by lia. rewrite Rmult_comm, <- sumn_mult.
  transitivity (sumn (D + 1) (fun l => sumn (2 * D + 1) (fun m => t l i j * t m l k * hermite m x))).
  - apply sumn_ext. intros l Hl. transitivity (t l i j * (hermite l x * hermite k x)); [ring|]. rewrite table by lia. rewrite <- sumn_mult. apply sumn_ext. intros m _. ring.
  - rewrite sumn_swap. apply sumn_ext. intros m _. rewrite (Rmult_comm _ (hermite m x)), <- sumn_mult. apply sumn_ext. intros l _. ring.
Qed.

Lemma t_cycle : forall i j k, (i + j <= D)%nat -> (j + k <= D)%nat -> (i < D)%nat -> (k < D)%nat -> t k i j = t i j k.
Proof.
  intros i j k H1 H2 Hi Hk.
  assert (H : forall x, sumn (2 * D + 1) (fun m => sumn (D + 1) (fun l => t l i j * t m l k) * hermite m x) = sumn (2 * D + 1) (fun m => sumn (D + 1) (fun l => t l j k * t m l i) * hermite m x)).
  { intros x. rewrite <- !triple_expand by assumption. ring. }
  pose proof (hermite_unique _ _ _ _ H (le_n _) 0%nat ltac:(lia)) as U. cbn beta in U. destruct (Nat.ltb_spec 0 (2 * D + 1)); [|lia].
  rewrite (sumn_single _ _ i), (sumn_single _ _ k) in U; try lia.
  - rewrite !t_0, !Nat.eqb_refl in U by lia. lra.
  - intros l Hl Hn. rewrite t_0 by lia. destruct (Nat.eqb_spec l k); [contradiction|ring].
  - intros l Hl Hn. rewrite t_0 by lia. destruct (Nat.eqb_spec l i); [contradiction|ring].
Qed.
End Table.

(** The tables for two degrees have the same entries; entries are symmetric in the three indices. *)
Lemma tables_agree : forall d d' T T' k i j, triple_products_1d fnum_R d = Ok T -> triple_products_1d fnum_R d' = Ok T' -> (i <= d)%nat -> (j <= d)%nat -> (i <= d')%nat -> (j <= d')%nat -> (k < 2 * d + 1)%nat -> (k < 2 * d' + 1)%nat -> cell T k i j = cell T' k i j.
Proof.
  enough (G : forall d d' T T' k i j, (d <= d')%nat -> triple_products_1d fnum_R d = Ok T -> triple_products_1d fnum_R d' = Ok T' -> (i <= d)%nat -> (j <= d)%nat -> (k < 2 * d + 1)%nat -> cell T k i j = cell T' k i j).
  { intros d d' T T' k i j E E' Hi Hj Hi' Hj' Hk Hk'. destruct (Nat.le_ge_cases d d'); [|symmetry]; eapply G; eassumption. }
  intros d d' T T' k i j L E E' Hi Hj Hk.
  destruct (triple_hermite d) as (U & E1 & _ & _ & _ & H1). rewrite E in E1. injection E1 as <-.
  destruct (triple_hermite d') as (U' & E2 & _ & _ & _ & H2). rewrite E' in E2. injection E2 as <-.
  assert (H : forall x, sumn (2 * d + 1) (fun k => cell T k i j * hermite k x) = sumn (2 * d' + 1) (fun k => cell T' k i j * hermite k x)).
  { intros x. unfold sumn. rewrite <- H1, <- H2 by lia. reflexivity. }
  pose proof (hermite_unique _ _ _ _ H ltac:(lia) k ltac:(lia)) as Q. cbn beta in Q. destruct (Nat.ltb_spec k (2 * d + 1)); [|lia]. symmetry. exact Q.
Qed.

Lemma table_symmetric : forall d T i j k, triple_products_1d fnum_R d = Ok T -> (i <= d)%nat -> (j <= d)%nat -> (k <= d)%nat -> cell T k i j = cell T i j k.
Proof.
  intros d T i j k E Hi Hj Hk. destruct (triple_hermite (2 * d + 1)) as (U & E1 & _ & _ & Z & H).
  rewrite (tables_agree d (2 * d + 1) T U k i j), (tables_agree d (2 * d + 1) T U i j k) by (assumption || lia).
  apply (t_cycle (2 * d + 1) (cell U) Z H); lia.
Qed.

Lemma table_unique : forall d (T T' : list (list (list R))), triple_products_1d fnum_R d = Ok T -> cube_for (2 * d + 1) (d + 1) T' ->
  (forall i j x, (i <= d)%nat -> (j <= d)%nat -> hermite i x * hermite j x = rsum (map (fun k => cell T' k i j * hermite k x) (seq 0 (2 * d + 1)))) -> T' = T.
Proof.
  intros d T T' E (L' & W') H'. destruct (triple_hermite d) as (U & E1 & (L & W) & _ & _ & H). rewrite E in E1. injection E1 as <-.  change (length T = (2 * d + 1)%nat) in L. change (Forall (mat_wf (A := R) (d + 1) (d + 1)) T) in W.
  assert (C : forall k i j, (k < 2 * d + 1)%nat -> (i <= d)%nat -> (j <= d)%nat -> cell T' k i j = cell T k i j).
  { intros k i j Hk Hi Hj. assert (G : forall x, sumn (2 * d + 1) (fun k => cell T k i j * hermite k x) = sumn (2 * d + 1) (fun k => cell T' k i j * hermite k x)) by (intros x; unfold sumn; rewrite <- H, <- H' by lia; reflexivity).
    pose proof (hermite_unique _ _ _ _ G (le_n _) k Hk) as Q. cbn beta in Q. destruct (Nat.ltb_spec k (2 * d + 1)); [exact Q|lia]. }
  apply (nth_ext _ _ [] []); [congruence|]. intros k Hk. assert (Hk' : (k < 2 * d + 1)%nat) by lia. assert (HT : (k < length T)%nat) by lia.
  pose proof (proj1 (Forall_forall _ _) W' (nth k T' []) (nth_In T' [] Hk)) as (A1 & A2). pose proof (proj1 (Forall_forall _ _) W (nth k T []) (nth_In T [] HT)) as (B1 & B2).
  apply (nth_ext _ _ [] []); [congruence|]. intros i Hi. assert (Hi' : (i < d + 1)%nat) by lia. assert (HU : (i < length (nth k T []))%nat) by lia.
  pose proof (proj1 (Forall_forall _ _) A2 (nth i (nth k T' []) []) (nth_In (nth k T' []) [] Hi)) as A3. pose proof (proj1 (Forall_forall _ _) B2 (nth i (nth k T []) []) (nth_In (nth k T []) [] HU)) as B3. cbn beta in A3, B3.
  apply (nth_ext _ _ 0 0); [congruence|]. intros j Hj. exact (C k i j Hk' ltac:(lia) ltac:(lia)).
Qed.

Lemma py_cases : forall (F : fnum) d,
  ((d < - 2 ^ 31 \/ 2 ^ 31 <= d)%Z -> py_triple_products F d = Throw "OverflowError"%string /\ py_triple_products_fourier F d = Throw "OverflowError"%string) /\
  ((- 2 ^ 31 <= d < - 2 ^ 30 \/ 2 ^ 30 <= d < 2 ^ 31)%Z -> py_triple_products F d = Ub /\ py_triple_products_fourier F d = Ub) /\
  ((- 2 ^ 30 <= d < 0)%Z -> py_triple_products F d = Throw "RuntimeError"%string /\ py_triple_products_fourier F d = Throw "RuntimeError"%string) /\
  ((0 <= d < 2 ^ 30)%Z -> py_triple_products F d = triple_products_1d F (Z.to_nat d) /\ py_triple_products_fourier F d = triple_products_fourier F (Z.to_nat d)).
Proof.
  intros F d. destruct (size_cases d) as (H1 & H2 & H3 & H4). unfold py_triple_products, py_triple_products_fourier.
  split; [intros H; rewrite (H1 H); split; reflexivity|]. split; [intros H; destruct (H2 H) as (-> & E); cbn [bind]; rewrite E; split; reflexivity|].
  split; [intros H; destruct (H3 H) as (-> & E); cbn [bind]; rewrite E; split; reflexivity|].
  intros H; destruct (H4 H) as (-> & E); cbn [bind]; rewrite E; cbn [bind]; replace (Z.to_nat d + 1 - 1)%nat with (Z.to_nat d) by lia; split; reflexivity.
Qed.

Lemma py_nat : forall n T, py_triple_products fnum_R (Z.of_nat n) = Ok T -> triple_products_1d fnum_R n = Ok T.
Proof.
  intros n T H. destruct (py_cases fnum_R (Z.of_nat n)) as (H1 & H2 & _ & H4).
  destruct (Z.lt_ge_cases (Z.of_nat n) (2 ^ 30)); [rewrite (proj1 (H4 ltac:(lia))), Nat2Z.id in H; exact H|].
  destruct (Z.lt_ge_cases (Z.of_nat n) (2 ^ 31)); [rewrite (proj1 (H2 ltac:(lia))) in H|rewrite (proj1 (H1 ltac:(lia))) in H]; discriminate H.
Qed.
