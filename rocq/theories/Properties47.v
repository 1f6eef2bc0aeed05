(** C109, continued: rounding errors of the tables of triple products of the matrices with a derivative, of tensor products of matrices and of projections. *)
From Coq Require Import List Bool Arith ZArith Lia Reals Lra Permutation.
From Verif Require Import Base IndexModel Spec Num Fnum LinModel LinSpec CalcModel CalcSpec RndModel RndSpec LinBase CalcTriple RndSpec2 RndFacts7 RndFacts8 RndFacts9 Properties43.
Import ListNotations.
Local Open Scope R_scope.

(** The table of triple products of Hermite polynomials, compared with the exact one of C30.  The bound grows with the smaller of the two numbers. *)
Theorem C109_triple : forall u r, accurate u r -> forall degree, exists T' T, triple_products_1d (fnum_rnd r) degree = Ok T' /\ triple_products_1d fnum_R degree = Ok T /\ cube_for (2 * degree + 1) (degree + 1) T' /\
  forall k i j, (i <= degree)%nat -> (j <= degree)%nat -> INR (15 * Nat.min i j) * u < 1 ->
    Rabs (cell T' k i j - cell T k i j) <= gamma u (15 * Nat.min i j) * triple_abs (Nat.min i j) (Nat.max i j) k.
Proof. exact triple_bound. Qed.
Print Assumptions C109_triple.
(** What the bound is made of: for x >= 0, the expansion of the product of a Hermite polynomial with one whose signs have all been made positive. *)
Theorem C109_triple_abs : forall i j x, 0 <= x -> hermite_abs i x * hermite j x = rsum (map (fun k => triple_abs i j k * hermite k x) (seq 0 (i + j + 1))).
Proof. intros i j x Hx. apply (triple_abs_sum i j (i + j + 1) x Hx). lia. Qed.
Print Assumptions C109_triple_abs.
(** The table for the Fourier functions has relative accuracy. *)
Theorem C109_triple_fourier : forall u r, accurate u r -> forall degree, Nat.even degree = true -> exists T' T, triple_products_fourier (fnum_rnd r) degree = Ok T' /\ triple_products_fourier fnum_R degree = Ok T /\
  cube_for (2 * degree + 1) (degree + 1) T' /\ (INR 12 * u < 1 -> forall k i j, Rabs (cell T' k i j - cell T k i j) <= gamma u 12 * Rabs (cell T k i j)).
Proof. exact triple_fourier_bound. Qed.
Print Assumptions C109_triple_fourier.
Example C109_triple_example : accurate (/ 2 ^ 53) double /\ (2 <= 10)%nat /\ INR (15 * Nat.min 2 10) * / 2 ^ 53 < 1 /\ INR 12 * / 2 ^ 53 < 1 /\ Nat.even 10 = true /\ triple_abs 1 1 2 = sqrt 2 /\ triple_abs 1 1 0 = 1.
Proof.
  split; [exact C109_double|]. split; [lia|]. split; [rewrite INR_IZR_INZ; vm_compute Z.of_nat; lra|]. split; [rewrite INR_IZR_INZ; vm_compute Z.of_nat; lra|]. split; [reflexivity|].
  cbn. rewrite sqrt_1. replace (1 + 1) with 2 by lra. split; field.
Qed.

(** The matrices with a derivative (C39, C40, C41), for the three types of matrices. *)
Theorem C109_varfd : forall u r, accurate u r -> forall s dim degree k flag, usable s dim degree -> (k < dim)%nat -> (flag = 0%nat \/ flag = 1%nat) -> (flag = 1%nat -> paired s dim degree k) -> INR 4 * u < 1 ->
  forall M : list (list R), @mat_for num_R s dim degree M -> exists B' B, varfd (fnum_rnd r) (calc_mat (fnum_rnd r)) s dim degree k M flag = Ok B' /\ varfd fnum_R (calc_mat fnum_R) s dim degree k M flag = Ok B /\
  forall a b, Rabs (@entry num_R s dim degree B' a b - @entry num_R s dim degree B a b) <= gamma u 4 * Rabs (@entry num_R s dim degree B a b).
Proof. exact varfd_mat_bound. Qed.
Print Assumptions C109_varfd.
Theorem C109_varfd_dense : forall u r, accurate u r -> forall s dim degree k flag, usable s dim degree -> (k < dim)%nat -> (flag = 0%nat \/ flag = 1%nat) -> (flag = 1%nat -> paired s dim degree k) -> INR 4 * u < 1 ->
  forall M : list (list R), @mat_for num_R s dim degree M -> exists B' B, varfd_dense (fnum_rnd r) s dim degree k M flag = Ok B' /\ varfd_dense fnum_R s dim degree k M flag = Ok B /\
  forall a b, Rabs (@entry num_R s dim degree B' a b - @entry num_R s dim degree B a b) <= gamma u 4 * Rabs (@entry num_R s dim degree B a b).
Proof. exact varfd_dense_bound. Qed.
Print Assumptions C109_varfd_dense.
Theorem C109_varfd_sparse : forall u r, accurate u r -> forall s dim degree k flag, usable s dim degree -> (k < dim)%nat -> (flag = 0%nat \/ flag = 1%nat) -> (flag = 1%nat -> paired s dim degree k) -> INR 4 * u < 1 ->
  forall n m (rows : list (list (nat * R))), @sp_for num_R s dim degree (Build_spmat num_R n m rows) ->
  exists B' B, varfd (fnum_rnd r) (calc_spmat (fnum_rnd r)) s dim degree k (Build_spmat (fnum_rnd r) n m rows) flag = Ok B' /\ varfd fnum_R (calc_spmat fnum_R) s dim degree k (Build_spmat num_R n m rows) flag = Ok B /\
  forall a b, Rabs (@entry num_R s dim degree (dense B') a b - @entry num_R s dim degree (dense B) a b) <= gamma u 4 * Rabs (@entry num_R s dim degree (dense B) a b).
Proof. exact varfd_sp_bound. Qed.
Print Assumptions C109_varfd_sparse.
Example C109_varfd_example : accurate (/ 2 ^ 53) double /\ usable Triangle 2 1 /\ (1 < 2)%nat /\ INR 4 * / 2 ^ 53 < 1 /\ @mat_for num_R Triangle 2 1 [[1; 0; 0]; [0; 1; 0]; [0; 0; 1]] /\
  @sp_for num_R Triangle 2 1 (Build_spmat num_R 3 3 [[(0%nat, 1)]; [(1%nat, 1)]; [(2%nat, 1)]]) /\
  usable Cube 1 2 /\ paired Cube 1 2 0.
Proof.
  assert (P : length (points Triangle 2 1) = 3%nat) by reflexivity. split; [exact C109_double|]. split; [apply usable_dim4; lia|]. split; [lia|]. split; [rewrite INR_IZR_INZ; vm_compute Z.of_nat; lra|].
  split; [unfold mat_for; rewrite P; split; [reflexivity|repeat constructor]|]. split; [unfold sp_for; rewrite P; split; [split; [reflexivity|repeat constructor; cbn; lia]|split; reflexivity]|].
  split; [apply usable_dim4; lia|]. intros m [Hl Hm] Ho. destruct m as [|a [|b m]]; cbn in Hl; try lia. cbn [in_set] in Hm. inversion Hm as [|? ? Ha Ht]; subst. cbn in Ho. split; [reflexivity|]. cbn [in_set with_entry firstn skipn app nth]. apply Forall_cons; [|apply Forall_nil]. destruct a as [|[|[|a]]]; cbn in Ho; try discriminate; lia.
Qed.

(** The tensor product of matrices: one rounding for each factor after the first, whatever the directions; compared with the exact product of C20. *)
Theorem C109_tensorize_mats : forall u r, accurate u r -> forall s degree dirs (inputs : list (list (list R))) d, increasing d -> Permutation d (concat dirs) -> usable s (length d) degree -> Forall (fun dj => increasing dj /\ dj <> []) dirs ->
  Forall2 (fun dj B => @mat_for num_R s (length dj) degree B) dirs inputs -> INR (length inputs - 1) * u < 1 ->
  exists C, tensorize_mats (fnum_rnd r) s inputs dirs = Ok C /\ @mat_for num_R s (length d) degree C /\
    forall a b, index_of s (length d) degree a -> index_of s (length d) degree b ->
      Rabs (@entry num_R s (length d) degree C a b - @mproduct num_R s degree d dirs inputs a b) <= gamma u (length inputs - 1) * Rabs (@mproduct num_R s degree d dirs inputs a b).
Proof. exact mats_bound. Qed.
Print Assumptions C109_tensorize_mats.
Example C109_tensorize_mats_example : let dirs := [[3]; [1]]%nat in let inputs := [[[2; 0]; [3; 4]]; [[0; 5]; [7; 0]]] in
  increasing [1; 3]%nat /\ Permutation [1; 3]%nat (concat dirs) /\ usable Triangle 2 1 /\ Forall (fun dj : list nat => increasing dj /\ dj <> []) dirs /\
  Forall2 (fun dj B => @mat_for num_R Triangle (length dj) 1 B) dirs inputs /\ INR (length inputs - 1) * / 2 ^ 53 < 1.
Proof.
  cbn zeta. split; [repeat constructor|]. split; [apply perm_swap|]. split; [apply usable_dim4; cbn [length]; lia|]. split; [repeat constructor; discriminate|]. split; [repeat constructor|cbn; lra].
Qed.

(** The same for sparse matrices. *)
Theorem C109_tensorize_sparse : forall u r, accurate u r -> forall s degree dirs (inputs : list (nat * nat * list (list (nat * R)))) d, increasing d -> Permutation d (concat dirs) -> usable s (length d) degree -> Forall (fun dj => increasing dj /\ dj <> []) dirs ->
  Forall2 (fun dj t => @sp_for num_R s (length dj) degree (with_numbers num_R t)) dirs inputs -> INR (length inputs - 1) * u < 1 ->
  exists C, tensorize_sps (fnum_rnd r) s (map (with_numbers (fnum_rnd r)) inputs) dirs = Ok C /\
    forall a b, index_of s (length d) degree a -> index_of s (length d) degree b ->
      Rabs (@entry num_R s (length d) degree (@dense (fnum_rnd r) C) a b - @mproduct num_R s degree d dirs (map (@dense num_R) (map (with_numbers num_R) inputs)) a b) <=
      gamma u (length inputs - 1) * Rabs (@mproduct num_R s degree d dirs (map (@dense num_R) (map (with_numbers num_R) inputs)) a b).
Proof. exact sps_bound. Qed.
Print Assumptions C109_tensorize_sparse.
Example C109_tensorize_sparse_example : Forall2 (fun dj t => @sp_for num_R Triangle (length dj) 1 (with_numbers num_R t)) [[3]; [1]]%nat [(2, 2, [[(0, 2%R)]; [(0, 3%R); (1, 4%R)]]); (2, 2, [[(1, 5%R)]; [(0, 7%R)]])]%nat.
Proof. repeat constructor. Qed.

(** Projections copy numbers and round nothing. *)
Theorem C109_project : forall r s dim dirs, (forall v : list R, project_vec (fnum_rnd r) s v dim dirs = project_vec num_R s v dim dirs) /\
  (forall M : list (list R), project_mat (fnum_rnd r) (mat_ops (fnum_rnd r)) s M dim dirs = project_mat num_R (mat_ops num_R) s M dim dirs).
Proof. intros r s dim dirs. split; reflexivity. Qed.
Print Assumptions C109_project.
