(** Properties C39-C43: derivatives of variational formulations and discretization. *)
From Coq Require Import String List Bool Arith ZArith Reals Lra Lia.
From Verif Require Import Base IndexModel Spec Num Fnum LinModel LinSpec LinBase CalcModel CalcSpec Facts2 Facts7 Facts10 Facts11.
Import ListNotations.
Local Open Scope R_scope.

(** C39: for a Hermite direction [k], column c of the result is sqrt(c_k) times column c - e_k of A (the factor is 0 when
    c_k = 0), for dense and for sparse matrices. *)
Theorem C39_varfd_hermite : forall s dim degree k, usable s dim degree -> (k < dim)%nat ->
  (forall A, @mat_for num_R s dim degree A -> exists B, varfd fnum_R (calc_mat fnum_R) s dim degree k A 0 = Ok B /\ @mat_for num_R s dim degree B /\
    forall r c, index_of s dim degree r -> index_of s dim degree c ->
      @entry num_R s dim degree B r c = sqrt (INR (nth k c 0%nat)) * @entry num_R s dim degree A r (with_entry c k (nth k c 0 - 1)%nat)) /\
  (forall A, @sp_for num_R s dim degree A -> exists B, varfd fnum_R (calc_spmat fnum_R) s dim degree k A 0 = Ok B /\ @sp_for num_R s dim degree B /\
    forall r c, index_of s dim degree r -> index_of s dim degree c ->
      @entry num_R s dim degree (dense B) r c = sqrt (INR (nth k c 0%nat)) * @entry num_R s dim degree (dense A) r (with_entry c k (nth k c 0 - 1)%nat)).
Proof. exact varfd_hermite. Qed.
Print Assumptions C39_varfd_hermite.
(** That is what it takes to differentiate: the derivative of h_n is sqrt(n) h_(n-1). *)
Theorem C39_hermite_derivative : forall n x, derivable_pt_lim (hermite n) x (sqrt (INR n) * hermite (n - 1) x).
Proof. exact hermite_deriv. Qed.
Print Assumptions C39_hermite_derivative.
(** So, if A is the discrete Galerkin matrix of a function, the result is the matrix of the function times d/dx_k: its entry
    (r, c) is the quadrature of f times basis function r times the partial derivative of basis function c. *)
Theorem C39_C40_varfd_composes : forall s degree k nodes weights flags input dphi, let dim := length nodes in let flag := nth k flags 0%nat in
  usable s dim degree -> (k < dim)%nat -> length flags = dim -> (flag = 0%nat \/ flag = 1%nat) -> (flag = 1%nat -> paired s dim degree k) ->
  (forall m x, index_of s dim degree m -> length x = dim -> derivable_pt_lim (fun t => phi flags m (with_entry x k t)) (nth k x 0) (dphi m x)) ->
  forall A, @sp_for num_R s dim degree A -> (forall r c, index_of s dim degree r -> index_of s dim degree c -> @entry num_R s dim degree (dense A) r c = galerkin nodes weights flags input r c) ->
  exists B, varfd fnum_R (calc_spmat fnum_R) s dim degree k A flag = Ok B /\ @sp_for num_R s dim degree B /\
    forall r c, index_of s dim degree r -> index_of s dim degree c ->
      @entry num_R s dim degree (dense B) r c = quadrature nodes weights input (fun x => phi flags r x * dphi c x).
Proof. exact varfd_composes. Qed.
Print Assumptions C39_C40_varfd_composes.
Definition identity3 : spmat num_R := Build_spmat num_R 3 3 [[(0%nat, 1)]; [(1%nat, 1)]; [(2%nat, 1)]].
Example C39_example : usable Triangle 2 1 /\ (1 < 2)%nat /\ @sp_for num_R Triangle 2 1 identity3 /\ @mat_for num_R Triangle 2 1 (@dense num_R identity3) /\
  index_of Triangle 2 1 [0; 1]%nat /\ with_entry [0; 1]%nat 1 (1 - 1)%nat = [0; 0]%nat /\ @entry num_R Triangle 2 1 (@dense num_R identity3) [0; 0]%nat [0; 0]%nat = 1.
Proof.
  assert (P : length (points Triangle 2 1) = 3%nat) by reflexivity.
  split; [apply usable_dim4; lia|]. split; [lia|]. split; [unfold sp_for; rewrite P; split; [split; [reflexivity|repeat constructor; cbn; lia]|split; reflexivity]|].
  split; [unfold mat_for; rewrite P; split; [reflexivity|repeat constructor]|]. split; [split; [reflexivity|cbn; lia]|]. split; reflexivity.
Qed.
(** The partial derivatives exist for every set of flags, so the hypothesis on dphi can always be met. *)
Example C39_C40_composes_example : forall flags m x k, length m = length flags -> length x = length flags -> (k < length flags)%nat ->
  derivable_pt_lim (fun t => phi flags m (with_entry x k t)) (nth k x 0)
    (fst (dterm (nth k flags 0%nat) (nth k m 0%nat)) * phi flags (with_entry m k (snd (dterm (nth k flags 0%nat) (nth k m 0%nat)))) x).
Proof. exact phi_deriv. Qed.

(** C40: for a Fourier direction, the basis functions with number 2j+1 and 2(j+1) are sin((j+1)x) and cos((j+1)x): the column
    of the sine is j+1 times that of the cosine, the column of the cosine is -(j+1) times that of the sine, the column of
    the constant is zero, provided that the set contains the cosine of each sine it contains. *)
Theorem C40_varfd_fourier : forall s dim degree k, usable s dim degree -> (k < dim)%nat -> paired s dim degree k ->
  forall A, @sp_for num_R s dim degree A -> exists B, varfd fnum_R (calc_spmat fnum_R) s dim degree k A 1 = Ok B /\ @sp_for num_R s dim degree B /\
    forall r c, index_of s dim degree r -> index_of s dim degree c ->
      (nth k c 0%nat = 0%nat -> @entry num_R s dim degree (dense B) r c = 0) /\
      (forall j, nth k c 0%nat = (2 * j + 1)%nat -> @entry num_R s dim degree (dense B) r c = INR (j + 1) * @entry num_R s dim degree (dense A) r (with_entry c k (2 * (j + 1))%nat)) /\
      (forall j, nth k c 0%nat = (2 * (j + 1))%nat -> @entry num_R s dim degree (dense B) r c = - INR (j + 1) * @entry num_R s dim degree (dense A) r (with_entry c k (2 * j + 1)%nat)).
Proof. exact varfd_fourier. Qed.
Print Assumptions C40_varfd_fourier.
(** The cube of even degree is such a set, so the call never throws there. *)
Theorem C40_cube : forall dim degree k A, usable Cube dim degree -> Nat.even degree = true -> (k < dim)%nat -> @sp_for num_R Cube dim degree A ->
  exists B, varfd fnum_R (calc_spmat fnum_R) Cube dim degree k A 1 = Ok B.
Proof. exact varfd_cube. Qed.
Print Assumptions C40_cube.
(** The triangle of dimension at least 2 is not, and there the call always throws for a full matrix. *)
Theorem C40_triangle_throws : forall dim degree k (A : list (list R)), usable Triangle dim degree -> (2 <= dim)%nat -> (1 <= degree)%nat -> (k < dim)%nat -> @mat_for num_R Triangle dim degree A ->
  varfd fnum_R (calc_mat fnum_R) Triangle dim degree k A 1 = Throw "out_of_range".
Proof. exact varfd_triangle. Qed.
Print Assumptions C40_triangle_throws.
(** In general a sparse matrix with a stored entry in the column of a sine whose cosine is missing makes the call throw. *)
Theorem C40_unpaired_throws : forall s dim degree k row col m x (A : spmat num_R), usable s dim degree -> (k < dim)%nat -> @sp_for num_R s dim degree A ->
  In (row, col, x) (sp_entries num_R A) -> nth_error (points s dim degree) col = Some m ->
  Nat.odd (nth k m 0%nat) = true -> ~ index_of s dim degree (with_entry m k (nth k m 0 + 1)%nat) ->
  varfd fnum_R (calc_spmat fnum_R) s dim degree k A 1 = Throw "out_of_range".
Proof. exact varfd_throws. Qed.
Print Assumptions C40_unpaired_throws.
Example C40_example : usable Cube 1 2 /\ Nat.even 2 = true /\ paired Cube 1 2 0 /\ paired Rectangle 2 4 0 /\ @sp_for num_R Cube 1 2 identity3 /\
  usable Triangle 2 1 /\ @sp_for num_R Triangle 2 1 identity3 /\ index_of Triangle 2 1 [0; 1]%nat /\ Nat.odd 1 = true /\ ~ index_of Triangle 2 1 [0; 2]%nat /\
  In (1%nat, 1%nat, 1) (sp_entries num_R identity3) /\ nth_error (points Triangle 2 1) 1 = Some [0; 1]%nat /\ @mat_for num_R Triangle 2 1 (@dense num_R identity3).
Proof.
  assert (P : length (points Triangle 2 1) = 3%nat) by reflexivity. assert (P1 : length (points Cube 1 2) = 3%nat) by reflexivity.
  split; [apply usable_dim4; lia|]. split; [reflexivity|]. split; [apply paired_cube; [reflexivity|lia]|]. split; [apply paired_rectangle; [reflexivity|lia]|].
  split; [unfold sp_for; rewrite P1; split; [split; [reflexivity|repeat constructor; cbn; lia]|split; reflexivity]|]. split; [apply usable_dim4; lia|].
  split; [unfold sp_for; rewrite P; split; [split; [reflexivity|repeat constructor; cbn; lia]|split; reflexivity]|]. split; [split; [reflexivity|cbn; lia]|].
  split; [reflexivity|]. split; [intros [_ H]; cbn in H; lia|]. split; [right; left; reflexivity|]. split; [reflexivity|]. unfold mat_for; rewrite P; split; [reflexivity|repeat constructor].
Qed.

(** C41: for Hermite directions the sparse overload, the dense overload and the generic code on a dense matrix agree. *)
Theorem C41_overloads_hermite : forall s dim degree k A, usable s dim degree -> (k < dim)%nat -> @sp_for num_R s dim degree A ->
  exists B D, varfd fnum_R (calc_spmat fnum_R) s dim degree k A 0 = Ok B /\ @sp_for num_R s dim degree B /\ varfd_dense fnum_R s dim degree k (dense A) 0 = Ok D /\ dense B = D /\
    varfd fnum_R (calc_mat fnum_R) s dim degree k (dense A) 0 = Ok D.
Proof. exact varfd_overloads. Qed.
Print Assumptions C41_overloads_hermite.
(** For Fourier directions they do not, although both succeed. *)
Theorem C41_fourier_refuted : ~ forall s dim degree k A, usable s dim degree -> (k < dim)%nat -> paired s dim degree k -> @sp_for num_R s dim degree A ->
  exists B D, varfd fnum_R (calc_spmat fnum_R) s dim degree k A 1 = Ok B /\ varfd_dense fnum_R s dim degree k (dense A) 1 = Ok D /\ dense B = D.
Proof. exact varfd_overloads_refuted. Qed.
Print Assumptions C41_fourier_refuted.
Theorem C41_fourier_witness : exists B D, varfd fnum_R (calc_spmat fnum_R) Cube 1 2 0 (Build_spmat num_R 3 3 [[(1%nat, 1)]; []; []]) 1 = Ok B /\ varfd_dense fnum_R Cube 1 2 0 [[0; 1; 0]; [0; 0; 0]; [0; 0; 0]] 1 = Ok D /\
  @entry num_R Cube 1 2 (dense B) [0]%nat [2]%nat = -1 /\ @entry num_R Cube 1 2 D [0]%nat [2]%nat = 2 ^ 32 - 1.
Proof. exact varfd_fourier_differs. Qed.
Print Assumptions C41_fourier_witness.
(** What the dense overload computes: the factor of the cosine number n/2 is 2^32 - n/2 instead of -n/2. *)
Theorem C41_dense_fourier : forall s dim degree k (A : list (list R)), usable s dim degree -> (k < dim)%nat -> paired s dim degree k -> @mat_for num_R s dim degree A ->
  exists D, varfd_dense fnum_R s dim degree k A 1 = Ok D /\ @mat_for num_R s dim degree D /\
    forall r c, index_of s dim degree r -> index_of s dim degree c -> let n := nth k c 0%nat in
      @entry num_R s dim degree D r c = (if (n =? 0)%nat then 0 else if Nat.even n then 2 ^ 32 - INR (n / 2) else INR ((n + 1) / 2)) * @entry num_R s dim degree A r (with_entry c k (snd (dterm 1 n))).
Proof. exact varfd_dense_fourier. Qed.
Print Assumptions C41_dense_fourier.

(** C42: derivatives in different directions commute. *)
Theorem C42_varfd_commute : forall s dim degree a b fa fb A, usable s dim degree -> (a < dim)%nat -> (b < dim)%nat -> a <> b -> (fa = 0%nat \/ fa = 1%nat) -> (fb = 0%nat \/ fb = 1%nat) ->
  (fa = 1%nat -> paired s dim degree a) -> (fb = 1%nat -> paired s dim degree b) -> @sp_for num_R s dim degree A ->
  exists A1 A2 B1 B2, varfd fnum_R (calc_spmat fnum_R) s dim degree a A fa = Ok A1 /\ varfd fnum_R (calc_spmat fnum_R) s dim degree b A1 fb = Ok A2 /\
    varfd fnum_R (calc_spmat fnum_R) s dim degree b A fb = Ok B1 /\ varfd fnum_R (calc_spmat fnum_R) s dim degree a B1 fa = Ok B2 /\ dense A2 = dense B2.
Proof. exact varfd_commute. Qed.
Print Assumptions C42_varfd_commute.
Example C42_example : usable Cube 2 2 /\ (0 < 2)%nat /\ (1 < 2)%nat /\ 0%nat <> 1%nat /\ paired Cube 2 2 1 /\ @sp_for num_R Cube 2 2 (Build_spmat num_R 9 9 (repeat [(1%nat, 1); (4%nat, 2)] 9)).
Proof.
  assert (P : length (points Cube 2 2) = 9%nat) by reflexivity.
  split; [apply usable_dim4; lia|]. split; [lia|]. split; [lia|]. split; [lia|]. split; [apply paired_cube; [reflexivity|lia]|].
  unfold sp_for. rewrite P. split; [split; [reflexivity|cbn [sp_rows repeat]; repeat constructor; cbn; lia]|split; reflexivity].
Qed.

(** C43: discretize, for any number type with its own addition and multiplication (so also for rounded arithmetic): value
    number i is the function at the affine image of the i-th grid point in row-major order, with the sums taken from left
    to right; in particular, nothing of the uninitialised buffers is ever read. *)
Theorem C43_discretize : forall (F : fnum) (junk : F) (func : list F -> F) (nodes : list (list F)) (t : list F) (D : list (list F)),
  nodes <> [] -> (Z.of_nat (length (row_major (map (@length F) nodes))) < 2 ^ 32)%Z -> length t = length nodes -> mat_wf (length nodes) (length nodes) D ->
  discretize F junk func nodes t D = Ok (map (fun p => func (affine t D (point_at n0 nodes p))) (row_major (map (@length F) nodes))).
Proof. exact discretize_spec. Qed.
Print Assumptions C43_discretize.
Theorem C43_discretize_R : forall junk (func : list R -> R) nodes t D, nodes <> [] -> grid_fits nodes -> length t = length nodes -> mat_wf (length nodes) (length nodes) D ->
  discretize fnum_R junk func nodes t D =
    Ok (map (fun p => func (map (fun '(ti, row) => ti + rsum (map (fun '(a, x) => a * x) (combine row (at_pos nodes p)))) (combine t D))) (grid nodes)).
Proof. exact discretize_R. Qed.
Print Assumptions C43_discretize_R.
Example C43_example : let nodes := [[1; 2]; [3; 4; 5]] in nodes <> [] /\ grid_fits nodes /\ length [10; 20] = length nodes /\ @mat_wf num_R (length nodes) (length nodes) [[1; 0]; [0; 2]] /\
  grid nodes = [[0; 0]; [0; 1]; [0; 2]; [1; 0]; [1; 1]; [1; 2]]%nat /\ at_pos nodes [1; 2]%nat = [2; 5].
Proof.
  cbn zeta. split; [discriminate|]. split; [unfold grid_fits; cbn; lia|]. split; [reflexivity|]. split; [split; [reflexivity|repeat constructor]|]. split; reflexivity.
Qed.
