(** C110: the operators on vectors and matrices. *)
From Coq Require Import String List Bool Arith ZArith Lia Reals Lra.
From Verif Require Import Base Num Fnum LinModel LinSpec MatBase Facts2 CalcSpec VecModel VecSpec VecFacts VecFacts2 VecFacts3 VecFacts4.
Import ListNotations.
Local Open Scope nat_scope.

(** The product of an n x m and a p x q matrix: only the first n columns of the first and the first n rows and columns of
    the second are used; it is undefined when these do not exist. *)
Theorem C110_product : forall (N : num) n m p q (A B : list (list N)), mat_wf n m A -> mat_wf p q B ->
  (n <= m -> n <= p -> n <= q -> exists C, mat_mul N A B = Ok C /\ mat_wf n n C /\ forall i j, i < n -> j < n -> entry C i j = row_col n A B i j) /\
  (0 < n -> ~ (n <= m /\ n <= p /\ n <= q) -> mat_mul N A B = Ub).
Proof. intros N n m p q A B HA HB. split; [apply (mat_mul_ok N n m p q); assumption|apply (mat_mul_ub N n m p q); assumption]. Qed.
Print Assumptions C110_product.
Example C110_product_example : mat_wf 2 2 [[1; 2]; [3; 4]]%Z /\ mat_wf 2 2 [[5; 6]; [7; 8]]%Z /\ mat_mul num_Z [[1; 2]; [3; 4]]%Z [[5; 6]; [7; 8]]%Z = Ok [[19; 22]; [43; 50]]%Z /\
  mat_wf 3 2 [[1; 2]; [3; 4]; [5; 6]]%Z /\ mat_mul num_Z [[1; 2]; [3; 4]; [5; 6]]%Z [[1; 2]; [3; 4]]%Z = Ub.
Proof. repeat split; repeat constructor. Qed.
(** So it is not the product of matrices that are not square: it may be wrong, or undefined. *)
Theorem C110_product_refuted : ~ forall n m q (A B : list (list Z)), mat_wf n m A -> mat_wf m q B -> 0 < n ->
  exists C, mat_mul num_Z A B = Ok C /\ mat_wf n q C /\ forall i j, i < n -> j < q -> @entry num_Z C i j = @row_col num_Z m A B i j.
Proof.
  intros H. destruct (H 2 3 2 [[1; 0; 1]; [0; 1; 0]]%Z [[1; 0]; [0; 1]; [1; 1]]%Z) as (C & E & _ & V); [repeat constructor..|].
  assert (E' : mat_mul num_Z [[1; 0; 1]; [0; 1; 0]]%Z [[1; 0]; [0; 1]; [1; 1]]%Z = Ok [[1; 0]; [0; 1]]%Z) by (vm_compute; reflexivity).
  rewrite E' in E. injection E as <-. specialize (V 0 0 ltac:(lia) ltac:(lia)). vm_compute in V. discriminate V.
Qed.
Print Assumptions C110_product_refuted.
(** A matrix times a vector, and the product of two vectors. *)
Theorem C110_apply : forall (N : num) n m (A : list (list N)) v, mat_wf n m A ->
  (n <= m -> n <= length v -> mat_vec N A v = Ok (map (fun i => dot n (nth i A []) v) (seq 0 n))) /\ (0 < n -> ~ (n <= m /\ n <= length v) -> mat_vec N A v = Ub).
Proof. intros N n m A v HA. split; [apply (mat_vec_ok N n m); assumption|apply (mat_vec_ub N n m); assumption]. Qed.
Print Assumptions C110_apply.
Example C110_apply_example : mat_wf 2 2 [[1; 2]; [3; 4]]%Z /\ mat_vec num_Z [[1; 2]; [3; 4]]%Z [5; 6]%Z = Ok [17; 39]%Z /\ mat_vec num_Z [[1; 2]; [3; 4]]%Z [5]%Z = Ub.
Proof. repeat split; repeat constructor. Qed.
Theorem C110_dot : forall (N : num) (v w : list N), (length v <= length w -> vec_dot N v w = Ok (dot (length v) v w)) /\ (length w < length v -> vec_dot N v w = Ub).
Proof. intros N v w. split; [apply dot_ok|apply dot_ub]. Qed.
Print Assumptions C110_dot.
Example C110_dot_example : vec_dot num_Z [1; 2]%Z [3; 4; 5]%Z = Ok 11%Z /\ vec_dot num_Z [1; 2; 3]%Z [3; 4]%Z = Ub.
Proof. split; reflexivity. Qed.

(** Square matrices, exact arithmetic: the product associates, with the identity as neutral element, and composes. *)
Theorem C110_associates : forall (N : num), num_laws N -> forall n (A B C : list (list N)), mat_wf n n A -> mat_wf n n B -> mat_wf n n C ->
  (AB <- mat_mul N A B ;; mat_mul N AB C) = (BC <- mat_mul N B C ;; mat_mul N A BC) /\ exists D, (AB <- mat_mul N A B ;; mat_mul N AB C) = Ok D.
Proof. exact mul_assoc. Qed.
Print Assumptions C110_associates.
Theorem C110_identity : forall (N : num), num_laws N -> forall n, m_eye N (mat_ops N) n = Ok (identity n) /\ forall A : list (list N), mat_wf n n A -> mat_mul N (identity n) A = Ok A /\ mat_mul N A (identity n) = Ok A.
Proof. intros N L n. split; [apply eye_identity|apply mul_identity; exact L]. Qed.
Print Assumptions C110_identity.
Theorem C110_composes : forall (N : num), num_laws N -> forall n (A B : list (list N)) v, mat_wf n n A -> mat_wf n n B -> length v = n ->
  (AB <- mat_mul N A B ;; mat_vec N AB v) = (w <- mat_vec N B v ;; mat_vec N A w) /\ exists w, (AB <- mat_mul N A B ;; mat_vec N AB v) = Ok w.
Proof. exact mul_vec. Qed.
Print Assumptions C110_composes.
Theorem C110_dot_symmetric : forall (N : num), num_laws N -> forall v w : list N, length v = length w -> vec_dot N v w = vec_dot N w v.
Proof. exact dot_comm. Qed.
Print Assumptions C110_dot_symmetric.
Example C110_laws_example : num_laws num_Z /\ mat_wf 2 2 [[1; 2]; [3; 4]]%Z /\ mat_wf 2 2 [[0; 1]; [1; 0]]%Z /\ @identity num_Z 2 = [[1; 0]; [0; 1]]%Z /\
  (AB <- mat_mul num_Z [[1; 2]; [3; 4]]%Z [[0; 1]; [1; 0]]%Z ;; mat_vec num_Z AB [5; 6]%Z) = Ok [16; 38]%Z.
Proof. split; [exact num_Z_laws|]. repeat split; repeat constructor. Qed.

(** Sums and differences are entry by entry; the second vector may be longer, not shorter. Subtracting and adding again gives the vector back. *)
Theorem C110_sum : forall (N : num) (v w : list N), (length v <= length w ->
    vec_add N v w = Ok (map (fun k => nadd (nth k v n0) (nth k w n0)) (seq 0 (length v))) /\ vec_sub N v w = Ok (map (fun k => nsub (nth k v n0) (nth k w n0)) (seq 0 (length v)))) /\
  (length w < length v -> vec_add N v w = Ub /\ vec_sub N v w = Ub).
Proof.
  intros N v w. split; intros H; split.
  - apply binop_ok; [exact H|reflexivity].
  - apply binop_ok; [exact H|reflexivity].
  - apply binop_ub; [exact H|intros; apply dou_ok].
  - apply binop_ub; [exact H|intros; apply dou_ok].
Qed.
Print Assumptions C110_sum.
Theorem C110_difference : forall (N : num), num_laws N -> forall v w : list N, length v = length w -> (d <- vec_sub N v w ;; vec_add N d w) = Ok v.
Proof. exact sub_add. Qed.
Print Assumptions C110_difference.
Theorem C110_multiple : forall (N : num) (v : list N) (A : list (list N)) x, vec_scale N v x = Ok (map (fun a => nmul a x) v) /\ mat_scale N A x = Ok (map (map (fun a => nmul a x)) A).
Proof. intros N v A x. split; [apply scale_ok; reflexivity|]. apply scale_ok. intros row _. apply scale_ok. reflexivity. Qed.
Print Assumptions C110_multiple.
Example C110_sum_example : vec_add num_Z [1; 2]%Z [3; 4; 5]%Z = Ok [4; 6]%Z /\ vec_sub num_Z [1; 2; 3]%Z [3; 4]%Z = Ub /\ mat_add num_Z [[1; 2]; [3; 4]]%Z [[1; 1]; [1; 1]]%Z = Ok [[2; 3]; [4; 5]]%Z /\ mat_scale num_Z [[1; 2]; [3]]%Z 5%Z = Ok [[5; 10]; [15]]%Z.
Proof. repeat split. Qed.

(** [fabs] is the Euclidean norm of a vector and the Frobenius norm of a matrix. *)
Theorem C110_norm : forall (v : list R) (A : list (list R)), vec_norm fnum_R v = Ok (sqrt (squares v)) /\ mat_norm fnum_R A = Ok (sqrt (squares (concat A))) /\ (sqrt (squares v) = 0 <-> Forall (fun x => x = 0) v)%R.
Proof. intros v A. split; [apply vec_norm_ok|]. split; [apply mat_norm_ok|apply squares_zero]. Qed.
Print Assumptions C110_norm.
Theorem C110_norm_multiple : forall (v : list R) x, exists w, vec_scale num_R v x = Ok w /\ vec_norm fnum_R w = Ok (sqrt (squares v) * Rabs x)%R.
Proof. exact norm_scale. Qed.
Print Assumptions C110_norm_multiple.
Theorem C110_norm_sum : forall v w : list R, length v = length w -> exists s, vec_add num_R v w = Ok s /\ exists r, vec_norm fnum_R s = Ok r /\ (r <= sqrt (squares v) + sqrt (squares w))%R.
Proof. exact norm_triangle. Qed.
Print Assumptions C110_norm_sum.
Theorem C110_norm_matrix_sum : forall n m (A B : list (list R)), mat_wf n m A -> mat_wf n m B -> exists S, mat_add num_R A B = Ok S /\ mat_wf n m S /\
  (forall i j, i < n -> j < m -> @entry num_R S i j = (@entry num_R A i j + @entry num_R B i j)%R) /\ exists r, mat_norm fnum_R S = Ok r /\ (r <= sqrt (squares (concat A)) + sqrt (squares (concat B)))%R.
Proof. exact mat_norm_triangle. Qed.
Print Assumptions C110_norm_matrix_sum.
Theorem C110_norm_dot : forall v w : list R, length v = length w -> exists d, vec_dot num_R v w = Ok d /\ (Rabs d <= sqrt (squares v) * sqrt (squares w))%R.
Proof. exact norm_dot. Qed.
Print Assumptions C110_norm_dot.
Example C110_norm_example : squares [3; -4]%R = 25%R /\ length [3; -4]%R = length [1; 2]%R /\ vec_norm fnum_Z [3; -4]%Z = Ok 5%Z /\ mat_norm fnum_Z [[2; 2]; [2; 2]]%Z = Ok 2%Z.
Proof. split; [unfold squares; cbn; lra|]. repeat split. Qed.

(** Conversions to and from ublas matrices keep every entry. *)
Theorem C110_convert : forall (N : num) n m (A : list (list N)), mat_wf n m A -> 0 < n -> exists B, mat_to_boost N A = Ok B /\ b_holds B n m A /\ boost_to_mat N B = Ok A.
Proof. intros N n m A HA Hn. destruct (to_boost N n m A HA Hn) as (B & E & H). exists B. split; [exact E|]. split; [exact H|]. apply (from_boost N n m); assumption. Qed.
Print Assumptions C110_convert.
Theorem C110_convert_sparse : forall (N : num) (S : spmat N), sp_wf S -> exists B, sp_to_boost N S = Ok B /\ b_holds B (sp_size1 N S) (sp_size2 N S) (dense S) /\ boost_to_mat N B = Ok (dense S).
Proof. intros N S HS. destruct (sp_boost N S HS) as (B & E & H). exists B. split; [exact E|]. split; [exact H|]. apply (from_boost N (sp_size1 N S) (sp_size2 N S)); [apply dense_wf; exact HS|exact H]. Qed.
Print Assumptions C110_convert_sparse.
(** A matrix without rows cannot be converted. *)
Theorem C110_convert_refuted : ~ forall (A : list (list Z)) n m, mat_wf n m A -> exists B, mat_to_boost num_Z A = Ok B.
Proof. intros H. destruct (H [] 0 0) as (B & E); [repeat constructor|]. discriminate E. Qed.
Print Assumptions C110_convert_refuted.
Example C110_convert_example : mat_wf 2 3 [[1; 2; 3]; [4; 5; 6]]%Z /\ mat_to_boost num_Z [[1; 2; 3]; [4; 5; 6]]%Z = Ok {| b_size1 := 2; b_size2 := 3; b_data := [1; 2; 3; 4; 5; 6]%Z : list num_Z |} /\
  sp_wf (N := num_Z) {| sp_size1 := 2; sp_size2 := 3; sp_rows := [[(1, 5%Z)]; []] : list (list (nat * num_Z)) |}.
Proof. split; [split; repeat constructor|]. split; [reflexivity|]. split; [reflexivity|]. repeat constructor. Qed.

(** Printing: the elements between brackets; undefined for an empty vector, at any level. *)
Theorem C110_print : forall T (show : T -> string) (v : list T) (A : list (list T)),
  (v <> [] -> print_vec show v = Ok ("[" ++ String.concat ", " (map show v) ++ "]")%string) /\ print_vec show [] = Ub /\
  (A <> [] -> Forall (fun r => r <> []) A -> print_mat show A = Ok ("[" ++ String.concat (endl ++ " ") (map (fun r => "[" ++ String.concat ", " (map show r) ++ "]") A) ++ "]")%string) /\ (A = [] \/ In [] A -> print_mat show A = Ub).
Proof.
  intros T show v A. split; [intros H; apply print_ok; [exact H|reflexivity]|]. split; [reflexivity|]. split.
  - intros HA HF. apply print_ok; [exact HA|]. intros r Hr. rewrite Forall_forall in HF. apply print_ok; [apply HF; exact Hr|reflexivity].
  - intros [->|H]; [reflexivity|]. apply (print_bad _ _ _ _ A []); [|exact H|reflexivity]. intros [|x r]; [right; reflexivity|]. left. eexists. apply print_ok; [discriminate|reflexivity].
Qed.
Print Assumptions C110_print.
Example C110_print_example : print_mat (fun b : bool => if b then "1" else "0")%string [[true; false]; [false; true]] = Ok ("[[1, 0]" ++ endl ++ " [0, 1]]")%string.
Proof. vm_compute. reflexivity. Qed.
