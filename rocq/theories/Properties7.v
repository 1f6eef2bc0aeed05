(** Properties C45 and C63: positions. *)
From Coq Require Import String List Bool Arith ZArith Sorted Lia.
From Verif Require Import Base Num PyBase PosModel LinSpec PosSpec PosFacts.
Import ListNotations.
Local Open Scope string_scope. Local Open Scope list_scope. Local Open Scope nat_scope.

(** C45: [far] is the test "the covariance matrix is not diagonal", which is false of diagonal matrices.  Tensorizing positions succeeds exactly
    when no direction appears three times and shared directions agree; the result has the directions that appear once, in
    increasing order, each with the mean, the variance and the type its owner records. *)
Theorem C45_tensorize : forall (N : num) far (args : list (position N)), (forall l, far (diag_mat N l) = false) -> 2 <= length args -> Forall pos_ok args ->
  (forall d, owners args d <= 2) -> ~ conflict args ->
  exists r, pos_tensorize N far args = Ok r /\ pos_ok r /\ increasing (p_dirs r) /\ (forall d, In d (p_dirs r) <-> owners args d = 1) /\
    forall a d m v t, In a args -> In d (p_dirs r) -> records a d m v t -> records r d m v t.
Proof. exact tensorize_ok. Qed.
Print Assumptions C45_tensorize.

Theorem C45_tensorize_raises : forall (N : num) far (args : list (position N)), (forall l, far (diag_mat N l) = false) -> args <> [] -> Forall pos_ok args ->
  (exists d, 3 <= owners args d) \/ conflict args -> pos_tensorize N far args = Throw "ValueError".
Proof. exact tensorize_raises. Qed.
Print Assumptions C45_tensorize_raises.

Theorem C45_nondiagonal_raises : forall (N : num) far (args : list (position N)) a, In a args -> p_is_diag a = false -> pos_tensorize N far args = Throw "ValueError".
Proof. exact tensorize_nondiag. Qed.
Print Assumptions C45_nondiagonal_raises.

(** The types of a shared direction are not compared: a Hermite and a Fourier direction cancel. *)
Theorem C45_types_not_compared : exists a b r : position num_Z, pos_ok a /\ pos_ok b /\ records a 0 0%Z 1%Z "hermite" /\ records b 0 0%Z 1%Z "fourier" /\
  pos_tensorize num_Z (fun _ => false) [a; b] = Ok r /\ p_dirs r = [].
Proof. exact types_not_compared. Qed.
Print Assumptions C45_types_not_compared.

(** Projecting on directions of the position, in increasing order, keeps what it records for them; anything else raises. *)
Theorem C45_project : forall (N : num) far (p : position N) directions, (forall l, far (diag_mat N l) = false) -> pos_ok p -> incl directions (p_dirs p) -> increasing directions ->
  exists r, pos_project N far p directions = Ok r /\ pos_ok r /\ p_dirs r = directions /\ forall d m v t, In d directions -> records p d m v t -> records r d m v t.
Proof. exact project_increasing. Qed.
Print Assumptions C45_project.
Theorem C45_project_raises : forall (N : num) far (p : position N) directions, pos_ok p -> (~ StronglySorted le directions \/ ~ incl directions (p_dirs p)) -> pos_project N far p directions = Throw "ValueError".
Proof. exact project_throws. Qed.
Print Assumptions C45_project_raises.

(** Three positions; direction 1 is shared and disappears. *)
Definition pos_a : position num_Z := @Pos num_Z [3; 1] [5%Z; 7%Z] [[2%Z; 0%Z]; [0%Z; 4%Z]] ["hermite"; "fourier"] true.
Definition pos_b : position num_Z := @Pos num_Z [1] [7%Z] [[4%Z]] ["fourier"] true.
Definition pos_c : position num_Z := @Pos num_Z [0] [9%Z] [[6%Z]] ["hermite"] true.
Example C45_tensorize_example : exists r, pos_tensorize num_Z (fun _ => false) [pos_a; pos_b; pos_c] = Ok r /\ p_dirs r = [0; 3] /\ records r 3 5%Z 2%Z "hermite" /\ records r 0 9%Z 6%Z "hermite".
Proof.
  destruct (C45_tensorize num_Z (fun _ => false) [pos_a; pos_b; pos_c]) as (r & E & _ & _ & _ & R).
  - reflexivity.
  - cbn. lia.
  - repeat constructor; cbn; intuition lia.
  - intros [|[|[|[|d]]]]; cbn; lia.
  - intros (i & j & a & b & d & m & v & t & m' & v' & t' & Hij & Hi & Hj & (k & row & A1 & A2 & A3 & A4 & A5) & (k' & row' & B1 & B2 & B3 & B4 & B5) & H).
    destruct i as [|[|[|i]]]; destruct j as [|[|[|j]]]; cbn in Hi, Hj; try lia; try (destruct i; discriminate); try (destruct j; discriminate); injection Hi as <-; injection Hj as <-; destruct k as [|[|k]]; destruct k' as [|[|k']]; cbn in *; try (destruct k; discriminate); try (destruct k'; discriminate); try congruence;
    try (destruct k; cbn in *; discriminate); try (destruct k'; cbn in *; discriminate);
    injection A1 as <-; try discriminate; try congruence.
    all: try (injection B1 as E; discriminate). all: injection A2 as <-; injection A3 as <-; injection B2 as <-; injection B3 as <-; cbn in A4, B4; injection A4 as <-; injection B4 as <-; cbn in H; destruct H; discriminate.
  - exists r. split; [exact E|]. cbn in E. injection E as <-. split; [reflexivity|]. split; [apply (R pos_a)|apply (R pos_c)]; cbn; auto; [exists 0, [2%Z; 0%Z]|exists 0, [6%Z]]; repeat split.
Qed.
Example C45_raises_example : pos_tensorize num_Z (fun _ => false) [pos_b; pos_c; pos_b; pos_b] = Throw "ValueError".
Proof. apply C45_tensorize_raises; [reflexivity|discriminate|repeat constructor; cbn; intuition lia|left; exists 1; cbn; lia]. Qed.
Example C45_project_example : exists r, pos_project num_Z (fun _ => false) pos_a [1; 3] = Ok r /\ p_dirs r = [1; 3].
Proof.
  destruct (C45_project num_Z (fun _ => false) pos_a [1; 3]) as (r & E & _ & Hd & _); [reflexivity|repeat constructor; cbn; intuition lia|intros x [<-|[<-|[]]]; cbn; auto|repeat constructor|].
  exists r. split; assumption.
Qed.

(** C63: the constructor succeeds exactly when the arguments agree on a dimension, given by [dim] or [dirs] ... *)
Theorem C63_init_accepts : forall (N : num) far dim mean (cov : option (list (list N))) dirs types,
  (exists p, position_init N far dim mean cov dirs types = Ok p) <-> exists n, args_agree n dim mean cov dirs types /\ (dim <> None \/ dirs <> None).
Proof. exact init_spec. Qed.
Print Assumptions C63_init_accepts.
(** ... and the position then has that dimension, the given arguments and the defaults 0 .. n-1, zero means, unit variances and type hermite. *)
Theorem C63_init_fields : forall (N : num) far dim mean (cov : option (list (list N))) dirs types n p, args_agree n dim mean cov dirs types -> position_init N far dim mean cov dirs types = Ok p ->
  length (p_dirs p) = n /\ length (p_mean p) = n /\ length (p_types p) = n /\ mat_wf n n (p_cov p) /\
  (forall l, dirs = Some l -> p_dirs p = l) /\ (dirs = None -> p_dirs p = seq 0 n) /\
  (forall l, mean = Some l -> p_mean p = l) /\ (mean = None -> forall i, i < n -> nth_error (p_mean p) i = Some n0) /\
  (forall l, types = Some l -> p_types p = l) /\ (types = None -> forall i, i < n -> nth_error (p_types p) i = Some "hermite") /\
  (forall m, cov = Some m -> p_cov p = m) /\ (cov = None -> forall i j, i < n -> j < n -> exists row, nth_error (p_cov p) i = Some row /\ nth_error row j = Some (id_entry i j)).
Proof. exact init_fields. Qed.
Print Assumptions C63_init_fields.
(** Means or covariances alone do not fix the directions: the constructor raises, whatever they are. *)
Theorem C63_no_dimension : forall (N : num) far mean (cov : option (list (list N))) types, position_init N far None mean cov None types = Throw "TypeError" \/ position_init N far None mean cov None types = Throw "ValueError".
Proof. exact init_no_dim. Qed.
Print Assumptions C63_no_dimension.

Example C63_example : exists p : position num_Z, position_init num_Z (fun _ => false) (Some 2) (Some [3%Z; 4%Z]) None None None = Ok p /\ p_dirs p = [0; 1].
Proof. eexists. split; reflexivity. Qed.
Example C63_no_dimension_example : position_init num_Z (fun _ => false) None (Some [3%Z; 4%Z]) None None None = Throw "TypeError".
Proof. reflexivity. Qed.
