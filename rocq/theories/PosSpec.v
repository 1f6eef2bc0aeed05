(** What a Position records. *)
From Coq Require Import String List Bool Arith.
From Verif Require Import Base Num PyBase PosModel LinSpec.
Import ListNotations.

(** The position records, for direction [d], the mean [m], the variance [v] and the type [t]. *)
Definition records {N : num} (p : position N) (d : nat) (m v : N) (t : string) : Prop :=
  exists i row, nth_error (p_dirs p) i = Some d /\ nth_error (p_mean p) i = Some m /\
    nth_error (p_cov p) i = Some row /\ nth_error row i = Some v /\ nth_error (p_types p) i = Some t.

(** A diagonal position with distinct directions and one mean, one row and column of the covariance and one type each. *)
Definition pos_ok {N : num} (p : position N) : Prop :=
  NoDup (p_dirs p) /\ length (p_mean p) = length (p_dirs p) /\ mat_wf (length (p_dirs p)) (length (p_dirs p)) (p_cov p) /\
  length (p_types p) = length (p_dirs p) /\ p_is_diag p = true.

(** The number of positions of the list that have direction [d]. *)
Definition owners {N : num} (args : list (position N)) (d : nat) : nat := count_occ Nat.eq_dec (concat (map p_dirs args)) d.

(** Two of the positions have direction [d], with different means or variances. *)
Definition conflict {N : num} (args : list (position N)) : Prop :=
  exists i j a b d m v t m' v' t', i < j /\ nth_error args i = Some a /\ nth_error args j = Some b /\
    records a d m v t /\ records b d m' v' t' /\ (neqb m m' = false \/ neqb v v' = false).

(** The arguments given to the constructor agree on the dimension [n]. *)
Definition args_agree {N : num} (n : nat) (dim : option nat) (mean : option (list N)) (cov : option (list (list N))) (dirs : option (list nat)) (types : option (list string)) : Prop :=
  (forall k, dim = Some k -> k = n) /\ (forall l, mean = Some l -> length l = n) /\ (forall m, cov = Some m -> mat_wf n n m) /\
  (forall l, dirs = Some l -> length l = n) /\ (forall l, types = Some l -> length l = n).
(** The value of an argument, or its default. *)
Definition given {A} (x : option A) (default : A) : A := match x with Some a => a | None => default end.
(** The identity matrix. *)
Definition id_entry {N : num} (i j : nat) : N := if i =? j then n1 else n0.
