(** Vocabulary of C100: quadratic forms of the matrices made by varf. *)
From Coq Require Import List Reals.
From Verif Require Import Base IndexModel Spec Num Fnum LinModel LinSpec CalcModel CalcSpec.
Import ListNotations.
Local Open Scope R_scope.

(** [A] is the matrix computed by varf, dense, or by varf_sp, sparse and then expanded. *)
Definition varf_gives (s : iset) (degree : nat) (nodes weights : list (list R)) (flags : list nat) (values : list R) (A : list (list R)) : Prop :=
  varf fnum_R (calc_mat fnum_R) s degree values nodes weights flags = Ok A \/ exists B, varf fnum_R (calc_spmat fnum_R) s degree values nodes weights flags = Ok B /\ A = @dense num_R B.

(** The number u . A v, the vector A v at the multi-index r, and the square of the length of u, for vectors of coefficients on the index set. *)
Definition apply_at (s : iset) (dim degree : nat) (A : list (list R)) (v : list R) (r : list nat) : R :=
  rsum (map (fun c => @entry num_R s dim degree A r c * @coef num_R s dim degree v c) (points s dim degree)).
Definition form_value (s : iset) (dim degree : nat) (A : list (list R)) (u v : list R) : R :=
  rsum (map (fun r => @coef num_R s dim degree u r * apply_at s dim degree A v r) (points s dim degree)).
Definition square_length (s : iset) (dim degree : nat) (u : list R) : R := rsum (map (fun r => @coef num_R s dim degree u r * @coef num_R s dim degree u r) (points s dim degree)).
