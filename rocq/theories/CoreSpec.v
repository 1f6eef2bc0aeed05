(** Specification vocabulary for tensorize, project and inner of hermipy/core.py. *)
From Coq Require Import String List Arith.
From Verif Require Import Base IndexModel Num LinModel LinSpec PyBase CoreModel.
Import ListNotations.
Local Open Scope string_scope. Local Open Scope list_scope. Local Open Scope nat_scope.

(** The names of the index sets. *)
Definition set_name (s : iset) : string :=
  match s with Triangle => "triangle" | Cross => "cross" | CrossNc => "cross_nc" | Cube => "cube" | Rectangle => "rectangle" end.

(** The entries of a matrix, dense or sparse; in a sparse one, what is stored twice adds up. *)
Definition contents {N : num} (a : parr N) : list (list N) :=
  match a with
  | PMat A => A
  | PCsr c => map (fun i => map (fun j => csr_entry (c_data c) (c_indices c) (c_indptr c) i j) (seq 0 (c_cols c))) (seq 0 (c_rows c))
  | _ => []
  end.
Definition is_csr {N : num} (a : parr N) : bool := match a with PCsr _ => true | _ => false end.

(** A dense or sparse matrix of the right size for an index set. *)
Definition matrix_for {N : num} (s : iset) (dim degree : nat) (a : parr N) : Prop :=
  match a with
  | PMat A => mat_for s dim degree A
  | PCsr c => csr_wf (c_data c) (c_indices c) (c_indptr c) (c_rows c) (c_cols c) /\
      c_rows c = length (points s dim degree) /\ c_cols c = length (points s dim degree)
  | _ => False
  end.

(** Nothing is stored twice. *)
Definition no_duplicates {N : num} (a : parr N) : Prop :=
  match a with PCsr c => csr_distinct (c_indices c) (c_indptr c) (c_rows c) | _ => True end.
