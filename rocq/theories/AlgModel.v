(** The products of positions and of quadratures. *)
From Coq Require Import String List Bool Arith.
From Verif Require Import Base Num Fnum PyBase PosModel CalcModel SeriesModel PartModel SplitModel MulModel PyQuadModel.
Import ListNotations.
Local Open Scope string_scope. Local Open Scope list_scope. Local Open Scope nat_scope.

(** Position.__mul__, position.py:118-121, for two positions. *)
Definition pos_mul (N : num) (far : list (list N) -> bool) (p q : position N) : res (position N) := pos_tensorize N far [p; q].

(** Quad.__mul__, quad.py:157-158. *)
Definition quad_mul (F : fnum) (far : list (list F) -> bool) (E : Type) (e_mul : E -> E -> E) (e_1 : E) (free_vars : E -> list nat) (a b : quad F E) : res (quad F E) :=
  quad_tensorize F far E e_mul e_1 free_vars [a; b].
