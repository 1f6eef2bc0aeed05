(** Series.project and Varf.project, hermipy/series.py and hermipy/varf.py. *)
From Coq Require Import String List Arith.
From Verif Require Import Base IndexModel Num LinModel PyBase PosModel SeriesModel SplitModel.
Import ListNotations.
Local Open Scope string_scope. Local Open Scope list_scope. Local Open Scope nat_scope.

Section Proj.
Variable N : num.
Variable far : list (list N) -> bool.
Variable E : Type.
Variable e_mul : E -> E -> E.
Variable e_1 : E.
Variables add_args mul_args : E -> list E.
Variable free_vars : E -> list nat.

(** Series.project, series.py:183-192, for a list of directions (another argument is made a list of one element). *)
Definition series_project (f : series N E) (directions : list nat) : res (series N E) :=
  rel_dirs <- mapM (py_index (p_dirs (s_pos f))) directions ;;
  p_coeffs <- project_vec N (s_set f) (s_coeffs f) (p_dim (s_pos f)) rel_dirs ;;
  p_pos <- pos_project N far (s_pos f) directions ;;
  factor <- fun_project E e_mul e_1 add_args mul_args free_vars (s_factor f) directions ;;
  series_init N E e_1 p_coeffs p_pos (Some factor) (s_set f).

(** Varf.project, varf.py:136-145, for a dense matrix and a list of directions.  The list comprehension reads [self.dirs], an
    attribute that Varf.__init__, varf.py:66-77, does not set, once per element of [directions]. *)
Definition varf_project (v : varf N E) (directions : list nat) : res (varf N E) :=
  rel_dirs <- mapM (fun _ : nat => Throw "AttributeError") directions ;;
  p_matrix <- project_mat N (mat_ops N) (v_set v) (v_mat v) (p_dim (v_pos v)) rel_dirs ;;
  p_pos <- pos_project N far (v_pos v) directions ;;
  factor <- fun_project E e_mul e_1 add_args mul_args free_vars (v_factor v) directions ;;
  varf_init N E e_1 p_matrix p_pos (Some factor) (v_set v).
End Proj.
