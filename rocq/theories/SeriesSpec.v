(** What Series and Varf objects stand for. *)
From Coq Require Import String List Bool Arith Sorted.
From Verif Require Import Base IndexModel Spec Num LinSpec PosModel SeriesModel.
Import ListNotations.

(** The dimension of a position with as many means as directions, which is in the domain of degree recovery (C11). *)
Definition pos_dim {N : num} (p : position N) (s : iset) (dim degree : nat) : Prop :=
  length (p_dirs p) = dim /\ length (p_mean p) = dim /\ usable s dim degree.

(** A series has as many coefficients as there are multi-indices of its degree; a variational form as many rows and columns. *)
Definition series_ok {N : num} {Sym} (f : series N Sym) (dim : nat) : Prop :=
  pos_dim (s_pos f) (s_set f) dim (s_degree f) /\ vec_for (s_set f) dim (s_degree f) (s_coeffs f).
Definition varf_ok {N : num} {Sym} (v : varf N Sym) (dim : nat) : Prop :=
  pos_dim (v_pos v) (v_set v) dim (v_degree v) /\ mat_for (v_set v) dim (v_degree v) (v_mat v).

(** The coefficient of a series at the multi-index [m], the entry of a variational form at row [r] and column [c] (0 if there is none). *)
Definition series_at {N : num} {Sym} (f : series N Sym) (m : list nat) : N := coef (s_set f) (length (p_dirs (s_pos f))) (s_degree f) (s_coeffs f) m.
Definition varf_at {N : num} {Sym} (v : varf N Sym) (r c : list nat) : N := entry (v_set v) (length (p_dirs (v_pos v))) (v_degree v) (v_mat v) r c.
(** [m] is one of the multi-indices of the series, of the variational form. *)
Definition series_index {N : num} {Sym} (f : series N Sym) (m : list nat) : Prop := index_of (s_set f) (length (p_dirs (s_pos f))) (s_degree f) m.
Definition varf_index {N : num} {Sym} (v : varf N Sym) (m : list nat) : Prop := index_of (v_set v) (length (p_dirs (v_pos v))) (v_degree v) m.

(** The factor is given, or the directions are in order: the default factor 1 is a Function, whose directions must be. *)
Definition factor_ok {Sym} (factor : option (func Sym)) (dirs : list nat) : Prop := factor <> None \/ StronglySorted le dirs.

(** Two series (variational forms) with positions and factors that compare equal and the same index set. *)
Definition compatible {N : num} {Sym} (pos_eqb : position N -> position N -> bool) (sym_eqb : Sym -> Sym -> bool)
  (p q : position N) (s t : iset) (f g : func Sym) : Prop :=
  pos_eqb p q = true /\ s = t /\ f_dirs f = f_dirs g /\ sym_eqb (f_sym f) (f_sym g) = true.
