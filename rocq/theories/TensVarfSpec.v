(** Variational forms on groups of directions. *)
From Coq Require Import String List Arith Reals.
From Verif Require Import Base IndexModel Num Fnum CalcSpec LinSpec PosModel PosSpec SeriesModel SeriesSpec PartModel SplitSpec PyQuadModel PyQuadSpec.
Import ListNotations.

(** A variational form in the increasing directions [d], with a factor in these directions. *)
Definition form_on {N : num} {E : Type} (free_vars : E -> fset) (v : varf N E) (d : list nat) : Prop :=
  varf_ok v (length d) /\ p_dirs (v_pos v) = d /\ increasing d /\ d <> [] /\ pos_ok (v_pos v) /\ f_dirs (v_factor v) = d /\ incl (free_vars (f_sym (v_factor v))) d.

(** The product of the entries of the forms [vs], in the directions [groups], at the parts of the multi-indices [r] and [c] in the directions [d]. *)
Definition entries_product {N : num} {E : Type} (d : list nat) (groups : list (list nat)) (vs : list (varf N E)) (r c : list nat) : N :=
  nprod (map (fun '(g, v) => varf_at v (reindex d g r) (reindex d g c)) (combine groups vs)).

(** On the grid of [q], Quad.varf of a function with the values [value] ignores none of the coefficients of its transform, other than zeros
    (it ignores those under 1e-12 times the norm of the coefficients, or 1e-12 if this is less than 1). *)
Definition drops_nothing {E : Type} (q : quad fnum_R E) (s : iset) (degree : nat) (value : (nat -> R) -> R) : Prop :=
  forall vars values, quad_R q vars -> grid_values q vars values value -> nothing_dropped s degree (q_nodes q) (q_weights q) (kinds (p_types (q_pos q))) values.

(** This holds in all parts of the quadrature for the product of those factors of [term] that have variables, all of them in the directions of the part. *)
Definition parts_drop_nothing {E : Type} (eval : E -> (nat -> R) -> R) (mul_args : E -> list E) (free_vars : E -> fset) (project : quad fnum_R E -> list nat -> res (quad fnum_R E))
    (q : quad fnum_R E) (s : iset) (degree : nat) (term : E) : Prop :=
  forall dirs part, increasing dirs -> dirs <> [] -> incl dirs (p_dirs (q_pos q)) -> project q dirs = Ok part ->
    drops_nothing part s degree (product (N := fnum_R) eval (filter (inside free_vars dirs) (mul_args term))).
