(** Vocabulary of C99. *)
From Coq Require Import List.
From Verif Require Import Num LinSpec PosModel PosSpec SeriesModel SeriesSpec.

(** What projecting a series on the directions [D] presumes: the series is well formed, its directions and [D] are in increasing order and [D] is a non-empty part of them. *)
Definition projectable {N : num} {E : Type} (f : series N E) (D : list nat) : Prop :=
  series_ok f (length (p_dirs (s_pos f))) /\ pos_ok (s_pos f) /\ increasing (p_dirs (s_pos f)) /\ increasing D /\ D <> nil /\ incl D (p_dirs (s_pos f)).

(** Two series of the same directions and index set with the same multi-indices and the same coefficient at each. *)
Definition same_series {N : num} {E : Type} (f g : series N E) : Prop :=
  p_dirs (s_pos f) = p_dirs (s_pos g) /\ s_set f = s_set g /\ (forall m, series_index f m <-> series_index g m) /\ forall m, series_index f m -> series_at f m = series_at g m.
