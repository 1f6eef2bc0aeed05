(** Property C112: the transform gives the best approximation. *)
From Coq Require Import List Bool Arith ZArith Reals Lra Lia.
From Verif Require Import Base IndexModel Spec Degree Num Fnum LinModel LinSpec CalcModel CalcSpec FormSpec BestSpec BestFacts Properties3.
Import ListNotations.
Local Open Scope R_scope.

(** C112: among all series with the same basis functions, the one that transform returns has the smallest square error on the grid, and it is the only one, for a
    quadrature that is exact for the products of the basis functions. *)
Theorem C112_best : forall s degree nodes weights flags, fits s (length nodes) degree -> grid_fits nodes -> flags_ok s degree flags -> exact_rules degree flags nodes weights ->
  forall input, length input = length (grid nodes) ->
  exists c, transform fnum_R s degree input nodes weights flags true = Ok c /\ @vec_for num_R s (length nodes) degree c /\
    forall d, @vec_for num_R s (length nodes) degree d ->
      square_error nodes weights input (series s degree flags c) <= square_error nodes weights input (series s degree flags d) /\
      (square_error nodes weights input (series s degree flags d) = square_error nodes weights input (series s degree flags c) -> d = c).
Proof. exact best. Qed.
Print Assumptions C112_best.
(** By exactly how much another series is worse; what is left is orthogonal to the basis functions; the theorem of Pythagoras. *)
Theorem C112_pythagoras : forall s degree nodes weights flags, fits s (length nodes) degree -> grid_fits nodes -> flags_ok s degree flags -> exact_rules degree flags nodes weights ->
  forall input, length input = length (grid nodes) ->
  exists c, transform fnum_R s degree input nodes weights flags true = Ok c /\ @vec_for num_R s (length nodes) degree c /\
    (forall d, square_error nodes weights input (series s degree flags d) = square_error nodes weights input (series s degree flags c) + coef_distance s (length nodes) degree d c) /\
    square_error nodes weights input (fun _ => 0) = square_length s (length nodes) degree c + square_error nodes weights input (series s degree flags c) /\
    forall m, index_of s (length nodes) degree m ->
      rsum (map (fun '(y, p) => rprod (at_pos weights p) * (y - series s degree flags c (at_pos nodes p)) * phi flags m (at_pos nodes p)) (combine input (grid nodes))) = 0.
Proof. exact best_exact. Qed.
Print Assumptions C112_pythagoras.
(** With weights that are not negative: the coefficients are not longer than the function (Bessel), and changing the values changes them by no more than that. *)
Theorem C112_bessel : forall s degree nodes weights flags, fits s (length nodes) degree -> grid_fits nodes -> flags_ok s degree flags -> exact_rules degree flags nodes weights -> Forall (Forall (fun w => 0 <= w)) weights ->
  forall input, length input = length (grid nodes) ->
  exists c, transform fnum_R s degree input nodes weights flags true = Ok c /\ square_length s (length nodes) degree c <= square_error nodes weights input (fun _ => 0).
Proof. exact bessel. Qed.
Print Assumptions C112_bessel.
Theorem C112_stable : forall s degree nodes weights flags, fits s (length nodes) degree -> grid_fits nodes -> flags_ok s degree flags -> exact_rules degree flags nodes weights -> Forall (Forall (fun w => 0 <= w)) weights ->
  forall f g, length f = length (grid nodes) -> length g = length (grid nodes) ->
  exists c d, transform fnum_R s degree f nodes weights flags true = Ok c /\ transform fnum_R s degree g nodes weights flags true = Ok d /\
    coef_distance s (length nodes) degree c d <= square_distance nodes weights f g.
Proof. exact stable. Qed.
Print Assumptions C112_stable.
(** More basis functions never make the error larger: a larger degree, or another set that contains the first one. *)
Theorem C112_larger : forall s s' degree degree' nodes weights flags, fits s (length nodes) degree -> fits s' (length nodes) degree' -> grid_fits nodes -> flags_ok s degree flags -> flags_ok s' degree' flags ->
  exact_rules degree flags nodes weights -> exact_rules degree' flags nodes weights -> (forall m, index_of s (length nodes) degree m -> index_of s' (length nodes) degree' m) ->
  forall input, length input = length (grid nodes) ->
  exists c c', transform fnum_R s degree input nodes weights flags true = Ok c /\ transform fnum_R s' degree' input nodes weights flags true = Ok c' /\
    square_error nodes weights input (series s' degree' flags c') <= square_error nodes weights input (series s degree flags c).
Proof. exact larger. Qed.
Print Assumptions C112_larger.
Theorem C112_degree : forall s degree degree' nodes weights flags, (degree <= degree')%nat -> fits s (length nodes) degree -> fits s (length nodes) degree' -> grid_fits nodes -> flags_ok s degree flags -> flags_ok s degree' flags ->
  exact_rules degree' flags nodes weights ->
  forall input, length input = length (grid nodes) ->
  exists c c', transform fnum_R s degree input nodes weights flags true = Ok c /\ transform fnum_R s degree' input nodes weights flags true = Ok c' /\
    square_error nodes weights input (series s degree' flags c') <= square_error nodes weights input (series s degree flags c).
Proof.
  intros s degree degree' nodes weights flags H H1 H2 H3 H4 H5 H6. apply larger; auto.
  - destruct H6 as (A & B & C). split; [exact A|]. split; [exact B|]. intros k Hk. destruct (C k Hk) as [L E]. split; [exact L|]. intros i j Hi Hj. apply E; lia.
  - intros m [L M]. split; [exact L|]. apply (in_set_mono s m degree degree' H M).
Qed.
Print Assumptions C112_degree.
(** The two-point Gauss rule in two directions, four values: 39/4 = 155/16 + 1/16. *)
Example C112_example : let nodes := [[-1; 1]; [-1; 1]] in let weights := [[1/2; 1/2]; [1/2; 1/2]] in let flags := [0; 0]%nat in
  fits Triangle (length nodes) 1 /\ fits Cube (length nodes) 1 /\ grid_fits nodes /\ flags_ok Triangle 1 flags /\ flags_ok Cube 1 flags /\ exact_rules 1 flags nodes weights /\ Forall (Forall (fun w => 0 <= w)) weights /\
  length [1; 2; 3; 5] = length (grid nodes) /\ (forall m, index_of Triangle 2 1 m -> index_of Cube 2 1 m) /\ square_error nodes weights [1; 2; 3; 5] (fun _ => 0) = 39 / 4 /\
  square_distance nodes weights [1; 2; 3; 5] [1; 2; 3; 4] = 1 / 4.
Proof.
  pose proof C33_transform_inverts_eval_example as (H1 & H2 & H3 & H4 & _). cbn zeta. split; [exact H1|]. split; [split; [cbn; lia|split; [exact I|vm_compute; reflexivity]]|].
  split; [exact H2|]. split; [exact H3|]. split; [split; [repeat constructor|intros [H|H]; discriminate]|]. split; [exact H4|]. split; [repeat constructor; lra|]. split; [reflexivity|]. split.
  - intros [|a [|b [|x m]]] [L M]; try discriminate L. split; [reflexivity|]. cbn in M |- *. apply Forall_cons; [lia|apply Forall_cons; [lia|apply Forall_nil]].
  - unfold square_error, square_distance. cbn. split; lra.
Qed.
