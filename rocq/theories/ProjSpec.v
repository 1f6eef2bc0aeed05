(** Averages over some of the directions. *)
From Coq Require Import List Arith Reals.
From Verif Require Import Base Num CalcSpec.
Import ListNotations.
Local Open Scope R_scope.

(** A one-dimensional rule that sends the first basis function of the direction to 1 and the others of degree at most [degree] to 0:
    the mean with respect to the Gaussian for Hermite functions, and the integral over a period divided by sqrt(2 pi) for Fourier. *)
Definition averages (degree flag : nat) (xs ws : list R) : Prop :=
  length xs = length ws /\
  forall n, (n <= degree)%nat -> rsum (map (fun '(x, w) => w * basis flag n x) (combine xs ws)) = if (n =? 0)%nat then 1 else 0.

(** Rules for the directions [dirs] that evaluate at [x] in the directions [kept] and average over the others. *)
Definition average_but (dirs kept : list nat) (x : list R) (degree : nat) (flags : list nat) (nodes weights : list (list R)) : Prop :=
  length nodes = length dirs /\ length weights = length dirs /\
  forall k d, nth_error dirs k = Some d ->
    (forall j, nth_error kept j = Some d -> nth k nodes [] = [nth j x 0] /\ nth k weights [] = [1]) /\
    (~ In d kept -> averages degree (nth k flags 0%nat) (nth k nodes []) (nth k weights [])).
