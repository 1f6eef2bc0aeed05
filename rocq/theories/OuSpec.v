(** Vocabulary of C101: matrices of derivatives. *)
From Coq Require Import List Reals.
From Verif Require Import Base IndexModel Spec Num Fnum LinModel LinSpec CalcModel CalcSpec.
Import ListNotations.
Local Open Scope R_scope.

(** [B] is what varfd makes of the matrix [A] in direction [k], dense, or sparse and then expanded. *)
Definition varfd_gives (s : iset) (dim degree k flag : nat) (A B : list (list R)) : Prop :=
  (@mat_for num_R s dim degree A /\ varfd fnum_R (calc_mat fnum_R) s dim degree k A flag = Ok B) \/
  exists A' B', @sp_for num_R s dim degree A' /\ A = @dense num_R A' /\ varfd fnum_R (calc_spmat fnum_R) s dim degree k A' flag = Ok B' /\ B = @dense num_R B'.

(** The values on the grid of the function 1 and of the coordinate number [k]. *)
Definition ones (nodes : list (list R)) : list R := map (fun _ => 1) (grid nodes).
Definition coordinate (nodes : list (list R)) (k : nat) : list R := map (fun p => nth k (at_pos nodes p) 0) (grid nodes).

(** In direction [k] the rule also finds that the Hermite polynomial of degree [degree + 1] is orthogonal to those of smaller degree:
    with [exact_rules degree] it is then exact up to degree 2 degree + 1, like a Gauss rule of degree + 1 points. *)
Definition one_more (degree k : nat) (nodes weights : list (list R)) : Prop :=
  forall j, (j <= degree)%nat -> rsum (map (fun '(x, w) => w * (hermite (S degree) x * hermite j x)) (combine (nth k nodes []) (nth k weights []))) = 0.

(** 1 if the multi-indices are the same and 0 if not. *)
Definition same (r c : list nat) : R := if mi_eqb r c then 1 else 0.
(** The multi-index with one more, or one less, in direction [k]. *)
Definition raised (m : list nat) (k : nat) : list nat := with_entry m k (S (nth k m 0%nat)).
Definition lowered (m : list nat) (k : nat) : list nat := with_entry m k (nth k m 0 - 1)%nat.
