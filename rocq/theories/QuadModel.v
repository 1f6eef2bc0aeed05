(** Model of the quadratures of hermipy/quad.py. *)
From Coq Require Import List Arith ZArith.
From Verif Require Import Base Num Fnum CalcModel.
Import ListNotations.

Section Quad.
Variable F : fnum.

(** Quad.fourier, one direction, quad.py:141-142: [-pi + 2 pi arange(n) / n] and [2 pi / n * ones(n)]. *)
Definition fourier_nodes (n : nat) : list F :=
  map (fun j => nadd (nopp fpi) (fdiv (nmul (nmul (fofZ 2) fpi) (ofnat F j)) (ofnat F n))) (seq 0 n).
Definition fourier_weights (n : nat) : list F :=
  map (fun _ => nmul (fdiv (nmul (fofZ 2) fpi) (ofnat F n)) n1) (seq 0 n).

End Quad.
