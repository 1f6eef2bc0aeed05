(** A sparse matrix of real numbers, given by its sizes and its stored entries row by row, for exact and for rounded arithmetic. *)
From Coq Require Import List.
From Verif Require Import Num LinModel.

Definition with_numbers (N : num) (t : nat * nat * list (list (nat * N))) : spmat N := Build_spmat N (fst (fst t)) (snd (fst t)) (snd t).
