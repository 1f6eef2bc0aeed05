(** Vocabulary of C102. *)
From Coq Require Import String List Arith ZArith Reals.
From Verif Require Import Base IndexModel Spec Num Fnum LinModel LinSpec CalcModel CalcSpec NdModel NdSpec CoreModel CoreSpec Core2Model.
Import ListNotations.
Local Open Scope nat_scope.

(** The rows of a matrix: of an array what its shape and strides say, of a csr_matrix what is stored, what is stored twice added up. *)
Definition shown (w : pymat fnum_R) : list (list R) :=
  match w with
  | WArr a => match nd_shape a, nd_strides a with [n; m], [p; q] => table n m (nd_entry 0%R a (p / 8) (q / 8)) | _, _ => [] end
  | WCsr c => @contents num_R (PCsr c)
  | WOther => []
  end.
(** A matrix on the index set: a C-contiguous array of the right shape (anywhere in its memory), or a valid csr_matrix of this shape where nothing is stored twice. *)
Definition pymat_for (s : iset) (dim degree : nat) (w : pymat fnum_R) : Prop :=
  let n := length (points s dim degree) in
  match w with
  | WArr a => nd_array a n n (Z.of_nat n) 1
  | WCsr c => @matrix_for num_R s dim degree (PCsr c) /\ @no_duplicates num_R (PCsr c)
  | WOther => False
  end.
Definition sparse_kind (w : pymat fnum_R) : bool := match w with WCsr _ => true | _ => false end.
(** An array with so many rows and columns has fewer than 2^31 bytes. *)
Definition small (s : iset) (dim degree : nat) : Prop := (8 * (Z.of_nat (length (points s dim degree)) * Z.of_nat (length (points s dim degree))) < 2 ^ 31)%Z.
(** The nodes or weights as Python has them: a list of one-dimensional arrays. *)
Definition arrays (l : list (list R)) : list (parr fnum_R) := map (fun v => @PVec num_R v) l.
(** Where do_fourier is None the directions are Hermite ones. *)
Definition flags_or (do_fourier : option (list nat)) (nodes : list (list R)) : list nat := match do_fourier with Some l => l | None => repeat 0 (length nodes) end.
