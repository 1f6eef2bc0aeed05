(** Complex numbers, eigenvectors and residuals. *)
From Coq Require Import List Reals.
From Verif Require Import Base Num SolveSpec.
Import ListNotations.
Local Open Scope R_scope.

(** Complex numbers as pairs of a real and an imaginary part. *)
Definition num_C : num :=
  {| carrier := R * R; n0 := (0, 0); n1 := (1, 0); nadd := fun x y => (fst x + fst y, snd x + snd y);
     nmul := fun x y => (fst x * fst y - snd x * snd y, fst x * snd y + snd x * fst y); nopp := fun x => (- fst x, - snd x);
     neqb := fun x y => if Req_EM_T (fst x) (fst y) then if Req_EM_T (snd x) (snd y) then true else false else false |}.

(** [x] is an eigenvector of the square matrix [A] for the eigenvalue [lam]. *)
Definition eigenpair {N : num} (A : list (list N)) (lam : N) (x : list N) : Prop := length x = length A /\ matvec A x = map (nmul lam) x.
Definition real_matrix (A : list (list num_C)) : Prop := forall row x, In row A -> In x row -> snd x = 0.
Definition real_vector (v : list num_C) : Prop := forall x, In x v -> snd x = 0.
(** The Euclidean norm. *)
Definition norm2 (v : list R) : R := sqrt (fold_right Rplus 0 (map (fun x => x * x) v)).
(** The residual [A x - lam x] is at most [eps] in each component. *)
Definition residual (A : list (list num_C)) (lam : num_C) (x : list num_C) (eps : R) : Prop :=
  forall k y z, nth_error (matvec A x) k = Some y -> nth_error x k = Some z -> let r := @nadd num_C y (@nopp num_C (@nmul num_C lam z)) in sqrt (fst r * fst r + snd r * snd r) <= eps.

(** If SciPy's gmres reports convergence (0) its vector is a solution. *)
Definition converged_solves {N : num} (gmres : list (list N) -> list N -> res (list N * nat)) : Prop := forall A b x, gmres A b = Ok (x, 0%nat) -> length x = length A /\ matvec A x = b.
