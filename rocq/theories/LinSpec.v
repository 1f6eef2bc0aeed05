(** Specification vocabulary for coefficient vectors, matrices and directions. *)
From Coq Require Import List Bool Arith ZArith Sorted.
From Verif Require Import Base IndexModel Spec Num LinModel.
Import ListNotations.

(** Equality test on multi-indices. *)
Fixpoint mi_eqb (m m' : list nat) : bool :=
  match m, m' with
  | [], [] => true
  | x :: t, y :: t' => (x =? y) && mi_eqb t t'
  | _, _ => false
  end.

(** [value d l v m]: the element of [v] standing at the place of [m] in the list of multi-indices [l], and [d] if
    [m] is not listed.  For a coefficient vector (d = 0) this is "the coefficient of m". *)
Fixpoint value {A} (d : A) (l : list (list nat)) (v : list A) (m : list nat) : A :=
  match l, v with
  | x :: l', c :: v' => if mi_eqb x m then c else value d l' v' m
  | _, _ => d
  end.

(** Entry (r, c) of a matrix whose rows and columns are numbered by [l]. *)
Definition mvalue {N : num} (l : list (list nat)) (A : list (list N)) (r c : list nat) : N :=
  value n0 l (value [] l A r) c.

(** [lookup d m x]: the entry in direction [x] of the multi-index [m] over the directions [d]; 0 if [x] is not in [d]. *)
Fixpoint lookup (d : list nat) (m : list nat) (x : nat) : nat :=
  match d, m with
  | y :: d', e :: m' => if y =? x then e else lookup d' m' x
  | _, _ => 0
  end.

(** [reindex d d' m]: the multi-index over the directions [d'] that has the same entries as [m] (over the directions
    [d]) in the common directions, and 0 in the others.  It is an embedding when d is part of d', a restriction when
    d' is part of d. *)
Definition reindex (d d' : list nat) (m : list nat) : list nat := map (lookup d m) d'.

(** Strictly increasing lists of directions. *)
Definition increasing (d : list nat) : Prop := StronglySorted lt d.

(** The dimension and degree are in the domain of degree recovery (C11): true for dim <= 4, degree <= 250. *)
Definition usable (s : iset) (dim degree : nat) : Prop :=
  1 <= dim /\ degree <= 250 /\ set_ok s dim 250 /\
  (forall l, s_list s dim 250 = Ok l -> (Z.of_nat (length l) < 2 ^ 32)%Z).

(** Well-formed matrices: rectangular; for sparse ones, rows sorted by column and within the bounds. *)
Definition mat_wf {A : Type} (n m : nat) (M : list (list A)) : Prop :=
  length M = n /\ Forall (fun row => length row = m) M.
Definition sp_wf {N : num} (A : spmat N) : Prop :=
  length (sp_rows N A) = sp_size1 N A /\
  Forall (fun row => increasing (map fst row) /\ Forall (fun j => j < sp_size2 N A) (map fst row)) (sp_rows N A).

(** The dense contents of a sparse matrix: elements that are not stored are 0. *)
Fixpoint stored {N : num} (row : list (nat * N)) (j : nat) : N :=
  match row with
  | [] => n0
  | (k, x) :: row' => if k =? j then x else stored row' j
  end.
Definition dense {N : num} (A : spmat N) : list (list N) :=
  map (fun row => map (stored row) (seq 0 (sp_size2 N A))) (sp_rows N A).

(** Sums and products of lists of numbers, from left to right. *)
Definition nsum {N : num} (l : list N) : N := fold_left nadd l n0.
Definition nprod {N : num} (l : list N) : N := fold_left nmul l n1.

(** Multi-indices of an index set, in dimension [dim]. *)
Definition index_of (s : iset) (dim degree : nat) (m : list nat) : Prop := length m = dim /\ in_set s degree m.

(** All the multi-indices of an index set, in the order the code uses (C01-C05); in dimension 0 there is only the
    empty one. *)
Definition points (s : iset) (dim degree : nat) : list (list nat) :=
  match dim with
  | 0 => [[]]
  | S _ => match s_list s dim degree with Ok l => l | _ => [] end
  end.

(** Vectors and matrices of the right size for an index set; their coefficients by multi-index. *)
Definition vec_for {N : num} (s : iset) (dim degree : nat) (v : list N) : Prop := length v = length (points s dim degree).
Definition mat_for {N : num} (s : iset) (dim degree : nat) (A : list (list N)) : Prop :=
  mat_wf (length (points s dim degree)) (length (points s dim degree)) A.
Definition sp_for {N : num} (s : iset) (dim degree : nat) (A : spmat N) : Prop :=
  sp_wf A /\ sp_size1 N A = length (points s dim degree) /\ sp_size2 N A = length (points s dim degree).
Definition coef {N : num} (s : iset) (dim degree : nat) (v : list N) (m : list nat) : N := value n0 (points s dim degree) v m.
Definition entry {N : num} (s : iset) (dim degree : nat) (A : list (list N)) (r c : list nat) : N := mvalue (points s dim degree) A r c.

(** Lists of directions accepted by tensorize: each nonempty, increasing and below the dimension. *)
Definition dirs_ok (dim : nat) (dirs : list (list nat)) : Prop :=
  Forall (fun dj => increasing dj /\ dj <> [] /\ Forall (fun x => x < dim) dj) dirs.

(** The product over the arguments, in argument order, of the coefficients at the restrictions of [m]; m is over the
    directions 0 .. dim-1. *)
Definition vproduct {N : num} (s : iset) (dim degree : nat) (dirs : list (list nat)) (inputs : list (list N)) (m : list nat) : N :=
  nprod (map (fun '(dj, v) => coef s (length dj) degree v (reindex (seq 0 dim) dj m)) (combine dirs inputs)).

(** The same for matrices; r and c are over the directions [d]. *)
Definition mproduct {N : num} (s : iset) (degree : nat) (d : list nat) (dirs : list (list nat)) (inputs : list (list (list N))) (r c : list nat) : N :=
  nprod (map (fun '(dj, A) => entry s (length dj) degree A (reindex d dj r) (reindex d dj c)) (combine dirs inputs)).

(** [dres] is the symmetric difference of d1 and d2, [dinn] their intersection, both increasing. *)
Definition inner_dirs (d1 d2 dres dinn : list nat) : Prop :=
  increasing dres /\ increasing dinn /\
  (forall x, In x dres <-> (In x d1 /\ ~ In x d2) \/ (In x d2 /\ ~ In x d1)) /\ (forall x, In x dinn <-> In x d1 /\ In x d2).

(** The sum, over the multi-indices q on the shared directions, of the products of the coefficients of v1 and v2 at the
    multi-indices made of r (on the directions dres) and q (on the directions dinn). *)
Definition contraction {N : num} (s : iset) (degree : nat) (d1 d2 dres dinn : list nat) (v1 v2 : list N) (r : list nat) : N :=
  nsum (map (fun q => nmul (coef s (length d1) degree v1 (reindex (dres ++ dinn) d1 (r ++ q)))
                           (coef s (length d2) degree v2 (reindex (dres ++ dinn) d2 (r ++ q)))) (points s (length dinn) degree)).

(** a v + b w *)
Definition lincomb {N : num} (a b : N) (v w : list N) : list N := map (fun '(x, y) => nadd (nmul a x) (nmul b y)) (combine v w).

(** What a CSR triple denotes at row i, column c (duplicates add up, as in SciPy); its well-formedness; no duplicates. *)
Definition csr_entry {N : num} (data : list N) (indices indptr : list nat) (i c : nat) : N :=
  nsum (map (fun j => nth j data n0) (filter (fun j => nth j indices 0 =? c) (seq (nth i indptr 0) (nth (S i) indptr 0 - nth i indptr 0)))).
Definition csr_wf {N : num} (data : list N) (indices indptr : list nat) (n m : nat) : Prop :=
  n < length indptr /\ length indices = length data /\
  (forall i, i < n -> nth (S i) indptr 0 <= length data) /\ Forall (fun c => c < m) indices.
Definition csr_distinct (indices indptr : list nat) (n : nat) : Prop :=
  forall i j j', i < n -> nth i indptr 0 <= j < nth (S i) indptr 0 -> nth i indptr 0 <= j' < nth (S i) indptr 0 ->
    nth j indices 0 = nth j' indices 0 -> j = j'.

(** What a list of (row, column, value) triples denotes (duplicates add up). *)
Definition triples_entry {N : num} (t : list (nat * nat * N)) (i j : nat) : N :=
  nsum (map snd (filter (fun z => (fst (fst z) =? i) && (snd (fst z) =? j)) t)).
