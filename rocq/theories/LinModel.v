(** Model of the linear-algebra layer: cpp/src/hermite/{lib,matrix,sparse,project,tensorize,inner}.cpp.

    Vectors are lists, [mat] is a list of rows (as std::vector<std::vector<double>>), [spmat]
    (boost::numeric::ublas::compressed_matrix, row major) is one column-sorted association list per
    row.  Sizes that the code stores in a [u_int] go through [u32].  Code under #ifdef DEBUG and
    asserts (NDEBUG) are not modelled. *)
From Coq Require Import String List Bool Arith ZArith.
From Verif Require Import Base IndexModel Num.
Import ListNotations.

(** [v.size()] stored in a [u_int]. *)
Definition usize {A} (v : list A) : Z := u32 (Z.of_nat (length v)).

(** * Loops over an iterator object *)

(** [for (i = 0; !it.isFull(); i++, it.increment()) s = body(i, it.get(), s)].  The loop is unbounded in
    the code; the fuel (list size plus one) is proved sufficient. *)
Fixpoint it_for_loop {S} (body : nat -> mi -> S -> res S) (fuel : nat) (it : iterator) (i : nat) (s : S) : res S :=
  match fuel with
  | 0 => NoFuel
  | Datatypes.S fuel' =>
      if it_full it then Ok s
      else
        s' <- body i (it_multi_index it) s ;;
        it' <- it_increment it ;;
        it_for_loop body fuel' it' (Datatypes.S i) s'
  end.
Definition it_for {S} (body : nat -> mi -> S -> res S) (it : iterator) (s : S) : res S :=
  it_for_loop body (Datatypes.S (length (it_list it))) it 0 s.

(** * lib.cpp *)

(** isAligned(m, dirs), lib.cpp:42-61. *)
Definition is_aligned (m dirs : list nat) : res bool :=
  r <- for_loop (fun j (_ : unit) =>
         in_dirs <- for_each (fun k (b : bool) =>
             dk <- vget dirs k ;; Ok (if j =? dk then true else b)) (length dirs) 0 false ;;
         x <- vget m j ;;
         if negb (x =? 0) && negb in_dirs then Ok (Return false) else Ok (Next tt))
       (length m) 0 tt ;;
  match r with
  | inl b => Ok b
  | inr _ => Ok true
  end.

(** extract, lib.hpp:37-46. *)
Definition extract {A} (input : list A) (indices : list nat) : res (list A) :=
  mapM (fun i => vget input i) indices.

Section Arithmetic.
Variable N : num.

Notation vec := (list N) (only parsing).
Notation mat := (list (list N)) (only parsing).

(** * Matrices *)

Record spmat := { sp_size1 : nat; sp_size2 : nat; sp_rows : list (list (nat * N)) }.

(** matrix::construct<mat> and <spmat>, matrix.cpp:30-38. *)
Definition mat_construct (n m : nat) : mat := repeat (repeat n0 m) n.
Definition sp_construct (n m : nat) : spmat :=
  {| sp_size1 := n; sp_size2 := m; sp_rows := repeat [] n |}.

(** matrix::get / set for [mat], matrix.hpp: [input[i][j]]. *)
Definition mat_get (A : mat) (i j : nat) : res N := row <- vget A i ;; vget row j.
Definition mat_set (A : mat) (i j : nat) (x : N) : res mat :=
  row <- vget A i ;; row' <- vset row j x ;; vset A i row'.

(** matrix::size1 / size2, matrix.hpp ([input[0].size()] is undefined for an empty [mat]). *)
Definition mat_size1 (A : mat) : nat := length A.
Definition mat_size2 (A : mat) : res nat := row <- vget A 0 ;; Ok (length row).

(** Rows of the compressed matrix: sorted by column. *)
Fixpoint row_get (row : list (nat * N)) (j : nat) : N :=
  match row with
  | [] => n0
  | (k, x) :: row' => if k =? j then x else row_get row' j
  end.
Fixpoint row_set (row : list (nat * N)) (j : nat) (x : N) : list (nat * N) :=
  match row with
  | [] => [(j, x)]
  | (k, y) :: row' =>
      if j <? k then (j, x) :: row
      else if k =? j then (j, x) :: row'
      else (k, y) :: row_set row' j x
  end.

(** matrix::get / set for [spmat]: [input(i, j)] finds the element (0 if it is not stored), [input(i, j) = val]
    inserts it if needed.  Out of range is undefined (ublas checks are off in release builds). *)
Definition sp_get (A : spmat) (i j : nat) : res N :=
  if (i <? sp_size1 A) && (j <? sp_size2 A) then
    row <- vget (sp_rows A) i ;; Ok (row_get row j)
  else Ub.
Definition sp_set (A : spmat) (i j : nat) (x : N) : res spmat :=
  if (i <? sp_size1 A) && (j <? sp_size2 A) then
    row <- vget (sp_rows A) i ;;
    rows <- vset (sp_rows A) i (row_set row j x) ;;
    Ok {| sp_size1 := sp_size1 A; sp_size2 := sp_size2 A; sp_rows := rows |}
  else Ub.

(** The nested iterators begin1() / begin(): the stored elements, row by row. *)
Fixpoint rows_entries (i : nat) (rows : list (list (nat * N))) : list (nat * nat * N) :=
  match rows with
  | [] => []
  | row :: rows' => map (fun '(j, x) => (i, j, x)) row ++ rows_entries (S i) rows'
  end.
Definition sp_entries (A : spmat) : list (nat * nat * N) := rows_entries 0 (sp_rows A).

(** The operations the templates are written with ([template <typename M>]). *)
Record matops := {
  mtype : Type;
  m_size1 : mtype -> nat;
  m_construct : nat -> nat -> mtype;
  m_get : mtype -> nat -> nat -> res N;
  m_set : mtype -> nat -> nat -> N -> res mtype }.
Definition mat_ops : matops :=
  {| mtype := mat; m_size1 := mat_size1; m_construct := mat_construct; m_get := mat_get; m_set := mat_set |}.
Definition spmat_ops : matops :=
  {| mtype := spmat; m_size1 := sp_size1; m_construct := sp_construct; m_get := sp_get; m_set := sp_set |}.

(** matrix::eye, matrix.hpp:97-105. *)
Definition m_eye (O : matops) (n : nat) : res (mtype O) :=
  for_each (fun i A => m_set O A i i n1) n 0 (m_construct O n n).

(** * sparse.cpp *)

(** full, sparse.cpp:88-100. *)
Definition full (A : spmat) : res mat :=
  mapM (fun i => mapM (fun j => sp_get A i j) (seq 0 (sp_size2 A))) (seq 0 (sp_size1 A)).

(** to_spmat(mat), sparse.cpp:45-59 ([input[0].size()] is read before the loop test: undefined when empty). *)
Definition to_spmat (A : mat) : res spmat :=
  row0 <- vget A 0 ;;
  for_each (fun i S =>
    for_each (fun j S =>
      x <- mat_get A i j ;;
      if negb (neqb x n0) then sp_set S i j x else Ok S) (length row0) 0 S)
    (length A) 0 (sp_construct (length A) (length row0)).

(** to_spmat(data, indices, indptr, size1, size2), sparse.cpp:74-86. *)
Definition csr_to_spmat (data : vec) (indices indptr : list nat) (size1 size2 : nat) : res spmat :=
  for_each (fun i S =>
    b <- vget indptr i ;;
    e <- vget indptr (i + 1) ;;
    for_each (fun j S =>
      c <- vget indices j ;;
      x <- vget data j ;;
      sp_set S i c x) (e - b) b S)
    size1 0 (sp_construct size1 size2).

(** row_col_val, sparse.cpp:28-43.  Simplification: the row and column numbers are kept as numbers instead of
    being converted to [double] (exact below 2^53), and the three rows are one list of triples. *)
Definition row_col_val (A : spmat) : list (nat * nat * N) := sp_entries A.

(** matrix::convert, matrix.cpp:62-98. *)
Definition convert_mat_spmat : mat -> res spmat := to_spmat.
Definition convert_spmat_mat : spmat -> res mat := full.

(** * project.cpp *)

(** project (vectors), project.cpp:35-58. *)
Definition project_vec (s : iset) (input : vec) (dim : nat) (dirs : list nat) : res vec :=
  let dim_sub := length dirs in
  degree <- s_get_degree s dim (usize input) ;;
  polys_sub <- s_size s dim_sub degree ;;
  m <- make_iterator s dim degree ;;
  m_sub <- make_iterator s dim_sub degree ;;
  it_for (fun i mm results =>
      aligned <- is_aligned mm dirs ;;
      if aligned : bool then
        sub <- extract mm dirs ;;
        ind <- it_index m_sub sub ;;
        x <- vget input i ;;
        vset results ind x
      else Ok results)
    (it_reset m) (repeat n0 (Z.to_nat polys_sub)).

(** project (matrices), project.cpp:78-109, for any matrix type. *)
Definition project_mat (O : matops) (s : iset) (input : mtype O) (dim : nat) (dirs : list nat) : res (mtype O) :=
  let dim_sub := length dirs in
  degree <- s_get_degree s dim (u32 (Z.of_nat (m_size1 O input))) ;;
  polys_sub <- s_size s dim_sub degree ;;
  m1 <- make_iterator s dim degree ;;
  m2 <- make_iterator s dim degree ;;
  m_sub <- make_iterator s dim_sub degree ;;
  it_for (fun i mm1 results =>
      aligned <- is_aligned mm1 dirs ;;
      if aligned : bool then
        sub1 <- extract mm1 dirs ;;
        ind1 <- it_index m_sub sub1 ;;
        it_for (fun j mm2 results =>
            aligned <- is_aligned mm2 dirs ;;
            if aligned : bool then
              sub2 <- extract mm2 dirs ;;
              ind2 <- it_index m_sub sub2 ;;
              x <- m_get O input i j ;;
              m_set O results ind1 ind2 x
            else Ok results)
          (it_reset m2) results
      else Ok results)
    (it_reset m1) (m_construct O (Z.to_nat polys_sub) (Z.to_nat polys_sub)).

(** * tensorize.cpp *)

(** tensorize (vectors), tensorize.cpp:86-122. *)
Definition tensorize_vec (s : iset) (inputs : list vec) (dirs : list (list nat)) : res vec :=
  let dims := map (@length nat) dirs in
  let dim := list_sum dims in
  dims0 <- vget dims 0 ;;
  input0 <- vget inputs 0 ;;
  degree <- s_get_degree s dims0 (usize input0) ;;
  it_mul <- mapM (fun d => make_iterator s d degree) dims ;;
  n_polys <- s_size s dim degree ;;
  m <- make_iterator s dim degree ;;
  it_for (fun i mm results =>
      x <- for_each (fun j (acc : N) =>
          dj <- vget dirs j ;;
          sub <- extract mm dj ;;
          it <- vget it_mul j ;;
          ind <- it_index it sub ;;
          input <- vget inputs j ;;
          y <- vget input ind ;;
          Ok (nmul acc y)) (length dirs) 0 n1 ;;
      vset results i x)
    m (repeat n0 (Z.to_nat n_polys)).

(** tensorize_vecs_axes, tensorize.cpp:136-143. *)
Definition tensorize_vecs_axes (s : iset) (inputs : list vec) : res vec :=
  tensorize_vec s inputs (map (fun i => [i]) (seq 0 (length inputs))).

(** tensorize_vec_id, tensorize.cpp:145-152 ([input] empty wraps [size() - 1]; [cst[0]] is then undefined). *)
Definition tensorize_vec_id (s : iset) (input : vec) (dim dir : nat) : res vec :=
  match length input with
  | 0 => Ub
  | S degree =>
      cst <- vset (repeat n0 (degree + 1)) 0 n1 ;;
      vecs <- vset (repeat cst dim) dir input ;;
      tensorize_vecs_axes s vecs
  end.

(** tensorize_dirs, tensorize.cpp:157-195. *)
Definition tensorize_dirs (dA dB : list nat) : res (list nat * list nat * list nat) :=
  let sA := length dA in
  let sB := length dB in
  let dim := sA + sB in
  '(iA, iB, result, a_ind, b_ind) <-
    for_each (fun i '(iA, iB, result, a_ind, b_ind) =>
      takeA <- (if iB =? sB then Ok true
                else if iA <? sA then
                  a <- vget dA iA ;; b <- vget dB iB ;; Ok (a <? b)
                else Ok false) ;;
      if takeA : bool then
        a <- vget dA iA ;;
        result <- vset result i a ;;
        a_ind <- vset a_ind iA i ;;
        Ok (iA + 1, iB, result, a_ind, b_ind)
      else
        b <- vget dB iB ;;
        result <- vset result i b ;;
        b_ind <- vset b_ind iB i ;;
        Ok (iA, iB + 1, result, a_ind, b_ind))
      dim 0 (0, 0, repeat 0 dim, repeat 0 sA, repeat 0 sB) ;;
  Ok (result, a_ind, b_ind).

(** The copy loops [multi_index[ind[i]] = m[i]], tensorize.cpp:237-241 and 254-258. *)
Definition scatter (ind m target : list nat) (n : nat) : res (list nat) :=
  for_each (fun i t => k <- vget ind i ;; x <- vget m i ;; vset t k x) n 0 target.

(** tensorize (two sparse matrices), tensorize.cpp:197-283. *)
Definition tensorize_sp (s : iset) (A B : spmat) (dA dB : list nat) : res spmat :=
  let sA := length dA in
  let sB := length dB in
  let dim := sA + sB in
  '(d, a_ind, b_ind) <- tensorize_dirs dA dB ;;
  degree <- s_get_degree s sA (u32 (Z.of_nat (sp_size1 A))) ;;
  n_polys <- s_size s dim degree ;;
  it_product <- make_iterator s dim degree ;;
  lA <- s_list s sA degree ;;
  lB <- s_list s sB degree ;;
  for_in (fun '(rA, cA, xA) product =>
      m_row_A <- vget lA rA ;;
      m_col_A <- vget lA cA ;;
      row_base <- scatter a_ind m_row_A (repeat 0 dim) sA ;;
      col_base <- scatter a_ind m_col_A (repeat 0 dim) sA ;;
      for_in (fun '(rB, cB, xB) product =>
          m_row_B <- vget lB rB ;;
          m_col_B <- vget lB cB ;;
          row <- scatter b_ind m_row_B row_base sB ;;
          col <- scatter b_ind m_col_B col_base sB ;;
          if negb (it_has it_product row) || negb (it_has it_product col) then Ok product
          else
            ind_row <- it_index it_product row ;;
            ind_col <- it_index it_product col ;;
            sp_set product ind_row ind_col (nmul xA xB))
        (sp_entries B) product)
    (sp_entries A) (sp_construct (Z.to_nat n_polys) (Z.to_nat n_polys)).

(** _tensorize_mats_dirs on sparse inputs, tensorize.cpp:285-335, before the final conversion. *)
Definition tensorize_sps (s : iset) (inputs : list spmat) (dirs : list (list nat)) : res spmat :=
  result <- vget inputs 0 ;;
  d <- vget dirs 0 ;;
  '(result, d) <- for_each (fun i '(result, d) =>
      di <- vget dirs (i + 1) ;;
      '(d', _, _) <- tensorize_dirs d di ;;
      input <- vget inputs (i + 1) ;;
      result <- tensorize_sp s result input d di ;;
      Ok (result, d')) (length inputs - 1) 0 (result, d) ;;
  Ok result.

(** tensorize_mats_dirs<T,S>, tensorize.cpp:347-358: conversions around the sparse version. *)
Definition tensorize_mats (s : iset) (inputs : list mat) (dirs : list (list nat)) : res mat :=
  sp_inputs <- mapM to_spmat inputs ;;
  result <- tensorize_sps s sp_inputs dirs ;;
  full result.

(** tensorize_mats_axes, tensorize.cpp:337-345. *)
Definition tensorize_sps_axes (s : iset) (inputs : list spmat) : res spmat :=
  tensorize_sps s inputs (map (fun i => [i]) (seq 0 (length inputs))).

(** tensorize_mat_id (sparse), tensorize.cpp:373-381. *)
Definition tensorize_sp_id (s : iset) (input : spmat) (dim dir : nat) : res spmat :=
  match sp_size1 input with
  | 0 => Ub
  | S degree =>
      eye <- m_eye spmat_ops (degree + 1) ;;
      mats <- vset (repeat eye dim) dir input ;;
      tensorize_sps_axes s mats
  end.

(** * inner.cpp *)

(** The merge loop of inner, inner.cpp:65-88.  State: (i, j, in_dirs1, free_ind, dirs_result, dirs_inner, inner_ind1, inner_ind2).
    Each turn increases i + j, so dim1 + dim2 turns suffice (fuel). *)
Record merge_state := {
  ms_in1 : list bool; ms_free : list nat; ms_result : list nat;
  ms_inner : list nat; ms_ind1 : list nat; ms_ind2 : list nat }.
Fixpoint inner_merge (dirs1 dirs2 : list nat) (fuel i j : nat) (st : merge_state) : res merge_state :=
  let dim1 := length dirs1 in
  let dim2 := length dirs2 in
  if (i <? dim1) || (j <? dim2) then
    match fuel with
    | 0 => NoFuel
    | S fuel' =>
        take2 <- (if i =? dim1 then Ok true
                  else if j <? dim2 then
                    a <- vget dirs1 i ;; b <- vget dirs2 j ;; Ok (b <? a)
                  else Ok false) ;;
        if take2 : bool then
          b <- vget dirs2 j ;;
          inner_merge dirs1 dirs2 fuel' i (j + 1)
            {| ms_in1 := ms_in1 st ++ [false]; ms_free := ms_free st ++ [j]; ms_result := ms_result st ++ [b];
               ms_inner := ms_inner st; ms_ind1 := ms_ind1 st; ms_ind2 := ms_ind2 st |}
        else
          take1 <- (if j =? dim2 then Ok true
                    else if i <? dim1 then
                      a <- vget dirs1 i ;; b <- vget dirs2 j ;; Ok (a <? b)
                    else Ok false) ;;
          if take1 : bool then
            a <- vget dirs1 i ;;
            inner_merge dirs1 dirs2 fuel' (i + 1) j
              {| ms_in1 := ms_in1 st ++ [true]; ms_free := ms_free st ++ [i]; ms_result := ms_result st ++ [a];
                 ms_inner := ms_inner st; ms_ind1 := ms_ind1 st; ms_ind2 := ms_ind2 st |}
          else
            a <- vget dirs1 i ;;
            inner_merge dirs1 dirs2 fuel' (i + 1) (j + 1)
              {| ms_in1 := ms_in1 st; ms_free := ms_free st; ms_result := ms_result st;
                 ms_inner := ms_inner st ++ [a]; ms_ind1 := ms_ind1 st ++ [i]; ms_ind2 := ms_ind2 st ++ [j] |}
    end
  else Ok st.

(** The copy loops of inner: lines 116-122 / 176-182 and 144-148 / 194-198. *)
Definition inner_put_result (st : merge_state) (m_result m1 m2 : list nat) : res (list nat * list nat) :=
  for_each (fun k '(m1, m2) =>
      b <- vget (ms_in1 st) k ;;
      f <- vget (ms_free st) k ;;
      x <- vget m_result k ;;
      if b : bool then m1 <- vset m1 f x ;; Ok (m1, m2)
      else m2 <- vset m2 f x ;; Ok (m1, m2)) (length (ms_result st)) 0 (m1, m2).
Definition inner_put_inner (st : merge_state) (m_inner m1 m2 : list nat) : res (list nat * list nat) :=
  for_each (fun k '(m1, m2) =>
      f1 <- vget (ms_ind1 st) k ;;
      f2 <- vget (ms_ind2 st) k ;;
      x <- vget m_inner k ;;
      m1 <- vset m1 f1 x ;;
      m2 <- vset m2 f2 x ;;
      Ok (m1, m2)) (length (ms_inner st)) 0 (m1, m2).

(** inner, inner.cpp:36-217. *)
Definition inner (s : iset) (s1 s2 : vec) (dirs1 dirs2 : list nat) : res vec :=
  let dim1 := length dirs1 in
  let dim2 := length dirs2 in
  st <- inner_merge dirs1 dirs2 (dim1 + dim2) 0 0
          {| ms_in1 := []; ms_free := []; ms_result := []; ms_inner := []; ms_ind1 := []; ms_ind2 := [] |} ;;
  let dim_result := length (ms_result st) in
  let dim_inner := length (ms_inner st) in
  degree <- s_get_degree s dim1 (usize s1) ;;
  it_m1 <- make_iterator s dim1 degree ;;
  it_m2 <- make_iterator s dim2 degree ;;
  if dim_inner =? 0 then
    m_result <- make_iterator s dim_result degree ;;
    n <- s_size s dim_result degree ;;
    it_for (fun i mr result =>
        '(m1, m2) <- inner_put_result st mr (repeat 0 dim1) (repeat 0 dim2) ;;
        ind1 <- it_index it_m1 m1 ;;
        ind2 <- it_index it_m2 m2 ;;
        x1 <- vget s1 ind1 ;;
        x2 <- vget s2 ind2 ;;
        vset result i (nmul x1 x2)) m_result (repeat n0 (Z.to_nat n))
  else if dim_result =? 0 then
    m_inner <- make_iterator s dim_inner degree ;;
    '(result, _, _) <- it_for (fun j mi '(result, m1, m2) =>
        '(m1, m2) <- inner_put_inner st mi m1 m2 ;;
        ind1 <- it_index it_m1 m1 ;;
        ind2 <- it_index it_m2 m2 ;;
        x1 <- vget s1 ind1 ;;
        x2 <- vget s2 ind2 ;;
        r0 <- vget result 0 ;;
        result <- vset result 0 (nadd r0 (nmul x1 x2)) ;;
        Ok (result, m1, m2)) (it_reset m_inner) ([n0], repeat 0 dim1, repeat 0 dim2) ;;
    Ok result
  else
    n <- s_size s dim_result degree ;;
    m_result <- make_iterator s dim_result degree ;;
    m_inner <- make_iterator s dim_inner degree ;;
    it_for (fun i mr result =>
        '(m1, m2) <- inner_put_result st mr (repeat 0 dim1) (repeat 0 dim2) ;;
        '(result, _, _) <- it_for (fun j mi '(result, m1, m2) =>
            '(m1, m2) <- inner_put_inner st mi m1 m2 ;;
            if negb (it_has it_m1 m1) || negb (it_has it_m2 m2) then Ok (result, m1, m2)
            else
              ind1 <- it_index it_m1 m1 ;;
              ind2 <- it_index it_m2 m2 ;;
              x1 <- vget s1 ind1 ;;
              x2 <- vget s2 ind2 ;;
              ri <- vget result i ;;
              result <- vset result i (nadd ri (nmul x1 x2)) ;;
              Ok (result, m1, m2)) (it_reset m_inner) (result, m1, m2) ;;
        Ok result) m_result (repeat n0 (Z.to_nat n)).

End Arithmetic.
