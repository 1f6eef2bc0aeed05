(** Model of the numerical layer: cpp/src/hermite/{hermite,transform,varf,discretize}.cpp.

    [double] is any [fnum]; [cube] is a list of matrices.  Code under #ifdef DEBUG is not modelled. *)
From Coq Require Import String List Bool Arith ZArith.
From Verif Require Import Base IndexModel Num Fnum LinModel.
Import ListNotations.

Section Numerics.
Variable F : fnum.
Notation vec := (list F) (only parsing).
Notation mat := (list (list F)) (only parsing).
Notation cube := (list (list (list F))) (only parsing).

(** An unsigned or int variable converted to double. *)
Definition ofnat (n : nat) : F := fofZ (Z.of_nat n).

(** * hermite.hpp, hermite.cpp *)

(** REC_A and REC_B, hermite.hpp:27-28. *)
Definition rec_a (i : nat) : F := fdiv n1 (fsqrt (ofnat (i + 1))).
Definition rec_b (i : nat) : F := fdiv (fsqrt (ofnat i)) (fsqrt (ofnat (i + 1))).

(** hermite_eval, hermite.cpp:29-41 ([values] is written in place). *)
Definition hermite_eval (x : F) (degree : nat) (values : vec) : res vec :=
  values <- vset values 0 n1 ;;
  values <- vset values 1 x ;;
  for_each (fun i values =>
      vi <- vget values i ;;
      vp <- vget values (i - 1) ;;
      vset values (i + 1) (nsub (nmul (nmul (rec_a i) x) vi) (nmul (rec_b i) vp)))
    (degree - 1) 1 values.

(** * transform.hpp, transform.cpp *)

(** COS and SIN, transform.hpp:55-56. *)
Definition COS (k : nat) : nat := 2 * k.
Definition SIN (k : nat) : nat := 2 * k - 1.

(** One row of bases_functions_1d, transform.cpp:80-110: the values at x of the basis functions of one direction. *)
Definition basis_row (f : nat) (degree : nat) (x : F) : res vec :=
  let row := repeat n0 (degree + 1) in
  if f =? 0 then hermite_eval x degree row
  else if f =? 1 then
    if degree mod 2 =? 1 then Exit 1
    else
      let max_freq := degree / 2 in
      row <- vset row 0 (fdiv n1 (fsqrt (nmul (fofZ 2) fpi))) ;;
      for_each (fun k row =>
          row <- vset row (COS k) (fdiv (fcos (nmul (ofnat k) x)) (fsqrt fpi)) ;;
          vset row (SIN k) (fdiv (fsin (nmul (ofnat k) x)) (fsqrt fpi)))
        max_freq 1 row
  else Ok row.

(** bases_functions_1d, transform.cpp:77-111. *)
Definition bases_1d (degree : nat) (nodes : mat) (do_fourier : list nat) : res cube :=
  mapM (fun '(i, xs) => mapM (fun x => f <- vget do_fourier i ;; basis_row f degree x) xs)
    (combine (seq 0 (length nodes)) nodes).

(** n_points and n_points_tot, transform.cpp:57-63 (unsigned multiplication). *)
Definition n_points_tot (bounds : list nat) : nat :=
  Z.to_nat (fold_left (fun acc n => u32 (acc * Z.of_nat n)) bounds 1%Z).

(** The product of the quadrature weights at a grid point, transform.cpp:121-128. *)
Definition point_weight (weights : mat) (p : list nat) (dim : nat) : res F :=
  for_each (fun j (w : F) =>
      wj <- vget weights j ;;
      pj <- vget p j ;;
      x <- vget wj pj ;;
      Ok (nmul w x)) dim 0 n1.

(** The value of a basis function at a grid point, transform.cpp:132-136. *)
Definition val_at_point (bases : cube) (p m : list nat) (dim : nat) : res F :=
  for_each (fun k (v : F) =>
      bk <- vget bases k ;;
      pk <- vget p k ;;
      row <- vget bk pk ;;
      mk <- vget m k ;;
      x <- vget row mk ;;
      Ok (nmul v x)) dim 0 n1.

(** _transform, transform.cpp:44-149, and its dispatch, 151-168. *)
Definition transform (s : iset) (degree : nat) (input : vec) (nodes weights : mat) (do_fourier : list nat) (forward : bool) : res vec :=
  let dim := length nodes in
  n_polys <- s_size s dim degree ;;
  let bounds := map (@length F) nodes in
  let n_tot := n_points_tot bounds in
  let output := repeat n0 (if forward then Z.to_nat n_polys else n_tot) in
  bases <- bases_1d degree nodes do_fourier ;;
  m <- make_iterator s dim degree ;;
  '(_, output) <- for_each (fun i '(p, output) =>
      weight <- (if forward then point_weight weights p dim else Ok n1) ;;
      '(_, output) <- for_each (fun j '(it, output) =>
          val <- val_at_point bases p (it_multi_index it) dim ;;
          output <-
            (if forward then
               x <- vget input i ;;
               o <- vget output j ;;
               vset output j (nadd o (nmul (nmul x weight) val))
             else
               x <- vget input j ;;
               o <- vget output i ;;
               vset output i (nadd o (nmul (nmul x weight) val))) ;;
          it <- it_increment it ;;
          Ok (it, output)) (Z.to_nat n_polys) 0 (it_reset m, output) ;;
      '(_, p) <- grid_increment bounds p ;;
      Ok (p, output)) n_tot 0 (repeat 0 dim, output) ;;
  Ok output.

(** integrate, transform.cpp:170-181. *)
Definition integrate (f_grid : vec) (nodes weights : mat) (do_fourier : list nat) : res F :=
  integral <- transform Triangle 0 f_grid nodes weights do_fourier true ;;
  let factor := fold_left (fun (acc : F) f => nmul acc (if f =? 1 then fsqrt (nmul (fofZ 2) fpi) else n1)) do_fourier n1 in
  x <- vget integral 0 ;;
  Ok (nmul factor x).

(** * varf.cpp *)

(** [c[k][i][j]] and assignment to it. *)
Definition cget (c : cube) (k i j : nat) : res F := A <- vget c k ;; mat_get F A i j.
Definition cset (c : cube) (k i j : nat) (x : F) : res cube :=
  A <- vget c k ;; A <- mat_set F A i j x ;; vset c k A.
(** [c[k][i][j] += x] *)
Definition cadd (c : cube) (k i j : nat) (x : F) : res cube :=
  y <- cget c k i j ;; cset c k i j (nadd y x).

(** [for (k = lo; k <= hi; k++)]; natural subtraction makes the loop empty when hi < lo. *)
Definition for_range {S} (body : nat -> S -> res S) (lo hi : nat) (s : S) : res S := for_each body (hi + 1 - lo) lo s.

(** triple_products_1d, varf.cpp:49-94.  The loop bounds are [int] in the code; here j >= i >= 1 makes j - i and
    j + i - 2 exact, and the second inner loop, the only one that uses i - 2, is empty when i = 1. *)
Definition triple_products_1d (degree : nat) : res cube :=
  let products := repeat (repeat (repeat n0 (degree + 1)) (degree + 1)) (2 * degree + 1) in
  products <- for_range (fun i c => cset c i 0 i n1) 0 degree products ;;
  let a := map rec_a (seq 0 (2 * degree + 1)) in
  let b := map rec_b (seq 0 (2 * degree + 1)) in
  products <- for_range (fun i c =>
      ai <- vget a (i - 1) ;;
      bi <- vget b (i - 1) ;;
      for_range (fun j c =>
          c <- for_range (fun k c =>
              ak <- vget a k ;;
              x <- cget c (k + 1) (i - 1) j ;;
              cadd c k i j (nmul (fdiv ai ak) x)) (MAX (j - i) 0) (j + i - 2) c ;;
          c <- for_range (fun k c =>
              x <- cget c k (i - 2) j ;;
              cadd c k i j (nmul (nopp bi) x)) (MAX (j - i + 2) 0) (j + i - 2) c ;;
          for_range (fun k c =>
              ak <- vget a k ;;
              bk <- vget b k ;;
              x <- cget c (k - 1) (i - 1) j ;;
              cadd c k i j (nmul (nmul (fdiv ai ak) bk) x)) (MAX (j - i + 2) 1) (i + j) c)
        i degree c) 1 degree products ;;
  for_range (fun i c =>
      for_range (fun j c =>
          for_range (fun k c =>
              x <- cget c k i j ;;
              cset c k j i x) (j - i) (j + i) c)
        i degree c) 0 degree products.

(** triple_products_fourier, varf.cpp:99-162. *)
Definition triple_products_fourier (degree : nat) : res cube :=
  let products := repeat (repeat (repeat n0 (degree + 1)) (degree + 1)) (2 * degree + 1) in
  if degree mod 2 =? 1 then Exit 1
  else
    let max_freq := degree / 2 in
    let two_pi := nmul (fofZ 2) fpi in
    let norm0 := nmul (fsqrt two_pi) two_pi in
    let norm1 := nmul (fsqrt two_pi) fpi in
    let norm2 := nmul (fsqrt fpi) fpi in
    let whole := fdiv fpi norm1 in
    let half := fdiv (fdiv fpi (fofZ 2)) norm2 in
    let mhalf := fdiv (fdiv (nopp fpi) (fofZ 2)) norm2 in
    products <- cset products (COS 0) (COS 0) (COS 0) (fdiv two_pi norm0) ;;
    for_range (fun k2 c =>
        c <- cset c (COS k2) (COS 0) (COS k2) whole ;;
        c <- cset c (SIN k2) (COS 0) (SIN k2) whole ;;
        c <- cset c (COS k2) (COS k2) (COS 0) whole ;;
        c <- cset c (SIN k2) (SIN k2) (COS 0) whole ;;
        c <- cset c (COS 0) (COS k2) (COS k2) whole ;;
        c <- cset c (COS 0) (SIN k2) (SIN k2) whole ;;
        c <- cset c (COS (2 * k2)) (COS k2) (COS k2) half ;;
        c <- cset c (COS (2 * k2)) (SIN k2) (SIN k2) mhalf ;;
        c <- cset c (SIN (2 * k2)) (COS k2) (SIN k2) half ;;
        c <- cset c (SIN (2 * k2)) (SIN k2) (COS k2) half ;;
        for_range (fun k3 c =>
            if k2 =? k3 then Ok c
            else
              let ks := k2 + k3 in
              let kd := (if k2 <? k3 then k3 else k2) - (if k2 <? k3 then k2 else k3) in
              let signed (z : Z) := fdiv (nmul (fdiv fpi (fofZ 2)) (fofZ z)) norm2 in
              let sgn3 := (Z.b2z (k2 <? k3)%nat - Z.b2z (k3 <? k2)%nat)%Z in
              c <- cset c (COS ks) (COS k2) (COS k3) half ;;
              c <- cset c (COS kd) (COS k2) (COS k3) half ;;
              c <- cset c (COS ks) (SIN k2) (SIN k3) mhalf ;;
              c <- cset c (COS kd) (SIN k2) (SIN k3) half ;;
              c <- cset c (SIN ks) (COS k2) (SIN k3) half ;;
              c <- cset c (SIN ks) (SIN k2) (COS k3) half ;;
              c <- cset c (SIN kd) (COS k2) (SIN k3) (signed sgn3) ;;
              cset c (SIN kd) (SIN k2) (COS k3) (signed (- sgn3)%Z))
          1 max_freq c) 1 max_freq products.

(** The matrix types varf and varfd are instantiated with: the operations of the templates plus conversion from a
    sparse matrix, [result + x * c] and the list of elements the nested iterators visit. *)
Record calcops := {
  co_ops : matops F;
  co_convert : spmat F -> res (mtype F co_ops);
  co_axpy : mtype F co_ops -> mtype F co_ops -> F -> res (mtype F co_ops);
  co_size2 : mtype F co_ops -> nat;
  co_entries : mtype F co_ops -> list (nat * nat * F) }.

(** operator+ and operator* on [mat], templates.hpp:38-44, 55-61. *)
Definition mat_axpy (A B : mat) (x : F) : res mat :=
  mapM (fun '(i, row) =>
      rowB <- vget B i ;;
      mapM (fun '(j, a) => b <- vget rowB j ;; Ok (nadd a (nmul b x))) (combine (seq 0 (length row)) row))
    (combine (seq 0 (length A)) A).

(** Assignment of a ublas expression [A + B * x] to a compressed_matrix: the elements of both, merged by column; zero
    elements are not stored. *)
Fixpoint row_merge (x : F) (ra : list (nat * F)) : list (nat * F) -> list (nat * F) :=
  fix inner (rb : list (nat * F)) : list (nat * F) :=
    match ra, rb with
    | [], _ => map (fun '(j, b) => (j, nadd n0 (nmul b x))) rb
    | _, [] => map (fun '(j, a) => (j, nadd a n0)) ra
    | (j, a) :: ra', (k, b) :: rb' =>
        if j <? k then (j, nadd a n0) :: row_merge x ra' rb
        else if k <? j then (k, nadd n0 (nmul b x)) :: inner rb'
        else (j, nadd a (nmul b x)) :: row_merge x ra' rb'
    end.
Definition sp_axpy (A B : spmat F) (x : F) : res (spmat F) :=
  if (sp_size1 F A =? sp_size1 F B) && (sp_size2 F A =? sp_size2 F B) then
    Ok {| sp_size1 := sp_size1 F A; sp_size2 := sp_size2 F A;
          sp_rows := map (fun '(ra, rb) => filter (fun '(_, y) => negb (neqb y n0)) (row_merge x ra rb))
                       (combine (sp_rows F A) (sp_rows F B)) |}
  else Ub.

(** Dense matrices visit every element (begin1 / begin of boost_mat). *)
Definition mat_entries (A : mat) : list (nat * nat * F) :=
  concat (map (fun '(i, row) => map (fun '(j, x) => (i, j, x)) (combine (seq 0 (length row)) row)) (combine (seq 0 (length A)) A)).

Definition calc_mat : calcops :=
  {| co_ops := mat_ops F; co_convert := full F; co_axpy := mat_axpy; co_size2 := fun A => length (hd [] A); co_entries := mat_entries |}.
Definition calc_spmat : calcops :=
  {| co_ops := spmat_ops F; co_convert := fun A => Ok A; co_axpy := sp_axpy; co_size2 := sp_size2 F; co_entries := sp_entries F |}.

(** _tensorize_mats_axes<Iterator,T,mat>, tensorize.cpp:285-345. *)
Definition tensorize_factors (C : calcops) (s : iset) (factors : list mat) : res (mtype F (co_ops C)) :=
  sp_inputs <- mapM (to_spmat F) factors ;;
  result <- tensorize_sps_axes F s sp_inputs ;;
  co_convert C result.

(** THRESHOLD, varf.cpp:40. *)
Definition THRESHOLD : F := fdiv n1 (fofZ (10 ^ 12)).

(** The norm of the transform, varf.cpp:190-195. *)
Definition hf_norm (Hf : vec) : F :=
  let norm := fsqrt (fold_left (fun (acc : F) x => nadd acc (nmul (fabs x) (fabs x))) Hf n0) in
  if fltb norm n1 then n1 else norm.

(** varf, varf.cpp:164-269, for any of the matrix types, and its dispatch, 271-288.  [m] advances through the set of
    degree 2 * degree together with i. *)
Definition varf (C : calcops) (s : iset) (degree : nat) (input : vec) (nodes weights : mat) (do_fourier : list nat) : res (mtype F (co_ops C)) :=
  let dim := length nodes in
  n_polys <- s_size s dim degree ;;
  Hf <- transform s (2 * degree) input nodes weights do_fourier true ;;
  m <- make_iterator s dim (2 * degree) ;;
  let norm := hf_norm Hf in
  products_hermite <- triple_products_1d degree ;;
  products_fourier <- (if existsb (fun f => f =? 1) do_fourier then triple_products_fourier degree else Ok []) ;;
  '(_, result) <- for_each (fun i '(it, result) =>
      h <- vget Hf i ;;
      result <-
        (if fltb (fabs h) (nmul THRESHOLD norm) then Ok result
         else
           factors <- mapM (fun d =>
               f <- vget do_fourier d ;;
               md <- vget (it_multi_index it) d ;;
               vget (if f =? 1 then products_fourier else products_hermite) md) (seq 0 dim) ;;
           result_iteration <- tensorize_factors C s factors ;;
           co_axpy C result result_iteration h) ;;
      it <- it_increment it ;;
      Ok (it, result)) (length Hf) 0 (it_reset m, m_construct F (co_ops C) (Z.to_nat n_polys) (Z.to_nat n_polys)) ;;
  Ok result.

(** The list of multi-indices built by the generic varfd, varf.cpp:336-341. *)
Definition collect_indices (it : iterator) (n : nat) : res (list mi) :=
  '(_, l) <- for_each (fun _ '(it, l) => it' <- it_increment it ;; Ok (it', l ++ [it_multi_index it])) n 0 (it_reset it, []) ;;
  Ok l.

(** varfd for spmat and boost_mat, varf.cpp:290-376. *)
Definition varfd (C : calcops) (s : iset) (dim degree direction : nat) (var : mtype F (co_ops C)) (do_fourier : nat) : res (mtype F (co_ops C)) :=
  m <- make_iterator s dim degree ;;
  let n := m_size1 F (co_ops C) var in
  multi_indices <- collect_indices m n ;;
  for_in (fun '(row, col, value) results =>
      m_col <- vget multi_indices col ;;
      mc <- vget m_col direction ;;
      if do_fourier =? 0 then
        int_m2 <- vset m_col direction (mc + 1) ;;
        if negb (it_has m int_m2) then Ok results
        else
          id <- it_index m int_m2 ;;
          m_set F (co_ops C) results row id (nmul value (fsqrt (ofnat (mc + 1))))
      else if mc =? 0 then Ok results
      else
        let is_cos := mc mod 2 =? 0 in
        int_m2 <- vset m_col direction (if is_cos then mc - 1 else mc + 1) ;;
        let wave_number := (if is_cos then mc else mc + 1) / 2 in
        id <- it_index m int_m2 ;;
        m_set F (co_ops C) results row id (nmul (nmul value (fofZ (if is_cos then 1 else -1))) (ofnat wave_number)))
    (co_entries C var) (m_construct F (co_ops C) n (co_size2 C var)).

(** varfd<mat>, varf.cpp:378-456.  [(!is_cos - is_cos) * wave_number] is an unsigned product. *)
Definition varfd_dense (s : iset) (dim degree direction : nat) (var : mat) (do_fourier : nat) : res mat :=
  m2 <- make_iterator s dim degree ;;
  let n := length var in
  '(_, results) <- for_each (fun j '(it, results) =>
      let m := it_multi_index it in
      mc <- vget m direction ;;
      results <-
        (if mc =? 0 then Ok results
         else
           let is_cos := mc mod 2 =? 0 in
           diff_m2 <- vset m direction (if do_fourier =? 0 then mc - 1 else if is_cos then mc - 1 else mc + 1) ;;
           id <- it_index it diff_m2 ;;
           let wave_number := (if is_cos then mc else mc + 1) / 2 in
           let factor := if do_fourier =? 1
                         then fofZ (u32 ((if is_cos then -1 else 1) * Z.of_nat wave_number))
                         else fsqrt (ofnat mc) in
           for_each (fun i results =>
               x <- mat_get F var i id ;;
               mat_set F results i j (nmul factor x)) n 0 results) ;;
      it <- it_increment it ;;
      Ok (it, results)) n 0 (it_reset m2, mat_construct F n n) ;;
  Ok results.

(** * discretize.cpp *)

(** map_point, discretize.cpp:33-48 ([node] and [mapped] are buffers of [dim] doubles, written in place). *)
Definition map_point (translation : vec) (dilation : mat) (node mapped : vec) : res vec :=
  let dim := length translation in
  for_each (fun i mapped =>
      t <- vget translation i ;;
      mapped <- vset mapped i t ;;
      for_each (fun j mapped =>
          y <- vget mapped i ;;
          a <- mat_get F dilation i j ;;
          x <- vget node j ;;
          vset mapped i (nadd y (nmul a x))) dim 0 mapped) dim 0 mapped.

(** discretize, discretize.cpp:50-86.  The function pointer is a Coq function; the buffers hold arbitrary values
    ([junk]) before they are written. *)
Definition discretize (junk : F) (func : vec -> F) (nodes : mat) (translation : vec) (dilation : mat) : res vec :=
  let dim := length nodes in
  let bounds := map (@length F) nodes in
  let n_tot := n_points_tot bounds in
  '(_, (_, _, result)) <- for_each (fun i '(p, (node, mapped, result)) =>
      node <- for_each (fun j node =>
          pj <- vget p j ;;
          nj <- vget nodes j ;;
          x <- vget nj pj ;;
          vset node j x) dim 0 node ;;
      mapped <- map_point translation dilation node mapped ;;
      result <- vset result i (func mapped) ;;
      '(_, p) <- grid_increment bounds p ;;
      Ok (p, (node, mapped, result))) n_tot 0 (repeat 0 dim, (repeat junk dim, repeat junk dim, repeat n0 n_tot)) ;;
  Ok result.

End Numerics.
