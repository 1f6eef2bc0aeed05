(** Model of the index iterators: cpp/src/hermite/iterators.{hpp,cpp} and of the
    helpers of cpp/src/hermite/lib.cpp they use.

    Common simplification: entries of multi-indices, [dim] and [degree] are natural
    numbers (no 32-bit wrap-around); see property C15 for the bounds that justify
    it.  Where the code's result depends on 32-bit arithmetic (sizes, closed-form
    indices, the product test of the non-consistent cross) the arithmetic is in
    [Z] with the conversions [u32] and [d2u] written out. *)
From Coq Require Import String List Bool Arith ZArith Lia Decimal DecimalString.
From Verif Require Import Base.
Import ListNotations.
Open Scope nat_scope.

(** Unsigned 32-bit arithmetic: cpp/src/hermite/types.hpp ([u_int] is [unsigned int]). *)
Definition u32 (z : Z) : Z := (z mod 2 ^ 32)%Z.

(** Conversion [double -> unsigned int] of an integral value: undefined behaviour
    when the value is not representable (C++ [conv.fpint]). *)
Definition d2u (z : Z) : res Z :=
  if ((0 <=? z) && (z <? 2 ^ 32))%Z then Ok z else Ub.

(** [MAX(i, j)], iterators.cpp:29. *)
Definition MAX (i j : nat) : nat := if j <? i then i else j.

(** [DEGREE_BISSECT_MAX], iterators.cpp:30. *)
Definition DEGREE_BISSECT_MAX : nat := 250.

(** * Grid_iterator *)

(** Grid_iterator::index, iterators.cpp:36-48, with 32-bit wrap-around. *)
Definition grid_index (bounds m : list nat) : res Z :=
  let dim := length bounds in
  '(result, factor) <-
    for_each (fun i '(result, factor) =>
      let position := dim - 1 - i in
      x <- vget m position ;;
      b <- vget bounds position ;;
      Ok (u32 (result + factor * Z.of_nat x), u32 (factor * Z.of_nat b))%Z) dim 0 (0%Z, 1%Z) ;;
  Ok result.

(** Grid_iterator::increment, iterators.cpp:50-66.  [grid_while m bounds i] is the
    while loop of lines 53-57 started at position [i]; it returns the final position.
    The test [multi_index[i] == upper_bounds[i] - 1] is written [m_i + 1 = b_i], which is the
    same on 32-bit integers (for a zero bound the left side never reaches 2^32 in this model).
    For dim = 0 the code reads [multi_index[2^32 - 1]]: undefined behaviour. *)
Fixpoint grid_while (m bounds : list nat) (i : nat) : res (nat * list nat) :=
  x <- vget m i ;;
  b <- vget bounds i ;;
  if x + 1 =? b then
    match i with
    | 0 => Ok (0, m)
    | S i' => m' <- vset m i 0 ;; grid_while m' bounds i'
    end
  else Ok (i, m).

Definition grid_increment (bounds m : list nat) : res (bool * list nat) :=
  match length bounds with
  | 0 => Ub
  | S d =>
      '(i, m) <- grid_while m bounds d ;;
      x0 <- vget m 0 ;;
      b0 <- vget bounds 0 ;;
      if (i =? 0) && (x0 + 1 =? b0) then Ok (true, m)
      else
        x <- vget m i ;;
        m' <- vset m i (x + 1) ;;
        Ok (false, m')
  end.

(** * The enumeration loop *)

(** do { list.push_back(m); ... } while (!s_increment(m, degree)): the constructors,
    iterators.cpp:152-164 (and 247-263, 382-399, 453-465, 557-569).  Also the loop
    [for (it; !it.isFull(); it.increment()) push_back(it.get())] of Grid_iterator::list, 68-76.
    The loop is unbounded in the code; here it takes fuel. *)
Fixpoint enumerate (inc : mi -> res (bool * mi)) (fuel : nat) (m : mi) : res (list mi) :=
  match fuel with
  | 0 => NoFuel
  | S fuel' =>
      '(stop, m') <- inc m ;;
      if stop : bool then Ok [m]
      else l <- enumerate inc fuel' m' ;; Ok (m :: l)
  end.

(** Grid_iterator::list, iterators.cpp:68-76 (list_cube_indices in python/module.cpp).
    The fuel is the product of the bounds plus one, proved sufficient. *)
Definition grid_list (bounds : list nat) : res (list mi) :=
  enumerate (grid_increment bounds) (S (fold_right Nat.mul 1 bounds)) (repeat 0 (length bounds)).

(** * Cube_iterator *)

(** The argmax loop of Cube_iterator::s_increment, iterators.cpp:113-120 (also s_index, 172-179). *)
Definition cube_argmax (m : mi) : res (nat * nat) :=
  for_each (fun i '(max, ind) =>
    x <- vget m i ;;
    Ok (if max <=? x then (x, i) else (max, ind))) (length m) 0 (0, 0).

(** Cube_iterator::s_increment, iterators.cpp:106-150.  [ind == dim - 1] is written
    [ind + 1 = dim] (they differ only for dim = 0, where both are false on 32 bits). *)
Definition cube_increment (degree : nat) (m : mi) : res (bool * mi) :=
  let dim := length m in
  '(max, ind) <- cube_argmax m ;;
  r <- for_loop (fun i m =>
         x <- vget m i ;;
         if x + 1 <? max + (if i <? ind then 1 else 0) then
           m' <- vset m i (x + 1) ;; Ok (Return m')
         else if negb (i =? ind) then
           m' <- vset m i 0 ;; Ok (Next m')
         else Ok (Next m)) dim 0 m ;;
  match r with
  | inl m => Ok (false, m)
  | inr (_, m) =>
      if ind + 1 =? dim then
        if degree <=? max then Ok (true, m)
        else
          m <- vset m ind 0 ;;
          m <- vset m 0 (max + 1) ;;
          Ok (false, m)
      else
        m <- vset m ind 0 ;;
        m <- vset m (ind + 1) max ;;
        Ok (false, m)
  end.

(** Cube_iterator::s_index, iterators.cpp:166-197.  [pow] on integers is exact (trusted). *)
Definition cube_index (m : mi) : res Z :=
  let dim := length m in
  '(max, ind) <- cube_argmax m ;;
  let zmax := Z.of_nat max in
  result <- d2u (zmax ^ Z.of_nat dim - 1)%Z ;;
  result <- for_each (fun i result =>
      d2u (result + zmax ^ (Z.of_nat (dim - i - 1)) * (zmax + 1) ^ Z.of_nat i)%Z) ind 0 result ;;
  let result := u32 (result + 1) in
  '(result, factor) <- for_each (fun i '(result, factor) =>
      if i =? ind then Ok (result, factor)
      else
        x <- vget m i ;;
        Ok (u32 (result + u32 (factor * Z.of_nat x))%Z,
            u32 (factor * (if (i <? ind)%nat then zmax + 1 else zmax))%Z)) dim 0 (result, 1%Z) ;;
  Ok result.

(** Cube_iterator::s_size, iterators.cpp:199-202. *)
Definition cube_size (dim degree : nat) : res Z :=
  d2u ((Z.of_nat degree + 1) ^ Z.of_nat dim)%Z.

(** * Triangle_iterator *)

(** Triangle_iterator::s_increment, iterators.cpp:222-245.  For dim = 0 the loop bound
    [dim - 1] is 2^32 - 1 and [multi_index[1]] is read out of bounds. *)
Definition tri_increment (degree : nat) (m : mi) : res (bool * mi) :=
  match length m with
  | 0 => Ub
  | S dim1 =>
      r <- for_loop (R := unit) (fun i m =>
             x <- vget m (i + 1) ;;
             if negb (x =? 0) then
               m' <- vset m (i + 1) (x - 1) ;; Ok (Break m')
             else Ok (Next m)) dim1 0 m ;;
      match r with
      | inl _ => Ub (* unreachable: the loop body never returns *)
      | inr (i, m) =>
          x0 <- vget m 0 ;;
          if (i =? dim1) && (x0 =? degree) then Ok (true, m)
          else
            m <- vset m i (1 + x0) ;;
            m <- (if 0 <? i then vset m 0 0 else Ok m) ;;
            Ok (false, m)
      end
  end.

(** boost::math::binomial_coefficient<double>(n, k) for k <= n, taken to be exact (trusted). *)
Definition zfact (n : nat) : Z := fold_right Z.mul 1%Z (map Z.of_nat (seq 1 n)).
Definition zbinom (n k : nat) : Z :=
  if k <=? n then (zfact n / (zfact k * zfact (n - k)))%Z else 0%Z.

(** Triangle_iterator::s_index, iterators.cpp:265-278.  Simplification: the partial
    sums [sum] do not wrap. *)
Definition tri_index (m : mi) : res Z :=
  '(sum, result) <- for_each (fun i '(sum, result) =>
      x <- vget m i ;;
      let sum := sum + x in
      if 0 <? sum then
        b <- d2u (zbinom (i + sum) (i + 1)) ;;
        Ok (sum, u32 (result + b)%Z)
      else Ok (sum, result)) (length m) 0 (0, 0%Z) ;;
  Ok result.

(** Triangle_iterator::s_size, iterators.cpp:280-284. *)
Definition tri_size (dim degree : nat) : res Z := d2u (zbinom (degree + dim) dim).

(** * Cross_iterator *)

(** The divisor search of Cross_iterator::s_increment, iterators.cpp:353-360:
    [for (f = f0; f <= product; f++) if (product % f == 0) { factor = f; break; }] *)
Definition cross_factor (f0 product : nat) : res nat :=
  r <- for_loop (R := unit) (fun f (factor : nat) =>
         Ok (if product mod f =? 0 then Break f else Next factor)) (S product - f0) f0 0 ;;
  match r with
  | inl _ => Ub (* unreachable *)
  | inr (_, factor) => Ok factor
  end.

(** Cross_iterator::s_increment, iterators.cpp:326-380 (assert compiled out).  For dim = 0
    and degree <> 1 the loop bound [dim - 1] wraps and [multi_index[1]] is out of bounds.
    The division by [factor] is undefined if no factor was found (factor = 0 <> product). *)
Definition cross_increment (degree : nat) (m : mi) : res (bool * mi) :=
  let dim := length m in
  r <- for_loop (fun i m =>
         x <- vget m i ;;
         if x =? 1 then m' <- vset m i 0 ;; Ok (Next m')
         else if x =? 0 then m' <- vset m i 1 ;; Ok (Return m')
         else Ok (Next m)) dim 0 m ;;
  match r with
  | inl m => Ok (false, m)
  | inr (_, m) =>
      if degree =? 1 then Ok (true, m)
      else
        match dim with
        | 0 => Ub
        | S dim1 =>
            r <- for_loop (R := unit) (fun i m =>
                   x <- vget m (i + 1) ;;
                   if x =? 0 then Ok (Next m)
                   else
                     x0 <- vget m 0 ;;
                     let product := MAX 1 x0 * x in
                     factor <- cross_factor (MAX 1 x0 + 1) product ;;
                     m <- vset m i factor ;;
                     if negb (factor =? product) && (factor =? 0) then Ub
                     else
                       m <- vset m (i + 1) (if factor =? product then 0 else product / factor) ;;
                       Ok (Break m)) dim1 0 m ;;
            match r with
            | inl _ => Ub (* unreachable *)
            | inr (i, m) =>
                x0 <- vget m 0 ;;
                if (i =? dim1) && (x0 =? degree) then Ok (true, m)
                else
                  m <- (if i =? dim1 then vset m i (1 + MAX 1 x0) else Ok m) ;;
                  m <- (if 0 <? i then vset m 0 0 else Ok m) ;;
                  Ok (false, m)
            end
        end
  end.

(** * Cross_iterator_nc *)

(** [product = 1; for (auto i : multi_index) product *= MAX(i, 1);] with 32-bit wrap-around,
    iterators.cpp:445-447. *)
Definition nc_product (m : mi) : Z :=
  fold_left (fun p i => u32 (p * Z.of_nat (MAX i 1))) m 1%Z.

(** The do-while loop of Cross_iterator_nc::s_increment, iterators.cpp:437-449.
    The parameter [degree] is already [MAX(degree, 1)]. *)
Fixpoint nc_loop (degree fuel : nat) (m : mi) : res (bool * mi) :=
  match fuel with
  | 0 => NoFuel
  | S fuel' =>
      '(triangle_full, m) <- tri_increment (degree + length m - 1) m ;;
      if triangle_full : bool then Exit 1
      else if (Z.of_nat degree <? nc_product m)%Z then nc_loop degree fuel' m
      else Ok (false, m)
  end.

(** Cross_iterator_nc::s_increment, iterators.cpp:424-451.  The fuel of the inner
    loop exceeds the size of the enclosing triangle. *)
Definition nc_increment (degree : nat) (m : mi) : res (bool * mi) :=
  let degree := MAX degree 1 in
  let dim := length m in
  x0 <- vget m 0 ;;
  full <- for_each (fun i (full : bool) =>
            x <- vget m i ;; Ok (full && (x =? 1))%bool) (dim - 1) 1 (x0 =? degree) ;;
  if full : bool then Ok (true, m)
  else nc_loop degree (S ((degree + dim) ^ dim)) m.

(** * Rectangle_iterator *)

(** [factors[i] = i == 0 ? 1 : 2], iterators.cpp:496-500 (also 573-575). *)
Definition rect_factors (dim : nat) : list nat :=
  map (fun i => if i =? 0 then 1 else 2) (seq 0 dim).

(** Rectangle_iterator::s_increment, iterators.cpp:489-555. *)
Definition rect_increment (degree : nat) (m : mi) : res (bool * mi) :=
  let dim := length m in
  let factors := rect_factors dim in
  '(max, ind) <- for_each (fun i '(max, ind) =>
      x <- vget m i ;;
      f <- vget factors i ;;
      Ok (if max <=? x * f then (x * f, i) else (max, ind))) dim 0 (0, 0) ;;
  r <- for_loop (fun i m =>
         x <- vget m i ;;
         f <- vget factors i ;;
         if (x + 1) * f <? max + (if i <? ind then 1 else 0) then
           m' <- vset m i (x + 1) ;; Ok (Return m')
         else if negb (i =? ind) then
           m' <- vset m i 0 ;; Ok (Next m')
         else Ok (Next m)) dim 0 m ;;
  match r with
  | inl m => Ok (false, m)
  | inr (_, m) =>
      if ind + 1 =? dim then
        if degree <=? max then Ok (true, m)
        else
          m <- vset m ind 0 ;;
          m <- vset m 0 (max + 1) ;;
          Ok (false, m)
      else
        m <- vset m ind 0 ;;
        r <- for_loop (R := unit) (fun next (_ : unit) =>
               f <- vget factors next ;;
               Ok (if max mod f =? 0 then Break tt else Next tt)) (dim - (ind + 1)) (ind + 1) tt ;;
        match r with
        | inl _ => Ub (* unreachable *)
        | inr (next, _) =>
            if next <? dim then
              f <- vget factors next ;;
              m <- vset m ind 0 ;;
              m <- vset m next (max / f) ;;
              Ok (false, m)
            else if max =? degree then Ok (true, m)
            else
              m <- vset m ind 0 ;;
              m <- vset m 0 (max + 1) ;;
              Ok (false, m)
        end
  end.

(** Rectangle_iterator::s_size, iterators.cpp:571-582 (unsigned product, wraps). *)
Definition rect_size (dim degree : nat) : res Z :=
  Ok (fold_left (fun r f => u32 (r * u32 (1 + Z.of_nat (degree / f))))
                (rect_factors dim) 1%Z).

(** * Iterator objects *)

Inductive iset := Triangle | Cube | Cross | CrossNc | Rectangle.

(** Dispatch on the template parameter [Iterator]. *)
Definition increment_of (s : iset) (degree : nat) : mi -> res (bool * mi) :=
  match s with
  | Triangle => tri_increment degree
  | Cube => cube_increment degree
  | Cross => cross_increment degree
  | CrossNc => nc_increment degree
  | Rectangle => rect_increment degree
  end.

(** hash_print, lib.cpp:76-84; std::to_string prints the decimal digits. *)
Definition to_string (n : nat) : string := NilEmpty.string_of_uint (Nat.to_uint n).
Definition hash_print (v : mi) : string :=
  fold_left (fun hash x => append hash (append (to_string x) "-")) v EmptyString.

(** unordered_map<string, u_int>: association list; [insert] keeps an existing entry. *)
Definition table := list (string * nat).
Definition table_find (t : table) (k : string) : option nat :=
  match find (fun p => String.eqb (fst p) k) t with
  | Some (_, v) => Some v
  | None => None
  end.
Definition table_insert (t : table) (k : string) (v : nat) : table :=
  match table_find t k with Some _ => t | None => t ++ [(k, v)] end.

(** Multi_index_iterator, iterators.hpp:91-127 with the members of Vector_iterator, 33-70. *)
Record iterator := {
  it_multi_index : mi;
  it_full : bool;
  it_index_list : nat;
  it_list : list mi;
  it_table : table }.

(** The constructors, iterators.cpp:152-164, 247-263, 382-399, 453-465, 557-569.
    Every index set has at most (degree + 2)^dim elements, which is used as fuel.
    Simplification: the list is built first and the hash table afterwards, instead of together. *)
Definition make_table (l : list mi) : table :=
  fst (fold_left (fun '(t, ind) m => (table_insert t (hash_print m) ind, S ind)) l ([], 0)).

Definition iterator_list (s : iset) (dim degree : nat) : res (list mi) :=
  enumerate (increment_of s degree) ((degree + 2) ^ dim) (repeat 0 dim).

Definition make_iterator (s : iset) (dim degree : nat) : res iterator :=
  l <- iterator_list s dim degree ;;
  Ok {| it_multi_index := repeat 0 dim; it_full := false; it_index_list := 0;
        it_list := l; it_table := make_table l |}.

(** Multi_index_iterator::reset, iterators.hpp:119-123 and Vector_iterator::reset, 59-66. *)
Definition it_reset (it : iterator) : iterator :=
  {| it_multi_index := map (fun _ => 0) (it_multi_index it); it_full := false;
     it_index_list := 0; it_list := it_list it; it_table := it_table it |}.

(** Multi_index_iterator::increment, iterators.cpp:94-103.  [list.size() - 1] is written
    with [+ 1] on the other side; the list of an iterator is never empty. *)
Definition it_increment (it : iterator) : res iterator :=
  if it_index_list it + 1 =? length (it_list it) then
    Ok {| it_multi_index := it_multi_index it; it_full := true;
          it_index_list := it_index_list it; it_list := it_list it; it_table := it_table it |}
  else
    m <- vget (it_list it) (S (it_index_list it)) ;;
    Ok {| it_multi_index := m; it_full := it_full it;
          it_index_list := S (it_index_list it); it_list := it_list it; it_table := it_table it |}.

(** Multi_index_iterator::has, iterators.hpp:113-117. *)
Definition it_has (it : iterator) (m : mi) : bool :=
  match table_find (it_table it) (hash_print m) with Some _ => true | None => false end.

(** Multi_index_iterator::index, iterators.cpp:82-92 ([unordered_map::at] throws). *)
Definition it_index (it : iterator) (m : mi) : res nat :=
  match table_find (it_table it) (hash_print m) with
  | Some i => Ok i
  | None => Throw "out_of_range"
  end.

(** [for (; !it.isFull(); it.increment()) result.push_back(it.get())]: the static s_list
    functions, iterators.cpp:204-212, 286-294, 401-409, 467-475, 584-590. *)
Fixpoint it_collect (fuel : nat) (it : iterator) : res (list mi) :=
  match fuel with
  | 0 => NoFuel
  | S fuel' =>
      if it_full it then Ok []
      else
        it' <- it_increment it ;;
        l <- it_collect fuel' it' ;;
        Ok (it_multi_index it :: l)
  end.

Definition s_list (s : iset) (dim degree : nat) : res (list mi) :=
  it <- make_iterator s dim degree ;;
  it_collect (S (length (it_list it))) it.

(** s_size of each iterator: iterators.cpp:199-202, 280-284, 418-421, 483-486, 571-582. *)
Definition s_size (s : iset) (dim degree : nat) : res Z :=
  match s with
  | Triangle => tri_size dim degree
  | Cube => cube_size dim degree
  | Rectangle => rect_size dim degree
  | Cross | CrossNc =>
      l <- iterator_list s dim degree ;;
      Ok (u32 (Z.of_nat (length l)))
  end.

(** pos_bissect, lib.cpp:86-131.  [long] differences of 32-bit values are exact.
    The bisection loop is unbounded in the code; the fuel [S max] is proved sufficient. *)
Fixpoint bissect_loop (image : Z) (f : nat -> res Z) (fuel x1 x2 : nat) : res nat :=
  match fuel with
  | 0 => NoFuel
  | S fuel' =>
      let new_x := (x1 + x2) / 2 in
      y <- f new_x ;;
      let new_img := (y - image)%Z in
      if (new_img <? 0)%Z then
        if new_x =? x1 then Exit 1
        else bissect_loop image f fuel' new_x x2
      else if (0 <? new_img)%Z then bissect_loop image f fuel' x1 new_x
      else Ok new_x
  end.

Definition pos_bissect (image : Z) (f : nat -> res Z) (max : nat) : res nat :=
  y1 <- f 0 ;;
  y2 <- f max ;;
  let img_1 := (y1 - image)%Z in
  let img_2 := (y2 - image)%Z in
  if ((0 <? img_1) || (img_2 <? 0))%Z then Exit 0
  else if (img_1 =? 0)%Z then Ok 0
  else if (img_2 =? 0)%Z then Ok max
  else bissect_loop image f (S max) 0 max.

(** s_get_degree: iterators.cpp:214-218, 296-300, 411-416 (cross), 477-481, 592-596.
    For the cross, [n_polys = 0] indexes position 2^32 - 1. *)
Definition s_get_degree (s : iset) (dim : nat) (n_polys : Z) : res nat :=
  match s with
  | Cross =>
      l <- iterator_list Cross dim DEGREE_BISSECT_MAX ;;
      if (n_polys <=? 0)%Z then Ub
      else
        m <- vget l (Z.to_nat n_polys - 1) ;;
        vget m 0
  | _ => pos_bissect n_polys (s_size s dim) DEGREE_BISSECT_MAX
  end.

(** Triangle_iterator::s_find_dim, iterators.cpp:302-322 (loop with fuel). *)
Fixpoint find_dim_loop (fuel dim degree : nat) (n_polys : Z) : res nat :=
  match fuel with
  | 0 => NoFuel
  | S fuel' =>
      n_dim <- tri_size dim degree ;;
      if (n_dim <? n_polys)%Z then find_dim_loop fuel' (S dim) degree n_polys
      else if (n_dim =? n_polys)%Z then Ok dim
      else Exit 1
  end.
Definition s_find_dim (fuel degree : nat) (n_polys : Z) : res nat :=
  find_dim_loop fuel 0 degree n_polys.
