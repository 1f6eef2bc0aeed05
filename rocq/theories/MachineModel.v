(** The increment functions with explicit machine-word wrap-around.

    Same code as in [IndexModel] (iterators.cpp), but every sum and product of [u_int]s is
    reduced modulo the word size [M] (2^32 for [unsigned int]).  Loop counters that run up to [dim]
    or up to [product] are not wrapped.  Decrements are guarded by a test against 0 in the code. *)
From Coq Require Import List Bool Arith ZArith.
From Verif Require Import Base IndexModel.
Import ListNotations.

Section Word.
  Variable M : nat.
  Definition wadd (x y : nat) : nat := (x + y) mod M.
  Definition wmul (x y : nat) : nat := (x * y) mod M.

  (** Triangle_iterator::s_increment, iterators.cpp:222-245. *)
  Definition tri_increment_w (degree : nat) (m : mi) : res (bool * mi) :=
    match length m with
    | 0 => Ub
    | S dim1 =>
        r <- for_loop (R := unit) (fun i m =>
               x <- vget m (i + 1) ;;
               if negb (x =? 0) then
                 m' <- vset m (i + 1) (x - 1) ;; Ok (Break m')
               else Ok (Next m)) dim1 0 m ;;
        match r with
        | inl _ => Ub
        | inr (i, m) =>
            x0 <- vget m 0 ;;
            if (i =? dim1) && (x0 =? degree) then Ok (true, m)
            else
              m <- vset m i (wadd 1 x0) ;;
              m <- (if 0 <? i then vset m 0 0 else Ok m) ;;
              Ok (false, m)
        end
    end.

  (** Cube_iterator::s_increment, iterators.cpp:106-150. *)
  Definition cube_increment_w (degree : nat) (m : mi) : res (bool * mi) :=
    let dim := length m in
    '(max, ind) <- cube_argmax m ;;
    r <- for_loop (fun i m =>
           x <- vget m i ;;
           if wadd x 1 <? wadd max (if i <? ind then 1 else 0) then
             m' <- vset m i (wadd x 1) ;; Ok (Return m')
           else if negb (i =? ind) then
             m' <- vset m i 0 ;; Ok (Next m')
           else Ok (Next m)) dim 0 m ;;
    match r with
    | inl m => Ok (false, m)
    | inr (_, m) =>
        if ind + 1 =? dim then
          if degree <=? max then Ok (true, m)
          else
            m <- vset m ind 0 ;;
            m <- vset m 0 (wadd max 1) ;;
            Ok (false, m)
        else
          m <- vset m ind 0 ;;
          m <- vset m (ind + 1) max ;;
          Ok (false, m)
    end.

  (** Cross_iterator::s_increment, iterators.cpp:326-380. *)
  Definition cross_increment_w (degree : nat) (m : mi) : res (bool * mi) :=
    let dim := length m in
    r <- for_loop (fun i m =>
           x <- vget m i ;;
           if x =? 1 then m' <- vset m i 0 ;; Ok (Next m')
           else if x =? 0 then m' <- vset m i 1 ;; Ok (Return m')
           else Ok (Next m)) dim 0 m ;;
    match r with
    | inl m => Ok (false, m)
    | inr (_, m) =>
        if degree =? 1 then Ok (true, m)
        else
          match dim with
          | 0 => Ub
          | S dim1 =>
              r <- for_loop (R := unit) (fun i m =>
                     x <- vget m (i + 1) ;;
                     if x =? 0 then Ok (Next m)
                     else
                       x0 <- vget m 0 ;;
                       let product := wmul (MAX 1 x0) x in
                       factor <- cross_factor (wadd (MAX 1 x0) 1) product ;;
                       m <- vset m i factor ;;
                       if negb (factor =? product) && (factor =? 0) then Ub
                       else
                         m <- vset m (i + 1) (if factor =? product then 0 else product / factor) ;;
                         Ok (Break m)) dim1 0 m ;;
              match r with
              | inl _ => Ub
              | inr (i, m) =>
                  x0 <- vget m 0 ;;
                  if (i =? dim1) && (x0 =? degree) then Ok (true, m)
                  else
                    m <- (if i =? dim1 then vset m i (wadd 1 (MAX 1 x0)) else Ok m) ;;
                    m <- (if 0 <? i then vset m 0 0 else Ok m) ;;
                    Ok (false, m)
              end
          end
    end.

  (** Cross_iterator_nc::s_increment, iterators.cpp:424-451.  (The product is always computed on
      32 bits, as in [nc_product]; [degree + dim - 1] is computed from left to right.) *)
  Fixpoint nc_loop_w (degree fuel : nat) (m : mi) : res (bool * mi) :=
    match fuel with
    | 0 => NoFuel
    | S fuel' =>
        '(triangle_full, m) <- tri_increment_w (wadd degree (length m) - 1) m ;;
        if triangle_full : bool then Exit 1
        else if (Z.of_nat degree <? nc_product m)%Z then nc_loop_w degree fuel' m
        else Ok (false, m)
    end.

  Definition nc_increment_w (degree : nat) (m : mi) : res (bool * mi) :=
    let degree := MAX degree 1 in
    let dim := length m in
    x0 <- vget m 0 ;;
    full <- for_each (fun i (full : bool) =>
              x <- vget m i ;; Ok (full && (x =? 1))%bool) (dim - 1) 1 (x0 =? degree) ;;
    if full : bool then Ok (true, m)
    else nc_loop_w degree (S ((degree + dim) ^ dim)) m.

  (** Rectangle_iterator::s_increment, iterators.cpp:489-555. *)
  Definition rect_increment_w (degree : nat) (m : mi) : res (bool * mi) :=
    let dim := length m in
    let factors := rect_factors dim in
    '(max, ind) <- for_each (fun i '(max, ind) =>
        x <- vget m i ;;
        f <- vget factors i ;;
        Ok (if max <=? wmul x f then (wmul x f, i) else (max, ind))) dim 0 (0, 0) ;;
    r <- for_loop (fun i m =>
           x <- vget m i ;;
           f <- vget factors i ;;
           if wmul (wadd x 1) f <? wadd max (if i <? ind then 1 else 0) then
             m' <- vset m i (wadd x 1) ;; Ok (Return m')
           else if negb (i =? ind) then
             m' <- vset m i 0 ;; Ok (Next m')
           else Ok (Next m)) dim 0 m ;;
    match r with
    | inl m => Ok (false, m)
    | inr (_, m) =>
        if ind + 1 =? dim then
          if degree <=? max then Ok (true, m)
          else
            m <- vset m ind 0 ;;
            m <- vset m 0 (wadd max 1) ;;
            Ok (false, m)
        else
          m <- vset m ind 0 ;;
          r <- for_loop (R := unit) (fun next (_ : unit) =>
                 f <- vget factors next ;;
                 Ok (if max mod f =? 0 then Break tt else Next tt)) (dim - (ind + 1)) (ind + 1) tt ;;
          match r with
          | inl _ => Ub
          | inr (next, _) =>
              if next <? dim then
                f <- vget factors next ;;
                m <- vset m ind 0 ;;
                m <- vset m next (max / f) ;;
                Ok (false, m)
              else if max =? degree then Ok (true, m)
              else
                m <- vset m ind 0 ;;
                m <- vset m 0 (wadd max 1) ;;
                Ok (false, m)
          end
    end.

  Definition increment_w (s : iset) (degree : nat) : mi -> res (bool * mi) :=
    match s with
    | Triangle => tri_increment_w degree
    | Cube => cube_increment_w degree
    | Cross => cross_increment_w degree
    | CrossNc => nc_increment_w degree
    | Rectangle => rect_increment_w degree
    end.

  (** The constructors' enumeration loop on M-bounded words. *)
  Definition iterator_list_w (s : iset) (dim degree : nat) : res (list mi) :=
    enumerate (increment_w s degree) ((degree + 2) ^ dim) (repeat 0 dim).
End Word.
