(** The operators on vectors and matrices of templates.hpp and templates.cpp, the conversions through ublas matrices of
    matrix.cpp, and the printing of io.hpp.
    Simplifications: [unsigned int] counters do not wrap (sizes below 2^32); an access outside a ublas matrix is
    undefined even when it stays inside the buffer; the C++ stream is the string written to it. *)
From Coq Require Import String List Bool Arith.
From Verif Require Import Base Num Fnum LinModel.
Import ListNotations.
Local Open Scope string_scope.
Local Open Scope list_scope.
Local Open Scope nat_scope.

Section Algebra.
Variable N : num.
Notation vec := (list N).
Notation mat := (list (list N)).

(** operator*(mat, mat), templates.cpp:25-35: every loop runs up to mat1.size(). *)
Definition mat_mul (A B : mat) : res mat :=
  let n := length A in
  for_each (fun i R => for_each (fun j R => for_each (fun k R =>
    r <- mat_get N R i j ;; a <- mat_get N A i k ;; b <- mat_get N B k j ;; mat_set N R i j (nadd r (nmul a b)))
    n 0 R) n 0 R) n 0 (mat_construct N n n).

(** operator*(mat, vec), templates.cpp:37-45. *)
Definition mat_vec (A : mat) (v : vec) : res vec :=
  let n := length A in
  for_each (fun i R => for_each (fun j R =>
    r <- vget R i ;; a <- mat_get N A i j ;; x <- vget v j ;; vset R i (nadd r (nmul a x))) n 0 R) n 0 (repeat n0 n).

(** operator*(vec, vec), templates.cpp:47-53. *)
Definition vec_dot (v1 v2 : vec) : res N :=
  for_each (fun i r => a <- vget v1 i ;; b <- vget v2 i ;; Ok (nadd r (nmul a b))) (length v1) 0 n0.

(** operator- and operator+ for vectors of any type, templates.hpp:30-44: [result(v1.size())] holds default elements. *)
Definition binop {T} (zero : T) (op : T -> T -> res T) (v1 v2 : list T) : res (list T) :=
  for_each (fun i R => a <- vget v1 i ;; b <- vget v2 i ;; c <- op a b ;; vset R i c) (length v1) 0 (repeat zero (length v1)).
Definition vec_sub : vec -> vec -> res vec := binop n0 (fun a b => Ok (nsub a b)).
Definition vec_add : vec -> vec -> res vec := binop n0 (fun a b => Ok (nadd a b)).
Definition mat_sub : mat -> mat -> res mat := binop [] vec_sub.
Definition mat_add : mat -> mat -> res mat := binop [] vec_add.

(** operator*(vector, double), templates.hpp:55-61. *)
Definition scale {T} (op : T -> res T) (v : list T) : res (list T) :=
  for_each (fun i R => a <- vget R i ;; c <- op a ;; vset R i c) (length v) 0 v.
Definition vec_scale (v : vec) (x : N) : res vec := scale (fun a => Ok (nmul a x)) v.
Definition mat_scale (A : mat) (x : N) : res mat := scale (fun row => vec_scale row x) A.

(** [ublas::matrix], row-major; construct, size1, size2, get and set of matrix.hpp:33-91, matrix.cpp:40-43. *)
Record boost_mat := { b_size1 : nat; b_size2 : nat; b_data : list N }.
Definition b_construct (n m : nat) : boost_mat := {| b_size1 := n; b_size2 := m; b_data := repeat n0 (n * m) |}.
Definition b_get (A : boost_mat) (i j : nat) : res N :=
  if (i <? b_size1 A) && (j <? b_size2 A) then vget (b_data A) (i * b_size2 A + j) else Ub.
Definition b_set (A : boost_mat) (i j : nat) (x : N) : res boost_mat :=
  if (i <? b_size1 A) && (j <? b_size2 A) then
    d <- vset (b_data A) (i * b_size2 A + j) x ;; Ok {| b_size1 := b_size1 A; b_size2 := b_size2 A; b_data := d |}
  else Ub.

(** naive_convert, matrix.cpp:51-59: size2 is read before the loops. *)
Definition naive_convert {R T} (construct : nat -> nat -> R) (set : R -> nat -> nat -> N -> res R)
    (size1 : T -> nat) (size2 : T -> res nat) (get : T -> nat -> nat -> res N) (input : T) : res R :=
  m <- size2 input ;;
  for_each (fun i r => for_each (fun j r => x <- get input i j ;; set r i j x) m 0 r) (size1 input) 0 (construct (size1 input) m).
(** convert to and from ublas matrices, matrix.cpp:84-97. *)
Definition mat_to_boost : mat -> res boost_mat :=
  naive_convert b_construct b_set (mat_size1 N) (mat_size2 N) (mat_get N).
Definition boost_to_mat : boost_mat -> res mat :=
  naive_convert (mat_construct N) (mat_set N) b_size1 (fun A => Ok (b_size2 A)) b_get.
Definition sp_to_boost : spmat N -> res boost_mat :=
  naive_convert b_construct b_set (sp_size1 N) (fun A => Ok (sp_size2 N A)) (sp_get N).
End Algebra.

(** fabs, templates.hpp:46-53, on vectors and on matrices. *)
Definition norm (F : fnum) {T} (f : T -> res F) (v : list T) : res F :=
  s <- for_each (fun i s => a <- vget v i ;; r <- f a ;; Ok (nadd s (nmul r r))) (length v) 0 (n0 : F) ;; Ok (fsqrt s).
Definition vec_norm (F : fnum) (v : list F) : res F := norm F (fun x => Ok (fabs x)) v.
Definition mat_norm (F : fnum) (A : list (list F)) : res F := norm F (vec_norm F) A.

(** printVec, printMat and printCube, io.hpp:30-82; [show] writes one element. *)
Definition print {T} (sep close : string) (show : T -> res string) (l : list T) : res string :=
  a <- vget l 0 ;; s <- show a ;;
  t <- for_each (fun i t => a <- vget l i ;; s <- show a ;; Ok (t ++ sep ++ s)%string) (length l - 1) 1 ("[" ++ s)%string ;; Ok (t ++ close)%string.
Definition endl : string := String (Ascii.ascii_of_nat 10) "".
Definition print_vec {T} (show : T -> string) : list T -> res string := print ", " "]" (fun a => Ok (show a)).
Definition print_mat {T} (show : T -> string) : list (list T) -> res string := print (endl ++ " ")%string "]" (print_vec show).
Definition print_cube {T} (show : T -> string) : list (list (list T)) -> res string := print (endl ++ "  ")%string ("]" ++ endl)%string (print_mat show).
