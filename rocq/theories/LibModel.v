(** Functions of cpp/src/hermite/lib.cpp and project.cpp that hermipy/core.py does not call. *)
From Coq Require Import String List Bool Arith ZArith.
From Verif Require Import Base IndexModel Num LinModel CoreModel.
Import ListNotations.
Local Open Scope nat_scope.

(** isAligned(m, dir), lib.cpp:30-40. *)
Definition is_aligned_dir (m : list nat) (dir : nat) : res bool :=
  r <- for_loop (fun j (_ : unit) =>
         x <- vget m j ;;
         if negb (x =? 0) && negb (j =? dir) then Ok (Return false) else Ok (Next tt))
       (length m) 0 tt ;;
  match r with
  | inl b => Ok b
  | inr _ => Ok true
  end.

(** hash_multi_ind, lib.cpp:63-74.  The addition degree + 1 is one of ints; the others are of unsigned ints. *)
Definition hash_multi_ind (v : list nat) (degree : Z) : res Z :=
  if (degree =? 2 ^ 31 - 1)%Z then Ub else
  let base := u32 (degree + 1) in
  r <- for_each (fun i '(result, unit) =>
         x <- vget v i ;;
         Ok (u32 (result + u32 (Z.of_nat x * unit)), u32 (unit * base)))
       (length v) 0 (0%Z, 1%Z) ;;
  Ok (fst r).

Section Project.
Variable N : num.
(** project_vec_nd and project_vec_1d, project.cpp:60-76. *)
Definition project_vec_nd (input : list N) (dim : nat) (dirs : list nat) (name : string) : res (list N) := s <- cpp_set name ;; project_vec N s input dim dirs.
Definition project_vec_1d (input : list N) (dim dir : nat) (name : string) : res (list N) := project_vec_nd input dim [dir] name.
(** project_mat_nd and project_mat_1d, project.cpp:111-129, for any type of matrices. *)
Definition project_mat_nd (O : matops N) (input : mtype N O) (dim : nat) (dirs : list nat) (name : string) : res (mtype N O) := s <- cpp_set name ;; project_mat N O s input dim dirs.
Definition project_mat_1d (O : matops N) (input : mtype N O) (dim dir : nat) (name : string) : res (mtype N O) := project_mat_nd O input dim [dir] name.
End Project.
