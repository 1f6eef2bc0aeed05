(** The build with DEBUG (Makefile:7-8, CMakeLists.txt:7): the checks that it adds to tensorize.cpp.  The assertions there (tensorize.cpp:165-171, 216-218, 292)
    are not part of any build: CMAKE_CXX_FLAGS_DEBUG is made of the release flags, which define NDEBUG, and tensorize.cpp:165 tests DEGUB.  What
    the debug build prints is not modelled. *)
From Coq Require Import List Bool Arith ZArith.
From Verif Require Import Base IndexModel Num LinModel.
Import ListNotations.
Local Open Scope list_scope. Local Open Scope nat_scope.

(** check_dims, tensorize.cpp:40-69: std::vector<bool>::operator[] does not check its argument. *)
Definition check_dims (dirs : list (list nat)) (dim : nat) : res unit :=
  dirs_present <- for_in (fun di present =>
      for_in (fun dir (present : list bool) =>
          b <- vget present dir ;;
          if b : bool then Exit 1 else vset present dir true) di present)
    dirs (repeat false dim) ;;
  for_in (fun (b : bool) _ => if b then Ok tt else Exit 1) dirs_present tt.

(** check_degree<Iterator>, tensorize.cpp:71-81. *)
Definition check_degree (s : iset) (size : Z) (dim degree : nat) : res unit :=
  n_polys <- s_size s dim degree ;;
  if (n_polys =? size)%Z then Ok tt else Exit 1.

Section Debug.
Variable N : num.

(** The loop over the inputs, tensorize.cpp:103-104 (from 0) and 311-312 (from 1). *)
Definition check_degrees (s : iset) (sizes : list Z) (dirs : list (list nat)) (first : nat) (degree n : nat) : res unit :=
  for_each (fun i _ =>
      size <- vget sizes i ;;
      di <- vget dirs i ;;
      check_degree s size (length di) degree) (n - first) first tt.

(** tensorize (vectors) with DEBUG, tensorize.cpp:86-122: the lines before the checks are repeated by [tensorize_vec]. *)
Definition tensorize_vec_debug (s : iset) (inputs : list (list N)) (dirs : list (list nat)) : res (list N) :=
  let dims := map (@length nat) dirs in
  let dim := list_sum dims in
  dims0 <- vget dims 0 ;;
  input0 <- vget inputs 0 ;;
  degree <- s_get_degree s dims0 (usize input0) ;;
  _ <- mapM (fun d => make_iterator s d degree) dims ;;
  _ <- check_dims dirs dim ;;
  _ <- check_degrees s (map usize inputs) dirs 0 degree (length dirs) ;;
  tensorize_vec N s inputs dirs.

(** The checks of _tensorize_mats_dirs with DEBUG, tensorize.cpp:307-313, for inputs with these numbers of rows. *)
Definition check_mats (s : iset) (rows : list nat) (dirs : list (list nat)) : res unit :=
  let dims := map (@length nat) dirs in
  let sizes := map (fun n => u32 (Z.of_nat n)) rows in
  _ <- check_dims dirs (list_sum dims) ;;
  dims0 <- vget dims 0 ;;
  rows0 <- vget sizes 0 ;;
  degree <- s_get_degree s dims0 rows0 ;;
  check_degrees s sizes dirs 1 degree (length rows).

(** tensorize_mats_dirs with DEBUG, tensorize.cpp:285-335, for dense matrices and for sparse ones. *)
Definition tensorize_mats_debug (s : iset) (inputs : list (list (list N))) (dirs : list (list nat)) : res (list (list N)) :=
  sp_inputs <- mapM (to_spmat N) inputs ;;
  _ <- check_mats s (map (mat_size1 N) inputs) dirs ;;
  result <- tensorize_sps N s sp_inputs dirs ;;
  full N result.
Definition tensorize_sps_debug (s : iset) (inputs : list (spmat N)) (dirs : list (list nat)) : res (spmat N) :=
  _ <- check_mats s (map (sp_size1 N) inputs) dirs ;;
  tensorize_sps N s inputs dirs.
End Debug.
