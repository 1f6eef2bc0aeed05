(** Varf.solve, hermipy/varf.py. *)
From Coq Require Import String List Bool Arith ZArith.
From Verif Require Import Base IndexModel Num LinModel PyBase PosModel SeriesModel PartModel SplitModel MulModel.
Import ListNotations.
Local Open Scope string_scope. Local Open Scope list_scope. Local Open Scope nat_scope.

Section Solve.
Variable N : num.
(** See PosModel.v, SeriesModel.v and MulModel.v. *)
Variable far_from_diag : list (list N) -> bool.
Variable E : Type.
Variable e_mul e_div : E -> E -> E.
Variable e_1 : E.
Variable add_args mul_args : E -> list E.
Variable free_vars : E -> fset.
Variable sym_eqb : E -> E -> bool.
Variable pos_eqb : position N -> position N -> bool.
(** [x / y] and [np.sqrt] on numbers. *)
Variable ndiv : N -> N -> N.
Variable nsqrt : N -> N.
(** [la.solve] or [spla.spsolve] (through the cache): the linear solver, not modelled; it may raise. *)
Variable lin_solve : list (list N) -> list N -> res (list N).
(** The eigenvector for the eigenvalue of smallest modulus, [self.eigs(k=1, which='SM')], varf.py:184: not modelled. *)
Variable small_eig : list (list N) -> res (list N).

(** Series.__truediv__, series.py:158-163. *)
Definition series_div (f : series N E) (a : N) : res (series N E) :=
  series_init N E e_1 (map (fun x => ndiv x a) (s_coeffs f)) (s_pos f) (Some (s_factor f)) (s_set f).

(** The keyword arguments remove0 and remove_vec. *)
Inductive removal := Keep | Remove0 | RemoveVec (vec : series N E).

(** [hstack((vstack((A, v)), np.array([[*v, 0]]).T))], varf.py:197-198: ValueError if the shapes do not fit. *)
Definition border (A : list (list N)) (v : list N) : res (list (list N)) :=
  _ <- require (forallb (fun row => length row =? length v) A) "ValueError" ;;
  let matrix := A ++ [v] in
  let column := v ++ [n0] in
  _ <- require (length matrix =? length column) "ValueError" ;;
  Ok (map (fun '(row, x) => row ++ [x]) (combine matrix column)).

(** Varf.solve with use_gmres=False, varf.py:170-225.  Printing is not modelled, but [e], varf.py:191, is computed. *)
Definition varf_solve (a : varf N E) (b : series N E) (rem : removal) : res (series N E) :=
  _ <- require (pos_eqb (v_pos a) (s_pos b) && iset_eqb (v_set a) (s_set b)) "ValueError" ;;
  v <- match rem with
       | Keep => Ok None
       | Remove0 => v <- small_eig (v_mat a) ;; s <- series_init N E e_1 v (v_pos a) (Some (v_factor a)) (v_set a) ;; Ok (Some s)
       | RemoveVec vec =>
           norm2 <- series_mul N far_from_diag E e_mul e_div e_1 add_args mul_args free_vars sym_eqb vec vec ;;
           norm2 <- series_float N E norm2 ;;
           vec <- series_div vec (nsqrt norm2) ;;
           image <- varf_call N E e_1 pos_eqb a vec ;;
           e <- series_mul N far_from_diag E e_mul e_div e_1 add_args mul_args free_vars sym_eqb vec image ;;
           e <- series_float N E e ;;
           Ok (Some vec)
       end ;;
  match v with
  | None =>
      solution <- lin_solve (v_mat a) (s_coeffs b) ;;
      series_init N E e_1 solution (v_pos a) (Some (v_factor a)) (v_set a)
  | Some v =>
      matrix <- border (v_mat a) (s_coeffs v) ;;
      solution <- lin_solve matrix (s_coeffs b ++ [n0]) ;;
      series_init N E e_1 (removelast solution) (v_pos a) (Some (v_factor a)) (v_set a)
  end.
End Solve.
Arguments Keep {N E}. Arguments Remove0 {N E}. Arguments RemoveVec {N E}.
