(** Varf.eigs and Varf.solve with use_gmres=True, hermipy/varf.py. *)
From Coq Require Import String List Bool Arith Reals.
From Verif Require Import Base IndexModel Num LinModel PyBase PosModel SeriesModel EigSpec.
Import ListNotations.
Local Open Scope string_scope. Local Open Scope list_scope. Local Open Scope nat_scope.

Section Eig.
Variable E : Type.
Variable e_1 : E.
(** [spla.eigs] (through the cache, see C55): the eigenvalues, and the eigenvectors, the columns of the matrix it returns.  Not modelled; it may raise. *)
Variable la_eigs : list (list num_C) -> res (list num_C * list (list num_C)).

(** [v if la.norm(iv) > 1e-15 else rv], varf.py:233-234. *)
Definition real_part (v : list num_C) : list num_C := map (fun x => (fst x, 0%R)) v.
Definition keep_imag (v : list num_C) : list num_C := if Rlt_dec (/ 10 ^ 15) (norm2 (map snd v)) then v else real_part v.

(** Varf.eigs, varf.py:228-237. *)
Definition varf_eigs (a : varf num_C E) : res (list num_C * list (series num_C E)) :=
  '(eig_vals, eig_vecs) <- la_eigs (v_mat a) ;;
  result <- mapM (fun v => series_init num_C E e_1 (keep_imag v) (v_pos a) (Some (v_factor a)) (v_set a)) eig_vecs ;;
  Ok (eig_vals, result).

(** [[e], [s] = self.eigs(k=1, which='SM')], varf.py:184, and then [s.coeffs]: the unpacking raises ValueError unless there is one eigenvalue and one eigenvector. *)
Definition smallest (a : varf num_C E) : res (list num_C) :=
  '(eig_vals, result) <- varf_eigs a ;;
  match eig_vals, result with
  | [e], [s] => Ok (s_coeffs s)
  | _, _ => Throw "ValueError"
  end.
End Eig.

(** The solver of Varf.solve with use_gmres=True, varf.py:209-216: [M] is assigned only for the preconditioner 'ilu', and of the pair that SciPy's gmres returns only the
    vector is used, not the number that tells whether the iteration has converged. *)
Definition gmres_solver (N : num) (ilu : bool) (gmres : list (list N) -> list N -> res (list N * nat)) (A : list (list N)) (b : list N) : res (list N) :=
  if ilu then '(x, info) <- gmres A b ;; Ok x else Throw "UnboundLocalError".
