(** Function.split and Function.project, hermipy/function.py. *)
From Coq Require Import String List Bool Arith.
From Verif Require Import Base PyBase PartModel SeriesModel.
Import ListNotations.
Local Open Scope string_scope. Local Open Scope list_scope. Local Open Scope nat_scope.

Section Split.
(** Symbolic expressions; sympy is not modelled.  [e_mul] and [e_1] are [*] and [1], [e_div] is [/]. *)
Variable E : Type.
Variable e_mul : E -> E -> E.
Variable e_div : E -> E -> E.
Variable e_1 : E.
(** [e.args] if [e] is a sympy.Add, [[e]] otherwise; the same for sympy.Mul, function.py:148-149, 153-154. *)
Variable add_args : E -> list E.
Variable mul_args : E -> list E.
(** [frozenset(x_sub.index(v) for v in e.free_symbols.intersection(x_sub))], function.py:161-162. *)
Variable free_vars : E -> fset.

(** A dictionary with frozensets as keys, in insertion order: [key in d], [d[key] *= value], [d[key]], [d[key] = value]. *)
Definition dict := list (fset * E).
Definition d_in (key : fset) (d : dict) : bool := existsb (fun '(k, _) => fs_eqb key k) d.
Fixpoint d_mul (key : fset) (value : E) (d : dict) : dict :=
  match d with
  | [] => []
  | (k, v) :: d => if fs_eqb key k then (k, e_mul v value) :: d else (k, v) :: d_mul key value d
  end.
Fixpoint d_get (key : fset) (d : dict) : res E :=
  match d with
  | [] => Throw "KeyError"
  | (k, v) :: d => if fs_eqb key k then Ok v else d_get key d
  end.
Fixpoint d_set (key : fset) (value : E) (d : dict) : dict :=
  match d with
  | [] => [(key, value)]
  | (k, v) :: d => if fs_eqb key k then (k, value) :: d else (k, v) :: d_set key value d
  end.

(** One turn of the loop over the factors of a term, function.py:160-180. *)
Definition split_arg (result : dict) (arg : E) : dict :=
  let key := free_vars arg in
  if d_in key result then d_mul key arg result
  else
    let '(key, value, keys_intersect) :=
      fold_left (fun '(key, value, ks) '(existing_key, v) =>
          if fs_meets existing_key key then (fs_union existing_key key, e_mul value v, ks ++ [existing_key])
          else (key, value, ks)) result (key, arg, []) in
    d_set key value (filter (fun '(k, _) => negb (ps_in k keys_intersect)) result).

(** The dictionary of a term, function.py:152-180. *)
Definition split_term (dirs : list nat) (term : E) : dict :=
  fold_left split_arg (mul_args term) (map (fun d => ([d], e_1)) dirs ++ [([], e_1)]).

(** Function.split(legacy=False), function.py:146-194.  Simplification: the values remain expressions (the code wraps them
    in Functions on the variables of the key: [list(key)] is increasing, since CPython enumerates sets of small ints in
    order). *)
Definition fun_split (f : func E) : list dict := map (split_term (f_dirs f)) (add_args (f_sym f)).

(** The result of Function.split(legacy=True) for a term, function.py:182-190: the functions and the constant. *)
Definition split_legacy_term (dirs : list nat) (term : E) : res (list (func E) * E) :=
  let result := split_term dirs term in
  multiplicator <- d_get [] result ;;
  fs <- (if length result =? length dirs + 1
         then mapM (fun d => e <- d_get [d] result ;; Ok (Fn e [d])) dirs
         else Ok [Fn (e_div term multiplicator) dirs]) ;;
  Ok (fs, multiplicator).

(** [v.issubset(dirs)]. *)
Definition subset (a b : list nat) : bool := forallb (fun x => py_in x b) a.

(** Function.project, function.py:125-144, for a list of directions. *)
Definition fun_project (f : func E) (dirs : list nat) : res (func E) :=
  match fun_split f with
  | [split] =>
      first <- py_get (f_dirs f) 0 ;;
      result <- (if py_in first dirs then d_get [] split else Ok e_1) ;;
      result <- for_in (fun '(v, term) result =>
          if subset v dirs && negb (fs_eqb v []) then Ok (e_mul result term)
          else if negb (fs_eqb dirs []) && subset dirs v then Throw "ValueError"
          else Ok result) split result ;;
      _ <- require (nats_eqb dirs (py_sorted dirs)) "ValueError" ;;
      Ok (Fn result dirs)
  | _ => Throw "ValueError"
  end.
End Split.
