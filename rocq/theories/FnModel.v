(** The constructor of Function, as_xyz and sanitize, hermipy/function.py. *)
From Coq Require Import String List Bool Arith.
From Verif Require Import Base PyBase Num SeriesModel.
Import ListNotations.
Local Open Scope string_scope. Local Open Scope list_scope. Local Open Scope nat_scope.

(** A sympy symbol: its name and whether it was made with real=True; symbols with one name and other assumptions are different. *)
Definition symbol : Type := string * bool.
Definition symbol_eqb (s t : symbol) : bool := String.eqb (fst s) (fst t) && Bool.eqb (snd s) (snd t).

(** Function.xyz and Function.x_sub, function.py:25-30. *)
Definition xyz : list symbol := [("x", true); ("y", true); ("z", true); ("w", true); ("v", true)].
Definition x_sub : list symbol := [("x0", true); ("x1", true); ("x2", true); ("x3", true); ("x4", true)].

(** The dict Function.conv, function.py:32-35: the names of both lists. *)
Fixpoint name_index (l : list symbol) (name : string) : option nat :=
  match l with
  | [] => None
  | s :: l => if String.eqb (fst s) name then Some 0 else match name_index l name with Some i => Some (S i) | None => None end
  end.
Definition conv (name : string) : option symbol :=
  match name_index xyz name with
  | Some i => nth_error x_sub i
  | None => match name_index x_sub name with Some i => nth_error x_sub i | None => None end
  end.

Section Fn.
(** Symbolic expressions with free_symbols (a set, in the order in which it is enumerated), subs of a symbol by a symbol, and expand. *)
Variable E : Type.
Variable free_symbols : E -> list symbol.
Variable subs : E -> symbol -> symbol -> E.
Variable expand : E -> E.

(** function.py:57-59. *)
Definition convert (expr : E) : E :=
  fold_left (fun expr s => match conv (fst s) with Some t => subs expr s t | None => expr end) (free_symbols expr) expr.

(** [expr.free_symbols.intersection(x_sub)] by number, function.py:62. *)
Definition variables (expr : E) : list nat :=
  flat_map (fun s => match find (fun i => match nth_error x_sub i with Some t => symbol_eqb s t | None => false end) (seq 0 (length x_sub)) with Some i => [i] | None => [] end) (free_symbols expr).

(** function.py:74: the set comprehension reads x_sub[d] for every direction. *)
Definition check (vars dirs : list nat) : res unit :=
  _ <- mapM (fun d => py_get x_sub d) dirs ;;
  require (forallb (fun v => py_in v dirs) vars) "AssertionError".

(** Function.__init__, function.py:47-74, for an expression ([Function(f)] copies; sympify of strings and numbers is not modelled). *)
Definition fn_new (expr : E) (dirs : option (list nat)) (dim : option nat) : res (func E) :=
  let expr := convert expr in
  let sym := expand expr in
  let vars := variables expr in
  dirs <- match dirs, dim with
          | Some dirs, _ => _ <- require (match dim with None => true | Some _ => false end && nats_eqb dirs (py_sorted dirs)) "ValueError" ;; Ok dirs
          | None, Some dim => Ok (seq 0 dim)
          | None, None => Ok (seq 0 (match vars with [] => 0 | _ => S (fold_right Nat.max 0 vars) end))
          end ;;
  _ <- check vars dirs ;;
  Ok (Fn sym dirs).

(** Function.as_xyz, function.py:112-116; Operator.as_xyz, operator.py:103-105, with the same pairs in the same order. *)
Definition as_xyz (f : func E) : E := fold_left (fun e '(s, t) => subs e s t) (combine x_sub xyz) (f_sym f).
End Fn.

Section Sanitize.
Variable N : num.
Variable E : Type.
(** [abs(x) < 1e-14]; [Rational(x).limit_denominator(max_denom)] as a number. *)
Variable tiny : N -> bool.
Variable limit : N -> N.
(** The value of a sympy.Float; the number as an expression; sum and product; expand; the arguments of a sum and of a product. *)
Variable float_value : E -> option N.
Variable e_num : N -> E.
Variable e_add e_mul : E -> E -> E.
Variable expand : E -> E.
Variable add_args mul_args : E -> list E.

(** The body of the inner loop, function.py:206-209. *)
Definition clean (mterm : E) : E := match float_value mterm with Some x => e_num (limit (if tiny x then n0 else x)) | None => mterm end.

(** Function.sanitize, function.py:196-212. *)
Definition sanitize (expr : E) : E :=
  fold_left (fun result aterm => e_add result (fold_left (fun result_tmp mterm => e_mul result_tmp (clean mterm)) (mul_args aterm) (e_num n1))) (add_args (expand expr)) (e_num n0).
End Sanitize.
