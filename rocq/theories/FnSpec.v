(** Specification vocabulary for the constructor of Function, as_xyz and sanitize. *)
From Coq Require Import String List Bool Arith ZArith Reals.
From Verif Require Import Base PyBase SeriesModel FnModel.
Import ListNotations.
Local Open Scope string_scope. Local Open Scope list_scope. Local Open Scope nat_scope.

(** The coordinate a name stands for: x, y, z, w, v or x0 to x4; other names are parameters. *)
Definition coordinate (name : string) : option nat :=
  if String.eqb name "x" || String.eqb name "x0" then Some 0
  else if String.eqb name "y" || String.eqb name "x1" then Some 1
  else if String.eqb name "z" || String.eqb name "x2" then Some 2
  else if String.eqb name "w" || String.eqb name "x3" then Some 3
  else if String.eqb name "v" || String.eqb name "x4" then Some 4
  else None.

(** The values of the symbols: coordinates by number, parameters by symbol. *)
Definition reading {V : Type} (point : nat -> V) (param : symbol -> V) (s : symbol) : V :=
  match coordinate (fst s) with Some i => point i | None => param s end.

(** What is assumed of sympy: the value of an expression depends on its free symbols; subs replaces a symbol where it stands; expand keeps the value and adds no symbol. *)
Record sympy_laws (V E : Type) (free_symbols : E -> list symbol) (subs : E -> symbol -> symbol -> E) (expand : E -> E) (eval : E -> (symbol -> V) -> V) : Prop := {
  law_free : forall e env env', (forall s, In s (free_symbols e) -> env s = env' s) -> eval e env = eval e env';
  law_subs : forall e s t env, eval (subs e s t) env = eval e (fun u => if symbol_eqb u s then env t else env u);
  law_subs_free : forall e s t u, In u (free_symbols (subs e s t)) -> (In u (free_symbols e) /\ u <> s) \/ (u = t /\ In s (free_symbols e));
  law_expand : forall e env, eval (expand e) env = eval e env;
  law_expand_free : forall e s, In s (free_symbols (expand e)) -> In s (free_symbols e) }.

(** The expression reads the coordinate i, under one of its names. *)
Definition reads {E : Type} (free_symbols : E -> list symbol) (e : E) (i : nat) : Prop := exists s, In s (free_symbols e) /\ coordinate (fst s) = Some i.

(** A fraction with a denominator of at most [D] that is at least as close to [x] as every other one. *)
Definition closest (D : Z) (x r : R) : Prop :=
  (exists p q, (1 <= q <= D)%Z /\ r = (IZR p / IZR q)%R) /\
  forall p q, (1 <= q <= D)%Z -> (Rabs (x - r) <= Rabs (x - IZR p / IZR q))%R.

Definition sum_of (l : list R) : R := fold_right Rplus 0%R l.
Definition product_of (l : list R) : R := fold_right Rmult 1%R l.

(** What is assumed of sympy by sanitize, for the values [value] of expressions at one point: an expression is the sum of its terms and a term the product of its factors. *)
Record parts_laws (E : Type) (float_value : E -> option R) (e_num : R -> E) (e_add e_mul : E -> E -> E) (expand : E -> E) (add_args mul_args : E -> list E) (value : E -> R) : Prop := {
  part_float : forall e x, float_value e = Some x -> value e = x;
  part_num : forall x, value (e_num x) = x;
  part_add : forall a b, value (e_add a b) = (value a + value b)%R;
  part_mul : forall a b, value (e_mul a b) = (value a * value b)%R;
  part_expand : forall e, value (expand e) = value e;
  part_terms : forall e, value e = sum_of (map value (add_args e));
  part_factors : forall e, value e = product_of (map value (mul_args e)) }.

(** The threshold of the code, 1e-14. *)
Definition threshold : R := (/ 10 ^ 14)%R.

(** The size of what stands beside a number in decimal notation: the product of the other factors of a term, and nothing for a term without such a number. *)
Definition beside {E : Type} (float_value : E -> option R) (value : E -> R) (factors : list E) : R :=
  if existsb (fun m => match float_value m with Some _ => true | None => false end) factors
  then Rabs (product_of (map (fun m => match float_value m with Some _ => 1%R | None => value m end) factors)) else 0%R.

(** The numbers in decimal notation among the factors. *)
Definition decimals {E : Type} (float_value : E -> option R) (factors : list E) : list R :=
  flat_map (fun m => match float_value m with Some x => [x] | None => [] end) factors.
