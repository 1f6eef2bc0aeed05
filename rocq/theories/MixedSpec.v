(** What expressions of series, forms and numbers mean. *)
From Coq Require Import String List Bool Arith Reals.
From Verif Require Import Base IndexModel Num PosModel SeriesModel MixedModel.
Import ListNotations.
Local Open Scope string_scope. Local Open Scope list_scope. Local Open Scope nat_scope.

Inductive kind := KNum | KSer | KForm | KNone.
(** What an operator does with operands of two kinds: it gives a result of some kind, raises an exception, or multiplies two series or two
    forms, which C64 and C69 describe. *)
Inductive verdict := Gives (k : kind) | Raises (what : string) | Product.

Definition on_add (a b : kind) : verdict :=
  match a, b with
  | KNum, KNum => Gives KNum
  | KSer, KNum | KSer, KSer => Gives KSer
  | KForm, KNum | KNum, KForm | KForm, KForm => Gives KForm
  | _, _ => Raises "TypeError"
  end.
Definition on_sub (a b : kind) : verdict :=
  match a, b with
  | KNum, KNum => Gives KNum
  | KSer, KNum | KSer, KSer => Gives KSer
  | KForm, KNum | KForm, KForm => Gives KForm
  | _, _ => Raises "TypeError"
  end.
Definition on_mul (a b : kind) : verdict :=
  match a, b with
  | KNum, KNum => Gives KNum
  | KSer, KNum | KNum, KSer => Gives KSer
  | KForm, KNum | KNum, KForm => Gives KForm
  | KSer, KSer | KForm, KForm => Product
  | _, _ => Raises "TypeError"
  end.
Definition on_div (a b : kind) : verdict :=
  match a, b with
  | KNum, KNum => Gives KNum
  | KSer, KNum => Gives KSer
  | KSer, _ => Raises "ValueError"
  | _, _ => Raises "TypeError"
  end.
Definition on_neg (a : kind) : verdict := match a with KNone => Raises "TypeError" | _ => Gives a end.

Section Spec.
Variable E : Type.

Definition kind_of (a : object E) : kind := match a with ONum _ => KNum | OSer _ => KSer | OVarf _ => KForm | ONone => KNone end.

(** The first exception in the order of evaluation, or the kind of the result. *)
Definition both (on : kind -> kind -> verdict) (a b : verdict) : verdict :=
  match a with Gives k => match b with Gives k' => on k k' | _ => b end | _ => a end.
Fixpoint infer (e : expr E) : verdict :=
  match e with
  | Val a => Gives (kind_of a)
  | Add a b => both on_add (infer a) (infer b)
  | Sub a b => both on_sub (infer a) (infer b)
  | Mul a b => both on_mul (infer a) (infer b)
  | Div a b => both on_div (infer a) (infer b)
  | Neg a => match infer a with Gives k => on_neg k | v => v end
  end.

(** The entry of an object at row i and column j: a number has the same entry everywhere, a series has one column. *)
Definition entry_of (i j : nat) (a : object E) : R :=
  match a with
  | ONum x => x
  | OSer f => nth i (s_coeffs f) 0%R
  | OVarf v => nth j (nth i (v_mat v) []) 0%R
  | ONone => 0%R
  end.
(** The meaning of an expression, entry by entry. *)
Fixpoint denote (i j : nat) (e : expr E) : R :=
  match e with
  | Val a => entry_of i j a
  | Add a b => denote i j a + denote i j b
  | Sub a b => denote i j a - denote i j b
  | Mul a b => denote i j a * denote i j b
  | Div a b => denote i j a / denote i j b
  | Neg a => - denote i j a
  end%R.
(** No division by a number that is zero. *)
Fixpoint safe (e : expr E) : Prop :=
  match e with
  | Val a => True
  | Add a b | Sub a b | Mul a b => safe a /\ safe b
  | Div a b => safe a /\ safe b /\ (infer b = Gives KNum -> denote 0 0 b <> 0%R)
  | Neg a => safe a
  end.

(** Series and forms at a position, with an index set, a factor and n indices, as the constructors make them. *)
Variable e_1 : E.
Definition fits (p : position num_R) (s : iset) (factor : func E) (n : nat) (a : object E) : Prop :=
  match a with
  | OSer f => series_init num_R E e_1 (s_coeffs f) p (Some factor) s = Ok f /\ length (s_coeffs f) = n
  | OVarf v => varf_init num_R E e_1 (v_mat v) p (Some factor) s = Ok v /\ length (v_mat v) = n /\ Forall (fun row => length row = n) (v_mat v)
  | _ => True
  end.
Fixpoint leaves (e : expr E) : list (object E) :=
  match e with
  | Val a => [a]
  | Add a b | Sub a b | Mul a b | Div a b => leaves a ++ leaves b
  | Neg a => leaves a
  end.
End Spec.
