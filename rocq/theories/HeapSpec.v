(** Vocabulary for C106. *)
From Coq Require Import String List Bool Arith ZArith.
From Verif Require Import Base IndexModel Num PosModel SeriesModel HeapModel.
Import ListNotations.
Local Open Scope nat_scope.

Section Spec.
Context {N : num} {E : Type}.
(** What series number [r] and array number [k] contain now. *)
Definition series_of (s : state N E) (r : nat) : option (series N E) := option_map (look_at s) (nth_error (objs s) r).
Definition array_of (s : state N E) (k : nat) : option (list N) := option_map (read s) (nth_error (arrs s) k).

(** Two arrays have no element in common. *)
Definition apart (a b : array) : Prop := a_buf a <> a_buf b \/ forall i j, i < a_len a -> j < a_len b -> cell a i <> cell b j.

(** The arrays that a program can reach: those that it holds and the coefficients of the series. *)
Definition known (s : state N E) (a : array) : Prop := In a (arrs s) \/ exists o, In o (objs s) /\ o_coeffs o = a.

(** A call that returned (or raised) what the function of SeriesModel.v returns or raises. *)
Definition agrees (out : state N E * res nat) (p : res (series N E)) : Prop :=
  match p with
  | Ok f => exists r, snd out = Ok r /\ series_of (fst out) r = Some f
  | Ub => snd out = Ub | Exit c => snd out = Exit c | Throw e => snd out = Throw e | NoFuel => snd out = NoFuel
  end.

(** The call writes to no element of the array [a], and the call does not give other coefficients to series number [r]. *)
Definition leaves_array (c : call N E) (s : state N E) (a : array) : Prop :=
  match c with
  | SetItem k _ _ | NewSeries k _ _ _ (S _) => forall b, nth_error (arrs s) k = Some b -> apart b a
  | _ => True
  end.
Definition leaves_series (c : call N E) (r : nat) : Prop := match c with Plot r' => r' <> r | _ => True end.
(** The calls that neither write to an array nor replace one. *)
Definition harmless (c : call N E) : bool := match c with SetItem _ _ _ | NewSeries _ _ _ _ (S _) | Plot _ => false | _ => true end.

(** The calls that compute new coefficients: arithmetic, products, projections, and subdegree to a higher degree. *)
Definition computes (s : state N E) (c : call N E) : Prop :=
  match c with
  | Add _ _ | AddNum _ _ | Scale _ _ | Div _ _ | Sub _ _ | ToCross _ _ | Project _ _ | Tensorize (_ :: _ :: _) => True
  | Subdegree r degree => exists o, nth_error (objs s) r = Some o /\ o_degree o < degree
  | _ => False
  end.
End Spec.
