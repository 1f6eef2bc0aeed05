(** Products of series: what the arguments must satisfy. *)
From Coq Require Import String List Bool Arith.
From Verif Require Import Base IndexModel Num LinSpec PosModel PosSpec SeriesModel SeriesSpec.
Import ListNotations.

(** Two series on the directions [d1] and [d2] (increasing), with the same index set and degree; on the directions they share, the means and variances are the same. *)
Definition multipliable {N : num} {Sym} (f g : series N Sym) (d1 d2 : list nat) : Prop :=
  series_ok f (length d1) /\ series_ok g (length d2) /\ p_dirs (s_pos f) = d1 /\ p_dirs (s_pos g) = d2 /\ increasing d1 /\ increasing d2 /\
  pos_ok (s_pos f) /\ pos_ok (s_pos g) /\ ~ conflict [s_pos f; s_pos g] /\ s_set f = s_set g /\ s_degree f = s_degree g.

(** For the examples: division of an expression of SplitSpec.v (the factors whose variables are not among those of the divisor) and structural equality. *)
From Coq Require Import ZArith.
From Verif Require Import SplitSpec.
Definition x_div (a b : expr) : expr := fold_right EMul (EInt 1) (filter (fun e => forallb (fun x => negb (existsb (Nat.eqb x) (x_free b))) (x_free e)) (x_mul_args a)).
Fixpoint x_eqb (a b : expr) : bool :=
  match a, b with
  | EInt x, EInt y => Z.eqb x y
  | EVar x, EVar y => Nat.eqb x y
  | EMul a a', EMul b b' | EAdd a a', EAdd b b' => x_eqb a b && x_eqb a' b'
  | EAbs a, EAbs b => x_eqb a b
  | _, _ => false
  end.
(** A series of degree 1 on the directions [d], with mean 0 and covariance the identity. *)
Definition std_pos {N : num} (d : list nat) : position N := Pos d (repeat n0 (length d)) (eye N (length d)) (repeat "hermite"%string (length d)) true.
Definition ser_x {N : num} (d : list nat) (factor : expr) (coeffs : list N) : series N expr := Ser coeffs (std_pos d) Triangle 1 (Fn factor d).
