(** The words of C109: accuracy, and the sums of absolute values that bound the errors. *)
From Coq Require Import List Arith ZArith Reals.
From Flocq Require Import Zaux Raux Defs Generic_fmt FLX Round_NE.
From Verif Require Import Base IndexModel Num Fnum LinModel LinSpec CalcSpec RndModel.
Import ListNotations.
Local Open Scope R_scope.

(** Every operation has a relative error of at most [u] (for double, 2^-53). *)
Record accurate (u : R) (r : rounding) : Prop := {
  acc_u : 0 <= u < 1;
  acc_rnd : forall x, Rabs (rnd r x - x) <= u * Rabs x;
  acc_sqrt : forall x, 0 <= x -> Rabs (r_sqrt r x - sqrt x) <= u * sqrt x;
  acc_cos : forall x, Rabs (r_cos r x - cos x) <= u * Rabs (cos x);
  acc_sin : forall x, Rabs (r_sin r x - sin x) <= u * Rabs (sin x);
  acc_pi : Rabs (r_pi r - PI) <= u * PI }.

(** The bound for n roundings: n u / (1 - n u). *)
Definition gamma (u : R) (n : nat) : R := INR n * u / (1 - INR n * u).

(** The Hermite polynomials with the signs of all their coefficients, and of x, made positive. *)
Fixpoint He_abs (n : nat) (x : R) : R :=
  match n with
  | O => 1
  | S m => match m with
           | O => Rabs x
           | S k => Rabs x * He_abs m x + INR (S k) * He_abs k x
           end
  end.
Definition hermite_abs (n : nat) (x : R) : R := He_abs n x / sqrt (INR (fact n)).
(** A bound for the Fourier functions and for the effect of a perturbed argument: cos k x and sin k x change by at most k |x| times the relative perturbation of k x. *)
Definition fourier_abs (n : nat) (x : R) : R :=
  if (n =? 0)%nat then 1 / sqrt (2 * PI) else (1 + INR ((n + 1) / 2) * Rabs x) / sqrt PI.
Definition basis_abs (flag n : nat) (x : R) : R := if (flag =? 1)%nat then fourier_abs n x else hermite_abs n x.
Definition phi_abs (flags : list nat) (m : list nat) (x : list R) : R :=
  rprod (map (fun '(f, (n, t)) => basis_abs f n t) (combine flags (combine m x))).

(** The sums that transform and eval compute, with absolute values. *)
Definition quadrature_abs (nodes weights : list (list R)) (values : list R) (g : list R -> R) : R :=
  quadrature nodes (map (map Rabs) weights) (map Rabs values) g.
Definition series_abs (s : iset) (degree : nat) (flags : list nat) (c : list R) (x : list R) : R :=
  rsum (map (fun m => Rabs (@coef num_R s (length flags) degree c m) * phi_abs flags m x) (points s (length flags) degree)).

(** Double precision, rounding to nearest even, with unbounded exponents. *)
Definition double_rnd : R -> R := round radix2 (FLX_exp 53) ZnearestE.
Definition double : rounding := {| rnd := double_rnd; r_sqrt := fun x => double_rnd (sqrt x); r_cos := fun x => double_rnd (cos x); r_sin := fun x => double_rnd (sin x); r_pi := double_rnd PI |}.

(** The recurrence of the triple products with the sign of its negative term made positive: the coefficient of the k-th Hermite polynomial in the product of the j-th one with
    the i-th polynomial of the recurrence p_i = (x p_(i-1) + sqrt (i-1) p_(i-2)) / sqrt i. *)
Fixpoint triple_abs (i j k : nat) : R :=
  match i with
  | O => if (k =? j)%nat then 1 else 0
  | S p => (sqrt (INR (k + 1)) * triple_abs p j (k + 1) + sqrt (INR k) * (match k with O => 0 | S l => triple_abs p j l end)
            + sqrt (INR p) * (match p with O => 0 | S q => triple_abs q j k end)) / sqrt (INR i)
  end.
