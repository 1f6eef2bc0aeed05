(** Numbers as [double] computes with them: real numbers, each operation followed by a rounding.  This instance of the parameter [fnum] of the model of transform.cpp, hermite.cpp and
    tensorize.cpp (CalcModel.v, LinModel.v) stands for [double] as long as nothing overflows, underflows or is NaN; the functions of <cmath> and M_PI are parameters. *)
From Coq Require Import ZArith Reals.
From Verif Require Import Num Fnum.
Local Open Scope R_scope.

(** Rounding, and sqrt, cos, sin and M_PI as the compiled code has them (hermite.cpp:29-41, transform.cpp:80-110, 170-181). *)
Record rounding := { rnd : R -> R; r_sqrt : R -> R; r_cos : R -> R; r_sin : R -> R; r_pi : R }.

(** Each operation is rounded once; negation, absolute value and comparisons are exact; integers are rounded when they are converted. *)
Definition fnum_rnd (r : rounding) : fnum :=
  {| fn := {| carrier := R; n0 := 0; n1 := 1; nadd := fun x y => rnd r (x + y); nmul := fun x y => rnd r (x * y); nopp := Ropp; neqb := fun x y => if Req_EM_T x y then true else false |};
     fdiv := fun x y => rnd r (x / y); fsqrt := r_sqrt r; fcos := r_cos r; fsin := r_sin r; fpi := r_pi r; fabs := Rabs;
     fltb := fun x y => if Rlt_dec x y then true else false; fofZ := fun z => rnd r (IZR z) |}.
