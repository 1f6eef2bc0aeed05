(** Floating-point numbers with the functions of <cmath> the code calls.  The model is parametric in them, so a
    theorem that quantifies over [fnum] holds for IEEE doubles too; the analytic theorems are about [fnum_R], the
    idealisation of [double] by the real numbers (no rounding, no overflow, no NaN). *)
From Coq Require Import ZArith Reals.
From Verif Require Import Num.

Record fnum := {
  fn :> num;
  fdiv : fn -> fn -> fn;
  fsqrt : fn -> fn;
  fcos : fn -> fn;
  fsin : fn -> fn;
  fpi : fn;                     (* M_PI *)
  fabs : fn -> fn;
  fltb : fn -> fn -> bool;      (* < *)
  fofZ : Z -> fn }.             (* conversion from an integer type *)
Arguments fdiv {f}. Arguments fsqrt {f}. Arguments fcos {f}. Arguments fsin {f}. Arguments fpi {f}.
Arguments fabs {f}. Arguments fltb {f}. Arguments fofZ {f}.

(** Subtraction. *)
Definition nsub {N : num} (x y : N) : N := nadd x (nopp y).

Definition fnum_R : fnum :=
  {| fn := num_R; fdiv := Rdiv; fsqrt := sqrt; fcos := cos; fsin := sin; fpi := PI; fabs := Rabs;
     fltb := fun x y => if Rlt_dec x y then true else false; fofZ := IZR |}.

(** A computable instance used only in examples: integers, with the irrational functions replaced by stand-ins
    (square root and quotient rounded down, cos and sin constant). *)
Definition fnum_Z : fnum :=
  {| fn := num_Z; fdiv := Z.div; fsqrt := Z.sqrt; fcos := fun _ => 1%Z; fsin := fun _ => 0%Z; fpi := 3%Z; fabs := Z.abs;
     fltb := Z.ltb; fofZ := fun z => z |}.
