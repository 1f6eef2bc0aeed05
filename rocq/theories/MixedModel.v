(** Python's operators on series, forms, numbers and other objects: the methods __add__, __radd__, __sub__, __mul__, __rmul__, __neg__ and
    __truediv__ of Series and Varf, and how Python chooses among them. *)
From Coq Require Import String List Bool Arith ZArith Reals.
From Verif Require Import Base IndexModel Num PyBase PosModel PartModel SplitModel SeriesModel MulModel TensVarfModel.
Import ListNotations.
Local Open Scope string_scope. Local Open Scope list_scope. Local Open Scope nat_scope.

Section Mixed.
Variable E : Type.
Variable e_mul e_div : E -> E -> E.
Variable e_1 : E.
Variable add_args mul_args : E -> list E.
Variable free_vars : E -> fset.
Variable sym_eqb : E -> E -> bool.
Variable far_from_diag : list (list R) -> bool.
Variable pos_eqb : position num_R -> position num_R -> bool.

(** A Python object: an int, float or np.float64 (as a real number: rounding is not modelled), a Series, a Varf with a dense matrix, or an
    object that no operator accepts, such as None. *)
Inductive object := ONum (x : R) | OSer (f : series num_R E) | OVarf (v : varf num_R E) | ONone.

(** Series.__add__, series.py:115-133. *)
Definition ser_add (f : series num_R E) (other : object) : res object :=
  match other with
  | ONum x => h <- series_init num_R E e_1 (map (fun c => (c + x)%R) (s_coeffs f)) (s_pos f) (Some (s_factor f)) (s_set f) ;; Ok (OSer h)
  | OSer g => h <- series_add num_R E sym_eqb e_1 pos_eqb f g ;; Ok (OSer h)
  | _ => Throw "TypeError"
  end.

(** Series.__mul__, which is also __rmul__, series.py:135-150. *)
Definition ser_mul (f : series num_R E) (other : object) : res object :=
  match other with
  | ONum x => h <- series_scale num_R E e_1 x f ;; Ok (OSer h)
  | OSer g => h <- series_mul num_R far_from_diag E e_mul e_div e_1 add_args mul_args free_vars sym_eqb f g ;; Ok (OSer h)
  | _ => Throw "TypeError"
  end.

(** Series.__truediv__, series.py:158-163.  Division by 0 gives infinities and nans, which are not real numbers. *)
Definition ser_div (f : series num_R E) (other : object) : res object :=
  match other with
  | ONum x => if Req_EM_T x 0 then Throw "not real" else h <- series_init num_R E e_1 (map (fun c => (c / x)%R) (s_coeffs f)) (s_pos f) (Some (s_factor f)) (s_set f) ;; Ok (OSer h)
  | _ => Throw "ValueError"
  end.

(** Varf.__add__, which is also __radd__, varf.py:85-101 and 119. *)
Definition form_add (v : varf num_R E) (other : object) : res object :=
  match other with
  | ONum x => h <- varf_init num_R E e_1 (map (map (fun c => (c + x)%R)) (v_mat v)) (v_pos v) (Some (v_factor v)) (v_set v) ;; Ok (OVarf h)
  | OVarf w => h <- varf_add num_R E sym_eqb e_1 pos_eqb v w ;; Ok (OVarf h)
  | _ => Throw "TypeError"
  end.

(** Varf.__mul__, which is also __rmul__, varf.py:103-118. *)
Definition form_mul (v : varf num_R E) (other : object) : res object :=
  match other with
  | ONum x => h <- varf_scale num_R E e_1 x v ;; Ok (OVarf h)
  | OVarf w => h <- varf_mul num_R far_from_diag E e_mul e_1 free_vars v w ;; Ok (OVarf h)
  | _ => Throw "TypeError"
  end.

(** [a + b], [a * b] and [a / b]: the method of the left operand if it has one, else the reflected method of the right operand, else
    TypeError.  Series has no __radd__; neither class has __rsub__ or __rtruediv__, and Varf has no __truediv__. *)
Definition py_add (a b : object) : res object :=
  match a, b with
  | OSer f, _ => ser_add f b
  | OVarf v, _ => form_add v b
  | ONum x, ONum y => Ok (ONum (x + y))
  | _, OVarf w => form_add w a
  | _, _ => Throw "TypeError"
  end.
Definition py_mul (a b : object) : res object :=
  match a, b with
  | OSer f, _ => ser_mul f b
  | OVarf v, _ => form_mul v b
  | ONum x, ONum y => Ok (ONum (x * y))
  | _, OSer g => ser_mul g a
  | _, OVarf w => form_mul w a
  | _, _ => Throw "TypeError"
  end.
Definition py_div (a b : object) : res object :=
  match a, b with
  | OSer f, _ => ser_div f b
  | ONum x, ONum y => if Req_EM_T y 0 then Throw "ZeroDivisionError" else Ok (ONum (x / y))
  | _, _ => Throw "TypeError"
  end.
(** Series.__sub__ and Varf.__sub__, series.py:152-153 and varf.py:121-122: [self + other * (-1)]. *)
Definition py_sub (a b : object) : res object :=
  match a, b with
  | OSer _, _ | OVarf _, _ => h <- py_mul b (ONum (-1)) ;; py_add a h
  | ONum x, ONum y => Ok (ONum (x - y))
  | _, _ => Throw "TypeError"
  end.
(** __neg__, series.py:155-156 and varf.py:124-125: [self * (-1)]. *)
Definition py_neg (a : object) : res object :=
  match a with
  | OSer _ | OVarf _ => py_mul a (ONum (-1))
  | ONum x => Ok (ONum (- x))
  | ONone => Throw "TypeError"
  end.

(** A Python expression with these operators, evaluated from left to right. *)
Inductive expr := Val (a : object) | Add (a b : expr) | Sub (a b : expr) | Mul (a b : expr) | Div (a b : expr) | Neg (a : expr).
Fixpoint eval (e : expr) : res object :=
  match e with
  | Val a => Ok a
  | Add a b => x <- eval a ;; y <- eval b ;; py_add x y
  | Sub a b => x <- eval a ;; y <- eval b ;; py_sub x y
  | Mul a b => x <- eval a ;; y <- eval b ;; py_mul x y
  | Div a b => x <- eval a ;; y <- eval b ;; py_div x y
  | Neg a => x <- eval a ;; py_neg x
  end.

(** The built-in sum(l). *)
Definition py_sum (l : list object) : res object := for_in (fun a total => py_add total a) l (ONum 0).
End Mixed.
Arguments ONum {E}. Arguments OSer {E}. Arguments OVarf {E}. Arguments ONone {E}.
Arguments Val {E}. Arguments Add {E}. Arguments Sub {E}. Arguments Mul {E}. Arguments Div {E}. Arguments Neg {E}.
