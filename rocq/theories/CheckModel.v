(** cache.py: what a call does that computes although a result is stored (cache=False): gen_error and the comparison. *)
From Coq Require Import String List Bool Arith Reals.
From Verif Require Import Base Num PyBase CoreModel.
Import ListNotations.
Local Open Scope string_scope. Local Open Scope list_scope. Local Open Scope nat_scope.

(** An ndarray: its shape and its entries by index. *)
Record arr := Arr { a_shape : list nat; a_at : list nat -> R }.

(** The results of the cached functions: a number (float or int), an ndarray, a csr_matrix, anything else.  Tuples are left out: no function under a checking cache returns one. *)
Inductive pval := VNum (x : R) | VArr (a : arr) | VCsr (c : csr num_R) | VOther.

(** NumPy's broadcasting of two shapes, last dimension first. *)
Fixpoint bshape (s t : list nat) : option (list nat) :=
  match s, t with
  | [], t => Some t
  | s, [] => Some s
  | a :: s, b :: t =>
      match bshape s t with
      | Some r => if a =? b then Some (a :: r) else if a =? 1 then Some (b :: r) else if b =? 1 then Some (a :: r) else None
      | None => None
      end
  end.
(** The index of the array of shape [shape] that a broadcast index stands for. *)
Definition clip (shape idx : list nat) : list nat := rev (map (fun '(d, i) => if d =? 1 then 0 else i) (combine (rev shape) (rev idx))).
(** [u - v] of two ndarrays. *)
Definition arr_sub (u v : arr) : res arr :=
  match bshape (rev (a_shape u)) (rev (a_shape v)) with
  | Some r => Ok (Arr (rev r) (fun idx => (a_at u (clip (a_shape u) idx) - a_at v (clip (a_shape v) idx))%R))
  | None => Throw "ValueError"
  end.
Definition arr_num (x : R) : arr := Arr [] (fun _ => x).
Definition arr_list (l : list R) : arr := Arr [length l] (fun idx => nth (hd 0 idx) l 0%R).
Definition arr_mat (A : list (list R)) (n m : nat) : arr := Arr [n; m] (fun idx => nth (nth 1 idx 0) (nth (nth 0 idx 0) A []) 0%R).

Section Check.
(** The largest singular value of an n by m matrix. *)
Variable spectral : nat -> nat -> (nat -> nat -> R) -> R.

(** la.norm(a, 2): the Euclidean norm in one dimension, the largest singular value in two (ValueError if there is none), ValueError otherwise. *)
Definition norm2 (a : arr) : res R :=
  match a_shape a with
  | [n] => Ok (sqrt (fold_right Rplus 0%R (map (fun i => (a_at a [i] * a_at a [i])%R) (seq 0 n))))
  | [n; m] => if (n =? 0) || (m =? 0) then Throw "ValueError" else Ok (spectral n m (fun i j => a_at a [i; j]))
  | _ => Throw "ValueError"
  end.

(** What the_error returns: a number, or an array (a number minus an array). *)
Inductive err := ENum (x : R) | EArr (a : arr).

(** the_error, cache.py:77-90.  A number minus a csr_matrix is only supported by scipy if the number is zero; then the error is that matrix, and it is not looked at (see [checked]). *)
Definition the_error (u v : pval) : res err :=
  match u with
  | VNum x =>
      match v with
      | VNum y => Ok (ENum (Rabs (x - y)))
      | VArr b => d <- arr_sub (arr_num x) b ;; Ok (EArr (Arr (a_shape d) (fun idx => Rabs (a_at d idx))))
      | VCsr c => if Req_EM_T x 0 then Ok (EArr (arr_mat (todense num_R c) (c_rows c) (c_cols c))) else Throw "NotImplementedError"
      | VOther => Throw "TypeError"
      end
  | VArr a =>
      match v with
      | VNum y => d <- arr_sub a (arr_num y) ;; n <- norm2 d ;; Ok (ENum n)
      | VArr b => d <- arr_sub a b ;; n <- norm2 d ;; Ok (ENum n)
      | VCsr c => d <- arr_sub a (arr_mat (todense num_R c) (c_rows c) (c_cols c)) ;; n <- norm2 d ;; Ok (ENum n)
      | VOther => Throw "TypeError"
      end
  | VCsr c =>
      match v with
      | VCsr c' => d <- arr_sub (arr_list (c_data c)) (arr_list (c_data c')) ;; n <- norm2 d ;; Ok (ENum n)
      | _ => Throw "ValueError"
      end
  | VOther => Throw "ValueError"
  end.

(** [error < 1e-10] as a condition: the truth value of an array of several entries raises ValueError, that of an array without entries is false. *)
Definition below (x : R) : bool := if Rlt_dec x (/ 10 ^ 10) then true else false.
Definition truth (e : err) : res bool :=
  match e with
  | ENum x => Ok (below x)
  | EArr a => match fold_right Nat.mul 1 (a_shape a) with 0 => Ok false | 1 => Ok (below (a_at a (map (fun _ => 0) (a_shape a)))) | _ => Throw "ValueError" end
  end.
Definition is_sparse (v : pval) : bool := match v with VCsr _ => true | _ => false end.

(** The comparison, cache.py:153-160; the breakpoint set before the ValueError is not modelled. *)
Definition checked (quiet sparse_cache : bool) (result result_cache : pval) : res pval :=
  error <- the_error result result_cache ;;
  if quiet then Ok result
  else if Bool.eqb sparse_cache (is_sparse result) then ok <- truth error ;; (if ok then Ok result else Throw "ValueError")
  else Throw "ValueError".

(** The comparison as the parameter [close] of CacheModel.v. *)
Definition close (result result_cache : pval) : bool :=
  match the_error result result_cache with Ok error => match truth error with Ok b => b | _ => false end | _ => false end.
End Check.
