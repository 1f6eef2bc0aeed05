(** Which arrays and series share memory: Series of hermipy/series.py on a heap of NumPy buffers. *)
From Coq Require Import String List Bool Arith ZArith.
From Verif Require Import Base IndexModel Num LinModel PyBase PosModel SeriesModel PartModel SplitModel MulModel ProjModel.
Import ListNotations.
Local Open Scope string_scope. Local Open Scope list_scope. Local Open Scope nat_scope.

Section Heap.
Variable N : num.
Variable far : list (list N) -> bool.
Variable E : Type.
Variable e_mul e_div : E -> E -> E.
Variable e_1 : E.
Variables add_args mul_args : E -> list E.
Variable free_vars : E -> list nat.
Variable sym_eqb : E -> E -> bool.
Variable pos_eqb : position N -> position N -> bool.
(** x / y, round(x, digits) and the real part of a number. *)
Variable ndiv : N -> N -> N.
Variable round : nat -> N -> N.
Variable real : N -> N.
(** coeffs.dtype == complex128, quad.py:495. *)
Variable is_complex : list N -> bool.

(** A one-dimensional ndarray: a buffer, the place of its first element, the stride (in elements, not 0) and the length. *)
Record array := Arr { a_buf : nat; a_off : nat; a_step : Z; a_len : nat }.
(** A Series object, series.py:80-106; its coefficients are an array, which other objects may use too. *)
Record object := Obj { o_coeffs : array; o_pos : position N; o_set : iset; o_degree : nat; o_factor : func E }.
(** What Python has in memory: the buffers, the arrays that the caller holds, the series.  Nothing is ever removed: the garbage collector is not modelled. *)
Record state := St { bufs : list (list N); arrs : list array; objs : list object }.

(** The element of the buffer where element [i] of the array is. *)
Definition cell (a : array) (i : nat) : nat := Z.to_nat (Z.of_nat (a_off a) + Z.of_nat i * a_step a).
Definition read (s : state) (a : array) : list N := map (fun i => nth (cell a i) (nth (a_buf a) (bufs s) []) n0) (seq 0 (a_len a)).
(** flags['C_CONTIGUOUS']: arrays of length 0 and 1 always are. *)
Definition contiguous (a : array) : bool := (a_len a <=? 1) || (a_step a =? 1)%Z.

(** Python code: it changes the memory and returns or raises; what was changed before an exception stays changed. *)
Definition st (A : Type) : Type := state -> state * res A.
Definition ret {A} (x : A) : st A := fun s => (s, Ok x).
Definition lift {A} (r : res A) : st A := fun s => (s, r).
Definition sbind {A B} (m : st A) (k : A -> st B) : st B :=
  fun s => match m s with (s, Ok x) => k x s | (s, Ub) => (s, Ub) | (s, Exit c) => (s, Exit c) | (s, Throw e) => (s, Throw e) | (s, NoFuel) => (s, NoFuel) end.
Notation "x <-- m ;; k" := (sbind m (fun x => k)) (at level 61, m at next level, right associativity).

(** A new array: the result of an arithmetic operation, of a function of the C++ module (converters.cpp:54-85 copy), of hstack, of an index by a list, of copy. *)
Definition alloc (l : list N) : st array := fun s => (St (bufs s ++ [l]) (arrs s) (objs s), Ok (Arr (length (bufs s)) 0 1%Z (length l))).
(** a[i] = x for i >= 0. *)
Definition set_item (a : array) (i : nat) (x : N) : st unit :=
  fun s => if i <? a_len a then (St (upd (bufs s) (a_buf a) (upd (nth (a_buf a) (bufs s) []) (cell a i) x)) (arrs s) (objs s), Ok tt) else (s, Throw "IndexError").
Definition values (a : array) : st (list N) := fun s => (s, Ok (read s a)).
Definition object_at (r : nat) : st object := fun s => (s, py_get (objs s) r).
Definition array_at (r : nat) : st array := fun s => (s, py_get (arrs s) r).
Definition hold (a : array) : st nat := fun s => (St (bufs s) (arrs s ++ [a]) (objs s), Ok (length (arrs s))).
Definition make (o : object) : st nat := fun s => (St (bufs s) (arrs s) (objs s ++ [o]), Ok (length (objs s))).

(** The degree and the check of Series.__init__, series.py:87-98. *)
Definition init_degree (n : nat) (pos : position N) (s : iset) : res nat :=
  match p_dirs pos with
  | [] => Ok 0
  | _ => degree <- py_get_degree (p_dim pos) n s ;; k <- n_indices (p_dim pos) degree s ;; _ <- require (k =? n) "ValueError" ;; Ok degree
  end.
(** for i, c in enumerate(self.coeffs): self.coeffs[i] = round(c, significant), series.py:100-102. *)
Fixpoint round_loop (significant : nat) (a : array) (is : list nat) : st unit :=
  match is with
  | [] => ret tt
  | i :: is => fun s => (_ <-- set_item a i (round significant (nth i (read s a) n0)) ;; round_loop significant a is) s
  end.
(** Series.__init__, series.py:80-106. *)
Definition new_series (coeffs : array) (pos : position N) (factor : option (func E)) (set : iset) (significant : nat) : st nat :=
  degree <-- lift (init_degree (a_len coeffs) pos set) ;;
  _ <-- (if significant =? 0 then ret tt else round_loop significant coeffs (seq 0 (a_len coeffs))) ;;
  f <-- lift (factor_init E e_1 factor (p_dirs pos)) ;;
  c <-- (if contiguous coeffs then ret coeffs else l <-- values coeffs ;; alloc l) ;;
  make (Obj c pos set degree f).

(** A series as SeriesModel.v has it: the coefficients as they are now. *)
Definition look_at (s : state) (o : object) : series N E := Ser (read s (o_coeffs o)) (o_pos o) (o_set o) (o_degree o) (o_factor o).

(** Series.__add__ with a Series, series.py:120-134, and with a number, 117-118; __mul__ with a number, 135-141; __truediv__, 158-163; __sub__ and __neg__, 152-156. *)
Definition h_add (r r' : nat) : st nat :=
  f <-- object_at r ;; g <-- object_at r' ;;
  _ <-- lift (require (pos_eqb (o_pos f) (o_pos g) && iset_eqb (o_set f) (o_set g) && func_eqb E sym_eqb (o_factor f) (o_factor g)) "ValueError") ;;
  v <-- values (o_coeffs f) ;; w <-- values (o_coeffs g) ;; l <-- lift (np_add N v w) ;; c <-- alloc l ;;
  new_series c (o_pos f) (Some (o_factor f)) (o_set f) 0.
Definition h_map (g : N -> N) (r : nat) : st nat :=
  f <-- object_at r ;; v <-- values (o_coeffs f) ;; c <-- alloc (map g v) ;; new_series c (o_pos f) (Some (o_factor f)) (o_set f) 0.
Definition h_add_num (r : nat) (x : N) : st nat := h_map (fun y => nadd y x) r.
Definition h_scale (r : nat) (x : N) : st nat := h_map (fun y => nmul y x) r.
Definition h_div (r : nat) (x : N) : st nat := h_map (fun y => ndiv y x) r.
Definition h_sub (r r' : nat) : st nat := h <-- h_scale r' (nopp n1) ;; h_add r h.

(** Series.subdegree, series.py:194-209: a slice of the array if the degree does not grow. *)
Definition h_subdegree (r degree : nat) : st nat :=
  f <-- object_at r ;;
  _ <-- lift (require (negb (is_cross_nc (o_set f))) "ValueError") ;;
  n_polys <-- lift (py_size (p_dim (o_pos f)) degree (o_set f)) ;;
  let a := o_coeffs f in
  c <-- (if degree <=? o_degree f then ret (Arr (a_buf a) (a_off a) (a_step a) (Nat.min n_polys (a_len a)))
         else _ <-- lift (require (a_len a <=? n_polys) "ValueError") ;; v <-- values a ;; alloc (v ++ repeat n0 (n_polys - a_len a))) ;;
  new_series c (o_pos f) (Some (o_factor f)) (o_set f) 0.

(** Series.to_cross, series.py:293-298. *)
Definition h_to_cross (r degree : nat) : st nat :=
  f <-- object_at r ;;
  _ <-- lift (require (is_triangle (o_set f) && cross_guard (p_dim (o_pos f)) degree (o_degree f)) "ValueError") ;;
  inds <-- lift (cross_in_triangle (p_dim (o_pos f)) degree) ;;
  v <-- values (o_coeffs f) ;; l <-- lift (mapM (py_get v) inds) ;; c <-- alloc l ;;
  new_series c (o_pos f) None Cross 0.

(** Series.project, series.py:183-192. *)
Definition h_project (r : nat) (directions : list nat) : st nat :=
  f <-- object_at r ;;
  rel_dirs <-- lift (mapM (py_index (p_dirs (o_pos f))) directions) ;;
  v <-- values (o_coeffs f) ;; l <-- lift (project_vec N (o_set f) v (p_dim (o_pos f)) rel_dirs) ;; c <-- alloc l ;;
  p_pos <-- lift (pos_project N far (o_pos f) directions) ;;
  factor <-- lift (fun_project E e_mul e_1 add_args mul_args free_vars (o_factor f) directions) ;;
  new_series c p_pos (Some factor) (o_set f) 0.

(** Series.tensorize, series.py:35-78. *)
Definition h_tensorize2 (r r' : nat) : st nat :=
  s1 <-- object_at r ;; s2 <-- object_at r' ;;
  v1 <-- values (o_coeffs s1) ;; v2 <-- values (o_coeffs s2) ;;
  if p_dim (o_pos s1) =? 0 then
    x <-- lift (py_get v1 0) ;; c <-- alloc (map (nmul x) v2) ;; new_series c (o_pos s2) (Some (o_factor s2)) (o_set s2) 0
  else if p_dim (o_pos s2) =? 0 then
    x <-- lift (py_get v2 0) ;; c <-- alloc (map (nmul x) v1) ;; new_series c (o_pos s1) (Some (o_factor s1)) (o_set s1) 0
  else
    let common := py_sorted (filter (fun d => py_in d (p_dirs (o_pos s2))) (p_dirs (o_pos s1))) in
    f1 <-- lift (fun_project E e_mul e_1 add_args mul_args free_vars (o_factor s1) common) ;;
    f2 <-- lift (fun_project E e_mul e_1 add_args mul_args free_vars (o_factor s2) common) ;;
    _ <-- lift (require (func_eqb E sym_eqb f1 f2) "ValueError") ;;
    _ <-- lift (require (o_degree s1 =? o_degree s2) "ValueError") ;;
    _ <-- lift (require (iset_eqb (o_set s1) (o_set s2)) "ValueError") ;;
    let e1 := e_div (f_sym (o_factor s1)) (f_sym f1) in
    let e2 := e_div (f_sym (o_factor s2)) (f_sym f2) in
    l <-- lift (inner N (o_set s1) v1 v2 (p_dirs (o_pos s1)) (p_dirs (o_pos s2))) ;; c <-- alloc l ;;
    position <-- lift (pos_tensorize N far [o_pos s1; o_pos s2]) ;;
    factor <-- lift (function_init E free_vars (e_mul e1 e2) (p_dirs position)) ;;
    new_series c position (Some factor) (o_set s1) 0.
Fixpoint h_tensorize_loop (rs : list nat) (result : nat) : st nat :=
  match rs with [] => ret result | r :: rs => result <-- h_tensorize2 result r ;; h_tensorize_loop rs result end.
Definition h_tensorize (rs : list nat) : st nat := match rs with [] => lift (Throw "IndexError") | r :: rs => h_tensorize_loop rs r end.

(** The first lines of Quad.plot(series), quad.py:494-496: the coefficients of the series given are replaced by a copy of their real parts. *)
Definition h_plot (r : nat) : st unit :=
  f <-- object_at r ;; v <-- values (o_coeffs f) ;;
  if is_complex v then
    c <-- alloc (map real v) ;;
    fun s => (St (bufs s) (arrs s) (upd (objs s) r (Obj c (o_pos f) (o_set f) (o_degree f) (o_factor f))), Ok tt)
  else ret tt.

(** What a program does with arrays and series.  Numbers stand for the arrays that it holds and for the series, in the order in which they were made. *)
Inductive call :=
| NewArray (l : list N)                              (** np.array(l) *)
| Slice (a start len : nat) (step : Z)               (** a[start::step], [len] elements of it *)
| Coeffs (r : nat)                                   (** r.coeffs *)
| SetItem (a i : nat) (x : N)                        (** a[i] = x *)
| NewSeries (a : nat) (pos : position N) (factor : option (func E)) (set : iset) (significant : nat)
| Add (r r' : nat) | AddNum (r : nat) (x : N) | Scale (r : nat) (x : N) | Div (r : nat) (x : N) | Sub (r r' : nat)
| Subdegree (r degree : nat) | ToCross (r degree : nat) | Project (r : nat) (directions : list nat) | Tensorize (rs : list nat)
| Plot (r : nat).

(** A slice stays within the bounds of the array, as Python makes it do by cutting off the indices. *)
Definition slice_fits (n start len : nat) (step : Z) : bool :=
  negb (step =? 0)%Z && forallb (fun i => let p := (Z.of_nat start + Z.of_nat i * step)%Z in (0 <=? p)%Z && (p <? Z.of_nat n)%Z) (seq 0 len).
Definition exec (c : call) : st nat :=
  match c with
  | NewArray l => a <-- alloc l ;; hold a
  | Slice a start len step =>
      b <-- array_at a ;; _ <-- lift (require (slice_fits (a_len b) start len step) "IndexError") ;;
      hold (Arr (a_buf b) (cell b start) (a_step b * step)%Z len)
  | Coeffs r => f <-- object_at r ;; hold (o_coeffs f)
  | SetItem a i x => b <-- array_at a ;; _ <-- set_item b i x ;; ret a
  | NewSeries a pos factor set significant => b <-- array_at a ;; new_series b pos factor set significant
  | Add r r' => h_add r r' | AddNum r x => h_add_num r x | Scale r x => h_scale r x | Div r x => h_div r x | Sub r r' => h_sub r r'
  | Subdegree r degree => h_subdegree r degree | ToCross r degree => h_to_cross r degree | Project r directions => h_project r directions | Tensorize rs => h_tensorize rs
  | Plot r => _ <-- h_plot r ;; ret r
  end.
(** A program goes on after an exception. *)
Definition run (s : state) (history : list call) : state := fold_left (fun s c => fst (exec c s)) history s.
Definition start : state := St [] [] [].
End Heap.
Arguments Obj {N E}. Arguments o_coeffs {N E}. Arguments o_pos {N E}. Arguments o_set {N E}. Arguments o_degree {N E}. Arguments o_factor {N E}.
Arguments St {N E}. Arguments bufs {N E}. Arguments arrs {N E}. Arguments objs {N E}. Arguments read {N E}. Arguments look_at {N E}. Arguments start {N E}.
Arguments NewArray {N E}. Arguments Slice {N E}. Arguments Coeffs {N E}. Arguments SetItem {N E}. Arguments NewSeries {N E}. Arguments Add {N E}. Arguments AddNum {N E}. Arguments Scale {N E}. Arguments Div {N E}. Arguments Sub {N E}.
Arguments Subdegree {N E}. Arguments ToCross {N E}. Arguments Project {N E}. Arguments Tensorize {N E}. Arguments Plot {N E}.
