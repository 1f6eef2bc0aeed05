(** Composite quadratures, hermipy/compquad.py. *)
From Coq Require Import String List Bool Arith.
From Verif Require Import Base IndexModel Num Fnum PyBase PosModel SeriesModel PyQuadModel OpQuadModel.
Import ListNotations.
Local Open Scope string_scope. Local Open Scope list_scope. Local Open Scope nat_scope.

(** What Python does when a function with the parameters [params] (the first [required] of which have no default) is called with
    [npos] positional arguments and the keywords [kws]. *)
Definition py_bind (params : list string) (required npos : nat) (kws : list string) : res unit :=
  _ <- require (npos <=? length params) "TypeError" ;;
  _ <- require (forallb (fun k => existsb (String.eqb k) (skipn npos params)) kws) "TypeError" ;;
  require (forallb (fun k => existsb (String.eqb k) kws) (skipn npos (firstn required params))) "TypeError".

Section Comp.
Variable F : fnum.
Variable E : Type.
Variable e_1 : E.
Variable sym_eqb : E -> E -> bool.
Variable pos_eqb : position F -> position F -> bool.
(** Quad.__eq__ between quadratures, quad.py:160-167. *)
Variable quad_eqb : quad F E -> quad F E -> bool.

(** The attributes of a CompQuad, compquad.py:36-38.  The weights are Python numbers. *)
Record comp := Comp { c_quads : list (quad F E); c_weights : list F; c_pos : position F }.

(** CompQuad.__init__, compquad.py:24-38. *)
Definition comp_init (quads : list (quad F E)) (qweights : list F) : res comp :=
  _ <- require ((1 <=? length quads) && (length quads =? length qweights)) "ValueError" ;;
  q0 <- py_get quads 0 ;;
  _ <- for_in (fun q (_ : unit) => require (pos_eqb (q_pos q) (q_pos q0)) "ValueError") quads tt ;;
  Ok (Comp quads qweights (q_pos q0)).

(** CompQuad.__eq__, compquad.py:43-54; the argument is a quadrature, a composite quadrature or something else. *)
Inductive comp_arg := AQuad (q : quad F E) | AComp (c : comp) | AOther.
Definition comp_eqb (self : comp) (other : comp_arg) : res bool :=
  other <- match other with AQuad q => comp_init [q] [n1] | AComp c => Ok c | AOther => Throw "ValueError" end ;;
  if negb (length (c_quads self) =? length (c_quads other)) then Ok false
  else Ok (forallb (fun '(q1, q2) => quad_eqb q1 q2) (combine (c_quads self) (c_quads other))).

(** The loops [for i, q in enumerate(self.quads)] of integrate, transform and varf, compquad.py:56-74.  [method q] is the result of
    the method of the quadrature, called with the arguments that were given, and [acc w x r] the new value of [result]; the initial
    value 0, an int, is [None]. *)
Definition comp_loop {A B} (method : quad F E -> res A) (acc : F -> A -> option B -> res B) (c : comp) : res (option B) :=
  for_in (fun '(i, q) result =>
      x <- method q ;;
      w <- py_get (c_weights c) i ;;
      r <- acc w x result ;; Ok (Some r))
    (combine (seq 0 (length (c_quads c))) (c_quads c)) None.

(** CompQuad.integrate, compquad.py:56-60. *)
Definition comp_integrate (method : quad F E -> res F) (c : comp) : res F :=
  r <- comp_loop method (fun w x result => Ok (nadd (match result with Some y => y | None => n0 end) (nmul x w))) c ;;
  Ok (match r with Some y => y | None => n0 end).

(** CompQuad.transform, compquad.py:62-67: [0 + series] calls int.__add__ and then looks for Series.__radd__, which does not exist. *)
Definition comp_transform (method : quad F E -> res (series F E)) (c : comp) : res (option (series F E)) :=
  comp_loop method (fun w x result => y <- series_scale F E e_1 w x ;; match result with None => Throw "TypeError" | Some r => series_add F E sym_eqb e_1 pos_eqb r y end) c.

(** CompQuad.varf, compquad.py:69-74: [0 + varf] calls Varf.__radd__, varf.py:119, which adds 0 to the entries. *)
Definition comp_varf (method : quad F E -> res (varf F E)) (c : comp) : res (option (varf F E)) :=
  comp_loop method (fun w x result => y <- varf_scale F E e_1 w x ;; match result with None => varf_add_num F E e_1 n0 y | Some r => varf_add F E sym_eqb e_1 pos_eqb r y end) c.

(** CompQuad.discretize_op, compquad.py:81-84, is called with [op], [func], [degree] and [order]; it calls Quad.discretize_op,
    quad.py:366-367, with five positional arguments and two keywords.  [rest] is what that function would do. *)
Definition comp_discretize_op {A} (rest : res A) : res A :=
  _ <- py_bind ["self"; "op"; "degree"; "sparse"; "index_set"] 3 5 ["sparse"; "index_set"] ;; rest.

(** CompQuad.varfd, compquad.py:76-79, calls Quad.varfd, quad.py:347-362, with the CompQuad as [self].  With settings['tensorize'] =
    False the wrapper of quad.py:179-193 calls the method; its directions are filtered (lazily), and [self.varf] is CompQuad.varf,
    compquad.py:69, called with three positional arguments (with [self]) and three keywords.  [rest] is what that function and the remainder of Quad.varfd would do. *)
Definition comp_varfd {A} (rest : res A) : res A :=
  _ <- py_bind ["self"; "f_grid"; "degree"; "sparse"; "index_set"] 3 3 ["sparse"; "index_set"; "tensorize"] ;; rest.

(** CompQuad.project, compquad.py:86-88: the list comprehension reads the global name [directions], which does not exist, for the
    first quadrature. *)
Definition comp_project (c : comp) : res comp :=
  new_quads <- mapM (fun _ : quad F E => Throw "NameError") (c_quads c) ;; comp_init new_quads (c_weights c).
End Comp.
Arguments Comp {F E}. Arguments c_quads {F E}. Arguments c_weights {F E}. Arguments c_pos {F E}.
Arguments AQuad {F E}. Arguments AComp {F E}. Arguments AOther {F E}.
