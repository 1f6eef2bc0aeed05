(** How the decorator tensorize_at of quad.py and Python's binding of arguments treat the options of Quad.integrate, transform, varf and varfd. *)
From Coq Require Import String List Bool Arith.
From Verif Require Import Base.
Import ListNotations.
Local Open Scope string_scope. Local Open Scope list_scope. Local Open Scope nat_scope.

(** Arguments: None, booleans, ints, strings, a quadrature (with position.is_diag), a Function or what can be converted to one, an ndarray, a Series, a list of directions. *)
Inductive arg := ANone | ABool (b : bool) | AInt (n : nat) | AStr (s : string) | AQuad (diag : bool) | AFun | AArr | ASer | ADirs (l : list nat).

(** Keyword arguments; Python refuses repeated keywords in a call. *)
Definition keywords := list (string * arg).
Fixpoint lookup (name : string) (kw : keywords) : option arg :=
  match kw with [] => None | (k, v) :: kw => if String.eqb k name then Some v else lookup name kw end.

(** The parameters of a method, with the defaults. *)
Definition signature := list (string * option arg).
(** quad.py:257. *)
Definition sig_integrate : signature := [("self", None); ("function", None); ("flat", Some (ABool false)); ("tensorize", Some ANone)].
(** quad.py:290-291. *)
Definition sig_transform : signature := [("self", None); ("function", None); ("degree", None); ("index_set", Some (AStr "triangle")); ("significant", Some (AInt 0)); ("tensorize", Some ANone)].
(** quad.py:333-334. *)
Definition sig_varf : signature := [("self", None); ("f_grid", None); ("degree", None); ("sparse", Some ANone); ("index_set", Some (AStr "triangle")); ("tensorize", Some ANone)].
(** quad.py:347-348. *)
Definition sig_varfd : signature := [("self", None); ("function", None); ("degree", None); ("directions", None); ("sparse", Some ANone); ("index_set", Some (AStr "triangle")); ("tensorize", Some ANone)].

(** Python's binding of the arguments of a call to the parameters: positional arguments first, then keywords, then defaults. *)
Fixpoint bind_params (sig : signature) (pos : list arg) (kw : keywords) : res (list (string * arg)) :=
  match sig, pos with
  | [], [] => Ok []
  | [], _ :: _ => Throw "TypeError"
  | (name, _) :: sig, v :: pos =>
      match lookup name kw with
      | Some _ => Throw "TypeError"
      | None => rest <- bind_params sig pos kw ;; Ok ((name, v) :: rest)
      end
  | (name, default) :: sig, [] =>
      match lookup name kw, default with
      | Some v, _ => rest <- bind_params sig [] kw ;; Ok ((name, v) :: rest)
      | None, Some v => rest <- bind_params sig [] kw ;; Ok ((name, v) :: rest)
      | None, None => Throw "TypeError"
      end
  end.
Definition bind_call (sig : signature) (pos : list arg) (kw : keywords) : res (list (string * arg)) :=
  if forallb (fun '(k, _) => existsb (fun '(name, _) => String.eqb name k) sig) kw then bind_params sig pos kw else Throw "TypeError".

(** The truth value of an option. *)
Definition truth (v : arg) : bool :=
  match v with ANone => false | ABool b => b | AInt n => negb (n =? 0) | AStr s => negb (String.eqb s "") | ADirs l => match l with [] => false | _ => true end | _ => true end.

(** What a call does: it runs the method on its arguments, or once for every group of variables of every term, with these arguments but
    for the projected quadrature and the factor, and multiplies the results with the given option sparse, if any. *)
Inductive plan := Plain (bound : list (string * arg)) | Split (bound : list (string * arg)) (sparse : option arg).

Definition is_array (a : arg) : bool := match a with AArr => true | _ => false end.

(** The wrapper of tensorize_at(1), quad.py:177-240.  The first argument is self: the methods are called on a quadrature.  Not modelled here
    (but in TensQuadModel.v): how the function is split, and the exceptions of the split. *)
Definition call (sig : signature) (setting : bool) (pos : list arg) (kw : keywords) : res plan :=
  let tensorize := match lookup "tensorize" kw with Some v => v | None => ANone end in
  let do_tensorize := match tensorize with ANone => setting | v => truth v end in
  match pos with
  | quad :: function :: rest =>
      let do_tensorize := match function with ASer => false | _ => do_tensorize end in
      if negb do_tensorize then b <- bind_call sig pos kw ;; Ok (Plain b)
      else if negb (match quad with AQuad diag => diag | _ => false end) || is_array function then b <- bind_call sig pos kw ;; Ok (Plain b)
      else b <- bind_call sig (AQuad true :: AFun :: rest) kw ;; Ok (Split b (lookup "sparse" kw))
  | _ => Throw "IndexError"
  end.

(** Whether the form that varf or varfd returns is sparse: [sparse = hm.settings['sparse'] if sparse is None else sparse], quad.py:335 and 350, and the
    same in Varf.tensorize, varf.py:48, which returns a single form as it is, varf.py:45-46.  [parts] is the number of groups of variables of a term. *)
Definition resolve (setting : bool) (v : arg) : bool := match v with ANone => setting | v => truth v end.
Definition sparse_result (setting : bool) (parts : nat) (p : plan) : bool :=
  match p with
  | Plain b => resolve setting (match lookup "sparse" b with Some v => v | None => ANone end)
  | Split b sparse =>
      if parts =? 1 then resolve setting (match lookup "sparse" b with Some v => v | None => ANone end)
      else resolve setting (match sparse with Some v => v | None => ANone end)
  end.
