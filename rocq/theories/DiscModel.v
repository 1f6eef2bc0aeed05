(** From an expression to its values at the nodes: Quad.discretize and Quad.mapped_nodes, hermipy/quad.py. *)
From Coq Require Import String List Bool Arith.
From Verif Require Import Base IndexModel Num Fnum PyBase SeriesModel FnModel CcodeModel InternModel.
Import ListNotations.
Local Open Scope string_scope. Local Open Scope list_scope. Local Open Scope nat_scope.

Section Disc.
(** See InternModel.v. *)
Variable F : fnum.
Variable junk : F.
Variable name : string -> string.
Variable compiler : string -> option (list F -> F).
(** See FnModel.v; [printed] is sympy.ccode, [of_symbol] an expression that is a symbol. *)
Variable E : Type.
Variable free_symbols : E -> list symbol.
Variable subs : E -> symbol -> symbol -> E.
Variable expand : E -> E.
Variable printed : E -> string.
Variable of_symbol : symbol -> E.

(** [hm.Function(f, dirs=self.position.dirs)] and [f.ccode()], quad.py:250-252, for an expression: the text handed to core.discretize. *)
Definition body_of (expr : E) (dirs : list nat) : res string :=
  f <- fn_new E free_symbols subs expand expr (Some dirs) None ;; Ok (ccode (f_dirs f) (printed (f_sym f))).

(** [sympy.sympify(expr, locals=self.conv)], function.py:55, for a text that is a name: a new symbol has no assumptions. *)
Definition sympify_name (text : string) : E := of_symbol (match conv text with Some s => s | None => (text, false) end).

(** discretize_from_string, discretize.cpp:113-127, if no other process is at work: the steps of InternModel.v one after the other. *)
Definition discretize_alone (body : string) (nodes : list (list F)) (translation : list F) (dilation : list (list F)) (t : tmp F) : res (list F) * tmp F :=
  let '(c, t) := Nat.iter 6 (fun '(c, t) => step F junk name compiler (String.length (source body)) c t) (Call body nodes translation dilation Test, t) in
  (match c_stage c with Returned r => r | _ => NoFuel end, t).

(** Quad.discretize, quad.py:249-254, for an expression.  The cache of core.discretize is the subject of CacheModel.v. *)
Definition discretize_expr (nodes : list (list F)) (mean : list F) (factor : list (list F)) (dirs : list nat) (expr : E) (t : tmp F) : res (list F) * tmp F :=
  match body_of expr dirs with
  | Ok body => discretize_alone body nodes mean factor t
  | Throw s => (Throw s, t) | Exit n => (Exit n, t) | Ub => (Ub, t) | NoFuel => (NoFuel, t)
  end.

(** The loop of Quad.mapped_nodes, quad.py:243-246. *)
Fixpoint coords_nodes (nodes : list (list F)) (mean : list F) (factor : list (list F)) (dirs : list nat) (is : list nat) (t : tmp F) : res (list (list F)) * tmp F :=
  match is with
  | [] => (Ok [], t)
  | i :: is =>
      let '(r, t) := discretize_expr nodes mean factor dirs (sympify_name (append "x_" (to_string i))) t in
      match r with
      | Ok v => let '(rest, t) := coords_nodes nodes mean factor dirs is t in (bind rest (fun rest => Ok (v :: rest)), t)
      | Throw s => (Throw s, t) | Exit n => (Exit n, t) | Ub => (Ub, t) | NoFuel => (NoFuel, t)
      end
  end.

(** Quad.mapped_nodes, quad.py:242-247; the rows all have one entry for each node.  np.vstack of an empty list raises ValueError. *)
Definition mapped_nodes (nodes : list (list F)) (mean : list F) (factor : list (list F)) (dirs : list nat) (t : tmp F) : res (list (list F)) * tmp F :=
  let '(r, t) := coords_nodes nodes mean factor dirs (seq 0 (length mean)) t in
  (bind r (fun rows => match rows with
                       | [] => Throw "ValueError"
                       | row :: _ => Ok (map (fun k => map (fun row => nth k row n0) rows) (seq 0 (length row)))
                       end), t).
End Disc.
