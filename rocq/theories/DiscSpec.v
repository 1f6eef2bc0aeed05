(** Specification vocabulary for the values of an expression at the nodes. *)
From Coq Require Import String List Bool Arith ZArith Reals.
From Verif Require Import Base Num Fnum LinSpec CalcSpec SeriesModel FnModel FnSpec CcodeSpec InternModel.
Import ListNotations.
Local Open Scope R_scope.

(** The coordinates of the point with the indices [p] of the grid: the mean plus the factor times the nodes. *)
Definition location (nodes : list (list R)) (mean : list R) (factor : list (list R)) (p : list nat) : list R :=
  map (fun '(m, row) => m + rsum (map (fun '(a, x) => a * x) (combine row (at_pos nodes p)))) (combine mean factor).

(** [point d] is the entry of [v] that belongs to the direction [d]. *)
Definition along (dirs : list nat) (v : list R) (point : nat -> R) : Prop := forall i d, nth_error dirs i = Some d -> point d = nth i v 0.

(** The result is one value for each point of the grid: the value of the expression at its location, whatever the values of the parameters. *)
Definition values_at {E : Type} (eval : E -> (symbol -> R) -> R) (expr : E) (dirs : list nat) (nodes : list (list R)) (mean : list R) (factor : list (list R)) (r : res (list R)) : Prop :=
  exists values, r = Ok values /\ length values = length (grid nodes) /\
  forall k p point param, nth_error (grid nodes) k = Some p -> along dirs (location nodes mean factor p) point -> nth_error values k = Some (eval expr (reading point param)).

Section Text.
Variable E : Type.
Variable free_symbols : E -> list symbol.
(** An expression whose symbols are the coordinates x0, x1, ... of the directions. *)
Definition plain (dirs : list nat) (e : E) : Prop := forall s, In s (free_symbols e) -> exists d, In d dirs /\ nth_error x_sub d = Some s.
(** What is assumed of sympy.ccode: the text consists of [tokens e]; a name in it that begins as a variable does is that variable. *)
Definition printing (printed : E -> string) (tokens : E -> list string) : Prop :=
  forall dirs e, plain dirs e -> parts_of (printed e) (tokens e) /\ forall t d, In t (tokens e) -> String.prefix (variable d) t = true -> t = variable d.
(** What is assumed of the C++ compiler: if the variables in the text are written as coordinates of the argument, the function computes the value of the expression. *)
Definition compiling (eval : E -> (symbol -> R) -> R) (tokens : E -> list string) (compiler : string -> option (list R -> R)) : Prop :=
  forall dirs e us, NoDup dirs -> Forall (fun d => d < 5)%nat dirs -> plain dirs e -> Forall2 (rewritten dirs) (tokens e) us ->
  exists func, compiler (source (joined us)) = Some func /\ forall v point param, length v = length dirs -> along dirs v point -> func v = eval e (reading point param).
(** Expressions that are symbols. *)
Definition symbols_ok (expand : E -> E) (printed : E -> string) (of_symbol : symbol -> E) : Prop :=
  forall s, free_symbols (of_symbol s) = [s] /\ expand (of_symbol s) = of_symbol s /\ printed (of_symbol s) = fst s.
End Text.
Arguments plain {E}. Arguments printing {E}. Arguments compiling {E}. Arguments symbols_ok {E}.

(** For the examples: products of two symbols. *)
Definition product : Type := symbol * symbol.
Definition pr_free (e : product) : list symbol := [fst e; snd e].
Definition pr_subs (e : product) (s t : symbol) : product := ((if symbol_eqb (fst e) s then t else fst e), (if symbol_eqb (snd e) s then t else snd e)).
Definition pr_eval (e : product) (env : symbol -> R) : R := env (fst e) * env (snd e).
Definition pr_tokens (e : product) : list string := [fst (fst e); "*"%string; fst (snd e)].
Definition pr_printed (e : product) : string := joined (pr_tokens e).
Definition pr_body (i j : nat) : string := joined [coordinate i; "*"%string; coordinate j].
Definition pr_compiler (text : string) : option (list R -> R) :=
  match find (fun ij => String.eqb text (source (pr_body (fst ij) (snd ij)))) (list_prod (seq 0 5) (seq 0 5)) with Some (i, j) => Some (fun v => nth i v 0 * nth j v 0) | None => None end.
