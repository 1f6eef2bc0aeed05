(** The dictionaries of parameters of hermipy/equations.py: the methods params(), and the equations read from a dictionary. *)
From Coq Require Import String List Bool Arith.
From Verif Require Import Base PyBase OpModel OpArithModel EqnModel.
Import ListNotations.
Local Open Scope string_scope. Local Open Scope list_scope. Local Open Scope nat_scope.

Section Params.
(** Symbolic expressions, see EqnModel.v. *)
Variable E : Type.
Variable e_add e_mul e_div : E -> E -> E.
Variable e_opp : E -> E.
Variable e_1 : E.
Variable e_var : nat -> E.
Variable e_sqrt : E -> E.
Variable e_diff : nat -> E -> E.
Variable e_is0 : E -> bool.
(** sym.symbols(name, real=True) with or without positive=True, and sym.Function(name)(v) for a variable v. *)
Variable e_symbol : string -> bool -> E.
Variable e_function : string -> nat -> E.
(** An expression contains an undefined function, Vy.atoms(AppliedUndef), equations.py:206. *)
Variable has_undefined : E -> bool.
(** The number that McKean_Vlasov.fluxes computes from Vy with a quadrature and la.solve, as a rational, equations.py:209-223: NoiseModel.v; it
    may raise. *)
Variable effective : E -> res E.

(** A dict: keys and values, the keys in the order of insertion.  d[key] raises KeyError if the key is missing. *)
Definition dict := list (string * E).
Fixpoint d_get (p : dict) (key : string) : res E :=
  match p with
  | [] => Throw "KeyError"
  | (k, v) :: q => if String.eqb k key then Ok v else d_get q key
  end.
(** key in d. *)
Definition d_has (p : dict) (key : string) : bool := existsb (fun '(k, _) => String.eqb k key) p.
(** for param in names: params[param] = sym.symbols(param, **options). *)
Definition symbols (names : list string) (positive : bool) : dict := map (fun s => (s, e_symbol s positive)) names.

(** Fokker_Planck_1d.params and equation, equations.py:91-106. *)
Definition fp_params : dict := symbols ["β"] true ++ [("Vp", e_function "Vp" 0)].
Definition fp_equation (p : dict) : res (oper E) :=
  beta <- d_get p "β" ;; Vp <- d_get p "Vp" ;; Ok (fokker_planck_1d E e_mul e_div e_1 e_diff beta Vp).

(** McKean_Vlasov_white.params and equation, equations.py:116-159. *)
Definition white_params : dict := symbols ["β"] true ++ symbols ["θ"; "m"] false ++ [("Vp", e_function "Vp" 0)].
Definition white_eq (p : dict) : res (oper E) :=
  beta <- d_get p "β" ;; theta <- d_get p "θ" ;; m <- d_get p "m" ;; Vp <- d_get p "Vp" ;;
  Ok (white_equation E e_add e_mul e_div e_opp e_1 e_var e_diff beta theta m Vp).

(** McKean_Vlasov.params, equations.py:172-191, and fluxes with equation, equations.py:193-248. *)
Definition mckean_params : dict :=
  symbols ["β"; "γ"; "ε"] true ++ symbols ["θ"; "m"] false ++ [("Vp", e_function "Vp" 0); ("Vy", e_function "Vy" 1)].
(** coeff_noise, equations.py:205-230. *)
Definition coeff_noise (beta Vy : E) : res E :=
  if has_undefined Vy then Ok (mckean_noise E e_div e_1 e_sqrt beta)
  else c <- effective Vy ;; Ok (e_sqrt (e_div (e_inv E e_div e_1 beta) c)).
Definition mckean_eq (p : dict) : res (oper E) :=
  beta <- d_get p "β" ;; gamma <- d_get p "γ" ;; epsilon <- d_get p "ε" ;; theta <- d_get p "θ" ;; m <- d_get p "m" ;;
  Vp <- d_get p "Vp" ;; Vy <- d_get p "Vy" ;;
  noise <- coeff_noise beta Vy ;;
  Ok (mckean_equation E e_add e_mul e_div e_opp e_1 e_var e_diff beta gamma epsilon theta m noise Vp Vy).

(** McKean_Vlasov_harmonic_noise.params, equations.py:262-280, and fluxes with equation, equations.py:282-314. *)
Definition harmonic_params : dict := symbols ["β"; "γ"; "ε"] true ++ symbols ["θ"; "m"] false ++ [("Vp", e_function "Vp" 0)].
Definition harmonic_eq (p : dict) : res (oper E) :=
  beta <- d_get p "β" ;; gamma <- d_get p "γ" ;; epsilon <- d_get p "ε" ;; theta <- d_get p "θ" ;; m <- d_get p "m" ;; Vp <- d_get p "Vp" ;;
  Ok (harmonic_equation E e_add e_mul e_div e_opp e_1 e_var e_sqrt e_diff beta gamma epsilon theta m Vp).

(** Overdamped.backward, equations.py:325-337, and Langevin.backward, equations.py:363-375; these classes have no params(). *)
Definition overdamped_eq (p : dict) : res (oper E) :=
  beta <- d_get p "β" ;; V <- d_get p "V" ;; Ok (overdamped_backward E e_mul e_div e_opp e_1 e_diff beta V).
Definition langevin_eq (p : dict) : res (oper E) :=
  gamma <- d_get p "γ" ;; beta <- d_get p "β" ;; Vy <- d_get p "Vy" ;;
  Ok (langevin_backward E e_mul e_div e_opp e_1 e_var e_diff gamma beta Vy).

(** Generalized_Langevin.params, equations.py:390-412.  n_extra is a natural number. *)
Definition gle_dict (n_extra : nat) : res dict :=
  _ <- require ((n_extra =? 1) || (n_extra =? 2)) "AssertionError" ;;
  Ok (symbols ["β"] true ++
      (if n_extra =? 1 then symbols ["λ"; "α"] true
       else if n_extra =? 2 then symbols ["λ1"; "λ2"] true ++ symbols ["A11"; "A12"; "A21"; "A22"] false
       else []) ++
      [("Vx", e_function "Vx" 0)]).
(** The branch that Generalized_Langevin.backward takes, equations.py:422-441. *)
Definition gle_branch (p : dict) : res (gle_params E) :=
  if d_has p "α" then
    lambda <- d_get p "λ" ;; alpha <- d_get p "α" ;; Ok (Aux1 E lambda alpha)
  else if d_has p "A11" then
    l1 <- d_get p "λ1" ;; l2 <- d_get p "λ2" ;;
    a11 <- d_get p "A11" ;; a12 <- d_get p "A12" ;; a21 <- d_get p "A21" ;; a22 <- d_get p "A22" ;; Ok (Aux2 E l1 l2 a11 a12 a21 a22)
  else if negb (d_has p "γ") then Ok (Nothing E)
  else gamma <- d_get p "γ" ;; Ok (Friction E gamma).
(** Generalized_Langevin.backward, equations.py:414-466. *)
Definition gle_eq (p : dict) : res (nat * oper E) :=
  beta <- d_get p "β" ;; Vx <- d_get p "Vx" ;;
  b <- gle_branch p ;;
  generalized_langevin E e_add e_mul e_div e_opp e_1 e_var e_diff e_is0 beta Vx b.
End Params.
