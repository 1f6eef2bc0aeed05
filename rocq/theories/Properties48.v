(** Property C113: the dictionaries of parameters of the equations. *)
From Coq Require Import String List Bool Arith Reals Lia Lra.
From Verif Require Import Base PyBase OpModel OpArithModel OpArithSpec OpArithFacts3 EqnModel EqnFacts EqnFacts2 ParamModel ParamSpec ParamFacts ParamFacts2.
Import ListNotations.
Local Open Scope string_scope. Local Open Scope list_scope. Local Open Scope nat_scope.

(** Dictionaries that meet the hypotheses below. *)
Notation num x := (SNum x%R).
Ltac is_a_dict := unfold is_dict; cbn; repeat (apply NoDup_cons; [cbn; intuition discriminate|]); apply NoDup_nil.
Ltac is_given := unfold given; repeat (apply Forall_cons; [cbn; tauto|]); apply Forall_nil.

(** C113: Fokker_Planck_1d.equation reads the keys β and Vp and nothing else: two dictionaries with these values give the same equation, whatever else they contain and in whatever order.  Without one of the keys it raises a KeyError. *)
Theorem C113_fokker_planck : forall E e_mul e_div e_1 e_diff (p : list (string * E)), is_dict p ->
  (forall b V, given p [("β", b); ("Vp", V)] -> fp_equation E e_mul e_div e_1 e_diff p = Ok (fokker_planck_1d E e_mul e_div e_1 e_diff b V)) /\
  (lacks p ["β"; "Vp"] -> fp_equation E e_mul e_div e_1 e_diff p = Throw "KeyError").
Proof. intros E e_mul e_div e_1 e_diff p N. split; [intros b V; exact (fp_ok E e_mul e_div e_1 e_diff p N b V)|exact (fp_lacks E e_mul e_div e_1 e_diff p)]. Qed.
Print Assumptions C113_fokker_planck.
Example C113_fokker_planck_example : fp_equation sexpr SMul SDiv (num 1) s_diff [("m", num 3); ("Vp", SMul (SVar 0) (SVar 0)); ("β", num 2)] =
    Ok (fokker_planck_1d sexpr SMul SDiv (num 1) s_diff (num 2) (SMul (SVar 0) (SVar 0))) /\
  fp_equation sexpr SMul SDiv (num 1) s_diff [("m", num 3); ("β", num 2)] = Throw "KeyError".
Proof.
  split; [apply C113_fokker_planck; [is_a_dict|is_given]|].
  apply C113_fokker_planck; [is_a_dict|]. apply Exists_cons_tl, Exists_cons_hd. cbn. intuition discriminate.
Qed.

(** C113: McKean_Vlasov_white.equation reads the keys β, θ, m and Vp. *)
Theorem C113_white : forall E e_add e_mul e_div e_opp e_1 e_var e_diff (p : list (string * E)), is_dict p ->
  (forall b t m V, given p [("β", b); ("θ", t); ("m", m); ("Vp", V)] ->
     white_eq E e_add e_mul e_div e_opp e_1 e_var e_diff p = Ok (white_equation E e_add e_mul e_div e_opp e_1 e_var e_diff b t m V)) /\
  (lacks p ["β"; "θ"; "m"; "Vp"] -> white_eq E e_add e_mul e_div e_opp e_1 e_var e_diff p = Throw "KeyError").
Proof. intros E e_add e_mul e_div e_opp e_1 e_var e_diff p N. split; [intros b t m V; exact (white_ok E e_add e_mul e_div e_opp e_1 e_var e_diff p N b t m V)|exact (white_lacks E e_add e_mul e_div e_opp e_1 e_var e_diff p)]. Qed.
Print Assumptions C113_white.
Example C113_white_example : white_eq sexpr SAdd SMul SDiv SOpp (num 1) SVar s_diff [("m", num 3); ("θ", num 5); ("Vp", SMul (SVar 0) (SVar 0)); ("β", num 2)] =
    Ok (white_equation sexpr SAdd SMul SDiv SOpp (num 1) SVar s_diff (num 2) (num 5) (num 3) (SMul (SVar 0) (SVar 0))) /\
  white_eq sexpr SAdd SMul SDiv SOpp (num 1) SVar s_diff [("m", num 3); ("Vp", SMul (SVar 0) (SVar 0)); ("β", num 2)] = Throw "KeyError".
Proof.
  split; [apply C113_white; [is_a_dict|is_given]|].
  apply C113_white; [is_a_dict|]. apply Exists_cons_tl, Exists_cons_hd. cbn. intuition discriminate.
Qed.

(** C113: McKean_Vlasov.equation reads the keys β, γ, ε, θ, m, Vp and Vy.  The coefficient of the noise is the square root of 1/β if Vy contains an undefined function, and otherwise the square root of 1/(β c) with the number c computed from Vy; an exception in this computation is not caught. *)
Theorem C113_mckean : forall E e_add e_mul e_div e_opp e_1 e_var e_sqrt e_diff has_undefined effective (p : list (string * E)), is_dict p ->
  (forall b g e t m Vp Vy, given p [("β", b); ("γ", g); ("ε", e); ("θ", t); ("m", m); ("Vp", Vp); ("Vy", Vy)] ->
     (has_undefined Vy = true ->
      mckean_eq E e_add e_mul e_div e_opp e_1 e_var e_sqrt e_diff has_undefined effective p =
      Ok (mckean_equation E e_add e_mul e_div e_opp e_1 e_var e_diff b g e t m (e_sqrt (e_div e_1 b)) Vp Vy)) /\
     (forall c, has_undefined Vy = false -> effective Vy = Ok c ->
      mckean_eq E e_add e_mul e_div e_opp e_1 e_var e_sqrt e_diff has_undefined effective p =
      Ok (mckean_equation E e_add e_mul e_div e_opp e_1 e_var e_diff b g e t m (e_sqrt (e_div (e_div e_1 b) c)) Vp Vy)) /\
     (forall x, has_undefined Vy = false -> effective Vy = Throw x ->
      mckean_eq E e_add e_mul e_div e_opp e_1 e_var e_sqrt e_diff has_undefined effective p = Throw x)) /\
  (lacks p ["β"; "γ"; "ε"; "θ"; "m"; "Vp"; "Vy"] ->
     mckean_eq E e_add e_mul e_div e_opp e_1 e_var e_sqrt e_diff has_undefined effective p = Throw "KeyError").
Proof.
  intros E e_add e_mul e_div e_opp e_1 e_var e_sqrt e_diff has_undefined effective p N. split.
  - intros b g e t m Vp Vy. exact (mckean_ok E e_add e_mul e_div e_opp e_1 e_var e_sqrt e_diff has_undefined effective p N b g e t m Vp Vy).
  - exact (mckean_lacks E e_add e_mul e_div e_opp e_1 e_var e_sqrt e_diff has_undefined effective p).
Qed.
Print Assumptions C113_mckean.
Notation mckean_dict := [("Vy", SMul (SVar 1) (SVar 1)); ("β", num 2); ("γ", num 3); ("ε", num 7); ("θ", num 5); ("m", num 11); ("Vp", SMul (SVar 0) (SVar 0))].
Example C113_mckean_example : mckean_eq sexpr SAdd SMul SDiv SOpp (num 1) SVar q_sqrt s_diff (fun _ => true) (fun _ => Throw "LinAlgError") mckean_dict =
    Ok (mckean_equation sexpr SAdd SMul SDiv SOpp (num 1) SVar s_diff (num 2) (num 3) (num 7) (num 5) (num 11) (q_sqrt (SDiv (num 1) (num 2))) (SMul (SVar 0) (SVar 0)) (SMul (SVar 1) (SVar 1))) /\
  mckean_eq sexpr SAdd SMul SDiv SOpp (num 1) SVar q_sqrt s_diff (fun _ => false) (fun _ => Ok (num 13)) mckean_dict =
    Ok (mckean_equation sexpr SAdd SMul SDiv SOpp (num 1) SVar s_diff (num 2) (num 3) (num 7) (num 5) (num 11) (q_sqrt (SDiv (SDiv (num 1) (num 2)) (num 13))) (SMul (SVar 0) (SVar 0)) (SMul (SVar 1) (SVar 1))) /\
  mckean_eq sexpr SAdd SMul SDiv SOpp (num 1) SVar q_sqrt s_diff (fun _ => false) (fun _ => Throw "LinAlgError") mckean_dict = Throw "LinAlgError".
Proof.
  assert (N : is_dict mckean_dict) by is_a_dict.
  assert (G : given mckean_dict [("β", num 2); ("γ", num 3); ("ε", num 7); ("θ", num 5); ("m", num 11); ("Vp", SMul (SVar 0) (SVar 0)); ("Vy", SMul (SVar 1) (SVar 1))]) by is_given.
  split; [|split].
  - exact (proj1 (proj1 (C113_mckean sexpr SAdd SMul SDiv SOpp (num 1) SVar q_sqrt s_diff (fun _ => true) (fun _ => Throw "LinAlgError") _ N) _ _ _ _ _ _ _ G) eq_refl).
  - exact (proj1 (proj2 (proj1 (C113_mckean sexpr SAdd SMul SDiv SOpp (num 1) SVar q_sqrt s_diff (fun _ => false) (fun _ => Ok (num 13)) _ N) _ _ _ _ _ _ _ G)) (num 13) eq_refl eq_refl).
  - exact (proj2 (proj2 (proj1 (C113_mckean sexpr SAdd SMul SDiv SOpp (num 1) SVar q_sqrt s_diff (fun _ => false) (fun _ => Throw "LinAlgError") _ N) _ _ _ _ _ _ _ G)) "LinAlgError" eq_refl eq_refl).
Qed.

(** C113: McKean_Vlasov_harmonic_noise.equation reads the keys β, γ, ε, θ, m and Vp. *)
Theorem C113_harmonic : forall E e_add e_mul e_div e_opp e_1 e_var e_sqrt e_diff (p : list (string * E)), is_dict p ->
  (forall b g e t m Vp, given p [("β", b); ("γ", g); ("ε", e); ("θ", t); ("m", m); ("Vp", Vp)] ->
     harmonic_eq E e_add e_mul e_div e_opp e_1 e_var e_sqrt e_diff p = Ok (harmonic_equation E e_add e_mul e_div e_opp e_1 e_var e_sqrt e_diff b g e t m Vp)) /\
  (lacks p ["β"; "γ"; "ε"; "θ"; "m"; "Vp"] -> harmonic_eq E e_add e_mul e_div e_opp e_1 e_var e_sqrt e_diff p = Throw "KeyError").
Proof.
  intros E e_add e_mul e_div e_opp e_1 e_var e_sqrt e_diff p N. split.
  - intros b g e t m Vp. exact (harmonic_ok E e_add e_mul e_div e_opp e_1 e_var e_sqrt e_diff p N b g e t m Vp).
  - exact (harmonic_lacks E e_add e_mul e_div e_opp e_1 e_var e_sqrt e_diff p).
Qed.
Print Assumptions C113_harmonic.
Example C113_harmonic_example : harmonic_eq sexpr SAdd SMul SDiv SOpp (num 1) SVar q_sqrt s_diff mckean_dict =
    Ok (harmonic_equation sexpr SAdd SMul SDiv SOpp (num 1) SVar q_sqrt s_diff (num 2) (num 3) (num 7) (num 5) (num 11) (SMul (SVar 0) (SVar 0))).
Proof. apply C113_harmonic; [is_a_dict|is_given]. Qed.

(** C113: Overdamped.backward reads the keys β and V; Langevin.backward reads the keys γ, β and Vy. *)
Theorem C113_backward : forall E e_mul e_div e_opp e_1 e_var e_diff (p : list (string * E)), is_dict p ->
  (forall b V, given p [("β", b); ("V", V)] -> overdamped_eq E e_mul e_div e_opp e_1 e_diff p = Ok (overdamped_backward E e_mul e_div e_opp e_1 e_diff b V)) /\
  (lacks p ["β"; "V"] -> overdamped_eq E e_mul e_div e_opp e_1 e_diff p = Throw "KeyError") /\
  (forall g b Vy, given p [("γ", g); ("β", b); ("Vy", Vy)] ->
     langevin_eq E e_mul e_div e_opp e_1 e_var e_diff p = Ok (langevin_backward E e_mul e_div e_opp e_1 e_var e_diff g b Vy)) /\
  (lacks p ["γ"; "β"; "Vy"] -> langevin_eq E e_mul e_div e_opp e_1 e_var e_diff p = Throw "KeyError").
Proof.
  intros E e_mul e_div e_opp e_1 e_var e_diff p N. split; [|split; [|split]].
  - intros b V. exact (overdamped_ok E e_mul e_div e_opp e_1 e_diff p N b V).
  - exact (overdamped_lacks E e_mul e_div e_opp e_1 e_diff p).
  - intros g b Vy. exact (langevin_ok E e_mul e_div e_opp e_1 e_var e_diff p N g b Vy).
  - exact (langevin_lacks E e_mul e_div e_opp e_1 e_var e_diff p).
Qed.
Print Assumptions C113_backward.
Example C113_backward_example : langevin_eq sexpr SMul SDiv SOpp (num 1) SVar s_diff mckean_dict =
    Ok (langevin_backward sexpr SMul SDiv SOpp (num 1) SVar s_diff (num 3) (num 2) (SMul (SVar 1) (SVar 1))) /\
  overdamped_eq sexpr SMul SDiv SOpp (num 1) s_diff mckean_dict = Throw "KeyError".
Proof.
  assert (N : is_dict mckean_dict) by is_a_dict. split.
  - apply (C113_backward sexpr SMul SDiv SOpp (num 1) SVar s_diff mckean_dict N). is_given.
  - apply (C113_backward sexpr SMul SDiv SOpp (num 1) SVar s_diff mckean_dict N). apply Exists_cons_tl, Exists_cons_hd. cbn. intuition discriminate.
Qed.

(** C113: Generalized_Langevin.backward has one auxiliary process as soon as there is a key α, whatever the other keys; without α, two as soon as there is a key A11; without both, none, with the friction γ.  Without α, A11 and γ it raises a ValueError, and without a key that its case needs a KeyError. *)
Theorem C113_generalized : forall E e_add e_mul e_div e_opp e_1 e_var e_diff e_is0 (p : list (string * E)), is_dict p ->
  (forall b V l a, given p [("β", b); ("Vx", V); ("λ", l); ("α", a)] ->
     gle_eq E e_add e_mul e_div e_opp e_1 e_var e_diff e_is0 p = generalized_langevin E e_add e_mul e_div e_opp e_1 e_var e_diff e_is0 b V (Aux1 E l a)) /\
  (forall b V l1 l2 a11 a12 a21 a22, ~ In "α" (map fst p) ->
     given p [("β", b); ("Vx", V); ("λ1", l1); ("λ2", l2); ("A11", a11); ("A12", a12); ("A21", a21); ("A22", a22)] ->
     gle_eq E e_add e_mul e_div e_opp e_1 e_var e_diff e_is0 p = generalized_langevin E e_add e_mul e_div e_opp e_1 e_var e_diff e_is0 b V (Aux2 E l1 l2 a11 a12 a21 a22)) /\
  (forall b V g, ~ In "α" (map fst p) -> ~ In "A11" (map fst p) -> given p [("β", b); ("Vx", V); ("γ", g)] ->
     gle_eq E e_add e_mul e_div e_opp e_1 e_var e_diff e_is0 p = generalized_langevin E e_add e_mul e_div e_opp e_1 e_var e_diff e_is0 b V (Friction E g)) /\
  (forall b V, ~ In "α" (map fst p) -> ~ In "A11" (map fst p) -> ~ In "γ" (map fst p) -> given p [("β", b); ("Vx", V)] ->
     gle_eq E e_add e_mul e_div e_opp e_1 e_var e_diff e_is0 p = Throw "ValueError") /\
  (lacks p ["β"; "Vx"] \/ In "α" (map fst p) /\ lacks p ["λ"] \/
   ~ In "α" (map fst p) /\ In "A11" (map fst p) /\ lacks p ["λ1"; "λ2"; "A12"; "A21"; "A22"] ->
     gle_eq E e_add e_mul e_div e_opp e_1 e_var e_diff e_is0 p = Throw "KeyError").
Proof.
  intros E e_add e_mul e_div e_opp e_1 e_var e_diff e_is0 p N. split; [|split; [|split; [|split]]].
  - exact (gle1_ok E e_add e_mul e_div e_opp e_1 e_var e_diff e_is0 p N).
  - exact (gle2_ok E e_add e_mul e_div e_opp e_1 e_var e_diff e_is0 p N).
  - exact (gle0_ok E e_add e_mul e_div e_opp e_1 e_var e_diff e_is0 p N).
  - exact (gle_none E e_add e_mul e_div e_opp e_1 e_var e_diff e_is0 p N).
  - exact (gle_lacks E e_add e_mul e_div e_opp e_1 e_var e_diff e_is0 p).
Qed.
Print Assumptions C113_generalized.
Notation gle_both := [("β", num 2); ("γ", num 3); ("A11", num 5); ("α", num 7); ("λ", num 11); ("Vx", SMul (SVar 0) (SVar 0))].
Example C113_generalized_example :
  gle_eq sexpr SAdd SMul SDiv SOpp (num 1) SVar s_diff (fun _ => false) gle_both =
    generalized_langevin sexpr SAdd SMul SDiv SOpp (num 1) SVar s_diff (fun _ => false) (num 2) (SMul (SVar 0) (SVar 0)) (Aux1 sexpr (num 11) (num 7)) /\
  gle_eq sexpr SAdd SMul SDiv SOpp (num 1) SVar s_diff (fun _ => false) [("β", num 2); ("γ", num 3); ("A11", num 5); ("Vx", num 1)] = Throw "KeyError".
Proof.
  split; [apply C113_generalized; [is_a_dict|is_given]|].
  apply C113_generalized; [is_a_dict|]. right. right. split; [cbn; intuition discriminate|split; [cbn; tauto|]]. apply Exists_cons_hd. cbn. intuition discriminate.
Qed.

(** C113: the dictionary that params() returns has the keys that the equation reads, each once, and no others, so that params() followed by equation() gives the equation with symbolic parameters. *)
Theorem C113_params : forall E e_add e_mul e_div e_opp e_1 e_var e_sqrt e_diff (e_symbol : string -> bool -> E) e_function has_undefined effective,
  (map fst (fp_params E e_symbol e_function) = ["β"; "Vp"] /\
   fp_equation E e_mul e_div e_1 e_diff (fp_params E e_symbol e_function) =
     Ok (fokker_planck_1d E e_mul e_div e_1 e_diff (e_symbol "β" true) (e_function "Vp" 0))) /\
  (map fst (white_params E e_symbol e_function) = ["β"; "θ"; "m"; "Vp"] /\
   white_eq E e_add e_mul e_div e_opp e_1 e_var e_diff (white_params E e_symbol e_function) =
     Ok (white_equation E e_add e_mul e_div e_opp e_1 e_var e_diff (e_symbol "β" true) (e_symbol "θ" false) (e_symbol "m" false) (e_function "Vp" 0))) /\
  (map fst (harmonic_params E e_symbol e_function) = ["β"; "γ"; "ε"; "θ"; "m"; "Vp"] /\
   harmonic_eq E e_add e_mul e_div e_opp e_1 e_var e_sqrt e_diff (harmonic_params E e_symbol e_function) =
     Ok (harmonic_equation E e_add e_mul e_div e_opp e_1 e_var e_sqrt e_diff (e_symbol "β" true) (e_symbol "γ" true) (e_symbol "ε" true) (e_symbol "θ" false) (e_symbol "m" false) (e_function "Vp" 0))) /\
  (map fst (mckean_params E e_symbol e_function) = ["β"; "γ"; "ε"; "θ"; "m"; "Vp"; "Vy"] /\
   (has_undefined (e_function "Vy" 1) = true ->
    mckean_eq E e_add e_mul e_div e_opp e_1 e_var e_sqrt e_diff has_undefined effective (mckean_params E e_symbol e_function) =
      Ok (mckean_equation E e_add e_mul e_div e_opp e_1 e_var e_diff (e_symbol "β" true) (e_symbol "γ" true) (e_symbol "ε" true) (e_symbol "θ" false) (e_symbol "m" false)
            (e_sqrt (e_div e_1 (e_symbol "β" true))) (e_function "Vp" 0) (e_function "Vy" 1)))).
Proof.
  intros E e_add e_mul e_div e_opp e_1 e_var e_sqrt e_diff e_symbol e_function has_undefined effective.
  split; [|split; [|split]]; (split; [reflexivity|]).
  - apply C113_fokker_planck; [is_a_dict|is_given].
  - apply C113_white; [is_a_dict|is_given].
  - apply C113_harmonic; [is_a_dict|is_given].
  - intros U. refine (proj1 (proj1 (C113_mckean E e_add e_mul e_div e_opp e_1 e_var e_sqrt e_diff has_undefined effective _ _) _ _ _ _ _ _ _ _) U); [is_a_dict|is_given].
Qed.
Print Assumptions C113_params.

(** C113: Generalized_Langevin.params(n) raises an AssertionError unless n is 1 or 2; backward of its result has n auxiliary processes. *)
Theorem C113_generalized_params : forall E e_add e_mul e_div e_opp e_1 e_var e_diff e_is0 (e_symbol : string -> bool -> E) e_function,
  (forall n, n <> 1 -> n <> 2 -> gle_dict E e_symbol e_function n = Throw "AssertionError") /\
  (exists p, gle_dict E e_symbol e_function 1 = Ok p /\ map fst p = ["β"; "λ"; "α"; "Vx"] /\
    gle_eq E e_add e_mul e_div e_opp e_1 e_var e_diff e_is0 p =
    generalized_langevin E e_add e_mul e_div e_opp e_1 e_var e_diff e_is0 (e_symbol "β" true) (e_function "Vx" 0) (Aux1 E (e_symbol "λ" true) (e_symbol "α" true))) /\
  (exists p, gle_dict E e_symbol e_function 2 = Ok p /\ map fst p = ["β"; "λ1"; "λ2"; "A11"; "A12"; "A21"; "A22"; "Vx"] /\
    gle_eq E e_add e_mul e_div e_opp e_1 e_var e_diff e_is0 p =
    generalized_langevin E e_add e_mul e_div e_opp e_1 e_var e_diff e_is0 (e_symbol "β" true) (e_function "Vx" 0)
      (Aux2 E (e_symbol "λ1" true) (e_symbol "λ2" true) (e_symbol "A11" false) (e_symbol "A12" false) (e_symbol "A21" false) (e_symbol "A22" false))).
Proof.
  intros E e_add e_mul e_div e_opp e_1 e_var e_diff e_is0 e_symbol e_function. split; [|split].
  - intros n H1 H2. unfold gle_dict. apply Nat.eqb_neq in H1, H2. rewrite H1, H2. reflexivity.
  - eexists. split; [reflexivity|]. split; [reflexivity|]. apply C113_generalized; [is_a_dict|is_given].
  - eexists. split; [reflexivity|]. split; [reflexivity|]. apply C113_generalized; [is_a_dict|cbn; intuition discriminate|is_given].
Qed.
Print Assumptions C113_generalized_params.

(** C113: a friction γ, or anything else, that is added to the dictionary of Generalized_Langevin.params is ignored: the usual Langevin equation cannot be obtained by completing that dictionary, unless α is added, which replaces the two auxiliary processes by one. *)
Theorem C113_friction_ignored : forall E e_add e_mul e_div e_opp e_1 e_var e_diff e_is0 (e_symbol : string -> bool -> E) e_function n p extra,
  gle_dict E e_symbol e_function n = Ok p -> is_dict (p ++ extra) -> ~ In "α" (map fst extra) ->
  gle_eq E e_add e_mul e_div e_opp e_1 e_var e_diff e_is0 (p ++ extra) = gle_eq E e_add e_mul e_div e_opp e_1 e_var e_diff e_is0 p.
Proof.
  intros E e_add e_mul e_div e_opp e_1 e_var e_diff e_is0 e_symbol e_function n p extra H N X.
  destruct (Nat.eq_dec n 1) as [->|H1]; [|destruct (Nat.eq_dec n 2) as [->|H2]].
  - injection H as <-. rewrite (proj1 (C113_generalized E e_add e_mul e_div e_opp e_1 e_var e_diff e_is0 _ N) (e_symbol "β" true) (e_function "Vx" 0) (e_symbol "λ" true) (e_symbol "α" true)); [reflexivity|is_given].
  - injection H as <-. rewrite (proj1 (proj2 (C113_generalized E e_add e_mul e_div e_opp e_1 e_var e_diff e_is0 _ N)) (e_symbol "β" true) (e_function "Vx" 0) (e_symbol "λ1" true) (e_symbol "λ2" true) (e_symbol "A11" false) (e_symbol "A12" false) (e_symbol "A21" false) (e_symbol "A22" false)); [reflexivity| |is_given].
    rewrite map_app. intros I. apply in_app_or in I. destruct I as [I|I]; [cbn in I; intuition discriminate|exact (X I)].
  - rewrite (proj1 (C113_generalized_params E e_add e_mul e_div e_opp e_1 e_var e_diff e_is0 e_symbol e_function) n H1 H2) in H. discriminate.
Qed.
Print Assumptions C113_friction_ignored.
Example C113_friction_ignored_example : forall p, gle_dict sexpr (fun _ _ => num 2) (fun _ _ => SMul (SVar 0) (SVar 0)) 2 = Ok p ->
  gle_eq sexpr SAdd SMul SDiv SOpp (num 1) SVar s_diff (fun _ => false) (p ++ [("γ", num 3)]) = gle_eq sexpr SAdd SMul SDiv SOpp (num 1) SVar s_diff (fun _ => false) p.
Proof.
  intros p H. apply (C113_friction_ignored sexpr SAdd SMul SDiv SOpp (num 1) SVar s_diff (fun _ => false) (fun _ _ => num 2) (fun _ _ => SMul (SVar 0) (SVar 0)) 2 p _ H).
  - injection H as <-. is_a_dict.
  - cbn. intuition discriminate.
Qed.
