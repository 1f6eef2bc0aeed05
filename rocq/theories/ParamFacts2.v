(** The equations of equations.py read from dictionaries of parameters. *)
From Coq Require Import String List Bool Arith Lia.
From Verif Require Import Base PyBase OpModel OpArithModel EqnModel ParamModel ParamSpec ParamFacts.
Import ListNotations.
Local Open Scope string_scope. Local Open Scope list_scope. Local Open Scope nat_scope.

Section Facts.
Variable E : Type.
Variable e_add e_mul e_div : E -> E -> E.
Variable e_opp : E -> E.
Variable e_1 : E.
Variable e_var : nat -> E.
Variable e_sqrt : E -> E.
Variable e_diff : nat -> E -> E.
Variable e_is0 : E -> bool.
Variable e_symbol : string -> bool -> E.
Variable e_function : string -> nat -> E.
Variable has_undefined : E -> bool.
Variable effective : E -> res E.
Variable p : list (string * E).
Hypothesis N : is_dict p.

Lemma fp_ok b V : given p [("β", b); ("Vp", V)] -> fp_equation E e_mul e_div e_1 e_diff p = Ok (fokker_planck_1d E e_mul e_div e_1 e_diff b V).
Proof. intros H. unfold fp_equation. use_given N H. reflexivity. Qed.
Lemma fp_lacks : lacks p ["β"; "Vp"] -> fp_equation E e_mul e_div e_1 e_diff p = Throw "KeyError".
Proof. intros H. unfold fp_equation. use_lacks H. Qed.

Lemma white_ok b t m V : given p [("β", b); ("θ", t); ("m", m); ("Vp", V)] ->
  white_eq E e_add e_mul e_div e_opp e_1 e_var e_diff p = Ok (white_equation E e_add e_mul e_div e_opp e_1 e_var e_diff b t m V).
Proof. intros H. unfold white_eq. use_given N H. reflexivity. Qed.
Lemma white_lacks : lacks p ["β"; "θ"; "m"; "Vp"] -> white_eq E e_add e_mul e_div e_opp e_1 e_var e_diff p = Throw "KeyError".
Proof. intros H. unfold white_eq. use_lacks H. Qed.

Lemma mckean_ok b g e t m Vp Vy : given p [("β", b); ("γ", g); ("ε", e); ("θ", t); ("m", m); ("Vp", Vp); ("Vy", Vy)] ->
  (has_undefined Vy = true ->
   mckean_eq E e_add e_mul e_div e_opp e_1 e_var e_sqrt e_diff has_undefined effective p =
   Ok (mckean_equation E e_add e_mul e_div e_opp e_1 e_var e_diff b g e t m (e_sqrt (e_div e_1 b)) Vp Vy)) /\
  (forall c, has_undefined Vy = false -> effective Vy = Ok c ->
   mckean_eq E e_add e_mul e_div e_opp e_1 e_var e_sqrt e_diff has_undefined effective p =
   Ok (mckean_equation E e_add e_mul e_div e_opp e_1 e_var e_diff b g e t m (e_sqrt (e_div (e_div e_1 b) c)) Vp Vy)) /\
  (forall x, has_undefined Vy = false -> effective Vy = Throw x ->
   mckean_eq E e_add e_mul e_div e_opp e_1 e_var e_sqrt e_diff has_undefined effective p = Throw x).
Proof.
  intros H. unfold mckean_eq, coeff_noise. use_given N H.
  split; [|split]; intros; repeat match goal with A : _ = _ |- _ => rewrite A; clear A; cbn [bind] end; reflexivity.
Qed.
Lemma mckean_lacks : lacks p ["β"; "γ"; "ε"; "θ"; "m"; "Vp"; "Vy"] ->
  mckean_eq E e_add e_mul e_div e_opp e_1 e_var e_sqrt e_diff has_undefined effective p = Throw "KeyError".
Proof. intros H. unfold mckean_eq. use_lacks H. Qed.

Lemma harmonic_ok b g e t m Vp : given p [("β", b); ("γ", g); ("ε", e); ("θ", t); ("m", m); ("Vp", Vp)] ->
  harmonic_eq E e_add e_mul e_div e_opp e_1 e_var e_sqrt e_diff p = Ok (harmonic_equation E e_add e_mul e_div e_opp e_1 e_var e_sqrt e_diff b g e t m Vp).
Proof. intros H. unfold harmonic_eq. use_given N H. reflexivity. Qed.
Lemma harmonic_lacks : lacks p ["β"; "γ"; "ε"; "θ"; "m"; "Vp"] -> harmonic_eq E e_add e_mul e_div e_opp e_1 e_var e_sqrt e_diff p = Throw "KeyError".
Proof. intros H. unfold harmonic_eq. use_lacks H. Qed.

Lemma overdamped_ok b V : given p [("β", b); ("V", V)] ->
  overdamped_eq E e_mul e_div e_opp e_1 e_diff p = Ok (overdamped_backward E e_mul e_div e_opp e_1 e_diff b V).
Proof. intros H. unfold overdamped_eq. use_given N H. reflexivity. Qed.
Lemma overdamped_lacks : lacks p ["β"; "V"] -> overdamped_eq E e_mul e_div e_opp e_1 e_diff p = Throw "KeyError".
Proof. intros H. unfold overdamped_eq. use_lacks H. Qed.

Lemma langevin_ok g b Vy : given p [("γ", g); ("β", b); ("Vy", Vy)] ->
  langevin_eq E e_mul e_div e_opp e_1 e_var e_diff p = Ok (langevin_backward E e_mul e_div e_opp e_1 e_var e_diff g b Vy).
Proof. intros H. unfold langevin_eq. use_given N H. reflexivity. Qed.
Lemma langevin_lacks : lacks p ["γ"; "β"; "Vy"] -> langevin_eq E e_mul e_div e_opp e_1 e_var e_diff p = Throw "KeyError".
Proof. intros H. unfold langevin_eq. use_lacks H. Qed.

Notation gle := (gle_eq E e_add e_mul e_div e_opp e_1 e_var e_diff e_is0).
Notation gl := (generalized_langevin E e_add e_mul e_div e_opp e_1 e_var e_diff e_is0).
Lemma gle1_ok b V l a : given p [("β", b); ("Vx", V); ("λ", l); ("α", a)] -> gle p = gl b V (Aux1 E l a).
Proof.
  intros H. assert (Ha : In "α" (map fst p)) by (apply (given_in p "α" a); apply (proj1 (Forall_forall _ _) H); repeat (first [left; reflexivity|right])).
  unfold gle_eq, gle_branch. rewrite (has_in p "α" Ha). use_given N H. reflexivity.
Qed.
Lemma gle2_ok b V l1 l2 a11 a12 a21 a22 : ~ In "α" (map fst p) ->
  given p [("β", b); ("Vx", V); ("λ1", l1); ("λ2", l2); ("A11", a11); ("A12", a12); ("A21", a21); ("A22", a22)] -> gle p = gl b V (Aux2 E l1 l2 a11 a12 a21 a22).
Proof.
  intros Hn H. assert (Ha : In "A11" (map fst p)) by (apply (given_in p "A11" a11); apply (proj1 (Forall_forall _ _) H); repeat (first [left; reflexivity|right])).
  unfold gle_eq, gle_branch. rewrite (has_not_in p "α" Hn), (has_in p "A11" Ha). use_given N H. reflexivity.
Qed.
Lemma gle0_ok b V g : ~ In "α" (map fst p) -> ~ In "A11" (map fst p) -> given p [("β", b); ("Vx", V); ("γ", g)] -> gle p = gl b V (Friction E g).
Proof.
  intros Hn Hn2 H. assert (Ha : In "γ" (map fst p)) by (apply (given_in p "γ" g); apply (proj1 (Forall_forall _ _) H); repeat (first [left; reflexivity|right])).
  unfold gle_eq, gle_branch. rewrite (has_not_in p "α" Hn), (has_not_in p "A11" Hn2), (has_in p "γ" Ha). use_given N H. reflexivity.
Qed.
Lemma gle_none b V : ~ In "α" (map fst p) -> ~ In "A11" (map fst p) -> ~ In "γ" (map fst p) -> given p [("β", b); ("Vx", V)] -> gle p = Throw "ValueError".
Proof.
  intros Hn Hn2 Hn3 H. unfold gle_eq, gle_branch. rewrite (has_not_in p "α" Hn), (has_not_in p "A11" Hn2), (has_not_in p "γ" Hn3). use_given N H. reflexivity.
Qed.
Lemma gle_lacks : (lacks p ["β"; "Vx"] \/ In "α" (map fst p) /\ lacks p ["λ"] \/
    ~ In "α" (map fst p) /\ In "A11" (map fst p) /\ lacks p ["λ1"; "λ2"; "A12"; "A21"; "A22"]) -> gle p = Throw "KeyError".
Proof.
  intros [H|[[Ha H]|(Hn & Ha & H)]]; unfold gle_eq, gle_branch.
  - use_lacks H.
  - rewrite (has_in p "α" Ha). do 2 match goal with |- bind (d_get ?E ?p ?k) _ = _ =>
      let v := fresh "v" in let G := fresh in let I := fresh in destruct (get_or p k) as [[G I]|[v [G I]]]; rewrite G; cbn [bind]; [reflexivity|] end.
    apply Exists_cons in H. destruct H as [H|H]; [|inversion H]. rewrite (get_missing p "λ" H). reflexivity.
  - rewrite (has_not_in p "α" Hn), (has_in p "A11" Ha).
    destruct (get_or p "β") as [[G _]|[b [G _]]]; rewrite G; cbn [bind]; [reflexivity|].
    destruct (get_or p "Vx") as [[G' _]|[V [G' _]]]; rewrite G'; cbn [bind]; [reflexivity|].
    destruct (get_or p "λ1") as [[G1 I1]|[v1 [G1 I1]]]; rewrite G1; cbn [bind]; [reflexivity|].
    destruct (get_or p "λ2") as [[G2 I2]|[v2 [G2 I2]]]; rewrite G2; cbn [bind]; [reflexivity|].
    destruct (get_or p "A11") as [[G3 I3]|[v3 [G3 I3]]]; rewrite G3; cbn [bind]; [reflexivity|].
    destruct (get_or p "A12") as [[G4 I4]|[v4 [G4 I4]]]; rewrite G4; cbn [bind]; [reflexivity|].
    destruct (get_or p "A21") as [[G5 I5]|[v5 [G5 I5]]]; rewrite G5; cbn [bind]; [reflexivity|].
    destruct (get_or p "A22") as [[G6 I6]|[v6 [G6 I6]]]; rewrite G6; cbn [bind]; [reflexivity|].
    exfalso. unfold lacks in H. repeat (apply Exists_cons in H; destruct H as [H|H]; [contradiction|]); inversion H.
Qed.
End Facts.
