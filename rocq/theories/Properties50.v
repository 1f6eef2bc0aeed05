(** Property C115: expressions of series, forms and numbers. *)
From Coq Require Import String List Bool Arith Reals Lia Lra.
From Verif Require Import Base IndexModel Num PyBase PosModel PartModel SplitModel SeriesModel MulModel TensVarfModel MixedModel MixedSpec MixedFacts.
Import ListNotations.
Local Open Scope string_scope. Local Open Scope list_scope. Local Open Scope nat_scope.

(** Two directions, degree 1 on the triangle: three indices. *)
Definition ex_pos : position num_R := @Pos num_R [0; 1] [0; 0]%R [[1; 0]; [0; 1]]%R ["hermite"; "hermite"] true.
Definition ex_factor : func nat := Fn 7 [0; 1].
Definition ex_ser (a b c : R) : series num_R nat := @Ser num_R nat [a; b; c] ex_pos Triangle 1 ex_factor.
Definition ex_form (a : R) : varf num_R nat := @Vf num_R nat [[a; 0; 0]; [0; a; 0]; [0; 0; a]]%R ex_pos Triangle 1 ex_factor.
Lemma ex_fits_ser : forall a b c, fits nat 1 ex_pos Triangle ex_factor 3 (OSer (ex_ser a b c)).
Proof. intros a b c. split; [vm_compute|]; reflexivity. Qed.
Lemma ex_fits_form : forall a, fits nat 1 ex_pos Triangle ex_factor 3 (OVarf (ex_form a)).
Proof. intros a. split; [vm_compute; reflexivity|]. split; [reflexivity|]. repeat constructor. Qed.
Definition ex_any : position num_R -> position num_R -> bool := fun _ _ => true.
Definition ex_eval := eval nat Nat.mul Nat.add 1 (fun e => [e]) (fun e => [e]) (fun _ => []) Nat.eqb (fun _ => false) ex_any.
Definition ex_add := py_add nat 1 Nat.eqb ex_any.
Definition ex_sum := py_sum nat 1 Nat.eqb ex_any.

(** C115: every expression of series and forms with the same position, index set, factor and size, numbers and other objects does what the
    table of its operators says: it gives a number, a series or a form with the entries that the expression denotes, or raises the first
    exception in the order of evaluation. *)
Theorem C115_expressions : forall E e_mul e_div (e_1 : E) add_args mul_args free_vars sym_eqb far_from_diag pos_eqb p s factor n,
  pos_eqb p p = true -> sym_eqb (f_sym factor) (f_sym factor) = true ->
  forall e, safe E e -> Forall (fits E e_1 p s factor n) (leaves E e) ->
  match infer E e with
  | Gives k => exists x, eval E e_mul e_div e_1 add_args mul_args free_vars sym_eqb far_from_diag pos_eqb e = Ok x /\ kind_of E x = k /\ fits E e_1 p s factor n x /\
                 forall i j, k = KNum \/ i < n /\ j < n -> entry_of E i j x = denote E i j e
  | Raises what => eval E e_mul e_div e_1 add_args mul_args free_vars sym_eqb far_from_diag pos_eqb e = Throw what
  | Product => True
  end.
Proof. exact eval_infer. Qed.
Print Assumptions C115_expressions.
(** (f * 2 - g) / 4 + 1 is a series, and 1 - f raises TypeError. *)
Example C115_expressions_example :
  let e := Add (Div (Sub (Mul (Val (OSer (ex_ser 1 2 3))) (Val (ONum 2))) (Val (OSer (ex_ser 4 0 0)))) (Val (ONum 4))) (Val (ONum 1)) in
  safe nat e /\ Forall (fits nat 1 ex_pos Triangle ex_factor 3) (leaves nat e) /\ infer nat e = Gives KSer /\ denote nat 2 0 e = (5 / 2)%R /\
  infer nat (Sub (Val (ONum 1)) (Val (OSer (ex_ser 1 2 3)))) = Raises "TypeError".
Proof.
  cbn zeta. split; [cbn; repeat split; intros _; lra|]. split; [|split; [reflexivity|split; [cbn; field|reflexivity]]].
  cbn [leaves app]. repeat apply Forall_cons; try apply ex_fits_ser; try exact I. constructor.
Qed.

(** C115: expressions may be rewritten: two expressions that give series, or forms, and denote the same entries give the same coefficients. *)
Theorem C115_rewriting : forall E e_mul e_div (e_1 : E) add_args mul_args free_vars sym_eqb far_from_diag pos_eqb p s factor n,
  pos_eqb p p = true -> sym_eqb (f_sym factor) (f_sym factor) = true ->
  forall e e' k, safe E e -> safe E e' -> Forall (fits E e_1 p s factor n) (leaves E e) -> Forall (fits E e_1 p s factor n) (leaves E e') -> infer E e = Gives k -> infer E e' = Gives k ->
  (forall i j, denote E i j e = denote E i j e') ->
  exists x x', eval E e_mul e_div e_1 add_args mul_args free_vars sym_eqb far_from_diag pos_eqb e = Ok x /\ eval E e_mul e_div e_1 add_args mul_args free_vars sym_eqb far_from_diag pos_eqb e' = Ok x' /\
    forall i j, i < n -> j < n -> entry_of E i j x = entry_of E i j x'.
Proof.
  intros E e_mul e_div e_1 add_args mul_args free_vars sym_eqb far_from_diag pos_eqb p s factor n Hp Hf e e' k Hs Hs' Hl Hl' Hk Hk' Hd.
  pose proof (eval_infer E e_mul e_div e_1 add_args mul_args free_vars sym_eqb far_from_diag pos_eqb p s factor n Hp Hf e Hs Hl) as H. rewrite Hk in H.
  pose proof (eval_infer E e_mul e_div e_1 add_args mul_args free_vars sym_eqb far_from_diag pos_eqb p s factor n Hp Hf e' Hs' Hl') as H'. rewrite Hk' in H'.
  destruct H as (x & H1 & _ & _ & H2), H' as (x' & H1' & _ & _ & H2'). exists x, x'. split; [exact H1|]. split; [exact H1'|]. intros i j Hi Hj. rewrite H2, H2' by (right; lia). apply Hd.
Qed.
Print Assumptions C115_rewriting.
Example C115_rewriting_example : forall f g : series num_R nat, infer nat (Mul (Add (Val (OSer f)) (Val (OSer g))) (Val (ONum 2))) = Gives KSer /\
  infer nat (Sub (Mul (Val (ONum 2)) (Val (OSer f))) (Neg (Add (Val (OSer g)) (Val (OSer g))))) = Gives KSer /\
  forall i j, denote nat i j (Mul (Add (Val (OSer f)) (Val (OSer g))) (Val (ONum 2))) = denote nat i j (Sub (Mul (Val (ONum 2)) (Val (OSer f))) (Neg (Add (Val (OSer g)) (Val (OSer g))))).
Proof. intros f g. split; [reflexivity|]. split; [reflexivity|]. intros i j. cbn. ring. Qed.

(** C115: sum(forms) is the sum of the forms. *)
Theorem C115_sum : forall E (e_1 : E) sym_eqb pos_eqb p s factor n, pos_eqb p p = true -> sym_eqb (f_sym factor) (f_sym factor) = true ->
  forall vs, vs <> [] -> Forall (fun v => fits E e_1 p s factor n (OVarf v)) vs ->
  exists h, py_sum E e_1 sym_eqb pos_eqb (map OVarf vs) = Ok (OVarf h) /\ fits E e_1 p s factor n (OVarf h) /\
    forall i j, i < n -> j < n -> nth j (nth i (v_mat h) []) 0%R = fold_right Rplus 0%R (map (fun v : varf num_R E => nth j (nth i (v_mat v) []) 0%R) vs).
Proof. exact sum_forms. Qed.
Print Assumptions C115_sum.
Example C115_sum_example : ex_any ex_pos ex_pos = true /\ Nat.eqb (f_sym ex_factor) (f_sym ex_factor) = true /\ [ex_form 1; ex_form 2] <> [] /\ Forall (fun v => fits nat 1 ex_pos Triangle ex_factor 3 (OVarf v)) [ex_form 1; ex_form 2].
Proof. split; [reflexivity|]. split; [reflexivity|]. split; [discriminate|]. repeat apply Forall_cons; try apply ex_fits_form. constructor. Qed.

(** C115, false for series: sum(series) raises TypeError, for every list of series that is not empty. *)
Theorem C115_sum_series_refuted : (forall E (e_1 : E) sym_eqb pos_eqb f l, py_sum E e_1 sym_eqb pos_eqb (OSer f :: l) = Throw "TypeError") /\
  ~ (forall l, Forall (fits nat 1 ex_pos Triangle ex_factor 3) l -> exists x, ex_sum l = Ok x).
Proof.
  split; [reflexivity|]. intros H. destruct (H [OSer (ex_ser 1 2 3)]) as [x D]; [|discriminate D]. repeat constructor.
Qed.
Print Assumptions C115_sum_series_refuted.

(** C115, false in general: the sum of a series and a number depends on their order. *)
Theorem C115_commutes_refuted : ~ forall a b, fits nat 1 ex_pos Triangle ex_factor 3 a -> fits nat 1 ex_pos Triangle ex_factor 3 b -> ex_add a b = ex_add b a.
Proof. intros H. specialize (H (ONum 1) (OSer (ex_ser 1 2 3)) I (ex_fits_ser 1 2 3)). vm_compute in H. discriminate H. Qed.
Print Assumptions C115_commutes_refuted.
