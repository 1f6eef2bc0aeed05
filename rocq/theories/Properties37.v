(** C103: solve_gaussian. *)
From Coq Require Import String List Bool Arith Lia Reals Lra.
From Verif Require Import Base Num LinSpec CalcSpec OpSpec OpQuadSpec OpModel OpArithSpec PyQuadSpec EqnSpec EqnFacts EqnFacts2 SteadyModel SteadySpec SteadyFacts SteadyFacts2.
Import ListNotations.
Local Open Scope R_scope.

(** C103: for an operator of order at most two in one, two or three variables, if sympy divides, collects and solves correctly, what is returned is the Gaussian density of mean zero with the precision matrix that was solved for - if the determinant of that
    matrix is positive - and the operator maps it to zero. *)
Theorem C103_gaussian : forall (E : Type) (eval : E -> (nat -> R) -> R) (free_vars : E -> list nat) e_add e_mul e_div e_opp e_1 e_pi e_var e_sqrt e_exp e_subs ratio poly_dict solve solved,
  reads_free eval free_vars -> sympy_values eval e_add e_mul e_div e_opp e_1 e_pi e_var e_sqrt e_exp e_subs ->
  forall dim ok l s printed, (1 <= dim <= 3)%nat -> allowed dim ok -> second_order free_vars dim l ->
  ratio_right eval dim ok ratio l (ansatz E e_add e_mul e_div e_opp e_1 e_pi e_var e_sqrt e_exp dim) -> poly_right eval free_vars dim ok poly_dict -> solve_right eval free_vars dim ok solve ->
  solve_gaussian E e_add e_mul e_div e_opp e_1 e_pi e_var e_sqrt e_exp e_subs ratio poly_dict solve solved l dim = Ok (s, printed) ->
  forall dict, poly_dict (seq 0 dim) (ratio l (ansatz E e_add e_mul e_div e_opp e_1 e_pi e_var e_sqrt e_exp dim)) = Some dict ->
  forall p C, ok p -> precision eval dim (solve (map snd dict) (symbols dim)) p = Some C -> 0 < det dim C ->
  (forall x, length x = dim -> eval s (point dim x p) = density dim C x) /\ forall D, twice dim (fun x => eval s (point dim x p)) D -> forall x, length x = dim -> op_at eval dim l D x p = 0.
Proof. intros E eval fv e_add e_mul e_div e_opp e_1 e_pi e_var e_sqrt e_exp e_subs ratio poly_dict solve solved HR HV. exact (gaussian_right eval fv e_add e_mul e_div e_opp e_1 e_pi e_var e_sqrt e_exp e_subs ratio poly_dict solve solved HR HV). Qed.
Print Assumptions C103_gaussian.

(** The Fokker-Planck equation of the Langevin dynamics in the potential y^2/2: the standard Gaussian. *)
Example C103_gaussian_example : exists s printed,
  g_gaussian (fun _ _ => g_poly langevin_dict) (g_poly_dict langevin_dict) (g_solve langevin_dict (AList [[GNum 1; GNum 0; GNum 1]])) (fun _ _ => true) langevin_op 2 = Ok (s, printed) /\
  second_order g_vars 2 langevin_op /\ (forall p x y, g_eval s (point 2 [x; y] p) = 1 / (2 * PI) * exp (- (1 / 2) * (x * x + y * y))) /\
  forall p, exists D, twice 2 (fun x => g_eval s (point 2 x p)) D /\ forall x, length x = 2%nat -> op_at g_eval 2 langevin_op D x p = 0.
Proof.
  destruct langevin_all as (Hok & Hr & Hp & Hs).
  assert (So : second_order g_vars 2 langevin_op).
  { intros c n [Q|[Q|[Q|[Q|[Q|[]]]]]]; injection Q as <- <-; (split; [reflexivity|]); (split; [unfold order; cbn; lia|]); cbn; intros d H K; repeat destruct H as [<-|H]; try contradiction; repeat destruct K as [K|K]; lia. }
  pose (C := [[1; 0]; [0; 1]]).
  assert (Ed : g_poly_dict langevin_dict (seq 0 2) (g_poly langevin_dict) = Some langevin_dict) by apply g_poly_same.
  assert (Es : g_solve langevin_dict (AList [[GNum 1; GNum 0; GNum 1]]) (map snd langevin_dict) (symbols 2) = AList [[GNum 1; GNum 0; GNum 1]]) by apply g_solve_same.
  assert (EC : forall p, precision g_eval 2 (g_solve langevin_dict (AList [[GNum 1; GNum 0; GNum 1]]) (map snd langevin_dict) (symbols 2)) p = Some C) by (intros p; rewrite Es; reflexivity).
  destruct (gaussian_returns g_eval GAdd GMul GDiv GOpp (GNum 1) (GNum PI) GVar GSqrt GExp g_subs (fun _ _ => g_poly langevin_dict) (g_poly_dict langevin_dict) (g_solve langevin_dict (AList [[GNum 1; GNum 0; GNum 1]])) (fun _ _ => true) 2 langevin_op langevin_dict (fun _ => 0) C ltac:(lia) Ed (EC _)) as (s & Rn & _).
  assert (Hdet : det 2 C = 1) by (unfold C; rewrite det2; ring).
  pose proof (fun p => C103_gaussian gexpr g_eval g_vars _ _ _ _ _ _ _ _ _ _ _ _ _ _ g_reads g_values 2 _ langevin_op s _ ltac:(lia) Hok So Hr Hp Hs Rn langevin_dict Ed p C I (EC p) ltac:(rewrite Hdet; lra)) as G.
  assert (Hpi : 0 < 2 * PI) by (pose proof PI_RGT_0; lra).
  assert (V : forall p x y, g_eval s (point 2 [x; y] p) = 1 / (2 * PI) * exp (- (1 / 2) * (x * x + y * y))).
  { intros p x y. rewrite (proj1 (G p) [x; y] eq_refl). unfold density. rewrite Hdet. f_equal.
    - replace (1 / (2 * PI) ^ 2) with (Rsqr (1 / (2 * PI))) by (unfold Rsqr; field; apply PI_neq0). apply sqrt_Rsqr. apply Rlt_le, Rdiv_lt_0_compat; lra.
    - f_equal. unfold form, C, rsum. cbn. ring. }
  exists s, (negb true). split; [exact Rn|]. split; [exact So|]. split; [exact V|]. intros p.
  pose (e := SMul (SNum (1 / (2 * PI))) (SExp (SMul (SNum (- (1 / 2))) (SAdd (SMul (SVar 0) (SVar 0)) (SMul (SVar 1) (SVar 1)))))).
  assert (T : twice 2 (fun x => g_eval s (point 2 x p)) (s_D e)).
  { apply (twice_ext 2 (fun x => s_eval e (fun d => nth d x 0))).
    - intros x Hx. destruct (two_entries x Hx) as (a & b & ->). rewrite V. reflexivity.
    - apply s_twice; [cbn; tauto|]. intros d H. cbn in H. apply in_seq. repeat destruct H as [<-|H]; try lia. }
  exists (s_D e). split; [exact T|]. exact (proj2 (G p) _ T).
Qed.

(** One variable, where sympy returns a dict: the standard Gaussian again, whatever the values of the other symbols are. *)
Example C103_gaussian_example_line : exists s printed,
  g_gaussian (fun _ _ => g_poly line_dict) (g_poly_dict line_dict) (g_solve line_dict (ADict [(1%nat, GNum 1)])) (fun _ _ => false) line_op 1 = Ok (s, printed) /\ printed = true /\
  forall p x, 0 < p 1%nat -> g_eval s (point 1 [x] p) = density 1 [[1]] [x].
Proof.
  destruct line_all as (Hok & Hr & Hp & Hs).
  assert (So : second_order g_vars 1 line_op).
  { intros c n [Q|[Q|[Q|[]]]]; injection Q as <- <-; (split; [reflexivity|]); (split; [unfold order; cbn; lia|]); cbn; intros d H K; repeat destruct H as [<-|H]; try contradiction; repeat destruct K as [K|K]; lia. }
  assert (Ed : g_poly_dict line_dict (seq 0 1) (g_poly line_dict) = Some line_dict) by apply g_poly_same.
  assert (Es : g_solve line_dict (ADict [(1%nat, GNum 1)]) (map snd line_dict) (symbols 1) = ADict [(1%nat, GNum 1)]) by apply g_solve_same.
  assert (EC : forall p, precision g_eval 1 (g_solve line_dict (ADict [(1%nat, GNum 1)]) (map snd line_dict) (symbols 1)) p = Some [[1]]) by (intros p; rewrite Es; cbn; repeat f_equal; field).
  destruct (gaussian_returns g_eval GAdd GMul GDiv GOpp (GNum 1) (GNum PI) GVar GSqrt GExp g_subs (fun _ _ => g_poly line_dict) (g_poly_dict line_dict) (g_solve line_dict (ADict [(1%nat, GNum 1)])) (fun _ _ => false) 1 line_op line_dict (fun _ => 0) [[1]] ltac:(lia) Ed (EC _)) as (s & Rn & _).
  exists s, (negb false). split; [exact Rn|]. split; [reflexivity|]. intros p x Hx.
  exact (proj1 (C103_gaussian gexpr g_eval g_vars _ _ _ _ _ _ _ _ _ _ _ _ _ _ g_reads g_values 1 _ line_op s _ ltac:(lia) Hok So Hr Hp Hs Rn line_dict Ed p [[1]] Hx (EC p) ltac:(cbn; lra)) [x] eq_refl).
Qed.

(** That the determinant is positive does not make it a density: with the same assumptions the function that is returned can be unbounded, and nothing is reported, since the equation holds. *)
Theorem C103_density_refuted : ~ forall (dim : nat) (ok : (nat -> R) -> Prop) (l : oper gexpr) ratio poly_dict solve s,
  (1 <= dim <= 3)%nat -> allowed dim ok -> second_order g_vars dim l -> ratio_right g_eval dim ok ratio l (g_ansatz dim) -> poly_right g_eval g_vars dim ok poly_dict -> solve_right g_eval g_vars dim ok solve ->
  g_gaussian ratio poly_dict solve (fun _ _ => true) l dim = Ok (s, false) ->
  forall dict, poly_dict (seq 0 dim) (ratio l (g_ansatz dim)) = Some dict -> forall p C, ok p -> precision g_eval dim (solve (map snd dict) (symbols dim)) p = Some C -> 0 < det dim C ->
  exists bound, forall x, length x = dim -> g_eval s (point dim x p) <= bound.
Proof.
  intros H. destruct outward_all as (Hok & Hr & Hp & Hs).
  assert (So : second_order g_vars 2 outward_op).
  { intros c n [Q|[Q|[Q|[Q|[Q|[]]]]]]; injection Q as <- <-; (split; [reflexivity|]); (split; [unfold order; cbn; lia|]); cbn; intros d K L; repeat destruct K as [<-|K]; try contradiction; repeat destruct L as [L|L]; lia. }
  pose (C := [[-1; 0]; [0; -1]]).
  assert (Ed : g_poly_dict outward_dict (seq 0 2) (g_poly outward_dict) = Some outward_dict) by apply g_poly_same.
  assert (Es : g_solve outward_dict (AList [[GNum (-1); GNum 0; GNum (-1)]]) (map snd outward_dict) (symbols 2) = AList [[GNum (-1); GNum 0; GNum (-1)]]) by apply g_solve_same.
  assert (EC : forall p, precision g_eval 2 (g_solve outward_dict (AList [[GNum (-1); GNum 0; GNum (-1)]]) (map snd outward_dict) (symbols 2)) p = Some C) by (intros p; rewrite Es; reflexivity).
  destruct (gaussian_returns g_eval GAdd GMul GDiv GOpp (GNum 1) (GNum PI) GVar GSqrt GExp g_subs (fun _ _ => g_poly outward_dict) (g_poly_dict outward_dict) (g_solve outward_dict (AList [[GNum (-1); GNum 0; GNum (-1)]])) (fun _ _ => true) 2 outward_op outward_dict (fun _ => 0) C ltac:(lia) Ed (EC _)) as (s & Rn & _).
  assert (Hdet : det 2 C = 1) by (unfold C; rewrite det2; ring). assert (Hd : 0 < det 2 C) by (rewrite Hdet; lra).
  pose (p := fun _ : nat => 0).
  destruct (H 2%nat _ outward_op _ _ _ s ltac:(lia) Hok So Hr Hp Hs Rn outward_dict Ed p C I (EC p) Hd) as (bound & B).
  pose proof (proj1 (C103_gaussian gexpr g_eval g_vars _ _ _ _ _ _ _ _ _ _ _ _ _ _ g_reads g_values 2 _ outward_op s _ ltac:(lia) Hok So Hr Hp Hs Rn outward_dict Ed p C I (EC p) Hd)) as G.
  assert (Hpi : 0 < 2 * PI) by (pose proof PI_RGT_0; lra).
  set (t := Rabs bound * (2 * PI) + 1). assert (T1 : 1 <= t) by (unfold t; pose proof (Rabs_pos bound); assert (0 <= Rabs bound * (2 * PI)) by (apply Rmult_le_pos; lra); lra).
  specialize (B [2 * t; 0] eq_refl). rewrite G in B by reflexivity. unfold density in B. rewrite Hdet in B.
  replace (sqrt (1 / (2 * PI) ^ 2)) with (1 / (2 * PI)) in B by (symmetry; replace (1 / (2 * PI) ^ 2) with (Rsqr (1 / (2 * PI))) by (unfold Rsqr; field; apply PI_neq0); apply sqrt_Rsqr, Rlt_le, Rdiv_lt_0_compat; lra).
  replace (- (1 / 2) * form 2 C [2 * t; 0]) with (2 * (t * t)) in B by (unfold form, C, rsum; cbn; field).
  assert (X : 1 + 2 * (t * t) <= exp (2 * (t * t))) by (apply exp_ineq1_le).
  assert (Y : exp (2 * (t * t)) <= bound * (2 * PI)) by (apply (Rmult_le_compat_r (2 * PI)) in B; [|lra]; replace (1 / (2 * PI) * exp (2 * (t * t)) * (2 * PI)) with (exp (2 * (t * t))) in B by (field; apply PI_neq0); exact B).
  assert (Z : bound * (2 * PI) <= t - 1) by (unfold t; pose proof (Rle_abs bound); assert (bound * (2 * PI) <= Rabs bound * (2 * PI)) by (apply Rmult_le_compat_r; lra); lra).
  assert (W : t <= t * t) by (replace t with (t * 1) at 1 by ring; apply Rmult_le_compat_l; lra). lra.
Qed.
Print Assumptions C103_density_refuted.

(** A result is returned whenever the quotient is a polynomial with a solution, and the test at the end has no effect on it. *)
Theorem C103_returns : forall (E : Type) (eval : E -> (nat -> R) -> R) e_add e_mul e_div e_opp e_1 e_pi e_var e_sqrt e_exp e_subs ratio poly_dict solve dim (l : oper E) dict p C, (1 <= dim <= 3)%nat ->
  poly_dict (seq 0 dim) (ratio l (ansatz E e_add e_mul e_div e_opp e_1 e_pi e_var e_sqrt e_exp dim)) = Some dict -> precision eval dim (solve (map snd dict) (symbols dim)) p = Some C ->
  exists s, forall solved, solve_gaussian E e_add e_mul e_div e_opp e_1 e_pi e_var e_sqrt e_exp e_subs ratio poly_dict solve solved l dim = Ok (s, negb (solved l s)).
Proof.
  intros E eval e_add e_mul e_div e_opp e_1 e_pi e_var e_sqrt e_exp e_subs ratio poly_dict solve dim l dict p C Hd Ed EC.
  destruct (gaussian_returns eval e_add e_mul e_div e_opp e_1 e_pi e_var e_sqrt e_exp e_subs ratio poly_dict solve (fun _ _ => true) dim l dict p C Hd Ed EC) as (s & _ & H). exists s. exact H.
Qed.
Print Assumptions C103_returns.

Example C103_returns_example : exists s, forall solved, g_gaussian (fun _ _ => g_poly langevin_dict) (g_poly_dict langevin_dict) (g_solve langevin_dict (AList [[GNum 1; GNum 0; GNum 1]])) solved langevin_op 2 = Ok (s, negb (solved langevin_op s)).
Proof. apply (C103_returns gexpr g_eval) with (dict := langevin_dict) (p := fun _ => 0) (C := [[1; 0]; [0; 1]]); [lia|apply g_poly_same|rewrite g_solve_same; reflexivity]. Qed.

(** The other cases: another number of variables, a quotient that is not a polynomial, no solution, and an answer of the other kind. *)
Theorem C103_raises : forall (E : Type) e_add e_mul e_div e_opp e_1 e_pi e_var e_sqrt e_exp e_subs ratio poly_dict solve solved (l : oper E),
  let gaussian := solve_gaussian E e_add e_mul e_div e_opp e_1 e_pi e_var e_sqrt e_exp e_subs ratio poly_dict solve solved l in let start := ansatz E e_add e_mul e_div e_opp e_1 e_pi e_var e_sqrt e_exp in
  (forall dim, dim = 0%nat \/ (4 <= dim)%nat -> gaussian dim = Throw "UnboundLocalError"%string) /\
  (forall dim, (1 <= dim <= 3)%nat -> poly_dict (seq 0 dim) (ratio l (start dim)) = None -> gaussian dim = Throw "AttributeError"%string) /\
  (forall dim dict, (2 <= dim <= 3)%nat -> poly_dict (seq 0 dim) (ratio l (start dim)) = Some dict ->
     (solve (map snd dict) (symbols dim) = AList [] -> gaussian dim = Throw "IndexError"%string) /\ forall d, solve (map snd dict) (symbols dim) = ADict d -> gaussian dim = Throw "KeyError"%string) /\
  forall dict t, poly_dict (seq 0 1) (ratio l (start 1%nat)) = Some dict -> solve (map snd dict) (symbols 1) = AList t -> gaussian 1%nat = Throw "TypeError"%string.
Proof. intros E e_add e_mul e_div e_opp e_1 e_pi e_var e_sqrt e_exp e_subs ratio poly_dict solve solved l. exact (gaussian_raises e_add e_mul e_div e_opp e_1 e_pi e_var e_sqrt e_exp e_subs ratio poly_dict solve solved l). Qed.
Print Assumptions C103_raises.

(** The transport equation -x df/dy = 0 in one variable fewer than it has, in no variable, and the Langevin equation with no solution found. *)
Example C103_raises_example : g_gaussian (fun _ _ => GVar 0) (fun _ _ => None) (fun _ _ => AList []) (fun _ _ => true) [(GOpp (GVar 0), [0; 1]%nat)] 0 = Throw "UnboundLocalError"%string /\
  g_gaussian (fun _ _ => GVar 0) (fun _ _ => None) (fun _ _ => AList []) (fun _ _ => true) [(GOpp (GVar 0), [0; 1]%nat)] 2 = Throw "AttributeError"%string /\
  g_gaussian (fun _ _ => g_poly langevin_dict) (g_poly_dict langevin_dict) (g_solve langevin_dict (AList [])) (fun _ _ => true) langevin_op 2 = Throw "IndexError"%string.
Proof.
  split; [|split].
  - apply C103_raises. left. reflexivity.
  - apply C103_raises; [lia|reflexivity].
  - apply (proj1 (proj1 (proj2 (proj2 (C103_raises gexpr GAdd GMul GDiv GOpp (GNum 1) (GNum PI) GVar GSqrt GExp g_subs (fun _ _ => g_poly langevin_dict) (g_poly_dict langevin_dict) (g_solve langevin_dict (AList [])) (fun _ _ => true) langevin_op))) 2%nat langevin_dict ltac:(lia) (g_poly_same _ _))). apply g_solve_same.
Qed.
