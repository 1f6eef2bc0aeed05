(** Proofs of C103. *)
From Coq Require Import String List Bool Arith Lia Reals Lra.
From Verif Require Import Base Num LinSpec CalcSpec CalcReal OpSpec OpQuadSpec OpModel PyQuadSpec EqnSpec EqnFacts SteadyModel SteadySpec.
Import ListNotations.
Local Open Scope R_scope.

Lemma twice_scale : forall dim f D k, twice dim f D -> twice dim (fun x => k * f x) (fun n x => k * D n x).
Proof.
  intros dim f D k [H1 H2]. split; [intros x Hx; rewrite H1 by exact Hx; reflexivity|]. intros n j Hn Hj Ho.
  refine (p_ext dim j Hj _ _ _ _ (p_mult dim j Hj (fun _ => k) (D n) (fun _ => 0) _ (p_const dim j k) (H2 n j Hn Hj Ho)) _ _); intros x _; ring.
Qed.
Lemma twice_ext : forall dim f f' D, (forall x, length x = dim -> f' x = f x) -> twice dim f D -> twice dim f' D.
Proof. intros dim f f' D H [H1 H2]. split; [intros x Hx; rewrite H by exact Hx; apply H1; exact Hx|exact H2]. Qed.

Lemma Ok_inj : forall A (a b : A), Ok a = Ok b -> a = b.
Proof. intros A a b H. injection H as H. exact H. Qed.
Section Gauss.
Context {E : Type}.
Variable eval : E -> (nat -> R) -> R.
Variable free_vars : E -> list nat.
Variable e_add e_mul e_div : E -> E -> E.
Variable e_opp : E -> E.
Variable e_1 e_pi : E.
Variable e_var : nat -> E.
Variable e_sqrt e_exp : E -> E.
Variable e_subs : nat -> E -> E -> E.
Variable ratio : oper E -> E -> E.
Variable poly_dict : list nat -> E -> option (list (list nat * E)).
Variable solve : list E -> list nat -> answer E.
Variable solved : oper E -> E -> bool.
Hypothesis HR : reads_free eval free_vars.
Hypothesis HV : sympy_values eval e_add e_mul e_div e_opp e_1 e_pi e_var e_sqrt e_exp e_subs.

Notation ansatz1 := (ansatz1 E e_add e_mul e_div e_opp e_1 e_pi e_var e_sqrt e_exp).
Notation ansatz2 := (ansatz2 E e_add e_mul e_div e_opp e_1 e_var e_exp).
Notation ansatz3 := (ansatz3 E e_add e_mul e_div e_opp e_1 e_var e_exp).
Notation ansatz := (ansatz E e_add e_mul e_div e_opp e_1 e_pi e_var e_sqrt e_exp).
Notation op_at := (op_at eval).

Lemma op_at_scale : forall dim l D x p k, op_at dim l (fun n x => k * D n x) x p = k * op_at dim l D x p.
Proof using. intros. unfold SteadySpec.op_at. induction l as [|[c n] l IH]; cbn [map rsum fold_right]; [ring|]. unfold rsum in *. cbn [fold_right] in *. rewrite IH. ring. Qed.

(** ** The values of the ansatz *)
Lemma half_value : forall env, eval (e_half E e_add e_div e_1) env = 1 / 2.
Proof using HV. intros env. unfold e_half, e_2. rewrite (v_div _ _ _ _ _ _ _ _ _ _ _ HV); rewrite (v_add _ _ _ _ _ _ _ _ _ _ _ HV), (v_1 _ _ _ _ _ _ _ _ _ _ _ HV); [field|lra]. Qed.
Lemma two_value : forall env, eval (e_2 E e_add e_1) env = 2.
Proof using HV. intros env. unfold e_2. rewrite (v_add _ _ _ _ _ _ _ _ _ _ _ HV), (v_1 _ _ _ _ _ _ _ _ _ _ _ HV). ring. Qed.
Ltac values := unfold cube, mul4; unfold mul3, sub, sq; repeat (rewrite ?(v_add _ _ _ _ _ _ _ _ _ _ _ HV), ?(v_mul _ _ _ _ _ _ _ _ _ _ _ HV), ?(v_opp _ _ _ _ _ _ _ _ _ _ _ HV), ?(v_var _ _ _ _ _ _ _ _ _ _ _ HV), ?(v_exp _ _ _ _ _ _ _ _ _ _ _ HV), ?(v_pi _ _ _ _ _ _ _ _ _ _ _ HV), ?(v_1 _ _ _ _ _ _ _ _ _ _ _ HV), ?half_value, ?two_value).
Lemma ansatz3_value : forall env, eval ansatz3 env = exp (- (1 / 2) * (env 3%nat * env 0%nat * env 0%nat + env 5%nat * env 2%nat * env 2%nat + env 4%nat * env 1%nat * env 1%nat + 2 * env 6%nat * env 0%nat * env 1%nat + 2 * env 7%nat * env 1%nat * env 2%nat + 2 * env 8%nat * env 0%nat * env 2%nat)).
Proof using HV. intros env. unfold SteadyModel.ansatz3. values. reflexivity. Qed.
Lemma ansatz2_value : forall env, eval ansatz2 env = exp (- (1 / 2) * (env 2%nat * env 0%nat * env 0%nat + 2 * env 3%nat * env 0%nat * env 1%nat + env 4%nat * env 1%nat * env 1%nat)).
Proof using HV. intros env. unfold SteadyModel.ansatz2. values. reflexivity. Qed.
Lemma ansatz1_value : forall env, 0 < env 1%nat -> eval ansatz1 env = 1 / sqrt (2 * PI * env 1%nat) * exp (- (1 / 2) * (env 0%nat * env 0%nat / env 1%nat)).
Proof using HV.
  intros env H. unfold SteadyModel.ansatz1. pose proof PI_RGT_0 as HP. assert (P : 0 < 2 * PI * env 1%nat) by (apply Rmult_lt_0_compat; lra).
  assert (V : eval (mul3 E e_mul (e_2 E e_add e_1) e_pi (e_var 1)) env = 2 * PI * env 1%nat) by (values; reflexivity).
  rewrite (v_mul _ _ _ _ _ _ _ _ _ _ _ HV), (v_exp _ _ _ _ _ _ _ _ _ _ _ HV), (v_mul _ _ _ _ _ _ _ _ _ _ _ HV), (v_opp _ _ _ _ _ _ _ _ _ _ _ HV), half_value.
  rewrite (v_div _ _ _ _ _ _ _ _ _ _ _ HV e_1); rewrite (v_sqrt _ _ _ _ _ _ _ _ _ _ _ HV) by (rewrite V; lra); rewrite V; [|apply Rgt_not_eq, sqrt_lt_R0; exact P].
  rewrite (v_div _ _ _ _ _ _ _ _ _ _ _ HV) by (rewrite (v_var _ _ _ _ _ _ _ _ _ _ _ HV); lra). values. reflexivity.
Qed.

(** ** The equations that are solved say that the operator is zero on the ansatz *)
Section Steady.
Variable dim : nat.
Variable ok : (nat -> R) -> Prop.
Variable l : oper E.
Variable an0 : E.
Hypothesis Hok : allowed dim ok.
Hypothesis Hl : second_order free_vars dim l.
Hypothesis Hratio : ratio_right eval dim ok ratio l an0.
Hypothesis Hpoly : poly_right eval free_vars dim ok poly_dict.
Variable dict : list (list nat * E).
Hypothesis Hdict : poly_dict (seq 0 dim) (ratio l an0) = Some dict.
Variable sol : list E.
Hypothesis Hsol : solution_right eval free_vars dim ok (map snd dict) sol.
Variable p : nat -> R.
Hypothesis Hp : ok p.

Definition settled : nat -> R := set_vars (combine (symbols dim) (map (fun e => eval e p) sol)) p.
Lemma set_vars_other : forall d ks vs q, ~ In d ks -> set_vars (combine ks vs) q d = q d.
Proof using.
  intros d ks. induction ks as [|k ks IH]; intros [|v vs] q H; cbn [combine set_vars fold_right]; try reflexivity. unfold set_var at 1. destruct (Nat.eqb_spec d k) as [->|]; [exfalso; apply H; left; reflexivity|].
  apply IH. intros X. apply H. right. exact X.
Qed.
Lemma op_at_settled : forall D x, length x = dim -> op_at dim l D x settled = op_at dim l D x p.
Proof using HR Hl.
  intros D x Hx. unfold SteadySpec.op_at. apply (f_equal rsum). apply map_ext_in. intros [c n] Hc. f_equal. apply HR. intros d Hd. unfold point. destruct (d <? dim)%nat; [reflexivity|]. apply set_vars_other. exact (proj2 (proj2 (Hl c n Hc)) d Hd).
Qed.
Lemma steady_ansatz : forall D, (forall x, length x = dim -> eval an0 (point dim x settled) <> 0) -> twice dim (fun x => eval an0 (point dim x settled)) D -> forall x, length x = dim -> op_at dim l D x p = 0.
Proof using HR Hl Hratio Hpoly Hdict Hsol Hp.
  intros D Hn HD x Hx. destruct Hsol as (_ & _ & S). destruct (S p Hp) as [S1 S2]. fold settled in S1, S2. destruct (Hpoly _ _ Hdict) as [P1 P2].
  pose proof (Hratio settled D S1 HD Hn x Hx) as Q. rewrite (P2 settled x S1 Hx), op_at_settled in Q by exact Hx.
  assert (Z : rsum (map (fun '(m, c) => eval c (point dim x settled) * rprod (map (fun k => nth k x 0 ^ nth k m 0%nat) (seq 0 dim))) dict) = 0).
  { apply rsum_map_0. intros [m c] Hc.
    replace (eval c (point dim x settled)) with (eval c settled). { rewrite S2; [ring|]. apply (in_map snd) in Hc. exact Hc. }
    apply HR. intros d Hd. unfold point. pose proof (P1 m c Hc d Hd). destruct (Nat.ltb_spec d dim); [lia|reflexivity]. }
  rewrite Z in Q. apply (Rmult_eq_compat_r (eval an0 (point dim x settled))) in Q. unfold Rdiv in Q. rewrite Rmult_assoc, Rinv_l in Q by (apply Hn; exact Hx). lra.
Qed.
(** A multiple of the an0. *)
Lemma steady_multiple : forall k s D, k <> 0 -> (forall x, length x = dim -> s x = k * eval an0 (point dim x settled)) -> (forall x, length x = dim -> eval an0 (point dim x settled) <> 0) ->
  twice dim s D -> forall x, length x = dim -> op_at dim l D x p = 0.
Proof using HR Hl Hratio Hpoly Hdict Hsol Hp.
  intros k s D Hk Hs Hn HD x Hx. assert (T : twice dim (fun x => eval an0 (point dim x settled)) (fun n x => / k * D n x)).
  { refine (twice_ext dim (fun x => / k * s x) _ _ _ (twice_scale dim s D (/ k) HD)). intros y Hy. rewrite Hs by exact Hy. field. exact Hk. }
  pose proof (steady_ansatz _ Hn T x Hx) as Z. rewrite op_at_scale in Z. apply Rmult_integral in Z as [Z|Z]; [|exact Z]. exfalso. revert Z. apply Rinv_neq_0_compat. exact Hk.
Qed.
Lemma sol_value : forall e q, In e sol -> (forall d, (dim <= d)%nat -> ~ In d (symbols dim) -> q d = p d) -> eval e q = eval e p.
Proof using HR Hsol. intros e q He Hq. apply HR. intros d Hd. destruct Hsol as (_ & S & _). destruct (S e d He Hd). apply Hq; assumption. Qed.
End Steady.

(** ** The three cases *)
Notation gaussian1 := (gaussian1 E e_add e_mul e_div e_opp e_1 e_pi e_var e_sqrt e_exp e_subs ratio poly_dict solve).
Notation gaussian2 := (gaussian2 E e_add e_mul e_div e_opp e_1 e_pi e_var e_sqrt e_exp e_subs ratio poly_dict solve).
Notation gaussian3 := (gaussian3 E e_add e_mul e_div e_opp e_1 e_pi e_var e_sqrt e_exp e_subs ratio poly_dict solve).
Definition right_for (dim : nat) (ok : (nat -> R) -> Prop) (l : oper E) (s : E) : Prop :=
  forall dict, poly_dict (seq 0 dim) (ratio l (ansatz dim)) = Some dict -> forall p C, ok p -> precision eval dim (solve (map snd dict) (symbols dim)) p = Some C -> 0 < det dim C ->
  (forall x, length x = dim -> eval s (point dim x p) = density dim C x) /\ forall D, twice dim (fun x => eval s (point dim x p)) D -> forall x, length x = dim -> op_at dim l D x p = 0.

Lemma det2 : forall a b c d, det 2 [[a; b]; [c; d]] = a * d - b * c.
Proof using. intros. cbn. ring. Qed.
Lemma det3 : forall a b c d e f g h i, det 3 [[a; b; c]; [d; e; f]; [g; h; i]] = a * (e * i - f * h) - b * (d * i - f * g) + c * (d * h - e * g).
Proof using. intros. cbn. ring. Qed.
Lemma two_pi : 0 < 2 * PI.
Proof using. pose proof PI_RGT_0. lra. Qed.

Lemma chain_value : forall (A : (nat -> R) -> Prop) (p : nat -> R) (syms : list nat) (l : list (nat * E)) an env, (forall k v q, A q -> In k syms -> A (set_var k v q)) -> (forall k a, In (k, a) l -> In k syms /\ forall q, A q -> eval a q = eval a p) -> A env ->
  eval (fold_left (fun e '(k, a) => e_subs k a e) l an) env = eval an (set_vars (map (fun '(k, a) => (k, eval a p)) l) env).
Proof using HV.
  intros A p syms l. induction l as [|[k a] l IH] using rev_ind; intros an env HA Hl He; [reflexivity|]. rewrite fold_left_app. cbn [fold_left]. rewrite (v_subs _ _ _ _ _ _ _ _ _ _ _ HV).
  destruct (Hl k a ltac:(apply in_or_app; right; left; reflexivity)) as [Hk Ha]. rewrite (Ha env He). rewrite IH; [|exact HA|intros k' a' H; apply Hl; apply in_or_app; left; exact H|apply HA; assumption].
  rewrite map_app. unfold set_vars at 2. rewrite fold_right_app. reflexivity.
Qed.

Lemma case3 : forall ok l s, allowed 3 ok -> second_order free_vars 3 l -> ratio_right eval 3 ok ratio l ansatz3 -> poly_right eval free_vars 3 ok poly_dict -> solve_right eval free_vars 3 ok solve ->
  gaussian3 l = Ok s -> right_for 3 ok l s.
Proof using HR HV.
  intros ok l s Hok Hl Hr Hpo Hs E0. unfold SteadyModel.gaussian3 in E0. unfold coefficients in E0. intros dict Ed p C Hp. change (seq 0 3) with [0; 1; 2]%nat in Ed. change (ansatz 3) with ansatz3 in Ed. rewrite Ed in E0. cbn [bind] in E0. pose proof (Hs (map snd dict)) as S. change (symbols 3) with [3; 4; 5; 6; 7; 8]%nat in *. destruct (solve (map snd dict) [3; 4; 5; 6; 7; 8]%nat) as [?|[|t ts]]; cbn [first bind] in E0; [discriminate E0|discriminate E0|].
  specialize (S t (or_introl eq_refl)). destruct t as [|cx [|cy [|cz [|cxy [|cyz [|cxz [|? ?]]]]]]]; try discriminate E0. apply Ok_inj in E0. intros EC Hdet. cbn [precision] in EC. injection EC as <-.
  set (C := [[eval cx p; eval cxy p; eval cxz p]; [eval cxy p; eval cy p; eval cyz p]; [eval cxz p; eval cyz p; eval cz p]]) in *.
  pose proof (sol_value 3 ok dict _ S p) as Sv. change (symbols 3) with [3; 4; 5; 6; 7; 8]%nat in Sv.
  set (q := settled 3 [cx; cy; cz; cxy; cyz; cxz] p).
  assert (Q : q 3%nat = eval cx p /\ q 4%nat = eval cy p /\ q 5%nat = eval cz p /\ q 6%nat = eval cxy p /\ q 7%nat = eval cyz p /\ q 8%nat = eval cxz p) by (repeat split). destruct Q as (Q3 & Q4 & Q5 & Q6 & Q7 & Q8).
  pose (A := fun r : nat -> R => forall d, (3 <= d)%nat -> ~ In d [3; 4; 5; 6; 7; 8]%nat -> r d = p d).
  assert (Ap : forall x, A (point 3 x p)) by (intros x d Hd _; unfold point; destruct (Nat.ltb_spec d 3); [lia|reflexivity]).
  assert (Pt : forall x e, In e [cx; cy; cz; cxy; cyz; cxz] -> eval e (point 3 x p) = eval e p) by (intros x e He; apply (Sv e); [exact He|apply Ap]).
  assert (An : forall x, eval ansatz3 (point 3 x q) = exp (- (1 / 2) * form 3 C x)).
  { intros x. rewrite ansatz3_value. unfold point. cbn [Nat.ltb Nat.leb]. rewrite Q3, Q4, Q5, Q6, Q7, Q8. f_equal. unfold form, C. cbn. ring. }
  assert (Sb : forall x, eval (e_subs 8 cxz (e_subs 7 cyz (e_subs 6 cxy (e_subs 5 cz (e_subs 4 cy (e_subs 3 cx ansatz3)))))) (point 3 x p) = eval ansatz3 (point 3 x q)).
  { intros x. refine (eq_trans (chain_value A p [3; 4; 5; 6; 7; 8]%nat [(3, cx); (4, cy); (5, cz); (6, cxy); (7, cyz); (8, cxz)]%nat ansatz3 (point 3 x p) _ _ (Ap x)) _); cycle 2.
    - rewrite !ansatz3_value. cbn [map set_vars fold_right]. unfold set_var, point. cbn [Nat.eqb Nat.ltb Nat.leb]. rewrite Q3, Q4, Q5, Q6, Q7, Q8. reflexivity.
    - intros k v r Hr' Hk d Hd Hn. unfold set_var. destruct (Nat.eqb_spec d k) as [->|]; [contradiction|]. apply Hr'; assumption.
    - intros k a Hka. split; [apply (in_map fst) in Hka; exact Hka|]. intros r Hr'. apply (Sv a); [apply (in_map snd) in Hka; exact Hka|exact Hr']. }
  pose proof two_pi as TP. assert (TP3 : 0 < (2 * PI) ^ 3) by (apply pow_lt; exact TP).
  assert (K : forall x, eval (e_sqrt (e_div (e_add (e_add (e_mul cx (sub E e_add e_opp (e_mul cy cz) (sq E e_mul cyz))) (e_mul cxy (sub E e_add e_opp (e_mul cxz cyz) (e_mul cxy cz)))) (e_mul cxz (sub E e_add e_opp (e_mul cxy cyz) (e_mul cy cxz))))
      (cube E e_mul (e_mul (e_2 E e_add e_1) e_pi)))) (point 3 x p) = sqrt (det 3 C / (2 * PI) ^ 3)).
  { intros x. assert (Tv : eval (cube E e_mul (e_mul (e_2 E e_add e_1) e_pi)) (point 3 x p) = (2 * PI) ^ 3) by (values; ring).
    match goal with |- eval (e_sqrt (e_div ?d ?c)) _ = _ => assert (Dv : eval d (point 3 x p) = det 3 C) end.
    { values. rewrite !Pt by (cbn; auto 10). unfold C. rewrite det3. ring. }
    assert (Rv : forall a, eval a (point 3 x p) = det 3 C -> eval (e_div a (cube E e_mul (e_mul (e_2 E e_add e_1) e_pi))) (point 3 x p) = det 3 C / (2 * PI) ^ 3).
    { intros a Ha. rewrite (v_div _ _ _ _ _ _ _ _ _ _ _ HV) by (rewrite Tv; lra). rewrite Tv, Ha. reflexivity. }
    rewrite (v_sqrt _ _ _ _ _ _ _ _ _ _ _ HV); rewrite (Rv _ Dv); [reflexivity|]. apply Rlt_le, Rdiv_lt_0_compat; assumption. }
  assert (Kp : sqrt (det 3 C / (2 * PI) ^ 3) <> 0) by (apply Rgt_not_eq, sqrt_lt_R0; apply Rdiv_lt_0_compat; assumption).
  assert (Vs : forall x, length x = 3%nat -> eval s (point 3 x p) = sqrt (det 3 C / (2 * PI) ^ 3) * eval ansatz3 (point 3 x q)).
  { intros x _. rewrite <- E0. rewrite (v_mul _ _ _ _ _ _ _ _ _ _ _ HV), K, Sb. reflexivity. }
  split; [intros x Hx; rewrite Vs, An by exact Hx; reflexivity|]. intros D HD x Hx.
  refine (steady_multiple 3 ok l ansatz3 Hl Hr Hpo dict Ed [cx; cy; cz; cxy; cyz; cxz] S p Hp _ _ D Kp Vs _ HD x Hx). intros y _. rewrite ansatz3_value. apply Rgt_not_eq, exp_pos.
Qed.

Lemma case1 : forall ok l s, allowed 1 ok -> second_order free_vars 1 l -> ratio_right eval 1 ok ratio l ansatz1 -> poly_right eval free_vars 1 ok poly_dict -> solve_right eval free_vars 1 ok solve ->
  gaussian1 l = Ok s -> right_for 1 ok l s.
Proof using HR HV.
  intros ok l s Hok Hl Hr Hpo Hs E0. unfold SteadyModel.gaussian1 in E0. unfold coefficients in E0. intros dict Ed p C Hp. change (seq 0 1) with [0]%nat in Ed. change (ansatz 1) with ansatz1 in Ed. rewrite Ed in E0. cbn [bind] in E0. pose proof (Hs (map snd dict)) as S. change (symbols 1) with [1]%nat in *. destruct (solve (map snd dict) [1]%nat) as [ds|ts]; cbn [at_s2 bind] in E0; [|discriminate E0].
  intros EC Hdet. cbn [precision] in EC. destruct ds as [|[[|[|k]] s2] [|? ?]]; try discriminate EC. injection EC as <-. cbn [find Nat.eqb bind] in E0. injection E0 as <-.
  specialize (S s2 eq_refl eq_refl). pose proof (sol_value 1 ok dict _ S p) as Sv. change (symbols 1) with [1]%nat in Sv. set (q := settled 1 [s2] p). assert (Q1 : q 1%nat = eval s2 p) by reflexivity.
  assert (Hq : ok q) by (destruct S as (_ & _ & S); exact (proj1 (S p Hp))). assert (Hpos : 0 < eval s2 p) by (rewrite <- Q1; apply (proj2 Hok eq_refl q Hq)).
  assert (Pt : forall x, eval s2 (point 1 x p) = eval s2 p) by (intros x; apply (Sv s2); [left; reflexivity|intros d Hd _; unfold point; destruct (Nat.ltb_spec d 1); [lia|reflexivity]]).
  assert (Vs : forall x, length x = 1%nat -> eval (e_subs 1 s2 ansatz1) (point 1 x p) = 1 * eval ansatz1 (point 1 x q)).
  { intros x _. rewrite Rmult_1_l, (v_subs _ _ _ _ _ _ _ _ _ _ _ HV), Pt. rewrite (ansatz1_value (point 1 x q)) by (unfold point; cbn [Nat.ltb Nat.leb]; rewrite Q1; exact Hpos).
    rewrite ansatz1_value by exact Hpos. unfold set_var, point. cbn [Nat.eqb Nat.ltb Nat.leb]. rewrite Q1. reflexivity. }
  pose proof two_pi as TP.
  assert (An : forall x, eval ansatz1 (point 1 x q) = density 1 [[1 / eval s2 p]] x).
  { intros x. rewrite ansatz1_value by (unfold point; cbn [Nat.ltb Nat.leb]; rewrite Q1; exact Hpos). unfold point. cbn [Nat.ltb Nat.leb]. rewrite Q1. unfold density. f_equal.
    - replace (det 1 [[1 / eval s2 p]] / (2 * PI) ^ 1) with (1 / (2 * PI * eval s2 p)) by (cbn; field; split; lra). rewrite sqrt_div_alt by (apply Rmult_lt_0_compat; assumption). rewrite sqrt_1. reflexivity.
    - f_equal. unfold form. cbn. unfold Rdiv. ring. }
  split; [intros x Hx; rewrite Vs, Rmult_1_l, An by exact Hx; reflexivity|]. intros D HD x Hx.
  refine (steady_multiple 1 ok l ansatz1 Hl Hr Hpo dict Ed [s2] S p Hp _ _ D R1_neq_R0 Vs _ HD x Hx). intros y _. fold q. rewrite ansatz1_value by (unfold point; cbn [Nat.ltb Nat.leb]; rewrite Q1; exact Hpos).
  apply Rgt_not_eq, Rmult_lt_0_compat; [|apply exp_pos]. apply Rdiv_lt_0_compat; [lra|]. apply sqrt_lt_R0. unfold point. cbn [Nat.ltb Nat.leb]. rewrite Q1. apply Rmult_lt_0_compat; assumption.
Qed.

Lemma case2 : forall ok l s, allowed 2 ok -> second_order free_vars 2 l -> ratio_right eval 2 ok ratio l ansatz2 -> poly_right eval free_vars 2 ok poly_dict -> solve_right eval free_vars 2 ok solve ->
  gaussian2 l = Ok s -> right_for 2 ok l s.
Proof using HR HV.
  intros ok l s Hok Hl Hr Hpo Hs E0. unfold SteadyModel.gaussian2 in E0. unfold coefficients in E0. intros dict Ed p C Hp. change (seq 0 2) with [0; 1]%nat in Ed. change (ansatz 2) with ansatz2 in Ed. rewrite Ed in E0. cbn [bind] in E0. pose proof (Hs (map snd dict)) as S. change (symbols 2) with [2; 3; 4]%nat in *. destruct (solve (map snd dict) [2; 3; 4]%nat) as [?|[|t ts]]; cbn [first bind] in E0; [discriminate E0|discriminate E0|].
  specialize (S t (or_introl eq_refl)). destruct t as [|cx [|cxy [|cy [|? ?]]]]; try discriminate E0. injection E0 as <-. intros EC Hdet. cbn [precision] in EC. injection EC as <-. rewrite det2 in Hdet.
  pose proof (sol_value 2 ok dict _ S p) as Sv. change (symbols 2) with [2; 3; 4]%nat in Sv.
  set (q := settled 2 [cx; cxy; cy] p).
  assert (Q : q 2%nat = eval cx p /\ q 3%nat = eval cxy p /\ q 4%nat = eval cy p) by (repeat split). destruct Q as (Q2 & Q3 & Q4).
  assert (Pt : forall x, forall e, In e [cx; cxy; cy] -> eval e (point 2 x p) = eval e p).
  { intros x e He. apply (Sv e); [exact He|]. intros d Hd _. unfold point. destruct (Nat.ltb_spec d 2); [lia|reflexivity]. }
  assert (An : forall x, eval ansatz2 (point 2 x q) = exp (- (1 / 2) * form 2 [[eval cx p; eval cxy p]; [eval cxy p; eval cy p]] x)).
  { intros x. rewrite ansatz2_value. unfold point. cbn [Nat.ltb Nat.leb]. rewrite Q2, Q3, Q4. f_equal. unfold form. cbn. ring. }
  assert (Sb : forall x, eval (e_subs 4 cy (e_subs 3 cxy (e_subs 2 cx ansatz2))) (point 2 x p) = eval ansatz2 (point 2 x q)).
  { intros x. rewrite !(v_subs _ _ _ _ _ _ _ _ _ _ _ HV).
    assert (V1 : eval cy (point 2 x p) = eval cy p) by (apply Pt; right; right; left; reflexivity).
    assert (V2 : eval cxy (set_var 4 (eval cy (point 2 x p)) (point 2 x p)) = eval cxy p).
    { apply (Sv cxy); [right; left; reflexivity|]. intros d Hd Hn. unfold set_var, point. destruct (Nat.eqb_spec d 4); [exfalso; apply Hn; subst; cbn; auto|]. destruct (Nat.ltb_spec d 2); [lia|reflexivity]. }
    assert (V3 : eval cx (set_var 3 (eval cxy (set_var 4 (eval cy (point 2 x p)) (point 2 x p))) (set_var 4 (eval cy (point 2 x p)) (point 2 x p))) = eval cx p).
    { apply (Sv cx); [left; reflexivity|]. intros d Hd Hn. unfold set_var, point. destruct (Nat.eqb_spec d 3); [exfalso; apply Hn; subst; cbn; auto|]. destruct (Nat.eqb_spec d 4); [exfalso; apply Hn; subst; cbn; auto|]. destruct (Nat.ltb_spec d 2); [lia|reflexivity]. }
    rewrite V3, V2, V1, !ansatz2_value. unfold set_var, point. cbn [Nat.eqb Nat.ltb Nat.leb]. rewrite Q2, Q3, Q4. reflexivity. }
  pose proof two_pi as TP.
  assert (K : forall x, eval (e_div (e_sqrt (sub E e_add e_opp (e_mul cx cy) (e_mul cxy cxy))) (e_mul (e_2 E e_add e_1) e_pi)) (point 2 x p) = sqrt (det 2 [[eval cx p; eval cxy p]; [eval cxy p; eval cy p]] / (2 * PI) ^ 2)).
  { intros x. assert (Dv : eval (sub E e_add e_opp (e_mul cx cy) (e_mul cxy cxy)) (point 2 x p) = eval cx p * eval cy p - eval cxy p * eval cxy p).
    { values. rewrite !Pt by (cbn; auto). ring. }
    assert (Tv : eval (e_mul (e_2 E e_add e_1) e_pi) (point 2 x p) = 2 * PI) by (values; reflexivity).
    rewrite (v_div _ _ _ _ _ _ _ _ _ _ _ HV) by (rewrite Tv; lra). rewrite Tv, (v_sqrt _ _ _ _ _ _ _ _ _ _ _ HV) by (rewrite Dv; lra). rewrite Dv, det2.
    rewrite sqrt_div_alt by (apply pow_lt; exact TP). rewrite sqrt_pow2 by lra. reflexivity. }
  assert (Kp : sqrt (det 2 [[eval cx p; eval cxy p]; [eval cxy p; eval cy p]] / (2 * PI) ^ 2) <> 0).
  { apply Rgt_not_eq, sqrt_lt_R0. apply Rdiv_lt_0_compat; [rewrite det2; exact Hdet|apply pow_lt; exact TP]. }
  assert (Vs : forall x, length x = 2%nat -> eval (e_mul (e_div (e_sqrt (sub E e_add e_opp (e_mul cx cy) (e_mul cxy cxy))) (e_mul (e_2 E e_add e_1) e_pi)) (e_subs 4 cy (e_subs 3 cxy (e_subs 2 cx ansatz2)))) (point 2 x p) =
    sqrt (det 2 [[eval cx p; eval cxy p]; [eval cxy p; eval cy p]] / (2 * PI) ^ 2) * eval ansatz2 (point 2 x q)).
  { intros x _. rewrite (v_mul _ _ _ _ _ _ _ _ _ _ _ HV), K, Sb. reflexivity. }
  split; [intros x Hx; rewrite Vs, An by exact Hx; reflexivity|]. intros D HD x Hx.
  refine (steady_multiple 2 ok l ansatz2 Hl Hr Hpo dict Ed [cx; cxy; cy] S p Hp _ _ D Kp Vs _ HD x Hx). intros y _. rewrite ansatz2_value. apply Rgt_not_eq, exp_pos.
Qed.

Notation solve_gaussian := (solve_gaussian E e_add e_mul e_div e_opp e_1 e_pi e_var e_sqrt e_exp e_subs ratio poly_dict solve).
Lemma gaussian_right : forall dim ok l s printed, (1 <= dim <= 3)%nat -> allowed dim ok -> second_order free_vars dim l -> ratio_right eval dim ok ratio l (ansatz dim) -> poly_right eval free_vars dim ok poly_dict -> solve_right eval free_vars dim ok solve ->
  solve_gaussian solved l dim = Ok (s, printed) -> right_for dim ok l s.
Proof using HR HV.
  intros dim ok l s printed Hd Hok Hl Hr Hpo Hs E0. unfold SteadyModel.solve_gaussian in E0.
  destruct dim as [|[|[|[|dim]]]]; try (exfalso; lia).
  - destruct (gaussian1 l) eqn:G; try discriminate E0. injection E0 as <- _. apply case1; assumption.
  - destruct (gaussian2 l) eqn:G; try discriminate E0. injection E0 as <- _. apply case2; assumption.
  - destruct (gaussian3 l) eqn:G; try discriminate E0. injection E0 as <- _. apply case3; assumption.
Qed.
Lemma gaussian_returns : forall dim l dict p C, (1 <= dim <= 3)%nat -> poly_dict (seq 0 dim) (ratio l (ansatz dim)) = Some dict -> precision eval dim (solve (map snd dict) (symbols dim)) p = Some C ->
  exists s, solve_gaussian solved l dim = Ok (s, negb (solved l s)) /\ forall solved', solve_gaussian solved' l dim = Ok (s, negb (solved' l s)).
Proof using.
  intros dim l dict p C Hd Ed EC. destruct dim as [|[|[|[|dim]]]]; try (exfalso; lia).
  - change (symbols 1) with [1]%nat in *. change (seq 0 1) with [0]%nat in Ed. change (ansatz 1) with ansatz1 in Ed. unfold SteadyModel.solve_gaussian, SteadyModel.gaussian1, coefficients. rewrite Ed. cbn [bind].
    destruct (solve (map snd dict) [1]%nat) as [[|[[|[|k]] s2] [|? ?]]|ts]; try discriminate EC. cbn. eexists. split; reflexivity.
  - change (symbols 2) with [2; 3; 4]%nat in *. change (seq 0 2) with [0; 1]%nat in Ed. change (ansatz 2) with ansatz2 in Ed. unfold SteadyModel.solve_gaussian, SteadyModel.gaussian2, coefficients. rewrite Ed. cbn [bind].
    destruct (solve (map snd dict) [2; 3; 4]%nat) as [?|[|[|cx [|cxy [|cy [|? ?]]]] ts]]; try discriminate EC. cbn [first bind]. eexists. split; reflexivity.
  - change (symbols 3) with [3; 4; 5; 6; 7; 8]%nat in *. change (seq 0 3) with [0; 1; 2]%nat in Ed. change (ansatz 3) with ansatz3 in Ed. unfold SteadyModel.solve_gaussian, SteadyModel.gaussian3, coefficients. rewrite Ed. cbn [bind].
    destruct (solve (map snd dict) [3; 4; 5; 6; 7; 8]%nat) as [?|[|[|cx [|cy [|cz [|cxy [|cyz [|cxz [|? ?]]]]]]] ts]]; try discriminate EC. cbn [first bind]. eexists. split; reflexivity.
Qed.
Lemma gaussian_raises : forall l, (forall dim, dim = 0%nat \/ (4 <= dim)%nat -> solve_gaussian solved l dim = Throw "UnboundLocalError"%string) /\
  (forall dim, (1 <= dim <= 3)%nat -> poly_dict (seq 0 dim) (ratio l (ansatz dim)) = None -> solve_gaussian solved l dim = Throw "AttributeError"%string) /\
  (forall dim dict, (2 <= dim <= 3)%nat -> poly_dict (seq 0 dim) (ratio l (ansatz dim)) = Some dict ->
     (solve (map snd dict) (symbols dim) = AList [] -> solve_gaussian solved l dim = Throw "IndexError"%string) /\ forall d, solve (map snd dict) (symbols dim) = ADict d -> solve_gaussian solved l dim = Throw "KeyError"%string) /\
  forall dict t, poly_dict (seq 0 1) (ratio l (ansatz 1)) = Some dict -> solve (map snd dict) (symbols 1) = AList t -> solve_gaussian solved l 1 = Throw "TypeError"%string.
Proof using.
  intros l. split; [|split; [|split]].
  - intros [|[|[|[|dim]]]] H; try (exfalso; lia); reflexivity.
  - intros [|[|[|[|dim]]]] H E0; try (exfalso; lia); [change (seq 0 1) with [0]%nat in E0|change (seq 0 2) with [0; 1]%nat in E0|change (seq 0 3) with [0; 1; 2]%nat in E0]; cbn [SteadyModel.ansatz] in E0;
      unfold SteadyModel.solve_gaussian, SteadyModel.gaussian1, SteadyModel.gaussian2, SteadyModel.gaussian3, coefficients; rewrite E0; reflexivity.
  - intros [|[|[|[|dim]]]] dict H E0; try (exfalso; lia); [change (seq 0 2) with [0; 1]%nat in E0|change (seq 0 3) with [0; 1; 2]%nat in E0]; cbn [SteadyModel.ansatz symbols] in *;
      unfold SteadyModel.solve_gaussian, SteadyModel.gaussian2, SteadyModel.gaussian3, coefficients; rewrite E0; cbn [bind]; (split; [intros ->; reflexivity|intros d ->; reflexivity]).
  - intros dict t E0 E1. change (seq 0 1) with [0]%nat in E0. cbn [SteadyModel.ansatz symbols] in *. unfold SteadyModel.solve_gaussian, SteadyModel.gaussian1, coefficients. rewrite E0. cbn [bind]. rewrite E1. reflexivity.
Qed.
End Gauss.
