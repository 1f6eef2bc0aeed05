(** Expressions for the examples of C103. *)
From Coq Require Import String List Bool Arith Lia Reals Lra.
From Verif Require Import Base Num LinSpec CalcSpec CalcReal OpSpec OpQuadSpec OpModel PyQuadSpec EqnSpec EqnFacts SteadyModel SteadySpec SteadyFacts.
Import ListNotations.
Local Open Scope R_scope.

Lemma g_reads : reads_free g_eval g_vars.
Proof.
  intros e. induction e; intros env env' H; cbn [g_eval g_vars] in *; try reflexivity;
    try (rewrite (IHe1 env env') by (intros; apply H; apply in_or_app; left; assumption); rewrite (IHe2 env env') by (intros; apply H; apply in_or_app; right; assumption); reflexivity);
    try (rewrite (IHe env env') by exact H; reflexivity). apply H. left. reflexivity.
Qed.
Lemma g_values : sympy_values g_eval GAdd GMul GDiv GOpp (GNum 1) (GNum PI) GVar GSqrt GExp g_subs.
Proof.
  constructor; intros; try reflexivity. revert env. induction e; intros env; cbn [g_subs g_eval]; rewrite ?IHe, ?IHe1, ?IHe2; try reflexivity. unfold set_var. destruct (d =? k)%nat; reflexivity.
Qed.
Lemma g_pow : forall k a env, g_eval (fold_right GMul (GNum 1) (repeat (GVar k) a)) env = env k ^ a.
Proof. intros k a env. induction a; cbn [repeat fold_right g_eval pow]; [reflexivity|]. rewrite IHa. reflexivity. Qed.
Lemma g_mono_value : forall dim m x p, length m = dim -> g_eval (g_mono m) (point dim x p) = rprod (map (fun k => nth k x 0 ^ nth k m 0%nat) (seq 0 dim)).
Proof.
  intros dim m x p Hm. unfold g_mono. rewrite Hm. assert (G : forall l, (forall k, In k l -> (k < dim)%nat) -> g_eval (fold_right GMul (GNum 1) (map (fun k => fold_right GMul (GNum 1) (repeat (GVar k) (nth k m 0%nat))) l)) (point dim x p) = rprod (map (fun k => nth k x 0 ^ nth k m 0%nat) l)).
  { induction l as [|k l IH]; intros H; cbn [map fold_right g_eval]; [reflexivity|]. rewrite g_pow, IH by (intros; apply H; right; assumption). unfold rprod. cbn [fold_right]. f_equal. unfold point. assert (Hk : (k < dim)%nat) by (apply H; left; reflexivity). destruct (Nat.ltb_spec k dim); [reflexivity|lia]. }
  apply G. intros k Hk. apply in_seq in Hk. lia.
Qed.
Lemma g_poly_value : forall dim dict x p, Forall (fun z => length (fst z) = dim) dict -> g_eval (g_poly dict) (point dim x p) = rsum (map (fun '(m, c) => g_eval c (point dim x p) * rprod (map (fun k => nth k x 0 ^ nth k m 0%nat) (seq 0 dim))) dict).
Proof.
  intros dim dict x p H. unfold g_poly. induction H as [|[m c] dict Hm _ IH]; cbn [map fold_right g_eval]; [reflexivity|]. rewrite IH. unfold rsum. cbn [fold_right]. f_equal. f_equal. apply g_mono_value. exact Hm.
Qed.
Lemma g_poly_right : forall dim ok dict, Forall (fun z => length (fst z) = dim /\ forall d, In d (g_vars (snd z)) -> (dim <= d)%nat) dict -> poly_right g_eval g_vars dim ok (g_poly_dict dict).
Proof.
  intros dim ok dict H e l E0. unfold g_poly_dict in E0. destruct (g_dec e (g_poly dict)) as [->|]; [|discriminate E0]. injection E0 as <-. rewrite Forall_forall in H. split.
  - intros m c Hc. exact (proj2 (H _ Hc)).
  - intros p x _ _. apply g_poly_value. rewrite Forall_forall. intros z Hz. exact (proj1 (H z Hz)).
Qed.
Lemma g_solve_right : forall dim ok dict a, match a with AList l => forall sol, In sol l -> solution_right g_eval g_vars dim ok (map snd dict) sol | ADict l => forall e, map fst l = symbols dim -> map snd l = [e] -> solution_right g_eval g_vars dim ok (map snd dict) [e] end ->
  solve_right g_eval g_vars dim ok (g_solve dict a).
Proof. intros dim ok dict a H eqs. unfold g_solve. destruct (list_eq_dec g_dec eqs (map snd dict)) as [->|]; [exact H|intros sol []]. Qed.
Lemma g_solve_same : forall dict a syms, g_solve dict a (map snd dict) syms = a.
Proof. intros. unfold g_solve. destruct (list_eq_dec g_dec (map snd dict) (map snd dict)) as [|H]; [reflexivity|contradiction H; reflexivity]. Qed.
Lemma g_poly_same : forall dict vars, g_poly_dict dict vars (g_poly dict) = Some dict.
Proof. intros. unfold g_poly_dict. destruct (g_dec (g_poly dict) (g_poly dict)) as [|H]; [reflexivity|contradiction H; reflexivity]. Qed.

(** The derivatives of exp(-q/2) and, if they are linear, of the derivatives of q. *)
Lemma p_gauss : forall dim k q h, (k < dim)%nat -> partial dim k q h -> partial dim k (fun x => exp (- (1 / 2) * q x)) (fun x => - (1 / 2) * h x * exp (- (1 / 2) * q x)).
Proof.
  intros dim k q h Hk P. pose proof (p_comp dim k Hk exp exp derivable_pt_lim_exp (fun x => - (1 / 2) * q x) (fun x => 0 * q x + - (1 / 2) * h x) (p_mult dim k Hk (fun _ => - (1 / 2)) q (fun _ => 0) h (p_const dim k _) P)) as G.
  apply (p_ext dim k Hk _ _ _ _ G); intros x _; ring.
Qed.
Lemma p_gauss2 : forall dim j k q hj hk hjk, (j < dim)%nat -> (k < dim)%nat -> partial dim j q hj -> partial dim k q hk -> partial dim j hk hjk ->
  partial dim j (fun x => - (1 / 2) * hk x * exp (- (1 / 2) * q x)) (fun x => (- (1 / 2) * hjk x + 1 / 4 * hk x * hj x) * exp (- (1 / 2) * q x)).
Proof.
  intros dim j k q hj hk hjk Hj Hk P1 P2 P3. pose proof (p_mult dim j Hj (fun x => - (1 / 2) * hk x) (fun x => exp (- (1 / 2) * q x)) (fun x => 0 * hk x + - (1 / 2) * hjk x) _ (p_mult dim j Hj (fun _ => - (1 / 2)) hk (fun _ => 0) hjk (p_const dim j _) P3) (p_gauss dim j q hj Hj P1)) as G.
  apply (p_ext dim j Hj _ _ _ _ G); intros x _; [reflexivity|]. field.
Qed.
(** a x_0^2 + 2 b x_0 x_1 + c x_1^2. *)
Definition quad2 (a b c : R) (x : list R) : R := a * nth 0 x 0 * nth 0 x 0 + 2 * b * nth 0 x 0 * nth 1 x 0 + c * nth 1 x 0 * nth 1 x 0.
Lemma p_lin : forall dim k a b i j h, (k < dim)%nat -> h = a * (if (i =? k)%nat then 1 else 0) + b * (if (j =? k)%nat then 1 else 0) -> partial dim k (fun x => a * nth i x 0 + b * nth j x 0) (fun _ => h).
Proof.
  intros dim k a b i j h Hk ->. assert (V : forall i, partial dim k (fun x => nth i x 0) (fun _ => if (i =? k)%nat then 1 else 0)) by (intros i'; destruct (Nat.eqb_spec i' k) as [->|]; [apply p_same; exact Hk|apply p_other; assumption]).
  pose proof (p_plus dim k _ _ _ _ (p_mult dim k Hk (fun _ => a) _ _ _ (p_const dim k a) (V i)) (p_mult dim k Hk (fun _ => b) _ _ _ (p_const dim k b) (V j))) as G. apply (p_ext dim k Hk _ _ _ _ G); intros x _; ring.
Qed.
Lemma p_quad2 : forall a b c k, (k < 2)%nat -> partial 2 k (quad2 a b c) (fun x => if (k =? 0)%nat then 2 * a * nth 0 x 0 + 2 * b * nth 1 x 0 else 2 * b * nth 0 x 0 + 2 * c * nth 1 x 0).
Proof.
  intros a b c k Hk. assert (V : forall i, partial 2 k (fun x => nth i x 0) (fun _ => if (i =? k)%nat then 1 else 0)) by (intros i'; destruct (Nat.eqb_spec i' k) as [->|]; [apply p_same; exact Hk|apply p_other; assumption]).
  assert (M : forall c i j, partial 2 k (fun x => c * nth i x 0 * nth j x 0) (fun x => c * (if (i =? k)%nat then 1 else 0) * nth j x 0 + c * nth i x 0 * (if (j =? k)%nat then 1 else 0))).
  { intros c' i j. pose proof (p_mult 2 k Hk _ _ _ _ (p_mult 2 k Hk (fun _ => c') _ _ _ (p_const 2 k c') (V i)) (V j)) as G. apply (p_ext 2 k Hk _ _ _ _ G); intros x _; ring. }
  pose proof (p_plus 2 k _ _ _ _ (p_plus 2 k _ _ _ _ (M a 0%nat 0%nat) (M (2 * b) 0%nat 1%nat)) (M c 1%nat 1%nat)) as G. apply (p_ext 2 k Hk _ _ _ _ G); intros x _; [reflexivity|].
  destruct k as [|[|k]]; [cbn [Nat.eqb]; ring|cbn [Nat.eqb]; ring|lia].
Qed.
(** The derivatives of exp(-(a x^2 + 2 b x y + c y^2)/2). *)
Lemma gauss2_deriv : forall a b c f D x y, (forall x, length x = 2%nat -> f x = exp (- (1 / 2) * quad2 a b c x)) -> twice 2 f D -> let g := exp (- (1 / 2) * quad2 a b c [x; y]) in
  D [0; 0]%nat [x; y] = g /\ D [1; 0]%nat [x; y] = - (a * x + b * y) * g /\ D [0; 1]%nat [x; y] = - (b * x + c * y) * g /\
  D [2; 0]%nat [x; y] = ((a * x + b * y) * (a * x + b * y) - a) * g /\ D [0; 2]%nat [x; y] = ((b * x + c * y) * (b * x + c * y) - c) * g.
Proof.
  intros a b c f D x y Hf HD g. pose proof (twice_ext 2 f _ D (fun z Hz => eq_sym (Hf z Hz)) HD) as T.
  assert (F : forall k, (k < 2)%nat -> partial 2 k (fun x => exp (- (1 / 2) * quad2 a b c x)) _) by (intros k Hk; exact (p_gauss 2 k _ _ Hk (p_quad2 a b c k Hk))).
  assert (H0 : (0 < 2)%nat) by lia. assert (H1 : (1 < 2)%nat) by lia.
  assert (L0 : partial 2 0 (fun x => 2 * a * nth 0 x 0 + 2 * b * nth 1 x 0) (fun _ => 2 * a)) by (apply p_lin; [lia|cbn; ring]).
  assert (L1 : partial 2 1 (fun x => 2 * b * nth 0 x 0 + 2 * c * nth 1 x 0) (fun _ => 2 * c)) by (apply p_lin; [lia|cbn; ring]).
  split; [exact (proj1 T [x; y] eq_refl)|]. split; [|split; [|split]].
  - refine (eq_trans (first_deriv 2 _ D 0 _ T H0 (F 0%nat H0) [x; y] eq_refl) _). cbn [Nat.eqb nth]. fold g. field.
  - refine (eq_trans (first_deriv 2 _ D 1 _ T H1 (F 1%nat H1) [x; y] eq_refl) _). cbn [Nat.eqb nth]. fold g. field.
  - refine (eq_trans (second_deriv 2 _ D 0 0 _ _ T H0 H0 (F 0%nat H0) (p_gauss2 2 0 0 _ _ _ _ H0 H0 (p_quad2 a b c 0 H0) (p_quad2 a b c 0 H0) L0) [x; y] eq_refl) _). cbn [Nat.eqb nth]. fold g. field.
  - refine (eq_trans (second_deriv 2 _ D 1 1 _ _ T H1 H1 (F 1%nat H1) (p_gauss2 2 1 1 _ _ _ _ H1 H1 (p_quad2 a b c 1 H1) (p_quad2 a b c 1 H1) L1) [x; y] eq_refl) _). cbn [Nat.eqb nth]. fold g. field.
Qed.

(** A form in two variables. *)
Lemma ansatz2_quad : forall p x, length x = 2%nat -> g_eval (ansatz gexpr GAdd GMul GDiv GOpp (GNum 1) (GNum PI) GVar GSqrt GExp 2) (point 2 x p) = exp (- (1 / 2) * quad2 (p 2%nat) (p 3%nat) (p 4%nat) x).
Proof. intros p x _. cbn [ansatz]. rewrite (ansatz2_value g_eval _ _ _ _ _ _ _ _ _ _ g_values). reflexivity. Qed.
Lemma ansatz1_gauss : forall p x, 0 < p 1%nat -> g_eval (ansatz gexpr GAdd GMul GDiv GOpp (GNum 1) (GNum PI) GVar GSqrt GExp 1) (point 1 x p) = 1 / sqrt (2 * PI * p 1%nat) * exp (- (1 / 2) * (nth 0 x 0 * nth 0 x 0 / p 1%nat)).
Proof. intros p x Hp. cbn [ansatz]. rewrite (ansatz1_value g_eval _ _ _ _ _ _ _ _ _ _ g_values) by exact Hp. reflexivity. Qed.
Lemma gauss1_deriv : forall k s f D x, s <> 0 -> (forall x, length x = 1%nat -> f x = k * exp (- (1 / 2) * (nth 0 x 0 * nth 0 x 0 / s))) -> twice 1 f D -> let g := k * exp (- (1 / 2) * (x * x / s)) in
  D [0]%nat [x] = g /\ D [1]%nat [x] = - (x / s) * g /\ D [2]%nat [x] = (x * x / (s * s) - 1 / s) * g.
Proof.
  intros k s f D x Hs Hf HD g. assert (H0 : (0 < 1)%nat) by lia. set (q := fun y : list R => nth 0 y 0 * nth 0 y 0 / s). set (h := fun y : list R => 2 / s * nth 0 y 0 + 0 * nth 0 y 0).
  assert (Q : partial 1 0 q h). { pose proof (p_div 1 0 H0 _ _ s (p_mult 1 0 H0 _ _ _ _ (p_same 1 0 H0) (p_same 1 0 H0))) as G. apply (p_ext 1 0 H0 _ _ _ _ G); intros y _; unfold q, h; [reflexivity|field; exact Hs]. }
  assert (L : partial 1 0 h (fun _ => 2 / s)) by (apply p_lin; [lia|cbn; ring]).
  pose proof (twice_ext 1 f _ D (fun z Hz => eq_sym (Hf z Hz)) HD) as T. fold q in T.
  assert (S : forall F F', partial 1 0 F F' -> partial 1 0 (fun y => k * F y) (fun y => k * F' y)) by (intros F F' P; pose proof (p_mult 1 0 H0 (fun _ => k) F (fun _ => 0) F' (p_const 1 0 k) P) as G; apply (p_ext 1 0 H0 _ _ _ _ G); intros y _; ring).
  pose proof (S _ _ (p_gauss 1 0 q h H0 Q)) as P1. pose proof (S _ _ (p_gauss2 1 0 0 q h h _ H0 H0 Q Q L)) as P2.
  split; [exact (proj1 T [x] eq_refl)|]. split.
  - refine (eq_trans (first_deriv 1 _ D 0 _ T H0 P1 [x] eq_refl) _). unfold h, q, g. cbn [nth]. field. exact Hs.
  - refine (eq_trans (second_deriv 1 _ D 0 0 _ _ T H0 H0 P1 P2 [x] eq_refl) _). unfold h, q, g. cbn [nth]. field. exact Hs.
Qed.

(** The Fokker-Planck equation of the Langevin dynamics in a quadratic potential (x is the momentum, y the position), the equation of two unstable directions, and the one-dimensional Fokker-Planck equation. *)
Definition langevin_op : oper gexpr := [(GOpp (GVar 0), [0; 1]); (GVar 1, [1; 0]); (GNum 1, [0; 0]); (GVar 0, [1; 0]); (GNum 1, [2; 0])]%nat.
Definition langevin_dict : list (list nat * gexpr) := let cx := GVar 2 in let cxy := GVar 3 in let cy := GVar 4 in
  [([0; 0]%nat, GAdd (GNum 1) (GOpp cx)); ([2; 0]%nat, GAdd (GAdd cxy (GOpp cx)) (GMul cx cx)); ([1; 1]%nat, GAdd (GAdd cy (GOpp cx)) (GAdd (GOpp cxy) (GMul (GNum 2) (GMul cx cxy)))); ([0; 2]%nat, GAdd (GOpp cxy) (GMul cxy cxy))].
Definition outward_op : oper gexpr := [(GNum (-2), [0; 0]); (GOpp (GVar 0), [1; 0]); (GOpp (GVar 1), [0; 1]); (GNum 1, [2; 0]); (GNum 1, [0; 2])]%nat.
Definition outward_dict : list (list nat * gexpr) := let cx := GVar 2 in let cxy := GVar 3 in let cy := GVar 4 in
  [([0; 0]%nat, GAdd (GNum (-2)) (GOpp (GAdd cx cy))); ([2; 0]%nat, GAdd cx (GAdd (GMul cx cx) (GMul cxy cxy))); ([1; 1]%nat, GMul (GMul (GNum 2) cxy) (GAdd (GNum 1) (GAdd cx cy))); ([0; 2]%nat, GAdd cy (GAdd (GMul cy cy) (GMul cxy cxy)))].
Definition line_op : oper gexpr := [(GNum 1, [0]); (GVar 0, [1]); (GNum 1, [2])]%nat.
Definition line_dict : list (list nat * gexpr) := let s := GVar 1 in [([0]%nat, GAdd (GNum 1) (GOpp (GDiv (GNum 1) s))); ([2]%nat, GAdd (GDiv (GNum 1) (GMul s s)) (GOpp (GDiv (GNum 1) s)))].

Notation g_ansatz := (ansatz gexpr GAdd GMul GDiv GOpp (GNum 1) (GNum PI) GVar GSqrt GExp).
Notation g_gaussian := (solve_gaussian gexpr GAdd GMul GDiv GOpp (GNum 1) (GNum PI) GVar GSqrt GExp g_subs).

Lemma two_entries : forall x : list R, length x = 2%nat -> exists a b, x = [a; b].
Proof. intros [|a [|b [|? ?]]] H; try discriminate H. exists a, b. reflexivity. Qed.
Lemma langevin_ratio : ratio_right g_eval 2 (fun _ => True) (fun _ _ => g_poly langevin_dict) langevin_op (g_ansatz 2).
Proof.
  intros p D _ HD Hn x Hx. destruct (two_entries x Hx) as (a & b & ->). destruct (gauss2_deriv _ _ _ _ D a b (ansatz2_quad p) HD) as (D0 & D1 & D2 & D3 & D4).
  rewrite (ansatz2_quad p [a; b] eq_refl). unfold op_at, langevin_op. cbn [map]. rewrite D0, D1, D2, D3. set (g := exp _). assert (Hg : g <> 0) by (apply Rgt_not_eq, exp_pos).
  rewrite g_poly_value by (repeat constructor). unfold langevin_dict, rsum, rprod. cbn. field. exact Hg.
Qed.
Lemma langevin_solution : solution_right g_eval g_vars 2 (fun _ => True) (map snd langevin_dict) [GNum 1; GNum 0; GNum 1].
Proof.
  split; [reflexivity|]. split; [intros e d [<-|[<-|[<-|[]]]] []|]. intros p _ p'. split; [exact I|]. intros e [<-|[<-|[<-|[<-|[]]]]]; unfold p'; cbn; ring.
Qed.
Lemma outward_ratio : ratio_right g_eval 2 (fun _ => True) (fun _ _ => g_poly outward_dict) outward_op (g_ansatz 2).
Proof.
  intros p D _ HD Hn x Hx. destruct (two_entries x Hx) as (a & b & ->). destruct (gauss2_deriv _ _ _ _ D a b (ansatz2_quad p) HD) as (D0 & D1 & D2 & D3 & D4).
  rewrite (ansatz2_quad p [a; b] eq_refl). unfold op_at, outward_op. cbn [map]. rewrite D0, D1, D2, D3, D4. set (g := exp _). assert (Hg : g <> 0) by (apply Rgt_not_eq, exp_pos).
  rewrite g_poly_value by (repeat constructor). unfold outward_dict, rsum, rprod. cbn. field. exact Hg.
Qed.
Lemma outward_solution : solution_right g_eval g_vars 2 (fun _ => True) (map snd outward_dict) [GNum (-1); GNum 0; GNum (-1)].
Proof.
  split; [reflexivity|]. split; [intros e d [<-|[<-|[<-|[]]]] []|]. intros p _ p'. split; [exact I|]. intros e [<-|[<-|[<-|[<-|[]]]]]; unfold p'; cbn; ring.
Qed.
Lemma line_ratio : ratio_right g_eval 1 (fun p => 0 < p 1%nat) (fun _ _ => g_poly line_dict) line_op (g_ansatz 1).
Proof.
  intros p D Hp HD Hn x Hx. destruct x as [|a [|? ?]]; try discriminate Hx. destruct (gauss1_deriv _ (p 1%nat) _ D a (Rgt_not_eq _ _ Hp) (fun x _ => ansatz1_gauss p x Hp) HD) as (D0 & D1 & D2).
  rewrite (ansatz1_gauss p [a] Hp). unfold op_at, line_op. cbn [map nth]. rewrite D0, D1, D2. set (g := exp _). assert (Hg : g <> 0) by (apply Rgt_not_eq, exp_pos).
  assert (Hk : sqrt (2 * PI * p 1%nat) <> 0) by (apply Rgt_not_eq, sqrt_lt_R0, Rmult_lt_0_compat; [exact two_pi|exact Hp]).
  rewrite g_poly_value by (repeat constructor). unfold line_dict, rsum, rprod. cbn. field. repeat split; try exact Hg; try exact Hk; apply Rgt_not_eq; exact Hp.
Qed.
Lemma line_solution : solution_right g_eval g_vars 1 (fun p => 0 < p 1%nat) (map snd line_dict) [GNum 1].
Proof.
  split; [reflexivity|]. split; [intros e d [<-|[]] []|]. intros p _ p'. split; [unfold p'; cbn; lra|]. intros e [<-|[<-|[]]]; unfold p'; cbn; field.
Qed.
Lemma g_all : forall dim (ok : (nat -> R) -> Prop) op dict a, (forall x p, ok p -> ok (point dim x p)) -> (dim = 1%nat -> forall p, ok p -> 0 < p 1%nat) -> Forall (fun z => length (fst z) = dim /\ forall d, In d (g_vars (snd z)) -> (dim <= d)%nat) dict ->
  ratio_right g_eval dim ok (fun _ _ => g_poly dict) op (g_ansatz dim) ->
  match a with AList l => forall sol, In sol l -> solution_right g_eval g_vars dim ok (map snd dict) sol | ADict l => forall e, map fst l = symbols dim -> map snd l = [e] -> solution_right g_eval g_vars dim ok (map snd dict) [e] end ->
  allowed dim ok /\ ratio_right g_eval dim ok (fun _ _ => g_poly dict) op (g_ansatz dim) /\ poly_right g_eval g_vars dim ok (g_poly_dict dict) /\ solve_right g_eval g_vars dim ok (g_solve dict a).
Proof. intros dim ok op dict a H1 H2 H3 H4 H5. split; [split; assumption|]. split; [exact H4|]. split; [apply g_poly_right; exact H3|apply g_solve_right; exact H5]. Qed.
Ltac vars_ok := repeat (apply Forall_cons; [split; [reflexivity|cbn; intros d Hd; repeat destruct Hd as [<-|Hd]; try lia; contradiction]|]); apply Forall_nil.
Lemma langevin_all : allowed 2 (fun _ => True) /\ ratio_right g_eval 2 (fun _ => True) (fun _ _ => g_poly langevin_dict) langevin_op (g_ansatz 2) /\ poly_right g_eval g_vars 2 (fun _ => True) (g_poly_dict langevin_dict) /\
  solve_right g_eval g_vars 2 (fun _ => True) (g_solve langevin_dict (AList [[GNum 1; GNum 0; GNum 1]])).
Proof. apply g_all; [auto|discriminate| |exact langevin_ratio|intros sol [<-|[]]; exact langevin_solution]. vars_ok. Qed.
Lemma outward_all : allowed 2 (fun _ => True) /\ ratio_right g_eval 2 (fun _ => True) (fun _ _ => g_poly outward_dict) outward_op (g_ansatz 2) /\ poly_right g_eval g_vars 2 (fun _ => True) (g_poly_dict outward_dict) /\
  solve_right g_eval g_vars 2 (fun _ => True) (g_solve outward_dict (AList [[GNum (-1); GNum 0; GNum (-1)]])).
Proof. apply g_all; [auto|discriminate| |exact outward_ratio|intros sol [<-|[]]; exact outward_solution]. vars_ok. Qed.
Lemma line_all : allowed 1 (fun p => 0 < p 1%nat) /\ ratio_right g_eval 1 (fun p => 0 < p 1%nat) (fun _ _ => g_poly line_dict) line_op (g_ansatz 1) /\ poly_right g_eval g_vars 1 (fun p => 0 < p 1%nat) (g_poly_dict line_dict) /\
  solve_right g_eval g_vars 1 (fun p => 0 < p 1%nat) (g_solve line_dict (ADict [(1%nat, GNum 1)])).
Proof. apply g_all; [auto|auto| |exact line_ratio|intros e _ H; injection H as <-; exact line_solution]. vars_ok. Qed.
