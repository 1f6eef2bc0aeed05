(** Calculus of partial derivatives, and the values of the equations of equations.py. *)
From Coq Require Import String List Bool Arith Lia Reals Lra.
From Verif Require Import Base Num LinSpec CalcSpec OpSpec OpQuadSpec OpModel OpQuadFacts TensOpFacts OpArithModel OpArithSpec OpArithFacts PyQuadModel PyQuadSpec EqnModel EqnSpec.
Import ListNotations.
Local Open Scope R_scope.

(** Rules for partial derivatives. *)
Section Partial.
Variable dim : nat.
Variable k : nat.
Hypothesis Hk : (k < dim)%nat.

Lemma we_same : forall x : list R, length x = dim -> with_entry x k (nth k x 0) = x.
Proof using Hk. intros x Hx. apply with_entry_same. rewrite Hx. exact Hk. Qed.
Lemma we_length : forall (x : list R) t, length x = dim -> length (with_entry x k t) = dim.
Proof using Hk. intros x t Hx. rewrite with_entry_length; [exact Hx|rewrite Hx; exact Hk]. Qed.

Lemma p_ext : forall f f' h h', partial dim k f h -> (forall x, length x = dim -> f' x = f x) -> (forall x, length x = dim -> h' x = h x) -> partial dim k f' h'.
Proof using Hk. intros f f' h h' P H1 H2 x Hx. rewrite H2 by exact Hx. eapply derivable_pt_lim_ext; [|apply P; exact Hx]. intros t. symmetry. apply H1. apply we_length. exact Hx. Qed.
Lemma p_unique : forall f h h', partial dim k f h -> partial dim k f h' -> forall x, length x = dim -> h x = h' x.
Proof using. intros f h h' P Q x Hx. exact (uniqueness_limite _ _ _ _ (P x Hx) (Q x Hx)). Qed.
Lemma p_const : forall c, partial dim k (fun _ => c) (fun _ => 0).
Proof using. intros c x Hx. apply derivable_pt_lim_const. Qed.
Lemma p_plus : forall f g h h', partial dim k f h -> partial dim k g h' -> partial dim k (fun x => f x + g x) (fun x => h x + h' x).
Proof using. intros f g h h' P Q x Hx. exact (derivable_pt_lim_plus _ _ _ _ _ (P x Hx) (Q x Hx)). Qed.
Lemma p_opp : forall f h, partial dim k f h -> partial dim k (fun x => - f x) (fun x => - h x).
Proof using. intros f h P x Hx. exact (derivable_pt_lim_opp _ _ _ (P x Hx)). Qed.
Lemma p_minus : forall f g h h', partial dim k f h -> partial dim k g h' -> partial dim k (fun x => f x - g x) (fun x => h x - h' x).
Proof using. intros f g h h' P Q x Hx. exact (derivable_pt_lim_minus _ _ _ _ _ (P x Hx) (Q x Hx)). Qed.
Lemma p_mult : forall f g h h', partial dim k f h -> partial dim k g h' -> partial dim k (fun x => f x * g x) (fun x => h x * g x + f x * h' x).
Proof using Hk. intros f g h h' P Q x Hx. pose proof (derivable_pt_lim_mult _ _ _ _ _ (P x Hx) (Q x Hx)) as G. cbv beta in G. rewrite we_same in G by exact Hx. exact G. Qed.
Lemma p_div : forall f h c, partial dim k f h -> partial dim k (fun x => f x / c) (fun x => h x / c).
Proof using Hk. intros f h c P. apply (p_ext (fun x => f x * / c) _ (fun x => h x * / c + f x * 0)); [apply p_mult; [exact P|apply p_const]|reflexivity|intros x _; unfold Rdiv; ring]. Qed.
Lemma p_comp : forall v v', (forall t, derivable_pt_lim v t (v' t)) -> forall f h, partial dim k f h -> partial dim k (fun x => v (f x)) (fun x => v' (f x) * h x).
Proof using Hk. intros v v' V f h P x Hx. pose proof (derivable_pt_lim_comp _ v _ _ _ (P x Hx) (V _)) as G. cbv beta in G. rewrite we_same in G by exact Hx. exact G. Qed.
Lemma p_same : partial dim k (fun x => nth k x 0) (fun _ => 1).
Proof using Hk.
  intros x Hx. eapply derivable_pt_lim_ext; [|apply derivable_pt_lim_id]. intros t. cbv beta. rewrite with_entry_nth by (rewrite Hx; exact Hk). rewrite Nat.eqb_refl. reflexivity.
Qed.
Lemma p_other : forall j, j <> k -> partial dim k (fun x => nth j x 0) (fun _ => 0).
Proof using Hk.
  intros j Hj x Hx. eapply derivable_pt_lim_ext; [|apply (derivable_pt_lim_const (nth j x 0))]. intros t. cbv beta. rewrite with_entry_nth by (rewrite Hx; exact Hk). unfold fct_cte. destruct (Nat.eqb_spec j k); [contradiction|reflexivity].
Qed.
End Partial.

Section Values.
Context {E : Type}.
Variable eval : E -> (nat -> R) -> R.
Variable free_vars : E -> list nat.
Variable fine : E -> Prop.
Variable e_add e_mul e_div : E -> E -> E.
Variable e_opp : E -> E.
Variable e_0 e_1 : E.
Variable e_var : nat -> E.
Variable e_sqrt : E -> E.
Variable e_diff : nat -> E -> E.
Hypothesis HA : sympy_arith eval e_add e_mul e_div e_opp e_0 e_diff fine.
Hypothesis HV : sympy_arith_vars free_vars e_add e_mul e_div e_opp e_0 e_diff.
Hypothesis HF : reads_free eval free_vars.
Hypothesis HC : sympy_calc eval free_vars fine e_add e_mul e_div e_opp e_1 e_var e_sqrt.

Notation coords := (fun (x : list R) d => nth d x 0).
Notation number := (number eval free_vars fine).
Notation potential := (potential eval free_vars fine).
Notation val := (apply_to eval).
Notation scale := (scale E e_mul).
Notation minus := (minus E e_opp).
Notation unknown := (unknown E e_1).
Notation d := (d E e_diff).

Lemma assigns_coords : forall dim, assigns (seq 0 dim) coords.
Proof using. intros dim x Hx i d Hd. rewrite seq_length in Hx. assert (Hi : (i < dim)%nat) by (rewrite <- (seq_length dim 0); apply nth_error_Some; congruence). rewrite (nth_error_nth' _ 0%nat) in Hd by (rewrite seq_length; exact Hi). rewrite seq_nth in Hd by exact Hi. injection Hd as <-. apply nth_error_nth'. rewrite Hx. exact Hi. Qed.

Lemma val_rv : forall l D x, val l D x = rv eval l (fun n => D n x) (coords x).
Proof using. intros. apply op_value_rv. Qed.
Lemma val_app : forall l l' D x, val (l ++ l') D x = val l D x + val l' D x.
Proof using. intros. rewrite !val_rv. apply rv_app. Qed.
Lemma val_scale : forall c l D x, val (scale c l) D x = eval c (coords x) * val l D x.
Proof using HA. intros. rewrite !val_rv. apply (rv_map_mul eval e_add e_mul e_div e_opp e_0 e_diff fine HA). Qed.
Lemma val_minus : forall l D x, val (minus l) D x = - val l D x.
Proof using HA. intros. rewrite !val_rv. apply (rv_map_opp eval e_add e_mul e_div e_opp e_0 e_diff fine HA). Qed.
Lemma val_unknown : forall dim D x, val (unknown dim) D x = D (repeat 0%nat dim) x.
Proof using HC. intros. rewrite val_rv. unfold EqnModel.unknown. cbn [rv]. destruct (calc_1 _ _ _ _ _ _ _ _ _ _ HC) as (_ & _ & H). rewrite H. ring. Qed.

(** Expressions and operators without singularities in the first [dim] variables, of order at most [r]. *)
Definition coef_on (dim : nat) (c : E) : Prop := fine c /\ incl (free_vars c) (seq 0 dim).
Definition good (dim r : nat) (l : oper E) : Prop := forall c n, In (c, n) l -> coef_on dim c /\ length n = dim /\ (order n <= r)%nat.
Lemma on_mul : forall dim a b, coef_on dim a -> coef_on dim b -> coef_on dim (e_mul a b).
Proof using HA HV. intros dim a b [A1 A2] [B1 B2]. split; [apply (arith_fine_mul _ _ _ _ _ _ _ _ HA); assumption|]. intros v H. apply (arith_vars_mul _ _ _ _ _ _ _ HV) in H. apply in_app_or in H. destruct H; [apply A2|apply B2]; assumption. Qed.
Lemma on_add : forall dim a b, coef_on dim a -> coef_on dim b -> coef_on dim (e_add a b).
Proof using HC HV. intros dim a b [A1 A2] [B1 B2]. split; [apply (calc_add _ _ _ _ _ _ _ _ _ _ HC); assumption|]. intros v H. apply (arith_vars_add _ _ _ _ _ _ _ HV) in H. apply in_app_or in H. destruct H; [apply A2|apply B2]; assumption. Qed.
Lemma on_opp : forall dim a, coef_on dim a -> coef_on dim (e_opp a).
Proof using HC HV. intros dim a [A1 A2]. split; [apply (calc_opp _ _ _ _ _ _ _ _ _ _ HC); assumption|]. intros v H. apply A2. apply (arith_vars_opp _ _ _ _ _ _ _ HV). exact H. Qed.
Lemma on_sub : forall dim a b, coef_on dim a -> coef_on dim b -> coef_on dim (e_sub E e_add e_opp a b).
Proof using HC HV. intros. apply on_add; [assumption|apply on_opp; assumption]. Qed.
Lemma on_div : forall dim a b c, coef_on dim a -> number b c -> c <> 0 -> coef_on dim (e_div a b).
Proof using HC HV. intros dim a b c [A1 A2] B Hc. split; [apply (calc_div _ _ _ _ _ _ _ _ _ _ HC _ _ c); assumption|]. intros v H. apply (arith_vars_div _ _ _ _ _ _ _ HV) in H. rewrite (proj1 B), app_nil_r in H. apply A2. exact H. Qed.
Lemma on_diff : forall dim k a, coef_on dim a -> coef_on dim (e_diff k a).
Proof using HA HV. intros dim k a [A1 A2]. split; [apply (arith_fine_diff _ _ _ _ _ _ _ _ HA); assumption|]. intros v H. apply A2. apply (arith_vars_diff _ _ _ _ _ _ _ HV) in H. exact H. Qed.
Lemma on_number : forall dim a b, number a b -> coef_on dim a.
Proof using. intros dim a b (H1 & H2 & _). split; [exact H2|]. rewrite H1. intros v []. Qed.
Lemma on_var : forall dim k, (k < dim)%nat -> coef_on dim (e_var k).
Proof using HC. intros dim k Hk. destruct (calc_var _ _ _ _ _ _ _ _ _ _ HC k) as (H1 & H2 & _). split; [exact H1|]. rewrite H2. intros v [<-|[]]. apply in_seq. lia. Qed.
Lemma on_potential : forall dim a k v v', potential a k v v' -> (k < dim)%nat -> coef_on dim a.
Proof using. intros dim a k v v' (H1 & H2 & _) Hk. split; [exact H1|]. intros u Hu. apply H2 in Hu as [<-|[]]. apply in_seq. lia. Qed.
Lemma on_1 : forall dim, coef_on dim e_1.
Proof using HC. intros dim. apply (on_number dim e_1 1). exact (calc_1 _ _ _ _ _ _ _ _ _ _ HC). Qed.

Lemma number_div : forall a b x y, number a x -> number b y -> y <> 0 -> number (e_div a b) (x / y).
Proof using HA HC HV. intros a b x y A B Hy. split; [|split]. - apply incl_l_nil. pose proof (arith_vars_div _ _ _ _ _ _ _ HV a b) as H. rewrite (proj1 A), (proj1 B) in H. exact H. - apply (calc_div _ _ _ _ _ _ _ _ _ _ HC _ _ y); [apply A|exact B|exact Hy]. - intros env. destruct A as (_ & _ & A). destruct B as (_ & _ & B). rewrite (arith_div _ _ _ _ _ _ _ _ HA); rewrite B; [rewrite A; reflexivity|exact Hy]. Qed.
Lemma number_mul : forall a b x y, number a x -> number b y -> number (e_mul a b) (x * y).
Proof using HA HV. intros a b x y A B. split; [|split]. - apply incl_l_nil. pose proof (arith_vars_mul _ _ _ _ _ _ _ HV a b) as H. rewrite (proj1 A), (proj1 B) in H. exact H. - apply (arith_fine_mul _ _ _ _ _ _ _ _ HA); [apply A|apply B]. - intros env. rewrite (arith_mul _ _ _ _ _ _ _ _ HA). destruct A as (_ & _ & A). destruct B as (_ & _ & B). rewrite A, B. reflexivity. Qed.
Lemma number_inv : forall b y, number b y -> y <> 0 -> number (e_inv E e_div e_1 b) (1 / y).
Proof using HA HC HV. intros. apply number_div; [exact (calc_1 _ _ _ _ _ _ _ _ _ _ HC)|assumption|assumption]. Qed.
Lemma eval_sub : forall a b env, eval (e_sub E e_add e_opp a b) env = eval a env - eval b env.
Proof using HA. intros. unfold e_sub. rewrite (arith_add _ _ _ _ _ _ _ _ HA), (arith_opp _ _ _ _ _ _ _ _ HA). ring. Qed.
Lemma eval_var : forall k env, eval (e_var k) env = env k.
Proof using HC. intros. apply (calc_var _ _ _ _ _ _ _ _ _ _ HC). Qed.

Lemma good_app : forall dim r l l', good dim r l -> good dim r l' -> good dim r (l ++ l').
Proof using. intros dim r l l' H H' c n Hi. apply in_app_or in Hi as [Hi|Hi]; [apply H|apply H']; exact Hi. Qed.
Lemma good_scale : forall dim r c l, coef_on dim c -> good dim r l -> good dim r (scale c l).
Proof using HA HV. intros dim r c l Hc H c' n Hi. apply in_map_iff in Hi as ((c0, n0) & He & Hi). injection He as <- <-. destruct (H _ _ Hi) as [A B]. split; [apply on_mul; assumption|exact B]. Qed.
Lemma good_minus : forall dim r l, good dim r l -> good dim r (minus l).
Proof using HC HV. intros dim r l H c' n Hi. apply in_map_iff in Hi as ((c0, n0) & He & Hi). injection He as <- <-. destruct (H _ _ Hi) as [A B]. split; [apply on_opp; assumption|exact B]. Qed.
Lemma good_unknown : forall dim, good dim 0 (unknown dim).
Proof using HC. intros dim c n [H|[]]. injection H as <- <-. split; [apply on_1|]. split; [apply repeat_length|rewrite order_zero; lia]. Qed.
Lemma good_le : forall dim r r' l, good dim r l -> (r <= r')%nat -> good dim r' l.
Proof using. intros dim r r' l H Hr c n Hi. destruct (H c n Hi) as (A & B & C). split; [exact A|]. split; [exact B|lia]. Qed.
Lemma good_d : forall dim r k l, (k < dim)%nat -> good dim r l -> good dim (S r) (d dim k l).
Proof using HA HV.
  intros dim r k l Hk H c n Hi. apply (op_diff_terms (E := E) e_diff) in Hi as (c' & n' & Hi & G). destruct (H _ _ Hi) as (A & B & C).
  destruct G as [[-> ->]|(j & _ & -> & ->)]; [split; [apply on_diff; exact A|split; [exact B|lia]]|]. split; [exact A|]. split; [rewrite bump_length; exact B|]. pose proof (bump_order n' j). lia.
Qed.

(** The value of a derivative is the derivative of the value. *)
Lemma val_partial : forall dim k l f D, (k < dim)%nat -> twice dim f D -> good dim 1 l -> partial dim k (val l D) (val (d dim k l) D).
Proof using HA HF.
  intros dim k l f D Hk [_ HD] H. pose proof (value_partial eval e_add e_mul e_div e_opp e_0 e_diff fine HA free_vars HF (seq 0 dim) (seq_NoDup _ _) coords (assigns_coords dim) l D k) as G.
  rewrite seq_length, seq_nth in G by exact Hk. cbn [Nat.add] in G. specialize (G Hk). eapply p_ext; [exact Hk|apply G| |].
  - intros c n Hi. destruct (H c n Hi) as ((A1 & A2) & B & C). split; [exact A1|]. split; [exact A2|]. rewrite bump_with_entry by (rewrite B; exact Hk). apply HD; assumption.
  - intros x _. apply val_rv.
  - intros x _. apply val_rv.
Qed.
Lemma val_d : forall dim k l f D h, (k < dim)%nat -> twice dim f D -> good dim 1 l -> partial dim k (val l D) h -> forall x, length x = dim -> val (d dim k l) D x = h x.
Proof using HA HF. intros dim k l f D h Hk HD H P. exact (p_unique dim k _ _ _ (val_partial dim k l f D Hk HD H) P). Qed.
Lemma val_d1 : forall dim k f D x, (k < dim)%nat -> twice dim f D -> length x = dim -> val (d dim k (unknown dim)) D x = D (with_entry (repeat 0%nat dim) k 1%nat) x.
Proof using HA HC HF.
  intros dim k f D x Hk HD Hx. apply (val_d dim k _ f D (D (with_entry (repeat 0%nat dim) k 1%nat)) Hk HD (good_le _ _ _ _ (good_unknown dim) Nat.le_0_1)); [|exact Hx].
  destruct HD as [HD1 HD]. pose proof (HD (repeat 0%nat dim) k (repeat_length _ _) Hk) as G. rewrite order_zero, nth_repeat in G. eapply p_ext; [exact Hk|apply G; lia|intros y _; apply val_unknown|reflexivity].
Qed.
Lemma val_d2 : forall dim j k f D x, (j < dim)%nat -> (k < dim)%nat -> twice dim f D -> length x = dim ->
  val (d dim j (d dim k (unknown dim))) D x = D (with_entry (with_entry (repeat 0%nat dim) k 1%nat) j (S (nth j (with_entry (repeat 0%nat dim) k 1%nat) 0%nat))) x.
Proof using HA HC HF HV.
  intros dim j k f D x Hj Hk HD Hx. refine (val_d dim j _ f D _ Hj HD (good_d dim 0 k _ Hk (good_unknown dim)) _ x Hx).
  pose proof (proj2 HD (with_entry (repeat 0%nat dim) k 1%nat) j) as G. eapply p_ext; [exact Hj|apply G| |reflexivity].
  - rewrite with_entry_length by (rewrite repeat_length; exact Hk). apply repeat_length.
  - exact Hj.
  - pose proof (bump_with_entry (repeat 0%nat dim) k) as B. rewrite repeat_length, nth_repeat in B. rewrite <- B by exact Hk. pose proof (bump_order (repeat 0%nat dim) k) as O. rewrite order_zero in O. exact O.
  - intros y Hy. apply (val_d1 dim k f D y Hk HD Hy).
Qed.
(** The derivative of a potential. *)
Lemma eval_dV : forall V k v v', potential V k v v' -> forall env, eval (e_diff k V) env = v' (env k).
Proof using HA.
  intros V k v v' (P1 & P2 & P3 & P4) env. refine (uniqueness_limite _ _ _ _ (arith_diff _ _ _ _ _ _ _ _ HA V k env P1) _).
  eapply derivable_pt_lim_ext; [|apply P4]. intros t. rewrite P3, Nat.eqb_refl. reflexivity.
Qed.

(** Tactics for the values of the equations. *)
Ltac numb := repeat match goal with H : EqnSpec.number eval free_vars fine ?e ?b |- context [eval ?e ?env] => rewrite (proj2 (proj2 H) env) end.
Ltac pot := repeat match goal with H : EqnSpec.potential eval free_vars fine ?V ?k ?v ?v' |- context [eval (e_diff ?k ?V) ?env] => rewrite (eval_dV V k v v' H env) end.
Ltac evals := repeat (numb; pot; rewrite ?eval_sub, ?(arith_mul _ _ _ _ _ _ _ _ HA), ?(arith_add _ _ _ _ _ _ _ _ HA), ?(arith_opp _ _ _ _ _ _ _ _ HA), ?eval_var).
Ltac on := repeat first [assumption | lia | (eapply on_number; eassumption) | apply on_1 | apply on_var | apply on_sub | apply on_add | apply on_mul | apply on_diff | (eapply on_potential; [eassumption|]) | (eapply on_div; [|eassumption|]) ].
Ltac goodness := repeat lazymatch goal with
  | |- good _ _ (EqnModel.unknown _ _ _) => first [apply good_unknown | eapply good_le; [apply good_unknown|lia]]
  | |- good _ _ (EqnModel.d _ _ _ _ _) => apply good_d; [lia|]
  | |- good _ _ (EqnModel.scale _ _ _ _) => apply good_scale; [solve [on]|]
  | |- good _ _ (EqnModel.minus _ _ _) => apply good_minus
  | |- good _ _ (_ ++ _) => apply good_app
  end.
Ltac entries := repeat match goal with |- context [with_entry ?l ?k ?v] => let r := eval cbv in (with_entry l k v) in change (with_entry l k v) with r end.
Ltac vals HD Hx := repeat (rewrite ?val_app, ?val_scale, ?val_minus); rewrite ?val_unknown;
  repeat rewrite (fun j k Hj Hk => val_d2 _ j k _ _ _ Hj Hk HD Hx) by lia; repeat rewrite (fun k Hk => val_d1 _ k _ _ _ Hk HD Hx) by lia; rewrite ?(proj1 HD _ Hx); entries; evals.

Lemma div_form : forall dim k l f D F, (k < dim)%nat -> twice dim f D -> good dim 1 l -> (forall x, length x = dim -> F x = val l D x) -> partial dim k F (val (d dim k l) D).
Proof using HA HF. intros dim k l f D F Hk HD Hl HF'. eapply p_ext; [exact Hk|exact (val_partial dim k l f D Hk HD Hl)|exact HF'|reflexivity]. Qed.
Lemma sub_div_form : forall dim k l f D F, (k < dim)%nat -> twice dim f D -> good dim 1 l -> (forall x, length x = dim -> F x = - val l D x) -> partial dim k F (val (minus (d dim k l)) D).
Proof using HA HF. intros dim k l f D F Hk HD Hl HF'. eapply p_ext; [exact Hk|apply p_opp; exact (val_partial dim k l f D Hk HD Hl)|exact HF'|]. intros x _. apply val_minus. Qed.

Section Params.
Variable beta gamma epsilon theta m noise : E.
Variable b g e th mm ze : R.
Hypothesis Hb : number beta b. Hypothesis Hb0 : b <> 0.
Hypothesis Hg : number gamma g. Hypothesis He : number epsilon e. Hypothesis He0 : e <> 0.
Hypothesis Hth : number theta th. Hypothesis Hm : number m mm. Hypothesis Hze : number noise ze.

Notation inv := (e_inv E e_div e_1).
Notation sq := (e_sq E e_mul).
Lemma n_binv : number (inv beta) (1 / b). Proof using HA HC HV Hb Hb0. apply number_inv; assumption. Qed.
Lemma n_gb : number (e_div (sq gamma) beta) (g * g / b). Proof using HA HC HV Hb Hb0 Hg. apply number_div; [apply number_mul; assumption|assumption|assumption]. Qed.
Lemma n_e2 : number (inv (sq epsilon)) (1 / (e * e)).
Proof using HA HC HV He He0. apply number_inv; [apply number_mul; assumption|]. intros H. apply Rmult_integral in H as [H|H]; contradiction. Qed.
Lemma n_sqrt : number (mckean_noise E e_div e_1 e_sqrt beta) (sqrt (1 / b)).
Proof using HA HC HV Hb Hb0. apply (calc_sqrt _ _ _ _ _ _ _ _ _ _ HC). exact n_binv. Qed.

(** Fokker_Planck_1d *)
Theorem fp1_divergence : forall Vp v v' f D, potential Vp 0 v v' -> twice 1 f D ->
  divergence 1 [fun x => v' (nth 0 x 0) * f x + D [1%nat] x / b] (val (fokker_planck_1d E e_mul e_div e_1 e_diff beta Vp) D).
Proof using HA HC HF HV Hb Hb0.
  intros Vp v v' f D HP HD. pose proof n_binv as Hi. split; [reflexivity|]. exists [val (fokker_planck_1d E e_mul e_div e_1 e_diff beta Vp) D]. split; [|intros x _; cbn; ring].
  intros k Hk. destruct k as [|k]; [|lia]. cbn [nth]. apply (div_form 1 0 _ f D); [lia|exact HD|goodness|]. intros x Hx. vals HD Hx. field. exact Hb0.
Qed.

(** McKean_Vlasov_white *)
Theorem white_divergence : forall Vp v v' f D, potential Vp 0 v v' -> twice 1 f D ->
  divergence 1 [fun x => (v' (nth 0 x 0) + th * (nth 0 x 0 - mm)) * f x + D [1%nat] x / b] (val (white_equation E e_add e_mul e_div e_opp e_1 e_var e_diff beta theta m Vp) D).
Proof using HA HC HF HV Hb Hb0 Hth Hm.
  intros Vp v v' f D HP HD. pose proof n_binv as Hi. split; [reflexivity|]. exists [val (white_equation E e_add e_mul e_div e_opp e_1 e_var e_diff beta theta m Vp) D]. split; [|intros x _; cbn; ring].
  intros k Hk. destruct k as [|k]; [|lia]. cbn [nth]. apply (sub_div_form 1 0 _ f D); [lia|exact HD|unfold white_flux; goodness|]. intros x Hx. unfold white_flux. vals HD Hx. field. exact Hb0.
Qed.

(** McKean_Vlasov *)
Lemma on_noise : forall dim k, (k < dim)%nat -> coef_on dim (e_div (e_mul (e_mul (e_sub E e_add e_opp e_1 gamma) noise) (e_var k)) epsilon).
Proof using HA HC HV Hg He He0 Hze. intros dim k Hk. apply (on_div dim _ _ e); [|exact He|exact He0]. on. Qed.
Lemma eval_noise : forall k env, eval (e_div (e_mul (e_mul (e_sub E e_add e_opp e_1 gamma) noise) (e_var k)) epsilon) env = (1 - g) * ze * env k / e.
Proof using HA HC Hg He He0 Hze. intros k env. pose proof (calc_1 _ _ _ _ _ _ _ _ _ _ HC) as H1. rewrite (arith_div _ _ _ _ _ _ _ _ HA); evals; [|exact He0]; reflexivity. Qed.
Theorem mckean_divergence : forall Vp Vy v v' vy vy' f D, potential Vp 0 v v' -> potential Vy 1 vy vy' -> twice 2 f D ->
  divergence 2 [(fun x => (v' (nth 0 x 0) + th * (nth 0 x 0 - mm) - (1 - g) * ze * nth 1 x 0 / e) * f x + g * g / b * D [1; 0]%nat x);
                (fun x => (vy' (nth 1 x 0) * f x + D [0; 1]%nat x) / (e * e))]
    (val (mckean_equation E e_add e_mul e_div e_opp e_1 e_var e_diff beta gamma epsilon theta m noise Vp Vy) D).
Proof using HA HC HF HV Hb Hb0 Hg He He0 Hth Hm Hze.
  intros Vp Vy v v' vy vy' f D HP HPy HD. pose proof n_gb as Hi. pose proof n_e2 as Hj. pose proof (on_noise 2 1 ltac:(lia)) as Hn. split; [reflexivity|].
  exists [val (minus (d 2 0 (mckean_flux_x E e_add e_mul e_div e_opp e_1 e_var e_diff beta gamma epsilon theta m noise Vp))) D;
          val (minus (d 2 1 (mckean_flux_y E e_mul e_div e_opp e_1 e_diff epsilon Vy))) D]. split.
  - intros k Hk. destruct k as [|[|k]]; [| |lia]; cbn [nth].
    + apply (sub_div_form 2 0 _ f D); [lia|exact HD|unfold mckean_flux_x; goodness|]. intros x Hx. unfold mckean_flux_x. vals HD Hx. rewrite eval_noise. field. split; assumption.
    + apply (sub_div_form 2 1 _ f D); [lia|exact HD|unfold mckean_flux_y; goodness|]. intros x Hx. unfold mckean_flux_y. vals HD Hx. field. exact He0.
  - intros x _. unfold mckean_equation. rewrite val_app. cbn. ring.
Qed.

(** McKean_Vlasov_harmonic_noise *)
Lemma n_noise : forall k dim, (k < dim)%nat -> coef_on dim (e_div (e_mul (e_mul (e_sub E e_add e_opp e_1 gamma) (e_sqrt (inv beta))) (e_var k)) epsilon).
Proof using HA HC HV Hg He He0 Hb Hb0. intros k dim Hk. pose proof n_sqrt as Hs. unfold mckean_noise in Hs. apply (on_div dim _ _ e); [|exact He|exact He0]. on. Qed.
Lemma eval_noise3 : forall k env, eval (e_div (e_mul (e_mul (e_sub E e_add e_opp e_1 gamma) (e_sqrt (inv beta))) (e_var k)) epsilon) env = (1 - g) * sqrt (1 / b) * env k / e.
Proof using HA HC HV Hg He He0 Hb Hb0. intros k env. pose proof n_sqrt as Hs. unfold mckean_noise in Hs. pose proof (calc_1 _ _ _ _ _ _ _ _ _ _ HC) as H1. rewrite (arith_div _ _ _ _ _ _ _ _ HA); evals; [reflexivity|exact He0]. Qed.
Theorem harmonic_divergence : forall Vp v v' f D, potential Vp 0 v v' -> twice 3 f D ->
  divergence 3 [(fun x => (v' (nth 0 x 0) + th * (nth 0 x 0 - mm) - (1 - g) * sqrt (1 / b) * nth 2 x 0 / e) * f x + g * g / b * D [1; 0; 0]%nat x);
                (fun x => (nth 2 x 0 * f x + nth 1 x 0 * f x + D [0; 1; 0]%nat x) / (e * e));
                (fun x => - (nth 1 x 0 * f x) / (e * e))]
    (val (harmonic_equation E e_add e_mul e_div e_opp e_1 e_var e_sqrt e_diff beta gamma epsilon theta m Vp) D).
Proof using HA HC HF HV Hb Hb0 Hg He He0 Hth Hm.
  intros Vp v v' f D HP HD. pose proof n_gb as Hi. pose proof n_e2 as Hj. pose proof (n_noise 2 3 ltac:(lia)) as Hn. pose proof (calc_1 _ _ _ _ _ _ _ _ _ _ HC) as H1. split; [reflexivity|].
  exists [val (minus (d 3 0 (harmonic_flux_x E e_add e_mul e_div e_opp e_1 e_var e_sqrt e_diff beta gamma epsilon theta m Vp))) D;
          val (minus (d 3 1 (harmonic_flux_y E e_mul e_div e_opp e_1 e_var e_diff epsilon))) D;
          val (minus (d 3 2 (harmonic_flux_z E e_mul e_div e_opp e_1 e_var epsilon))) D]. split.
  - intros k Hk. destruct k as [|[|[|k]]]; [| | |lia]; cbn [nth].
    + apply (sub_div_form 3 0 _ f D); [lia|exact HD|unfold harmonic_flux_x; goodness|]. intros x Hx. unfold harmonic_flux_x. vals HD Hx. rewrite eval_noise3. field. split; assumption.
    + apply (sub_div_form 3 1 _ f D); [lia|exact HD|unfold harmonic_flux_y; goodness|]. intros x Hx. unfold harmonic_flux_y. vals HD Hx. field. exact He0.
    + apply (sub_div_form 3 2 _ f D); [lia|exact HD|unfold harmonic_flux_z; goodness|]. intros x Hx. unfold harmonic_flux_z. vals HD Hx. field. exact He0.
  - intros x _. unfold harmonic_equation. rewrite !val_app. cbn. ring.
Qed.

(** Langevin *)
Theorem langevin_forward_divergence : forall f D, twice 2 f D ->
  divergence 2 [(fun x => nth 1 x 0 * f x + g * (nth 0 x 0 * f x + D [1; 0]%nat x)); (fun x => - (nth 0 x 0 * f x))]
    (val (langevin_forward E e_mul e_opp e_1 e_var e_diff gamma) D).
Proof using HA HC HF HV Hg.
  intros f D HD. split; [reflexivity|].
  exists [val (scale (e_var 1) (d 2 0 (unknown 2)) ++ scale gamma (d 2 0 (scale (e_var 0) (unknown 2) ++ d 2 0 (unknown 2)))) D; val (minus (scale (e_var 0) (d 2 1 (unknown 2)))) D]. split.
  - intros k Hk. destruct k as [|[|k]]; [| |lia]; cbn [nth].
    + apply (p_ext 2 0 ltac:(lia) (fun x => nth 1 x 0 * f x + g * (nth 0 x 0 * f x + D [1; 0]%nat x)) _
        (fun x => (0 * f x + nth 1 x 0 * D [1; 0]%nat x) + (0 * (nth 0 x 0 * f x + D [1; 0]%nat x) + g * val (d 2 0 (scale (e_var 0) (unknown 2) ++ d 2 0 (unknown 2))) D x)));
      [|reflexivity|intros x Hx; rewrite val_app, !val_scale; vals HD Hx; ring].
      apply p_plus; apply p_mult; [lia|apply p_other; lia| |lia|apply p_const|].
      * pose proof (proj2 HD [0; 0]%nat 0%nat eq_refl ltac:(lia) ltac:(cbn; lia)) as G. eapply p_ext; [lia|exact G|intros x Hx; symmetry; exact (proj1 HD x Hx)|reflexivity].
      * apply (div_form 2 0 _ f D); [lia|exact HD|goodness|]. intros x Hx. vals HD Hx. reflexivity.
    + pose proof (proj2 HD [0; 0]%nat 1%nat eq_refl ltac:(lia) ltac:(cbn; lia)) as G. cbn in G.
      apply (p_ext 2 1 ltac:(lia) (fun x => - (nth 0 x 0 * D [0; 0]%nat x)) _ (fun x => - (0 * D [0; 0]%nat x + nth 0 x 0 * D [0; 1]%nat x)));
      [|intros x Hx; rewrite (proj1 HD x Hx : D [0; 0]%nat x = f x); reflexivity|intros x Hx; vals HD Hx; ring].
      apply p_opp. apply p_mult; [lia|apply p_other; lia|exact G].
  - intros x _. unfold langevin_forward. rewrite !val_app. cbn. ring.
Qed.
End Params.
(** Steady states. *)
Lemma divergence_unique : forall dim J h h', divergence dim J h -> divergence dim J h' -> forall x, length x = dim -> h x = h' x.
Proof using.
  intros dim J h h' (_ & G & G1 & G2) (_ & G' & G1' & G2') x Hx. rewrite (G2 x Hx), (G2' x Hx). f_equal. apply map_ext_in. intros k Hk. apply in_seq in Hk. apply (p_unique dim k _ _ _ (G1 k ltac:(lia)) (G1' k ltac:(lia)) x Hx).
Qed.
Lemma first_deriv : forall dim f D k h, twice dim f D -> (k < dim)%nat -> partial dim k f h -> forall x, length x = dim -> D (once dim k) x = h x.
Proof using.
  intros dim f D k h HD Hk P. apply (p_unique dim k f); [|exact P]. pose proof (proj2 HD (repeat 0%nat dim) k (repeat_length _ _) Hk) as G. rewrite order_zero, nth_repeat in G.
  eapply p_ext; [exact Hk|apply G; lia|intros y Hy; symmetry; apply (proj1 HD); exact Hy|reflexivity].
Qed.
Lemma once_length : forall dim k, (k < dim)%nat -> length (once dim k) = dim.
Proof using. intros dim k Hk. unfold once. rewrite with_entry_length; [apply repeat_length|rewrite repeat_length; exact Hk]. Qed.
Lemma once_order : forall dim k, (k < dim)%nat -> (order (once dim k) <= 1)%nat.
Proof using. intros dim k Hk. unfold once. pose proof (bump_with_entry (repeat 0%nat dim) k) as B. rewrite repeat_length, nth_repeat in B. rewrite <- B by exact Hk. pose proof (bump_order (repeat 0%nat dim) k) as O. rewrite order_zero in O. exact O. Qed.
Lemma second_deriv : forall dim f D j k h h', twice dim f D -> (j < dim)%nat -> (k < dim)%nat -> partial dim k f h -> partial dim j h h' -> forall x, length x = dim -> D (again dim j k) x = h' x.
Proof using.
  intros dim f D j k h h' HD Hj Hk P P'. apply (p_unique dim j h); [|exact P']. eapply p_ext; [exact Hj|exact (proj2 HD (once dim k) j (once_length dim k Hk) Hj (once_order dim k Hk))| |reflexivity].
  intros x Hx. symmetry. exact (first_deriv dim f D k h HD Hk P x Hx).
Qed.
Lemma twice_first : forall dim f D k, twice dim f D -> (k < dim)%nat -> partial dim k f (D (once dim k)).
Proof using.
  intros dim f D k HD Hk. pose proof (proj2 HD (repeat 0%nat dim) k (repeat_length _ _) Hk) as G. rewrite order_zero, nth_repeat in G.
  eapply p_ext; [exact Hk|apply G; lia|intros y Hy; symmetry; apply (proj1 HD); exact Hy|reflexivity].
Qed.
Lemma twice_second : forall dim f D j k, twice dim f D -> (j < dim)%nat -> (k < dim)%nat -> partial dim j (D (once dim k)) (D (again dim j k)).
Proof using. intros dim f D j k HD Hj Hk. exact (proj2 HD (once dim k) j (once_length dim k Hk) Hj (once_order dim k Hk)). Qed.

Lemma p_indep : forall dim k j (u : R -> R), (k < dim)%nat -> j <> k -> partial dim k (fun x => u (nth j x 0)) (fun _ => 0).
Proof using.
  intros dim k j u Hk Hj x Hx. eapply derivable_pt_lim_ext; [|apply (derivable_pt_lim_const (u (nth j x 0)))]. intros t. cbv beta. rewrite with_entry_nth by (rewrite Hx; exact Hk). unfold fct_cte. destruct (Nat.eqb_spec j k); [contradiction|reflexivity].
Qed.
Ltac pd := lazymatch goal with
  | |- partial _ _ (fun _ => ?c) _ => apply p_const
  | |- partial _ _ (fun x => @?f x + @?g x) _ => eapply (p_plus _ _ f g); pd
  | |- partial _ _ (fun x => @?f x - @?g x) _ => eapply (p_minus _ _ f g); pd
  | |- partial ?dim ?k (fun x => @?f x * @?g x) _ => eapply (p_mult dim k ltac:(lia) f g); pd
  | |- partial ?dim ?k (fun x => @?f x / ?c) _ => eapply (p_div dim k ltac:(lia) f); pd
  | |- partial _ _ (fun x => - @?f x) _ => eapply (p_opp _ _ f); pd
  | |- partial ?dim ?k (fun x => exp (@?f x)) _ => eapply (p_comp dim k ltac:(lia) exp exp derivable_pt_lim_exp f); pd
  | |- partial _ _ (fun x => nth ?j x 0) _ => first [apply p_same; lia | apply p_other; lia]
  | |- partial ?dim ?k (fun x => ?D ?n x) _ => match goal with H : twice dim _ D |- _ => apply (proj2 H n k); [reflexivity|lia|cbn; lia] end
  | |- partial ?dim ?k (fun x => ?F x) ?h => change (partial dim k F h); first [eassumption | eapply twice_first; [eassumption|lia] | idtac ]
  | |- partial ?dim ?k (fun x => ?v (@?f x)) _ => first [apply p_indep; lia | match goal with H : forall t, derivable_pt_lim v t (?v' t) |- _ => eapply (p_comp dim k ltac:(lia) v v' H f); pd end]
  | |- _ => first [eassumption | eapply twice_first; [eassumption|lia] | idtac]
  end.

Section Steady.
Variable beta gamma epsilon theta m noise : E.
Variable b g e th mm ze c : R.
Hypothesis Hb : number beta b. Hypothesis Hb0 : b <> 0.
Hypothesis Hg : number gamma g. Hypothesis He : number epsilon e. Hypothesis He0 : e <> 0.
Hypothesis Hth : number theta th. Hypothesis Hm : number m mm. Hypothesis Hze : number noise ze.

Ltac zero_flux := eapply p_ext; [lia|apply (p_const _ _ 0)| |reflexivity].

Lemma steady_by : forall dim J h, divergence dim J h -> divergence dim J (fun _ => 0) -> forall x, length x = dim -> h x = 0.
Proof using. intros dim J h H H' x Hx. exact (divergence_unique dim J h _ H H' x Hx). Qed.

Theorem fp1_steady : forall Vp v v' D, potential Vp 0 v v' -> twice 1 (fun x => c * exp (- (b * v (nth 0 x 0)))) D ->
  forall x, length x = 1%nat -> val (fokker_planck_1d E e_mul e_div e_1 e_diff beta Vp) D x = 0.
Proof using HA HC HF HV Hb Hb0.
  intros Vp v v' D HP HD. apply (steady_by _ _ _ (fp1_divergence beta b Hb Hb0 Vp v v' _ D HP HD)).
  pose proof (proj2 (proj2 (proj2 HP))) as Hv.
  assert (P0 : exists h, partial 1 0 (fun x => c * exp (- (b * v (nth 0 x 0)))) h /\ forall x, h x = - b * v' (nth 0 x 0) * (c * exp (- (b * v (nth 0 x 0))))).
  { eexists. split; [pd|]. intros x. cbv beta. ring. }
  destruct P0 as (h & P0 & Eh). split; [reflexivity|]. exists [fun _ => 0]. split; [|intros x _; cbn; ring]. intros k Hk. destruct k as [|k]; [|lia]. cbn [nth]. zero_flux.
  intros x Hx. change [1%nat] with (once 1 0). rewrite (first_deriv 1 _ D 0 h HD ltac:(lia) P0 x Hx), Eh. field. exact Hb0.
Qed.

Theorem white_steady : forall Vp v v' D, potential Vp 0 v v' -> twice 1 (fun x => c * exp (- (b * (v (nth 0 x 0) + th * ((nth 0 x 0 - mm) * (nth 0 x 0 - mm)) / 2)))) D ->
  forall x, length x = 1%nat -> val (white_equation E e_add e_mul e_div e_opp e_1 e_var e_diff beta theta m Vp) D x = 0.
Proof using HA HC HF HV Hb Hb0 Hth Hm.
  intros Vp v v' D HP HD. set (f := fun x => c * exp (- (b * (v (nth 0 x 0) + th * ((nth 0 x 0 - mm) * (nth 0 x 0 - mm)) / 2)))) in *. apply (steady_by _ _ _ (white_divergence beta theta m b th mm Hb Hb0 Hth Hm Vp v v' _ D HP HD)).
  pose proof (proj2 (proj2 (proj2 HP))) as Hv.
  assert (P0 : exists h, partial 1 0 f h /\ forall x, h x = - b * (v' (nth 0 x 0) + th * (nth 0 x 0 - mm)) * f x).
  { eexists. split; [unfold f; pd|]. intros x. unfold f. field. }
  destruct P0 as (h & P0 & Eh). split; [reflexivity|]. exists [fun _ => 0]. split; [|intros x _; cbn; ring]. intros k Hk. destruct k as [|k]; [|lia]. cbn [nth]. zero_flux.
  intros x Hx. change [1%nat] with (once 1 0). rewrite (first_deriv 1 _ D 0 h HD ltac:(lia) P0 x Hx), Eh. field. exact Hb0.
Qed.

Theorem mckean_steady : forall Vp Vy v v' vy vy' D, g = 1 -> potential Vp 0 v v' -> potential Vy 1 vy vy' ->
  twice 2 (fun x => c * exp (- (b * (v (nth 0 x 0) + th * ((nth 0 x 0 - mm) * (nth 0 x 0 - mm)) / 2) + vy (nth 1 x 0)))) D ->
  forall x, length x = 2%nat -> val (mckean_equation E e_add e_mul e_div e_opp e_1 e_var e_diff beta gamma epsilon theta m noise Vp Vy) D x = 0.
Proof using HA HC HF HV Hb Hb0 Hg He He0 Hth Hm Hze.
  intros Vp Vy v v' vy vy' D G1 HP HPy HD. set (f := fun x => c * exp (- (b * (v (nth 0 x 0) + th * ((nth 0 x 0 - mm) * (nth 0 x 0 - mm)) / 2) + vy (nth 1 x 0)))) in *.
  apply (steady_by _ _ _ (mckean_divergence beta gamma epsilon theta m noise b g e th mm ze Hb Hb0 Hg He He0 Hth Hm Hze Vp Vy v v' vy vy' _ D HP HPy HD)).
  pose proof (proj2 (proj2 (proj2 HP))) as Hv. pose proof (proj2 (proj2 (proj2 HPy))) as Hvy.
  assert (P0 : exists h, partial 2 0 f h /\ forall x, h x = - b * (v' (nth 0 x 0) + th * (nth 0 x 0 - mm)) * f x).
  { eexists. split; [unfold f; pd|]. intros x. unfold f. field. }
  assert (P1 : exists h, partial 2 1 f h /\ forall x, h x = - vy' (nth 1 x 0) * f x).
  { eexists. split; [unfold f; pd|]. intros x. unfold f. field. }
  destruct P0 as (h & P0 & Eh). destruct P1 as (h1 & P1 & Eh1). split; [reflexivity|]. exists [(fun _ => 0); (fun _ => 0)]. split; [|intros x _; cbn; ring]. intros k Hk. destruct k as [|[|k]]; [| |lia]; cbn [nth]; zero_flux; intros x Hx.
  - change [1; 0]%nat with (once 2 0). rewrite (first_deriv 2 _ D 0 h HD ltac:(lia) P0 x Hx), Eh, G1. field. split; assumption.
  - change [0; 1]%nat with (once 2 1). rewrite (first_deriv 2 _ D 1 h1 HD ltac:(lia) P1 x Hx), Eh1. field. exact He0.
Qed.

Theorem harmonic_steady : forall Vp v v' D, g = 1 -> potential Vp 0 v v' ->
  twice 3 (fun x => c * exp (- (b * (v (nth 0 x 0) + th * ((nth 0 x 0 - mm) * (nth 0 x 0 - mm)) / 2) + (nth 1 x 0 * nth 1 x 0 + nth 2 x 0 * nth 2 x 0) / 2))) D ->
  forall x, length x = 3%nat -> val (harmonic_equation E e_add e_mul e_div e_opp e_1 e_var e_sqrt e_diff beta gamma epsilon theta m Vp) D x = 0.
Proof using HA HC HF HV Hb Hb0 Hg He He0 Hth Hm.
  intros Vp v v' D G1 HP HD. set (f := fun x => c * exp (- (b * (v (nth 0 x 0) + th * ((nth 0 x 0 - mm) * (nth 0 x 0 - mm)) / 2) + (nth 1 x 0 * nth 1 x 0 + nth 2 x 0 * nth 2 x 0) / 2))) in *.
  apply (steady_by _ _ _ (harmonic_divergence beta gamma epsilon theta m b g e th mm Hb Hb0 Hg He He0 Hth Hm Vp v v' _ D HP HD)).
  pose proof (proj2 (proj2 (proj2 HP))) as Hv.
  assert (P0 : exists h, partial 3 0 f h /\ forall x, h x = - b * (v' (nth 0 x 0) + th * (nth 0 x 0 - mm)) * f x).
  { eexists. split; [unfold f; pd|]. intros x. unfold f. field. }
  assert (P1 : exists h, partial 3 1 f h /\ forall x, h x = - nth 1 x 0 * f x).
  { eexists. split; [unfold f; pd|]. intros x. unfold f. field. }
  assert (P2 : exists h, partial 3 2 f h /\ forall x, h x = - nth 2 x 0 * f x).
  { eexists. split; [unfold f; pd|]. intros x. unfold f. field. }
  clearbody f. destruct P0 as (h & P0 & Eh). destruct P1 as (h1 & P1 & Eh1). destruct P2 as (h2 & P2 & Eh2). split; [reflexivity|].
  exists [(fun _ => 0); (fun x => nth 2 x 0 * h1 x / (e * e)); (fun x => - (nth 1 x 0 * h2 x) / (e * e))]. split; [|intros x _; cbn; rewrite Eh1, Eh2; field; exact He0].
  intros k Hk. destruct k as [|[|[|k]]]; [| | |lia]; cbn [nth].
  - zero_flux. intros x Hx. change [1; 0; 0]%nat with (once 3 0). rewrite (first_deriv 3 _ D 0 h HD ltac:(lia) P0 x Hx), Eh, G1. field. split; assumption.
  - eapply (p_ext 3 1 ltac:(lia) (fun x => nth 2 x 0 * f x / (e * e))); [pd| |].
    + intros x Hx. change [0; 1; 0]%nat with (once 3 1). rewrite (first_deriv 3 _ D 1 h1 HD ltac:(lia) P1 x Hx), Eh1. field. exact He0.
    + intros x Hx. cbv beta. field. exact He0.
  - eapply (p_ext 3 2 ltac:(lia) (fun x => - (nth 1 x 0 * f x) / (e * e))); [pd|reflexivity|]. intros x Hx. cbv beta. field. exact He0.
Qed.

Theorem langevin_forward_steady : forall D, twice 2 (fun x => c * exp (- ((nth 0 x 0 * nth 0 x 0 + nth 1 x 0 * nth 1 x 0) / 2))) D ->
  forall x, length x = 2%nat -> val (langevin_forward E e_mul e_opp e_1 e_var e_diff gamma) D x = 0.
Proof using HA HC HF HV Hg.
  intros D HD. set (f := fun x => c * exp (- ((nth 0 x 0 * nth 0 x 0 + nth 1 x 0 * nth 1 x 0) / 2))) in *.
  apply (steady_by _ _ _ (langevin_forward_divergence gamma g Hg _ D HD)).
  assert (P0 : exists h, partial 2 0 f h /\ forall x, h x = - nth 0 x 0 * f x).
  { eexists. split; [unfold f; pd|]. intros x. unfold f. field. }
  assert (P1 : exists h, partial 2 1 f h /\ forall x, h x = - nth 1 x 0 * f x).
  { eexists. split; [unfold f; pd|]. intros x. unfold f. field. }
  clearbody f. destruct P0 as (h & P0 & Eh). destruct P1 as (h1 & P1 & Eh1). split; [reflexivity|].
  exists [(fun x => nth 1 x 0 * h x); (fun x => - (nth 0 x 0 * h1 x))]. split; [|intros x _; cbn; rewrite Eh, Eh1; field].
  intros k Hk. destruct k as [|[|k]]; [| |lia]; cbn [nth].
  - eapply (p_ext 2 0 ltac:(lia) (fun x => nth 1 x 0 * f x)); [pd| |].
    + intros x Hx. change [1; 0]%nat with (once 2 0). rewrite (first_deriv 2 _ D 0 h HD ltac:(lia) P0 x Hx), Eh. ring.
    + intros x Hx. cbv beta. ring.
  - eapply (p_ext 2 1 ltac:(lia) (fun x => - (nth 0 x 0 * f x))); [pd|reflexivity|]. intros x Hx. cbv beta. ring.
Qed.
End Steady.

(** Generators *)
Lemma generator_constant : forall dim l drift diff, generator eval dim l drift diff -> forall c D, twice dim (fun _ => c) D -> forall x, length x = dim -> val l D x = 0.
Proof using.
  intros dim l drift diff HG c D HD x Hx. rewrite (HG _ D x HD Hx).
  assert (Z : forall A (F : A -> R) L, (forall a, In a L -> F a = 0) -> rsum (map F L) = 0).
  { intros A F L. induction L as [|a L IH]; intros H; [reflexivity|]. cbn [map rsum fold_right]. rewrite (H a (or_introl eq_refl)). change (0 + rsum (map F L) = 0). rewrite IH; [ring|]. intros a' Ha'. apply H. right. exact Ha'. }
  rewrite (Z _ _ (seq 0 dim)). 2: { intros k Hk. apply in_seq in Hk. rewrite (first_deriv dim _ D k (fun _ => 0) HD ltac:(lia) (p_const _ _ _) x Hx). ring. }
  rewrite Z; [ring|]. intros j Hj. apply in_seq in Hj. apply Z. intros k Hk. apply in_seq in Hk. rewrite (second_deriv dim _ D j k (fun _ => 0) (fun _ => 0) HD ltac:(lia) ltac:(lia) (p_const _ _ _) (p_const _ _ _) x Hx). ring.
Qed.
Lemma generator_product : forall dim l drift diff, generator eval dim l drift diff -> forall f f' Df Df' D, twice dim f Df -> twice dim f' Df' -> twice dim (fun x => f x * f' x) D ->
  forall x, length x = dim -> val l D x = f x * val l Df' x + f' x * val l Df x + champ2 dim diff Df Df' x.
Proof using.
  intros dim l drift diff HG f f' Df Df' D HD HD' HP x Hx. rewrite (HG _ D x HP Hx), (HG _ Df x HD Hx), (HG _ Df' x HD' Hx). unfold champ2.
  assert (L : forall A (F G H K : A -> R) L a c, (forall i, In i L -> F i = a * G i + c * H i + K i) -> rsum (map F L) = a * rsum (map G L) + c * rsum (map H L) + rsum (map K L)).
  { intros A F G H K L a c. induction L as [|i L IH]; intros HL; [cbn; ring|]. cbn [map rsum fold_right]. change (fold_right Rplus 0) with rsum. rewrite (HL i (or_introl eq_refl)), IH; [ring|]. intros i' Hi'. apply HL. right. exact Hi'. }
  assert (P1 : forall k, (k < dim)%nat -> partial dim k (fun x => f x * f' x) (fun x => Df (once dim k) x * f' x + f x * Df' (once dim k) x)).
  { intros k Hk. apply p_mult; [exact Hk|apply twice_first; assumption|apply twice_first; assumption]. }
  rewrite (L _ (fun k => nth k (drift x) 0 * D (once dim k) x) (fun k => nth k (drift x) 0 * Df' (once dim k) x) (fun k => nth k (drift x) 0 * Df (once dim k) x) (fun _ => 0) (seq 0 dim) (f x) (f' x)).
  2: { intros k Hk. apply in_seq in Hk. rewrite (first_deriv dim _ D k _ HP ltac:(lia) (P1 k ltac:(lia)) x Hx). ring. }
  rewrite (L _ (fun j => rsum (map (fun k => nth k (nth j diff []) 0 * D (again dim j k) x) (seq 0 dim))) (fun j => rsum (map (fun k => nth k (nth j diff []) 0 * Df' (again dim j k) x) (seq 0 dim))) (fun j => rsum (map (fun k => nth k (nth j diff []) 0 * Df (again dim j k) x) (seq 0 dim)))
    (fun j => rsum (map (fun k => nth k (nth j diff []) 0 * (Df (once dim j) x * Df' (once dim k) x + Df (once dim k) x * Df' (once dim j) x)) (seq 0 dim))) (seq 0 dim) (f x) (f' x)).
  2: { intros j Hj. apply in_seq in Hj. apply L. intros k Hk. apply in_seq in Hk.
       assert (P2 : partial dim j (fun x => Df (once dim k) x * f' x + f x * Df' (once dim k) x) (fun x => (Df (again dim j k) x * f' x + Df (once dim k) x * Df' (once dim j) x) + (Df (once dim j) x * Df' (once dim k) x + f x * Df' (again dim j k) x))).
       { apply p_plus; apply p_mult; try lia; first [apply (twice_second dim f); [assumption|lia|lia] | apply (twice_second dim f'); [assumption|lia|lia] | apply twice_first; [assumption|lia]]. }
       rewrite (second_deriv dim _ D j k _ _ HP ltac:(lia) ltac:(lia) (P1 k ltac:(lia)) P2 x Hx). ring. }
  assert (Z : rsum (map (fun _ : nat => 0) (seq 0 dim)) = 0). { induction (seq 0 dim) as [|i L' IH]; [reflexivity|]. cbn. change (0 + rsum (map (fun _ : nat => 0) L') = 0). rewrite IH. ring. }
  rewrite Z. ring.
Qed.

Section Backward.
Variable beta gamma lambda alpha l1 l2 a11 a12 a21 a22 : E.
Variable b g la al r1 r2 q11 q12 q21 q22 : R.
Hypothesis Hb : number beta b. Hypothesis Hb0 : b <> 0.
Hypothesis Hg : number gamma g.
Hypothesis Hla : number lambda la. Hypothesis Hal : number alpha al.
Hypothesis H1 : number l1 r1. Hypothesis H2 : number l2 r2.
Hypothesis H11 : number a11 q11. Hypothesis H12 : number a12 q12. Hypothesis H21 : number a21 q21. Hypothesis H22 : number a22 q22.
Variable e_is0 : E -> bool.
Notation inv := (e_inv E e_div e_1).
Notation gle := (generalized_langevin E e_add e_mul e_div e_opp e_1 e_var e_diff e_is0).

Ltac gen := intros f D x HD Hx; cbn [rsum map seq nth fold_right]; unfold again, once; entries.

Theorem overdamped_generator : forall V v v', potential V 0 v v' -> generator eval 1 (overdamped_backward E e_mul e_div e_opp e_1 e_diff beta V) (fun x => [- v' (nth 0 x 0)]) [[1 / b]].
Proof using HA HC HF HV Hb Hb0. intros V v v' HP. pose proof (n_binv beta b Hb Hb0) as Hi. gen. unfold overdamped_backward. vals HD Hx. field. exact Hb0. Qed.
Theorem langevin_generator : forall Vy v v', potential Vy 1 v v' ->
  generator eval 2 (langevin_backward E e_mul e_div e_opp e_1 e_var e_diff gamma beta Vy) (fun x => [- v' (nth 1 x 0) - g * nth 0 x 0; nth 0 x 0]) [[g / b; 0]; [0; 0]].
Proof using HA HC HF HV Hb Hb0 Hg. intros Vy v v' HP. pose proof (n_binv beta b Hb Hb0) as Hi. gen. unfold langevin_backward. vals HD Hx. field. exact Hb0. Qed.
Theorem gle_friction_generator : forall Vx v v', potential Vx 0 v v' -> exists L, gle beta Vx (Friction E gamma) = Ok (2%nat, L) /\
  generator eval 2 L (fun x => [nth 1 x 0; - v' (nth 0 x 0) - g * nth 1 x 0]) [[0; 0]; [0; g / b]].
Proof using HA HC HF HV Hb Hb0 Hg. intros Vx v v' HP. pose proof (n_binv beta b Hb Hb0) as Hi. eexists. split; [reflexivity|]. gen. vals HD Hx. field. exact Hb0. Qed.
Theorem gle1_generator : forall Vx v v', potential Vx 0 v v' -> e_is0 alpha = false -> exists L, gle beta Vx (Aux1 E lambda alpha) = Ok (3%nat, L) /\
  generator eval 3 L (fun x => [nth 1 x 0; - v' (nth 0 x 0) + la * nth 2 x 0; - la * nth 1 x 0 - al * nth 2 x 0]) [[0; 0; 0]; [0; 0; 0]; [0; 0; al / b]].
Proof using HA HC HF HV Hb Hb0 Hla Hal. intros Vx v v' HP Hz. pose proof (n_binv beta b Hb Hb0) as Hi. eexists. split; [unfold generalized_langevin; rewrite Hz; reflexivity|]. gen. vals HD Hx. field. exact Hb0. Qed.
Theorem gle2_generator : forall Vx v v', potential Vx 0 v v' -> e_is0 (e_sub E e_add e_opp (e_mul a11 a22) (e_mul a12 a21)) = false -> exists L, gle beta Vx (Aux2 E l1 l2 a11 a12 a21 a22) = Ok (4%nat, L) /\
  generator eval 4 L (fun x => [nth 1 x 0; - v' (nth 0 x 0) + r1 * nth 2 x 0 + r2 * nth 3 x 0; - r1 * nth 1 x 0 - q11 * nth 2 x 0 - q12 * nth 3 x 0; - r2 * nth 1 x 0 - q21 * nth 2 x 0 - q22 * nth 3 x 0])
    [[0; 0; 0; 0]; [0; 0; 0; 0]; [0; 0; q11 / b; q12 / b]; [0; 0; q21 / b; q22 / b]].
Proof using HA HC HF HV Hb Hb0 H1 H2 H11 H12 H21 H22. intros Vx v v' HP Hz. pose proof (n_binv beta b Hb Hb0) as Hi. eexists. split; [unfold generalized_langevin; rewrite Hz; reflexivity|]. gen. vals HD Hx. field. exact Hb0. Qed.

(** The Gibbs measures are invariant: the measure times the value is a divergence. *)
Tactic Notation "components" integer(n) := intros k Hk; do n (destruct k as [|k]; [cbn [nth]; pd|]); lia.
Theorem overdamped_invariant : forall V v v' f D, potential V 0 v v' -> twice 1 f D ->
  divergence 1 [fun x => exp (- (b * v (nth 0 x 0))) * D [1%nat] x / b]
    (fun x => exp (- (b * v (nth 0 x 0))) * val (overdamped_backward E e_mul e_div e_opp e_1 e_diff beta V) D x).
Proof using HA HC HF HV Hb Hb0.
  intros V v v' f D HP HD. pose proof (proj2 (proj2 (proj2 HP))) as Hv. split; [reflexivity|]. eexists [_]. split; [components 1|]. intros x Hx. rewrite (overdamped_generator V v v' HP f D x HD Hx).
  cbn [rsum map seq nth fold_right]. unfold again, once. entries. field. exact Hb0.
Qed.
Theorem langevin_invariant : forall Vy v v' f D, potential Vy 1 v v' -> twice 2 f D ->
  divergence 2 [(fun x => exp (- (b * (nth 0 x 0 * nth 0 x 0 / 2 + v (nth 1 x 0)))) * (- v' (nth 1 x 0) * f x + g / b * D [1; 0]%nat x));
                (fun x => exp (- (b * (nth 0 x 0 * nth 0 x 0 / 2 + v (nth 1 x 0)))) * (nth 0 x 0 * f x))]
    (fun x => exp (- (b * (nth 0 x 0 * nth 0 x 0 / 2 + v (nth 1 x 0)))) * val (langevin_backward E e_mul e_div e_opp e_1 e_var e_diff gamma beta Vy) D x).
Proof using HA HC HF HV Hb Hb0 Hg.
  intros V v v' f D HP HD. pose proof (proj2 (proj2 (proj2 HP))) as Hv. split; [reflexivity|]. eexists [_; _]. split; [components 2|]. intros x Hx. rewrite (langevin_generator V v v' HP f D x HD Hx).
  cbn [rsum map seq nth fold_right]. unfold again, once. entries. field. exact Hb0.
Qed.
Theorem gle_friction_invariant : forall Vx v v' f D, potential Vx 0 v v' -> twice 2 f D -> exists L, gle beta Vx (Friction E gamma) = Ok (2%nat, L) /\
  divergence 2 [(fun x => exp (- (b * (nth 1 x 0 * nth 1 x 0 / 2 + v (nth 0 x 0)))) * (nth 1 x 0 * f x));
                (fun x => exp (- (b * (nth 1 x 0 * nth 1 x 0 / 2 + v (nth 0 x 0)))) * (- v' (nth 0 x 0) * f x + g / b * D [0; 1]%nat x))]
    (fun x => exp (- (b * (nth 1 x 0 * nth 1 x 0 / 2 + v (nth 0 x 0)))) * val L D x).
Proof using HA HC HF HV Hb Hb0 Hg.
  intros V v v' f D HP HD. pose proof (proj2 (proj2 (proj2 HP))) as Hv. destruct (gle_friction_generator V v v' HP) as (L & EL & HL). exists L. split; [exact EL|]. split; [reflexivity|]. eexists [_; _]. split; [components 2|]. intros x Hx. rewrite (HL f D x HD Hx).
  cbn [rsum map seq nth fold_right]. unfold again, once. entries. field. exact Hb0.
Qed.
Theorem gle1_invariant : forall Vx v v' f D, potential Vx 0 v v' -> e_is0 alpha = false -> twice 3 f D -> exists L, gle beta Vx (Aux1 E lambda alpha) = Ok (3%nat, L) /\
  divergence 3 [(fun x => exp (- (b * ((nth 1 x 0 * nth 1 x 0 + nth 2 x 0 * nth 2 x 0) / 2 + v (nth 0 x 0)))) * (nth 1 x 0 * f x));
                (fun x => exp (- (b * ((nth 1 x 0 * nth 1 x 0 + nth 2 x 0 * nth 2 x 0) / 2 + v (nth 0 x 0)))) * ((- v' (nth 0 x 0) + la * nth 2 x 0) * f x));
                (fun x => exp (- (b * ((nth 1 x 0 * nth 1 x 0 + nth 2 x 0 * nth 2 x 0) / 2 + v (nth 0 x 0)))) * (- la * nth 1 x 0 * f x + al / b * D [0; 0; 1]%nat x))]
    (fun x => exp (- (b * ((nth 1 x 0 * nth 1 x 0 + nth 2 x 0 * nth 2 x 0) / 2 + v (nth 0 x 0)))) * val L D x).
Proof using HA HC HF HV Hb Hb0 Hla Hal.
  intros V v v' f D HP Hz HD. pose proof (proj2 (proj2 (proj2 HP))) as Hv. destruct (gle1_generator V v v' HP Hz) as (L & EL & HL). exists L. split; [exact EL|]. split; [reflexivity|]. eexists [_; _; _]. split; [components 3|]. intros x Hx. rewrite (HL f D x HD Hx).
  cbn [rsum map seq nth fold_right]. unfold again, once. entries. field. exact Hb0.
Qed.
Theorem gle2_invariant : forall Vx v v' f D, potential Vx 0 v v' -> e_is0 (e_sub E e_add e_opp (e_mul a11 a22) (e_mul a12 a21)) = false -> twice 4 f D -> exists L, gle beta Vx (Aux2 E l1 l2 a11 a12 a21 a22) = Ok (4%nat, L) /\
  divergence 4 [(fun x => exp (- (b * ((nth 1 x 0 * nth 1 x 0 + nth 2 x 0 * nth 2 x 0 + nth 3 x 0 * nth 3 x 0) / 2 + v (nth 0 x 0)))) * (nth 1 x 0 * f x));
                (fun x => exp (- (b * ((nth 1 x 0 * nth 1 x 0 + nth 2 x 0 * nth 2 x 0 + nth 3 x 0 * nth 3 x 0) / 2 + v (nth 0 x 0)))) * ((- v' (nth 0 x 0) + r1 * nth 2 x 0 + r2 * nth 3 x 0) * f x));
                (fun x => exp (- (b * ((nth 1 x 0 * nth 1 x 0 + nth 2 x 0 * nth 2 x 0 + nth 3 x 0 * nth 3 x 0) / 2 + v (nth 0 x 0)))) * (- r1 * nth 1 x 0 * f x + (q11 * D [0; 0; 1; 0]%nat x + q21 * D [0; 0; 0; 1]%nat x) / b
                           ));
                (fun x => exp (- (b * ((nth 1 x 0 * nth 1 x 0 + nth 2 x 0 * nth 2 x 0 + nth 3 x 0 * nth 3 x 0) / 2 + v (nth 0 x 0)))) * (- r2 * nth 1 x 0 * f x + (q12 * D [0; 0; 1; 0]%nat x + q22 * D [0; 0; 0; 1]%nat x) / b
                           ))]
    (fun x => exp (- (b * ((nth 1 x 0 * nth 1 x 0 + nth 2 x 0 * nth 2 x 0 + nth 3 x 0 * nth 3 x 0) / 2 + v (nth 0 x 0)))) * val L D x).
Proof using HA HC HF HV Hb Hb0 H1 H2 H11 H12 H21 H22.
  intros V v v' f D HP Hz HD. pose proof (proj2 (proj2 (proj2 HP))) as Hv. destruct (gle2_generator V v v' HP Hz) as (L & EL & HL). exists L. split; [exact EL|]. split; [reflexivity|]. eexists [_; _; _; _]. split; [components 4|]. intros x Hx. rewrite (HL f D x HD Hx).
  cbn [rsum map seq nth fold_right]. unfold again, once. entries. field. exact Hb0.
Qed.

Theorem gle_raises : forall Vx, gle beta Vx (Nothing E) = Throw "ValueError" /\
  (e_is0 alpha = true -> gle beta Vx (Aux1 E lambda alpha) = Throw "ValueError") /\
  (e_is0 (e_sub E e_add e_opp (e_mul a11 a22) (e_mul a12 a21)) = true -> gle beta Vx (Aux2 E l1 l2 a11 a12 a21 a22) = Throw "ValueError").
Proof using. intros Vx. split; [reflexivity|]. split; intros H; unfold generalized_langevin; rewrite H; reflexivity. Qed.

(** The forward and the backward operators are adjoint. *)
Theorem fp1_overdamped_adjoint : forall V v v' f h Df Dh, potential V 0 v v' -> twice 1 f Df -> twice 1 h Dh ->
  divergence 1 [fun x => h x * Df [1%nat] x / b - f x * (v' (nth 0 x 0) * h x + Dh [1%nat] x / b)]
    (fun x => h x * val (overdamped_backward E e_mul e_div e_opp e_1 e_diff beta V) Df x - f x * val (fokker_planck_1d E e_mul e_div e_1 e_diff beta V) Dh x).
Proof using HA HC HF HV Hb Hb0.
  intros V v v' f h Df Dh HP HD HD'. destruct (fp1_divergence beta b Hb Hb0 V v v' h Dh HP HD') as (_ & G & G1 & G2). specialize (G1 0%nat ltac:(lia)). cbn [nth] in G1. set (P := fun x : list R => v' (nth 0 x 0) * h x + Dh [1%nat] x / b) in *.
  assert (EP : forall x, P x = v' (nth 0 x 0) * h x + Dh [1%nat] x / b) by reflexivity.
  split; [reflexivity|]. eexists [_]. split.
  - intros k Hk. destruct k as [|k]; [|lia]. cbn [nth]. match goal with |- partial _ _ _ ?u => change (partial 1 0 (fun x => h x * Df [1%nat] x / b - f x * P x) u) end. pd.
  - intros x Hx. rewrite (overdamped_generator V v v' HP f Df x HD Hx), (G2 x Hx). cbn [rsum map seq nth fold_right]. rewrite EP. unfold again, once. entries. field. exact Hb0.
Qed.

Theorem langevin_adjoint : forall V v f h Df Dh, b = 1 -> potential V 1 v (fun t => t) -> twice 2 f Df -> twice 2 h Dh ->
  divergence 2 [(fun x => g * (h x * Df [1; 0]%nat x) - f x * (nth 1 x 0 * h x + g * (nth 0 x 0 * h x + Dh [1; 0]%nat x))); (fun x => f x * (nth 0 x 0 * h x))]
    (fun x => h x * val (langevin_backward E e_mul e_div e_opp e_1 e_var e_diff gamma beta V) Df x - f x * val (langevin_forward E e_mul e_opp e_1 e_var e_diff gamma) Dh x).
Proof using HA HC HF HV Hb Hb0 Hg.
  intros V v f h Df Dh B1 HP HD HD'. destruct (langevin_forward_divergence gamma g Hg h Dh HD') as (_ & G & G1 & G2). pose proof (G1 0%nat ltac:(lia)) as G3. pose proof (G1 1%nat ltac:(lia)) as G4. clear G1. cbn [nth] in G3, G4.
  set (P := fun x : list R => nth 1 x 0 * h x + g * (nth 0 x 0 * h x + Dh [1; 0]%nat x)) in *. set (Q := fun x : list R => - (nth 0 x 0 * h x)) in *.
  assert (EP : forall x, P x = nth 1 x 0 * h x + g * (nth 0 x 0 * h x + Dh [1; 0]%nat x)) by reflexivity.
  assert (EQ : forall x, Q x = - (nth 0 x 0 * h x)) by reflexivity.
  split; [reflexivity|]. eexists [_; _]. split.
  - intros k Hk. destruct k as [|[|k]]; [| |lia]; cbn [nth].
    + match goal with |- partial _ _ _ ?u => change (partial 2 0 (fun x => g * (h x * Df [1; 0]%nat x) - f x * P x) u) end. pd.
    + eapply (p_ext 2 1 ltac:(lia) (fun x => - (f x * Q x))); [pd|intros x _; rewrite EQ; ring|reflexivity].
  - intros x Hx. rewrite (langevin_generator V v _ HP f Df x HD Hx), (G2 x Hx). cbn [rsum map seq nth fold_right]. rewrite EP, EQ, B1. unfold again, once. entries. field.
Qed.

(** map_operator *)
Lemma rv_div : forall w l dv env, eval w env <> 0 -> rv eval (map (fun '(c, n) => (e_div c w, n)) l) dv env = rv eval l dv env / eval w env.
Proof using HA. intros w l dv env Hw. induction l as [|[c n] l IH]; cbn [map rv]; [field; exact Hw|]. rewrite IH, (arith_div _ _ _ _ _ _ _ _ HA) by exact Hw. field. exact Hw. Qed.
Theorem map_value : forall dim l w f D D' x, smooth dim f D -> all_derivatives dim (fun x => eval w (coords x) * f x) D' -> (forall c n, In (c, n) l -> length n = dim) ->
  fine w -> incl (free_vars w) (seq 0 dim) -> eval w (coords x) <> 0 -> length x = dim ->
  val (map_operator E e_mul e_div e_diff dim l w) D x = val l D' x / eval w (coords x).
Proof using HA HV HF.
  intros dim l w f D D' x Hs HD Hl W1 W2 W3 Hx. rewrite !val_rv. unfold map_operator. rewrite rv_div by exact W3. f_equal.
  pose proof (compose_value eval e_add e_mul e_div e_opp e_0 e_diff fine HA free_vars HV HF (seq 0 dim) (seq_NoDup _ _) coords (assigns_coords dim) l [(w, repeat 0%nat dim)] f D D' x) as G.
  rewrite !seq_length in G. apply G; [exact Hs|exact Hl| | |exact Hx].
  - intros c n [H|[]]. injection H as <- <-. split; [apply repeat_length|]. split; assumption.
  - intros n Hn. pose proof (deriv_along_ext (seq 0 dim) (coordinates n)) as K. pose proof (coordinates_dim (seq 0 dim) n) as C. rewrite seq_length in K, C.
    apply (K (fun x => eval w (coords x) * f x)); [exact (C Hn)| |exact (HD n Hn)]. intros y Hy. cbn [rv]. rewrite (proj1 Hs y Hy). ring.
Qed.

Lemma all_twice1 : forall f D, all_derivatives 1 f D -> twice 1 f D.
Proof using.
  intros f D HD. pose proof (HD [0%nat] eq_refl) as D0. destruct (HD [1%nat] eq_refl) as (h1 & D1 & P1). destruct (HD [2%nat] eq_refl) as (h2 & (h3 & D2 & P2) & P3). cbn in D0, D1, D2.
  split; [exact D0|]. intros n k Hn Hk Ho. destruct k as [|k]; [|lia]. destruct n as [|a [|a' n]]; try discriminate. destruct a as [|[|a]]; [| |cbn in Ho; lia].
  - eapply (p_ext 1 0 ltac:(lia) h1); [exact P1| |reflexivity]. intros y Hy. rewrite (D0 y Hy). symmetry. exact (D1 y Hy).
  - eapply (p_ext 1 0 ltac:(lia) h2); [exact P3| |reflexivity]. intros y Hy. refine (p_unique 1 0 h1 _ _ P1 _ y Hy). eapply (p_ext 1 0 ltac:(lia) h3); [exact P2| |reflexivity]. intros z Hz. rewrite (D1 z Hz). symmetry. exact (D2 z Hz).
Qed.
Theorem smooth_twice : forall dim f D, smooth dim f D -> twice dim f D.
Proof using. intros dim f D [S1 S2]. split; [exact S1|]. intros n k Hn Hk _. apply S2; assumption. Qed.

(** Fokker_Planck_1d.equation, mapped with the Gibbs measure, is Overdamped.backward. *)
Theorem fp1_mapped : forall V v v' w f D x, potential V 0 v v' -> fine w -> incl (free_vars w) [0%nat] -> (forall env, eval w env = exp (- (b * v (env 0%nat)))) -> smooth 1 f D -> length x = 1%nat ->
  val (map_operator E e_mul e_div e_diff 1 (fokker_planck_1d E e_mul e_div e_1 e_diff beta V) w) D x = val (overdamped_backward E e_mul e_div e_opp e_1 e_diff beta V) D x.
Proof using HA HC HF HV Hb Hb0.
  intros V v v' w f D x HP W1 W2 W3 Hs Hx. pose proof (smooth_twice 1 f D Hs) as HD. pose proof (proj2 (proj2 (proj2 HP))) as Hv.
  set (l' := [(w, [0%nat])]). set (D' := fun (n : list nat) (x : list R) => rv eval (op_diffs E e_diff (along [0%nat] n) [0%nat] l') (fun n => D n x) (coords x)).
  assert (HD' : all_derivatives 1 (fun x => eval w (coords x) * f x) D').
  { intros n Hn. pose proof (smooth_diffs eval e_add e_mul e_div e_opp e_0 e_diff fine HA free_vars HV HF [0%nat] ltac:(repeat constructor; auto) coords (assigns_coords 1) l' f D n Hs Hn) as G.
    pose proof (deriv_along_ext [0%nat] (coordinates n)) as K. pose proof (coordinates_dim [0%nat] n Hn) as C. eapply K; [exact C| |apply G].
    - intros y Hy. unfold l'. cbn [rv]. rewrite <- (proj1 Hs y Hy). cbn. ring.
    - intros c m [H|[]]. injection H as <- <-. split; [reflexivity|]. split; assumption. }
  assert (Hw : eval w (coords x) <> 0). { rewrite W3. apply Rgt_not_eq, exp_pos. }
  rewrite (map_value 1 _ w f D D' x Hs HD'); try assumption.
  2: { intros c n Hi. pose proof (n_binv beta b Hb Hb0) as Hi'. assert (G : good 1 2 (fokker_planck_1d E e_mul e_div e_1 e_diff beta V)) by (unfold fokker_planck_1d; goodness). apply (G c n Hi). }
  pose proof (all_twice1 _ _ HD') as HT.
  rewrite (overdamped_generator V v v' HP f D x HD Hx).
  assert (P0 : exists h, partial 1 0 (fun x => eval w (coords x) * f x) h /\ forall x, h x = exp (- (b * v (nth 0 x 0))) * (- b * v' (nth 0 x 0) * f x + D [1%nat] x)).
  { eexists. split; [eapply (p_ext 1 0 ltac:(lia) (fun x => exp (- (b * v (nth 0 x 0))) * f x)); [pd|intros y _; rewrite W3; reflexivity|reflexivity]|]. intros y. cbv beta. unfold once. entries. ring. }
  destruct P0 as (h & P0 & Eh).
  assert (HZ : divergence 1 [fun x => v' (nth 0 x 0) * (eval w (coords x) * f x) + D' [1%nat] x / b] (fun x => exp (- (b * v (nth 0 x 0))) * (- v' (nth 0 x 0) * D [1%nat] x + D [2%nat] x / b))).
  { split; [reflexivity|]. eexists [_]. split.
    - intros k Hk. destruct k as [|k]; [|lia]. cbn [nth]. eapply (p_ext 1 0 ltac:(lia) (fun x => exp (- (b * v (nth 0 x 0))) * D [1%nat] x / b)); [pd| |reflexivity].
      intros y Hy. change (D' [1%nat] y) with (D' (once 1 0) y). rewrite (first_deriv 1 _ D' 0 h HT ltac:(lia) P0 y Hy), Eh, W3. field. exact Hb0.
    - intros y Hy. cbn [rsum map seq nth fold_right]. entries. field. exact Hb0. }
  rewrite (divergence_unique 1 _ _ _ (fp1_divergence beta b Hb Hb0 V v v' _ D' HP HT) HZ x Hx), W3. cbn [rsum map seq nth fold_right]. unfold again, once. entries. field. split; [exact Hb0|apply Rgt_not_eq, exp_pos].
Qed.
End Backward.
End Values.
