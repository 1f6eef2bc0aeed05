(** Expressions that meet the assumptions of EqnSpec.v, and their derivatives. *)
From Coq Require Import String List Bool Arith Lia Reals Lra.
From Verif Require Import Base Num LinSpec CalcSpec OpSpec OpQuadSpec OpModel OpQuadFacts TensOpFacts OpArithModel OpArithSpec OpArithFacts OpArithFacts3 PyQuadModel PyQuadSpec EqnModel EqnSpec EqnFacts.
Import ListNotations.
Local Open Scope R_scope.

(** Expressions that only divide by numbers other than 0. *)
Fixpoint q_fine (e : sexpr) : Prop :=
  match e with
  | SNum _ | SVar _ => True | SAdd a b | SMul a b => q_fine a /\ q_fine b | SDiv a b => q_fine a /\ q_fine b /\ s_vars b = [] /\ s_eval b (fun _ => 0) <> 0
  | SOpp a | SExp a => q_fine a end.
Definition q_sqrt (e : sexpr) : sexpr := SNum (sqrt (s_eval e (fun _ => 0))).
(** The derivatives of an expression. *)
Definition s_D (e : sexpr) (n : list nat) (x : list R) : R := s_eval (fold_right s_diff e (coordinates n)) (fun d => nth d x 0).

Lemma closed_eval : forall b env, s_vars b = [] -> s_eval b env = s_eval b (fun _ => 0).
Proof. intros b env H. apply s_reads. rewrite H. intros d []. Qed.
Lemma closed_diff : forall b k env, s_vars b = [] -> q_fine b -> s_eval (s_diff k b) env = 0.
Proof.
  induction b; intros k env Hv Hf; cbn [s_vars s_diff s_eval q_fine] in *; try reflexivity; try discriminate Hv.
  - apply app_eq_nil in Hv as [V1 V2]. destruct Hf. rewrite IHb1, IHb2 by assumption. ring.
  - apply app_eq_nil in Hv as [V1 V2]. destruct Hf. rewrite IHb1, IHb2 by assumption. ring.
  - apply app_eq_nil in Hv as [V1 V2]. destruct Hf as (F1 & F2 & F3 & F4). rewrite IHb1, IHb2 by assumption. unfold Rdiv. ring.
  - rewrite IHb by assumption. ring.
  - rewrite IHb by assumption. ring.
Qed.
Lemma q_eval_diff : forall e d env, q_fine e -> derivable_pt_lim (fun t => s_eval e (fun d' => if Nat.eqb d' d then t else env d')) (env d) (s_eval (s_diff d e) env).
Proof.
  assert (X : forall e d env, s_eval e (fun d' => if Nat.eqb d' d then env d else env d') = s_eval e env).
  { induction e; intros; cbn [s_eval]; rewrite ?IHe, ?IHe1, ?IHe2; try reflexivity. destruct (Nat.eqb_spec d d0) as [->|]; reflexivity. }
  induction e; intros d0 env Hf; cbn [s_eval s_diff q_fine] in *.
  - apply derivable_pt_lim_const.
  - destruct (Nat.eqb_spec d d0); [apply derivable_pt_lim_id|apply derivable_pt_lim_const].
  - destruct Hf as [F1 F2]. apply (derivable_pt_lim_plus _ _ _ _ _ (IHe1 d0 env F1) (IHe2 d0 env F2)).
  - destruct Hf as [F1 F2]. pose proof (derivable_pt_lim_mult _ _ _ _ _ (IHe1 d0 env F1) (IHe2 d0 env F2)) as G. cbv beta in G. rewrite !X in G. exact G.
  - destruct Hf as (F1 & F2 & F3 & F4). assert (N : forall env, s_eval e2 env <> 0) by (intros env'; rewrite closed_eval; assumption).
    pose proof (derivable_pt_lim_div _ _ _ _ _ (IHe1 d0 env F1) (IHe2 d0 env F2) (N _)) as G. cbv beta in G. rewrite !X in G. eapply derivable_pt_lim_ext; [reflexivity|]. 
    match type of G with derivable_pt_lim _ _ ?a => match goal with |- derivable_pt_lim _ _ ?b => replace b with a; [exact G|] end end. unfold Rsqr. field. apply N.
  - apply (derivable_pt_lim_opp _ _ _ (IHe d0 env Hf)).
  - pose proof (derivable_pt_lim_comp _ _ _ _ _ (IHe d0 env Hf) (derivable_pt_lim_exp _)) as G. cbv beta in G. rewrite X in G. exact G.
Qed.
Lemma q_fine_diff : forall e d, q_fine e -> q_fine (s_diff d e).
Proof.
  induction e; intros d0 H; cbn [q_fine s_diff] in *; try solve [intuition].
  destruct H as (F1 & F2 & F3 & F4). cbn [s_vars s_eval]. rewrite F3. assert (N : s_eval e2 (fun _ => 0) * s_eval e2 (fun _ => 0) <> 0) by (intros Z; apply Rmult_integral in Z as [Z|Z]; auto). repeat split; auto.
Qed.
Lemma q_arith : sympy_arith s_eval SAdd SMul SDiv SOpp (SNum 0) s_diff q_fine.
Proof. constructor; try reflexivity; [exact q_eval_diff|exact (fun e d => q_fine_diff e d)|cbn; auto]. Qed.
Lemma q_number : forall x, EqnSpec.number s_eval s_vars q_fine (SNum x) x.
Proof. intros x. repeat split. Qed.
Lemma q_calc : sympy_calc s_eval s_vars q_fine SAdd SMul SDiv SOpp (SNum 1) SVar q_sqrt.
Proof.
  constructor.
  - apply q_number.
  - intros d. repeat split.
  - intros e b (H1 & H2 & H3). unfold q_sqrt. rewrite H3. apply q_number.
  - cbn. auto.
  - cbn. auto.
  - intros a b c Ha (B1 & B2 & B3) Hc. cbn. rewrite B3. auto.
Qed.

(** Mixed derivatives commute. *)
Lemma diff_comm : forall e j k env, q_fine e -> s_eval (s_diff j (s_diff k e)) env = s_eval (s_diff k (s_diff j e)) env.
Proof.
  induction e; intros j k env Hf; cbn [s_eval s_diff q_fine] in *.
  - reflexivity.
  - reflexivity.
  - destruct Hf. rewrite IHe1, IHe2 by assumption. ring.
  - destruct Hf. rewrite IHe1, IHe2 by assumption. ring.
  - destruct Hf as (F1 & F2 & F3 & F4). assert (N : s_eval e2 env <> 0) by (rewrite closed_eval; assumption). rewrite IHe1, IHe2 by assumption. field. exact N.
  - rewrite IHe by assumption. ring.
  - rewrite IHe by assumption. ring.
Qed.
Lemma diff_ext : forall a a' k, q_fine a -> q_fine a' -> (forall env, s_eval a env = s_eval a' env) -> forall env, s_eval (s_diff k a) env = s_eval (s_diff k a') env.
Proof.
  intros a a' k F F' H env. refine (uniqueness_limite _ _ _ _ (q_eval_diff a k env F) _). eapply derivable_pt_lim_ext; [|exact (q_eval_diff a' k env F')]. intros t. symmetry. apply H.
Qed.
Lemma diffs_fine : forall ks e, q_fine e -> q_fine (fold_right s_diff e ks).
Proof. induction ks; intros e H; cbn; [exact H|]. apply q_fine_diff. auto. Qed.
Lemma diffs_move : forall l1 k l2 e, q_fine e -> forall env, s_eval (fold_right s_diff e (l1 ++ k :: l2)) env = s_eval (s_diff k (fold_right s_diff e (l1 ++ l2))) env.
Proof.
  induction l1 as [|j l1 IH]; intros k l2 e Hf env; [reflexivity|]. cbn [app fold_right].
  rewrite (diff_ext _ (s_diff k (fold_right s_diff e (l1 ++ l2))) j); [|apply diffs_fine; exact Hf|apply q_fine_diff, diffs_fine; exact Hf|apply IH; exact Hf]. apply diff_comm. apply diffs_fine. exact Hf.
Qed.
Lemma coordinates_more : forall n k a, (k < length n)%nat -> exists l1 l2,
  concat (map (fun '(k, a) => repeat k a) (combine (seq a (length n)) n)) = l1 ++ l2 /\
  concat (map (fun '(k, a) => repeat k a) (combine (seq a (length n)) (with_entry n k (S (nth k n 0%nat))))) = l1 ++ (a + k)%nat :: l2.
Proof.
  induction n as [|c n IH]; intros k a Hk; [cbn in Hk; lia|]. destruct k as [|k].
  - exists [], (concat (map (fun '(k, a) => repeat k a) (combine (seq a (length (c :: n))) (c :: n)))). split; [reflexivity|]. cbn. rewrite Nat.add_0_r. reflexivity.
  - cbn in Hk. destruct (IH k (S a) ltac:(lia)) as (l1 & l2 & E1 & E2). exists (repeat a c ++ l1), l2. split; cbn [length seq combine map concat]; [rewrite E1, app_assoc; reflexivity|].
    unfold with_entry in *. cbn [firstn skipn app nth combine map concat]. cbn [skipn] in E2. rewrite E2, <- app_assoc. replace (S a + k)%nat with (a + S k)%nat by lia. reflexivity.
Qed.
Lemma vars_diffs : forall ks e, incl (s_vars (fold_right s_diff e ks)) (s_vars e).
Proof. induction ks as [|k ks IH]; intros e; cbn [fold_right]; [apply incl_refl|]. eapply incl_tran; [apply (arith_vars_diff _ _ _ _ _ _ _ s_arith_vars)|apply IH]. Qed.

Lemma s_smooth : forall dim e, q_fine e -> incl (s_vars e) (seq 0 dim) -> smooth dim (fun x => s_eval e (fun d => nth d x 0)) (s_D e).
Proof.
  intros dim e Hf Hv. split.
  - intros x Hx. unfold s_D. replace (coordinates (repeat 0%nat dim)) with (@nil nat); [reflexivity|]. unfold coordinates. rewrite repeat_length. symmetry. assert (Z : forall d a, concat (map (fun '(k, a) => repeat k a) (combine (seq a d) (repeat 0%nat d))) = []) by (induction d as [|d IH]; intros a; [reflexivity|cbn; apply IH]). apply Z.
  - intros n k Hn Hk x Hx. unfold s_D. set (a := fold_right s_diff e (coordinates n)).
    destruct (coordinates_more n k 0 ltac:(lia)) as (l1 & l2 & E1 & E2).
    replace (s_eval (fold_right s_diff e (coordinates (with_entry n k (S (nth k n 0%nat))))) (fun d => nth d x 0)) with (s_eval (s_diff k a) (fun d => nth d x 0)).
    + assert (A : q_fine a) by (apply diffs_fine; exact Hf). pose proof (q_eval_diff a k (fun d => nth d x 0) A) as G. eapply derivable_pt_lim_ext; [|exact G]. intros t. apply s_reads. intros d Hd.
      rewrite (with_entry_nth R 0 x k t d) by lia. reflexivity.
    + unfold a, coordinates. rewrite E1. rewrite <- (diffs_move l1 k l2 e Hf). rewrite with_entry_length by lia. rewrite E2. reflexivity.
Qed.
Lemma s_twice : forall dim e, q_fine e -> incl (s_vars e) (seq 0 dim) -> twice dim (fun x => s_eval e (fun d => nth d x 0)) (s_D e).
Proof. intros dim e Hf Hv. apply smooth_twice, s_smooth; assumption. Qed.
Lemma q_eqn : sympy_eqn s_eval s_vars q_fine SAdd SMul SDiv SOpp (SNum 0) (SNum 1) SVar q_sqrt s_diff.
Proof. exact (conj q_arith (conj s_arith_vars (conj s_reads q_calc))). Qed.
Lemma q_square : forall k, potential s_eval s_vars q_fine (SMul (SVar k) (SVar k)) k (fun t => t * t) (fun t => 2 * t).
Proof.
  intros k. split; [cbn; auto|]. split; [intros v [<-|[<-|[]]]; left; reflexivity|]. split; [reflexivity|]. intros t. replace (2 * t) with (1 * t + t * 1) by ring. apply (derivable_pt_lim_mult id id); apply derivable_pt_lim_id.
Qed.
Lemma q_half : forall k, potential s_eval s_vars q_fine (SMul (SNum (1 / 2)) (SMul (SVar k) (SVar k))) k (fun t => 1 / 2 * (t * t)) (fun t => t).
Proof.
  intros k. split; [cbn; auto|]. split; [intros v [<-|[<-|[]]]; left; reflexivity|]. split; [reflexivity|]. intros t. destruct (q_square k) as (_ & _ & _ & H). replace t with (1 / 2 * (2 * t)) at 2 by field. exact (derivable_pt_lim_scal (fun t => t * t) (1 / 2) t (2 * t) (H t)).
Qed.
