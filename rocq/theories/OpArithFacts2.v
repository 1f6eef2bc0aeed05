(** Proofs about the arithmetic of functions and operators, continued. *)
From Coq Require Import String List Arith Reals Lia Lra Bool Sorting.Sorted Permutation.
From Verif Require Import Base PyBase IndexModel Num Fnum LinSpec CalcSpec PosModel PosSpec PosFacts SeriesModel SeriesSpec PyQuadModel PyQuadSpec OpSpec OpQuadModel OpQuadSpec OpModel CalcVarfd TensOpFacts OpQuadFacts OpArithModel OpArithSpec OpArithFacts.
Import ListNotations.
Local Open Scope R_scope.

Lemma require_true : forall (b : bool) w (A : Type) (k : unit -> res A), b = true -> bind (require b w) k = k tt.
Proof. intros b w A k ->. reflexivity. Qed.
Lemma nats_eqb_same : forall l, nats_eqb l l = true.
Proof. intros l. apply nats_eqb_eq. reflexivity. Qed.
Lemma nats_eqb_diff : forall l l', l <> l' -> nats_eqb l l' = false.
Proof. intros l l' H. destruct (nats_eqb l l') eqn:N; [|reflexivity]. apply nats_eqb_eq in N. contradiction. Qed.

Lemma nodup_left : forall A (l l' : list A), NoDup (l ++ l') -> NoDup l.
Proof. induction l as [|a l IH]; intros l' H; [constructor|]. inversion H as [|? ? N1 N2]; subst. constructor; [|exact (IH l' N2)]. intros Hi. apply N1, in_or_app. left. exact Hi. Qed.
Lemma nodup_both : forall (l l' : list nat), NoDup l -> NoDup l' -> (forall d, In d l -> ~ In d l') -> NoDup (l ++ l').
Proof.
  induction l as [|a l IH]; intros l' H H' Hd; [exact H'|]. inversion H as [|? ? N1 N2]; subst. cbn [app]. constructor; [|apply IH; auto; intros d Hi; apply Hd; right; exact Hi].
  intros Hi. apply in_app_or in Hi as [Hi|Hi]; [exact (N1 Hi)|]. exact (Hd a (or_introl eq_refl) Hi).
Qed.

Section Arith.
Context {E : Type}.
Variables (eval : E -> (nat -> R) -> R) (e_add e_mul e_div : E -> E -> E) (e_opp : E -> E) (e_0 : E) (e_diff : nat -> E -> E) (fine : E -> Prop) (free_vars : E -> list nat) (op_is0 : oper E -> bool).
Hypothesis HA : sympy_arith eval e_add e_mul e_div e_opp e_0 e_diff fine.
Hypothesis HV : sympy_arith_vars free_vars e_add e_mul e_div e_opp e_0 e_diff.

(** sums, differences, opposites and multiples *)
Theorem op_add_ok : forall dirs env a b, operator_on free_vars dirs a -> operator_on free_vars dirs b ->
  exists c, op_add E a b = Ok c /\ operator_on free_vars dirs c /\ (fine_operator fine a -> fine_operator fine b -> fine_operator fine c) /\
    forall D x, value eval env c D x = value eval env a D x + value eval env b D x.
Proof using.
  intros dirs env a b [A1 A2] [B1 B2]. unfold op_add. rewrite A1, B1, nats_eqb_same. eexists. split; [reflexivity|]. split; [split; [reflexivity|]|split].
  - cbn [o_terms]. intros c n H. apply in_app_or in H as [H|H]; [apply (A2 c n H)|apply (B2 c n H)].
  - intros Fa Fb c n H. cbn [o_terms] in H. apply in_app_or in H as [H|H]; [apply (Fa c n H)|apply (Fb c n H)].
  - intros D x. unfold value. rewrite !op_value_rv. cbn [o_terms]. apply rv_app.
Qed.

Theorem op_neg_ok : forall dirs env a, operator_on free_vars dirs a -> operator_on free_vars dirs (op_neg E e_opp a) /\ forall D x, value eval env (op_neg E e_opp a) D x = - value eval env a D x.
Proof using HA HV.
  intros dirs env a [A1 A2]. split; [split; [exact A1|]|].
  - cbn [op_neg o_terms]. intros c n H. apply in_map_iff in H as ([c' n'] & H & H'). injection H as <- <-. destruct (A2 c' n' H') as [L I]. split; [exact L|]. intros v Hv. apply I. apply (arith_vars_opp _ _ _ _ _ _ _ HV). exact Hv.
  - intros D x. unfold value. rewrite !op_value_rv. cbn [o_terms op_neg]. apply (rv_map_opp eval _ _ _ _ _ _ _ HA).
Qed.

Theorem op_sub_ok : forall dirs env a b, operator_on free_vars dirs a -> operator_on free_vars dirs b ->
  exists c, op_sub E e_opp a b = Ok c /\ operator_on free_vars dirs c /\ forall D x, value eval env c D x = value eval env a D x - value eval env b D x.
Proof using HA HV.
  intros dirs env a b [A1 A2] B. destruct (op_neg_ok dirs env b B) as [[N1 N2] N3]. destruct B as [B1 B2]. unfold op_sub. rewrite A1, B1, nats_eqb_same. eexists. split; [reflexivity|]. split; [split; [reflexivity|]|].
  - cbn [o_terms]. intros c n H. apply in_app_or in H as [H|H]; [apply (A2 c n H)|apply (N2 c n H)].
  - intros D x. specialize (N3 D x). unfold value in *. rewrite !op_value_rv in *. cbn [o_terms]. rewrite rv_app. unfold Rminus. f_equal. exact N3.
Qed.

Theorem op_mul_ok : forall dirs env a g, operator_on free_vars dirs a -> function_on free_vars dirs g ->
  exists c, op_mul E e_mul a g = Ok c /\ operator_on free_vars dirs c /\ (fine_operator fine a -> fine (f_sym g) -> fine_operator fine c) /\
    forall D x, value eval env c D x = value eval env a D x * eval (f_sym g) (env x).
Proof using HA HV.
  intros dirs env a g [A1 A2] [G1 G2]. unfold op_mul. rewrite A1, G1, nats_eqb_same. eexists. split; [reflexivity|]. split; [split; [reflexivity|]|split].
  - cbn [o_terms]. intros c n H. apply in_map_iff in H as ([c' n'] & H & H'). injection H as <- <-. destruct (A2 c' n' H') as [L I]. split; [exact L|]. intros v Hv. apply (arith_vars_mul _ _ _ _ _ _ _ HV) in Hv. apply in_app_or in Hv as [Hv|Hv]; [apply I|apply G2]; exact Hv.
  - intros Fa Fg c n H. cbn [o_terms] in H. apply in_map_iff in H as ([c' n'] & H & H'). injection H as <- <-. apply (arith_fine_mul _ _ _ _ _ _ _ _ HA); [apply (Fa c' n' H')|exact Fg].
  - intros D x. unfold value. rewrite !op_value_rv. cbn [o_terms]. apply (rv_map_mul_r eval _ _ _ _ _ _ _ HA).
Qed.

Theorem op_dirs_differ : forall (a b : operator E) (g : func E), (o_dirs a <> o_dirs b -> op_add E a b = Throw "ValueError" /\ op_sub E e_opp a b = Throw "ValueError") /\
  (o_dirs a <> f_dirs g -> op_mul E e_mul a g = Throw "ValueError" /\ op_map E e_mul e_div e_diff a g = Throw "ValueError").
Proof using.
  intros a b g. unfold op_add, op_sub, op_mul, op_map. split; intros H.
  - rewrite nats_eqb_diff by exact H. auto.
  - rewrite nats_eqb_diff by exact H. rewrite nats_eqb_diff by congruence. auto.
Qed.

(** composition *)
Hypothesis HF : reads_free eval free_vars.
Theorem op_call_ok : forall dirs env a b, NoDup dirs -> assigns dirs env -> operator_on free_vars dirs a -> operator_on free_vars dirs b -> fine_operator fine b ->
  let c := op_call E e_mul e_diff op_is0 a b in
  operator_on free_vars dirs c /\ (fine_operator fine a -> fine_operator fine c) /\
  forall f D, smooth (length dirs) f D -> (exists D', all_derivatives (length dirs) (value eval env b D) D') /\
    forall D' x, all_derivatives (length dirs) (value eval env b D) D' -> length x = length dirs -> value eval env c D x = value eval env a D' x.
Proof using HA HV HF.
  intros dirs env a b Hd He [A1 A2] [B1 B2] Fb c.
  assert (B3 : forall c n, In (c, n) (o_terms b) -> length n = length dirs /\ fine c /\ incl (free_vars c) dirs) by (intros c' n' H; destruct (B2 c' n' H); repeat split; auto; exact (Fb c' n' H)).
  split; [split|split].
  - unfold c, op_call. cbn [o_dirs]. rewrite A1, B1. destruct (op_is0 _); reflexivity.
  - unfold c, op_call. cbn [o_terms]. rewrite A1, B1. apply (compose_on e_add e_mul e_div e_opp e_0 e_diff free_vars HV dirs Hd); assumption.
  - intros Fa. unfold c, op_call, fine_operator. cbn [o_terms]. rewrite A1, B1. apply (compose_fine eval e_add e_mul e_div e_opp e_0 e_diff fine HA dirs Hd); [|exact Fb]. intros c' n' H. destruct (A2 c' n' H). split; [assumption|exact (Fa c' n' H)].
  - intros f D Hs.
    assert (V : forall D' ks, deriv_along (length dirs) ks (fun x => rv eval (o_terms b) (fun n => D n x) (env x)) D' -> Forall (fun k => k < length dirs)%nat ks -> deriv_along (length dirs) ks (value eval env b D) D').
    { intros D' ks H Hk. eapply deriv_along_ext; [exact Hk| |exact H]. intros x _. unfold value. rewrite op_value_rv. reflexivity. }
    split.
    + exists (fun n x => rv eval (op_diffs E e_diff (along dirs n) dirs (o_terms b)) (fun n => D n x) (env x)). intros n Hn. apply V; [|apply coordinates_dim; exact Hn].
      apply (smooth_diffs eval e_add e_mul e_div e_opp e_0 e_diff fine HA free_vars HV HF dirs Hd env He _ f); assumption.
    + intros D' x HD Hx. unfold value. rewrite !op_value_rv. unfold c, op_call. cbn [o_terms]. rewrite A1, B1.
      apply (compose_value eval e_add e_mul e_div e_opp e_0 e_diff fine HA free_vars HV HF dirs Hd env He _ _ f); try assumption; [intros c' n' H; apply (A2 c' n' H)|].
      intros n Hn. eapply deriv_along_ext; [apply coordinates_dim; exact Hn| |apply HD; exact Hn]. intros y _. unfold value. rewrite op_value_rv. reflexivity.
Qed.

Lemma increasing_le : forall dirs, increasing dirs -> py_sorted dirs = dirs /\ NoDup dirs.
Proof using.
  intros dirs H. split.
  - apply py_sorted_id. induction H as [|d l H IH F]; constructor; [exact IH|]. eapply Forall_impl; [|exact F]. intros; lia.
  - induction H as [|d l H IH F]; constructor; [|exact IH]. intros Hi. rewrite Forall_forall in F. specialize (F d Hi). lia.
Qed.
Lemma func_init_ok : forall e dirs, increasing dirs -> incl (free_vars e) dirs -> func_init E free_vars e dirs = Ok (Fn e dirs).
Proof using.
  intros e dirs H I. unfold func_init. destruct (increasing_le dirs H) as [-> _]. rewrite require_true by apply nats_eqb_same. rewrite require_true; [reflexivity|]. apply forallb_forall. intros d Hd. apply py_in_iff. apply I. exact Hd.
Qed.

Theorem op_apply_ok : forall dirs env a g, increasing dirs -> assigns dirs env -> operator_on free_vars dirs a -> function_on free_vars dirs g -> fine (f_sym g) ->
  exists h, op_apply E e_add e_mul e_0 e_diff free_vars a g = Ok h /\ function_on free_vars dirs h /\ (exists D, all_derivatives (length dirs) (fun x => eval (f_sym g) (env x)) D) /\
    forall D x, all_derivatives (length dirs) (fun x => eval (f_sym g) (env x)) D -> length x = length dirs -> eval (f_sym h) (env x) = value eval env a D x.
Proof using HA HV HF.
  intros dirs env a g Hi He [A1 A2] [G1 G2] Fg. destruct (increasing_le dirs Hi) as [_ Hd].
  assert (I : incl (free_vars (applied E e_add e_mul e_0 e_diff (o_terms a) dirs (f_sym g))) dirs) by (eapply applied_vars; eassumption).
  unfold op_apply. rewrite A1, func_init_ok by assumption. eexists. split; [reflexivity|]. split; [split; [reflexivity|exact I]|]. cbn [f_sym]. split.
  - exists (fun n x => eval (e_diffs E e_diff (along dirs n) (f_sym g)) (env x)). intros n Hn. rewrite (along_coordinates n dirs Hn).
    apply (e_diffs_deriv eval e_add e_mul e_div e_opp e_0 e_diff fine HA free_vars HV HF dirs Hd env He (coordinates n) (f_sym g)); [apply coordinates_dim; exact Hn|exact Fg|exact G2].
  - intros D x HD Hx. unfold value. rewrite op_value_rv. apply (applied_deriv eval e_add e_mul e_div e_opp e_0 e_diff fine HA free_vars HV HF dirs Hd env He); try assumption. intros c n H. apply (A2 c n H).
Qed.

(** map *)
Theorem op_map_ok : forall dirs env a w, NoDup dirs -> assigns dirs env -> operator_on free_vars dirs a -> (forall c n, In (c, n) (o_terms a) -> (order n <= 5)%nat) -> function_on free_vars dirs w -> fine (f_sym w) ->
  exists b, op_map E e_mul e_div e_diff a w = Ok b /\ operator_on free_vars dirs b /\
    forall f D D' x, derivatives (length dirs) f D -> derivatives (length dirs) (fun x => eval (f_sym w) (env x) * f x) D' -> length x = length dirs -> eval (f_sym w) (env x) <> 0 ->
      value eval env b D x = value eval env a D' x / eval (f_sym w) (env x).
Proof using HA HV HF.
  intros dirs env a w Hd He [A1 A2] Ho [W1 W2] Fw. unfold op_map. rewrite W1, A1, nats_eqb_same. eexists. split; [reflexivity|].
  destruct (map_maps eval e_add e_mul e_div e_opp e_0 e_diff fine HA free_vars HV HF dirs Hd env He (o_terms a) w W1 W2 Fw) as [M1 M2]; [intros c n H; destruct (A2 c n H); repeat split; auto; exact (Ho c n H)|].
  split; [split; [reflexivity|]|].
  - cbn [o_terms]. intros c n H. destruct (M1 c n H) as (L & _ & I). auto.
  - exact M2.
Qed.

(** functions *)
Theorem func_arith_ok : forall dirs f g, increasing dirs -> function_on free_vars dirs f -> function_on free_vars dirs g ->
  exists p s q, func_mul E e_mul free_vars f g = Ok p /\ func_add E e_add free_vars f g = Ok s /\ func_div E e_div free_vars f g = Ok q /\ function_on free_vars dirs p /\ function_on free_vars dirs s /\ function_on free_vars dirs q /\
    forall env, eval (f_sym p) env = eval (f_sym f) env * eval (f_sym g) env /\ eval (f_sym s) env = eval (f_sym f) env + eval (f_sym g) env /\
      (eval (f_sym g) env <> 0 -> eval (f_sym q) env = eval (f_sym f) env / eval (f_sym g) env).
Proof using HA HV.
  intros dirs f g Hi [F1 F2] [G1 G2].
  assert (I : forall o, (forall a b, incl (free_vars (o a b)) (free_vars a ++ free_vars b)) -> incl (free_vars (o (f_sym f) (f_sym g))) dirs).
  { intros o Ho v Hv. apply Ho in Hv. apply in_app_or in Hv as [Hv|Hv]; [apply F2|apply G2]; exact Hv. }
  unfold func_mul, func_add, func_div, func_binary. rewrite F1, G1, nats_eqb_same. cbn [bind require].
  pose proof (I _ (arith_vars_mul _ _ _ _ _ _ _ HV)) as Im. pose proof (I _ (arith_vars_add _ _ _ _ _ _ _ HV)) as Ia. pose proof (I _ (arith_vars_div _ _ _ _ _ _ _ HV)) as Iq.
  rewrite !func_init_ok by assumption. do 3 eexists. do 3 (split; [reflexivity|]). do 3 (split; [split; [reflexivity|assumption]|]). intros env. cbn [f_sym].
  split; [apply (arith_mul _ _ _ _ _ _ _ _ HA)|]. split; [apply (arith_add _ _ _ _ _ _ _ _ HA)|]. apply (arith_div _ _ _ _ _ _ _ _ HA).
Qed.
Theorem func_dirs_differ : forall f g : func E, f_dirs f <> f_dirs g -> func_mul E e_mul free_vars f g = Throw "ValueError" /\ func_add E e_add free_vars f g = Throw "ValueError" /\ func_div E e_div free_vars f g = Throw "ValueError".
Proof using. intros f g H. unfold func_mul, func_add, func_div, func_binary. rewrite nats_eqb_diff by exact H. auto. Qed.

Lemma tensorize_loop_ok : forall args dirs sym, (forall a, In a args -> function_on free_vars (f_dirs a) a) -> NoDup (dirs ++ concat (map f_dirs args)) -> incl (free_vars sym) dirs ->
  exists h, func_tensorize_loop E e_mul free_vars args dirs sym = Ok h /\ f_dirs h = py_sorted (dirs ++ concat (map f_dirs args)) /\ incl (free_vars (f_sym h)) (f_dirs h) /\
    forall env, eval (f_sym h) env = eval sym env * product_value eval args env.
Proof using HA HV.
  induction args as [|a args IH]; intros dirs sym Ha Hn Hi; cbn [func_tensorize_loop map concat].
  - cbn [map concat] in Hn. rewrite app_nil_r in *. rewrite (nodup_fixed_point Nat.eq_dec Hn). assert (I : incl (free_vars sym) (py_sorted dirs)) by (intros v Hv; apply (Permutation_in _ (py_sorted_perm dirs)), Hi; exact Hv).
    rewrite func_init_ok; [|apply py_sorted_increasing; exact Hn|exact I]. eexists. split; [reflexivity|]. split; [reflexivity|]. split; [exact I|]. intros env. unfold product_value. cbn. ring.
  - cbn [map concat] in Hn. rewrite app_assoc in *. pose proof Hn as Hn'. apply nodup_left in Hn'. rewrite require_true.
    + destruct (Ha a (or_introl eq_refl)) as [_ Ia]. destruct (IH (dirs ++ f_dirs a) (e_mul sym (f_sym a))) as (h & H1 & H2 & H3 & H4).
      * intros b Hb. apply Ha. right. exact Hb.
      * exact Hn.
      * intros v Hv. apply (arith_vars_mul _ _ _ _ _ _ _ HV) in Hv. apply in_or_app. apply in_app_or in Hv as [Hv|Hv]; [left; apply Hi|right; apply Ia]; exact Hv.
      * exists h. split; [exact H1|]. split; [exact H2|]. split; [exact H3|]. intros env. rewrite H4, (arith_mul _ _ _ _ _ _ _ _ HA). unfold product_value. cbn [map fold_right]. ring.
    + apply forallb_forall. intros d Hd. apply negb_true_iff, py_in_false. intros Hd'. clear - Hn' Hd Hd'. induction dirs as [|d' dirs IH]; [destruct Hd|]. cbn [app] in Hn'. inversion Hn' as [|? ? N1 N2]; subst. destruct Hd as [->|Hd]; [apply N1, in_or_app; right; exact Hd'|exact (IH N2 Hd)].
Qed.
Lemma tensorize_loop_throw : forall args dirs sym, (forall a, In a args -> NoDup (f_dirs a)) -> NoDup dirs -> ~ NoDup (dirs ++ concat (map f_dirs args)) -> func_tensorize_loop E e_mul free_vars args dirs sym = Throw "ValueError".
Proof using.
  induction args as [|a args IH]; intros dirs sym Ha Hd Hn; cbn [func_tensorize_loop map concat] in *; [rewrite app_nil_r in Hn; contradiction|]. rewrite app_assoc in Hn.
  destruct (forallb (fun d => negb (py_in d (f_dirs a))) dirs) eqn:F; [|reflexivity]. cbn [require bind]. apply IH; [intros b Hb; apply Ha; right; exact Hb| |exact Hn].
  apply nodup_both; [exact Hd|apply Ha; left; reflexivity|]. intros d Hi. rewrite forallb_forall in F. specialize (F d Hi). apply negb_true_iff, py_in_false in F. exact F.
Qed.

Theorem func_tensorize_ok : forall e_1 args, (forall env, eval e_1 env = 1) -> free_vars e_1 = [] -> (forall a, In a args -> increasing (f_dirs a) /\ incl (free_vars (f_sym a)) (f_dirs a)) ->
  (NoDup (concat (map f_dirs args)) -> exists h, func_tensorize E e_mul free_vars e_1 args = Ok h /\ increasing (f_dirs h) /\ Permutation (f_dirs h) (concat (map f_dirs args)) /\ function_on free_vars (f_dirs h) h /\
     forall env, eval (f_sym h) env = product_value eval args env) /\
  (~ NoDup (concat (map f_dirs args)) -> func_tensorize E e_mul free_vars e_1 args = Throw "ValueError").
Proof using HA HV.
  intros e_1 args H1 Hf Ha. unfold func_tensorize. split; intros Hn.
  - destruct (tensorize_loop_ok args [] e_1) as (h & T1 & T2 & T3 & T4); [intros a Hi; split; [reflexivity|apply (Ha a Hi)]|exact Hn|rewrite Hf; intros v []|]. cbn [app] in T2. exists h. split; [exact T1|]. rewrite T2.
    split; [apply py_sorted_increasing; exact Hn|]. split; [symmetry; apply py_sorted_perm|]. rewrite T2 in T3. split; [split; [exact T2|exact T3]|]. intros env. rewrite T4, H1. ring.
  - apply tensorize_loop_throw; [intros a Hi; apply increasing_le; apply (Ha a Hi)|constructor|exact Hn].
Qed.
End Arith.
