(** Operator.split *)
From Coq Require Import String List Bool Arith ZArith Lia.
From Verif Require Import Base PyBase Num LinSpec Facts2 PartFacts OpModel OpSpec.
Import ListNotations.
Local Open Scope string_scope. Local Open Scope list_scope. Local Open Scope nat_scope.

(** multi-indices *)
Definition le_all (n m : list nat) : Prop := Forall2 le n m.
Lemma leb_all_iff : forall n m, length n = length m -> leb_all n m = true <-> le_all n m.
Proof.
  induction n as [|a n IH]; intros [|b m] H; try discriminate; cbn [leb_all]; [split; [constructor|reflexivity]|]. rewrite andb_true_iff, Nat.leb_le, IH by (injection H; auto).
  split; [intros [G1 G2]; constructor; assumption|intros G; inversion G; auto].
Qed.
Lemma leb_all_refl : forall n, leb_all n n = true. Proof. induction n; [reflexivity|]. cbn [leb_all]. rewrite Nat.leb_refl. exact IHn. Qed.
Lemma minus_self : forall n, minus_all n n = repeat 0 (length n). Proof. induction n; [reflexivity|]. cbn [minus_all repeat length]. rewrite Nat.sub_diag, IHn. reflexivity. Qed.
Lemma products_In : forall r dim m, In m (products r dim) <-> length m = dim /\ Forall (fun i => i < r) m.
Proof.
  intros r. induction dim as [|dim IH]; intros m; cbn [products].
  - split; [intros [<-|[]]; split; [reflexivity|constructor]|intros [H _]; destruct m; [left; reflexivity|discriminate]].
  - rewrite in_flat_map. split.
    + intros (i & Hi & Hm). apply in_map_iff in Hm as (m' & <- & Hm). apply IH in Hm as [H1 H2]. apply in_seq in Hi. split; [cbn; rewrite H1; reflexivity|constructor; [lia|exact H2]].
    + intros [H1 H2]. destruct m as [|i m]; [discriminate|]. inversion H2; subst. exists i. split; [apply in_seq; lia|]. apply in_map. apply IH. split; [injection H1; auto|assumption].
Qed.
Lemma py_sum_order : forall m, py_sum m = order m.
Proof. intros m. unfold py_sum, order. rewrite fold_symmetric; [reflexivity|intros; lia|intros; lia]. Qed.
Lemma order_bound : forall m i, In i m -> i <= order m.
Proof. unfold order. induction m as [|a m IH]; intros i Hi; [destruct Hi|]. cbn. destruct Hi as [<-|Hi]; [lia|]. specialize (IH i Hi). unfold list_sum in IH. lia. Qed.
Lemma mults_In : forall dim m, In m (mults dim) <-> length m = dim /\ order m <= 5.
Proof.
  intros dim m. unfold mults. rewrite filter_In, products_In, Nat.leb_le, py_sum_order. split; [tauto|]. intros [H1 H2]. split; [|exact H2]. split; [exact H1|]. apply Forall_forall. intros i Hi. apply order_bound in Hi. unfold max_order. lia.
Qed.
Lemma le_all_order : forall n m, le_all n m -> order n <= order m.
Proof. intros n m H. unfold order. induction H; [reflexivity|]. cbn. unfold list_sum in IHForall2. lia. Qed.

(** a later multi-index is not below an earlier one *)
Definition later (a b : list nat) : Prop := ~ le_all b a.
Lemma pairs_app : forall A (R : A -> A -> Prop) l l', ForallOrdPairs R l -> ForallOrdPairs R l' -> (forall x y, In x l -> In y l' -> R x y) -> ForallOrdPairs R (l ++ l').
Proof.
  intros A R. induction l as [|a l IH]; intros l' H H' H2; [exact H'|]. inversion H as [|? ? G1 G2]; subst. cbn [app]. constructor.
  - rewrite Forall_forall in *. intros y Hy. apply in_app_or in Hy as [Hy|Hy]; [apply G1; exact Hy|apply H2; [left; reflexivity|exact Hy]].
  - apply IH; [exact G2|exact H'|]. intros x y Hx Hy. apply H2; [right; exact Hx|exact Hy].
Qed.
Lemma products_later : forall r dim, ForallOrdPairs later (products r dim).
Proof.
  intros r. induction dim as [|dim IH]; cbn [products]; [repeat constructor|]. generalize r at 2 as q. intros q. generalize 0 as s. induction q as [|q IHq]; intros s; [constructor|]. cbn [seq flat_map]. apply pairs_app.
  - clear - IH. induction (products r dim) as [|m l IHl]; [constructor|]. inversion IH as [|? ? G1 G2]; subst. cbn [map]. constructor; [|apply IHl; exact G2]. rewrite Forall_forall in *. intros y Hy. apply in_map_iff in Hy as (z & <- & Hz). intros G. inversion G; subst. apply (G1 z Hz). assumption.
  - apply IHq.
  - intros x y Hx Hy. apply in_map_iff in Hx as (x' & <- & _). apply in_flat_map in Hy as (j & Hj & Hy). apply in_map_iff in Hy as (y' & <- & _). apply in_seq in Hj. intros G. inversion G; subst. lia.
Qed.
Lemma pairs_filter1 : forall A (R : A -> A -> Prop) f l, ForallOrdPairs R l -> ForallOrdPairs R (filter f l).
Proof.
  intros A R f. induction l as [|x l IH]; intros H; [constructor|]. inversion H as [|? ? H1 H2]; subst. cbn [filter]. destruct (f x); [|apply IH; exact H2]. constructor; [|apply IH; exact H2]. rewrite Forall_forall in *. intros y Hy. apply filter_In in Hy. apply H1. apply Hy.
Qed.
Lemma mults_later : forall dim, ForallOrdPairs later (mults dim). Proof. intros dim. apply pairs_filter1. apply products_later. Qed.
Lemma le_all_refl : forall m, le_all m m. Proof. intros m. induction m; constructor; auto. Qed.

Section Op.
Variable N : num.
Hypothesis L : num_laws N.
Variable E : Type.
Variable eval : E -> (nat -> N) -> N.
Variable e_add e_mul : E -> E -> E.
Variable e_0 : E.
Variable e_mono : list nat -> E.
Variable simplify : E -> E.
Variable is0 : E -> bool.
Hypothesis OK : sympy_lin eval e_add e_mul e_0 e_mono simplify is0.
Notation oper := (list (E * list nat)).

Lemma add0r' : forall x : N, nadd x n0 = x. Proof. intros x. rewrite (law_add_comm _ L). apply (law_add_0 _ L). Qed.
Definition below (m : list nat) (a : E * list nat) : bool := leb_all (snd a) m.

Lemma sweep_spec : forall m rem t0 r0, exists term,
  fold_left (fun '(term, rem) arg => match subs_test E e_mul e_mono m arg with None => (term, rem ++ [arg]) | Some termarg => (e_add term termarg, rem) end) rem (t0, r0)
    = (term, r0 ++ filter (fun a => negb (below m a)) rem) /\
  forall env, eval term env = nadd (eval t0 env) (nsum (map (fun '(c, n) => nmul (eval c env) (eval (e_mono (minus_all m n)) env)) (filter (below m) rem))).
Proof.
  intros m. induction rem as [|[c n] rem IH]; intros t0 r0.
  - exists t0. cbn. rewrite app_nil_r. split; [reflexivity|]. intros env. symmetry. apply add0r'.
  - cbn [fold_left subs_test filter]. change (below m (c, n)) with (leb_all n m). destruct (leb_all n m); cbn [negb].
    + destruct (IH (e_add t0 (e_mul c (e_mono (minus_all m n)))) r0) as (term & E1 & E2). exists term. split; [exact E1|]. intros env. rewrite E2, (lin_add _ _ _ _ _ _ _ _ _ OK), (lin_mul _ _ _ _ _ _ _ _ _ OK). cbn [map]. rewrite (nsum_cons N L). symmetry. apply (law_add_assoc _ L).
    + destruct (IH t0 (r0 ++ [(c, n)])) as (term & E1 & E2). exists term. split; [rewrite E1, <- app_assoc; reflexivity|exact E2].
Qed.

Lemma nsum_filter : forall A (f : A -> bool) (g : A -> N) l, nsum (map g l) = nadd (nsum (map g (filter f l))) (nsum (map g (filter (fun a => negb (f a)) l))).
Proof.
  intros A f g. induction l as [|a l IH]; [symmetry; apply (law_add_0 _ L)|]. cbn [map filter]. rewrite (nsum_cons N L), IH. destruct (f a); cbn [negb map]; rewrite (nsum_cons N L); [apply (law_add_assoc _ L)|].
  rewrite !(law_add_assoc _ L), (law_add_comm _ L (g a)). reflexivity.
Qed.

Definition same (n : list nat) (a : E * list nat) : bool := if list_eq_dec Nat.eq_dec (snd a) n then true else false.
Lemma coefficient_same : forall op n env, coefficient eval op n env = nsum (map (fun '(c, _) => eval c env) (filter (same n) op)).
Proof. intros op n env. unfold coefficient. do 2 f_equal. apply filter_ext. intros [c k]. reflexivity. Qed.

Lemma split_loop_spec : forall ms dim rem result, ForallOrdPairs later ms -> (forall m, In m ms -> length m = dim) -> (forall c n, In (c, n) rem -> length n = dim) ->
  (forall c n m, In (c, n) rem -> In m ms -> le_all n m -> In n ms) ->
  exists new rem', split_loop E e_add e_mul e_0 e_mono simplify is0 ms rem result = (result ++ new, rem') /\
    (forall c n, In (c, n) rem' <-> In (c, n) rem /\ ~ In n ms) /\
    NoDup (map fst new) /\ (forall m e, In (m, e) new -> In m ms /\ forall env, eval e env = coefficient eval rem m env) /\
    (forall m, In m ms -> ~ In m (map fst new) -> forall env, coefficient eval rem m env = n0) /\
    (forall deriv env, op_value eval rem deriv env = nadd (nsum (map (fun '(m, e) => nmul (eval e env) (deriv m)) new)) (op_value eval rem' deriv env)).
Proof.
  induction ms as [|m ms IH]; intros dim rem result Hl Hd Hr Hc.
  - exists [], rem. cbn [split_loop]. rewrite app_nil_r. split; [reflexivity|]. split; [intros c n; cbn; tauto|]. split; [constructor|]. split; [intros m e []|]. split; [intros m []|]. intros deriv env. symmetry. apply (law_add_0 _ L).
  - cbn [split_loop]. destruct rem as [|a0 rem0].
    + exists [], []. rewrite app_nil_r. split; [reflexivity|]. split; [cbn; tauto|]. split; [constructor|]. split; [intros ? ? []|]. split; [reflexivity|]. intros deriv env. symmetry. apply (law_add_0 _ L).
    + set (rem := a0 :: rem0) in *. clearbody rem. clear a0 rem0. unfold sweep. destruct (sweep_spec m rem e_0 []) as (term & E1 & E2). rewrite E1. cbn [app]. clear E1. inversion Hl as [|? ? Hl1 Hl2]; subst. rewrite Forall_forall in Hl1.
      assert (Hb : forall c n, In (c, n) rem -> below m (c, n) = true -> n = m).
      { intros c n Hin Hb. unfold below in Hb. cbn [snd] in Hb. apply leb_all_iff in Hb; [|rewrite (Hr c n Hin); symmetry; apply Hd; left; reflexivity]. destruct (Hc c n m Hin (or_introl eq_refl) Hb) as [G|G]; [symmetry; exact G|]. exfalso. apply (Hl1 n G). exact Hb. }
      assert (Hbs : forall a, In a rem -> below m a = same m a).
      { intros [c n] Hin. apply eq_true_iff_eq. unfold same. cbn [snd]. destruct (list_eq_dec Nat.eq_dec n m) as [->|Hne]; [unfold below; cbn [snd]; rewrite leb_all_refl; tauto|]. split; [|discriminate]. intros G. exfalso. apply Hne. apply (Hb c n Hin G). }
      assert (Ef : filter (below m) rem = filter (same m) rem) by (apply filter_ext_in; exact Hbs).
      assert (Ef' : filter (fun a => negb (below m a)) rem = filter (fun a => negb (same m a)) rem) by (apply filter_ext_in; intros a Ha; rewrite (Hbs a Ha); reflexivity).
      assert (Et : forall env, eval (simplify term) env = coefficient eval rem m env).
      { intros env. rewrite (lin_simplify _ _ _ _ _ _ _ _ _ OK), E2, (lin_0 _ _ _ _ _ _ _ _ _ OK), (law_add_0 _ L), coefficient_same, Ef. f_equal. apply map_ext_in. intros [c n] Ha. apply filter_In in Ha as [_ Ha]. unfold same in Ha. cbn [snd] in Ha. destruct (list_eq_dec Nat.eq_dec n m) as [->|]; [|discriminate].
        rewrite minus_self, (lin_mono _ _ _ _ _ _ _ _ _ OK), (law_mul_comm _ L). apply (law_mul_1 _ L). }
      rewrite Ef'. set (rem1 := filter (fun a => negb (same m a)) rem).
      assert (Hin1 : forall c n, In (c, n) rem1 <-> In (c, n) rem /\ n <> m). { intros c n. unfold rem1. rewrite filter_In. unfold same. cbn [snd]. destruct (list_eq_dec Nat.eq_dec n m); cbn [negb]; [split; [intros [_ G]; discriminate|tauto]|tauto]. }
      assert (Hco : forall k env, k <> m -> coefficient eval rem1 k env = coefficient eval rem k env).
      { intros k env Hk. rewrite !coefficient_same. f_equal. f_equal. unfold rem1. rewrite filter_filter. apply filter_ext. intros [c n]. unfold same. cbn [snd]. destruct (list_eq_dec Nat.eq_dec n m) as [->|Hne]; cbn [negb]; [|apply andb_true_l]. destruct (list_eq_dec Nat.eq_dec m k); [congruence|reflexivity]. }
      assert (Hnd : ~ In m ms) by (intros G; apply (Hl1 m G); apply le_all_refl).
      assert (Hval : forall deriv env, op_value eval rem deriv env = nadd (nmul (coefficient eval rem m env) (deriv m)) (op_value eval rem1 deriv env)).
      { intros deriv env. unfold op_value. rewrite (nsum_filter _ (same m) _ rem). fold rem1. f_equal. rewrite coefficient_same, (law_mul_comm _ L), <- (nsum_map_mul N L).
        apply f_equal. apply map_ext_in. intros [c n] Ha. apply filter_In in Ha as [_ Ha]. unfold same in Ha. cbn [snd] in Ha. destruct (list_eq_dec Nat.eq_dec n m) as [->|]; [|discriminate]. apply (law_mul_comm _ L). }
      destruct (IH dim rem1 (if is0 (simplify term) then result else result ++ [(m, simplify term)])) as (new & rem' & I1 & I2 & I3 & I4 & I5 & I6).
      * exact Hl2.
      * intros k Hk. apply Hd. right. exact Hk.
      * intros c n Hin. apply Hin1 in Hin as [Hin _]. apply (Hr c n Hin).
      * intros c n k Hin Hk Hle. apply Hin1 in Hin as [Hin Hne]. destruct (Hc c n k Hin (or_intror Hk) Hle) as [G|G]; [congruence|exact G].
      * assert (R2 : forall c n, In (c, n) rem' <-> In (c, n) rem /\ ~ In n (m :: ms)). { intros c n. rewrite I2, Hin1. cbn. split; [intros [[G1 G2] G3]; split; [exact G1|intros [G|G]; [congruence|contradiction]]|intros [G1 G2]; split; [split; [exact G1|intros ->; apply G2; left; reflexivity]|tauto]]. }
        destruct (is0 (simplify term)) eqn:Ez.
        -- exists new, rem'. split; [exact I1|]. split; [exact R2|]. split; [exact I3|]. split; [|split].
           ++ intros k e Hk. destruct (I4 k e Hk) as [G1 G2]. split; [right; exact G1|]. intros env. rewrite G2. apply Hco. intros ->. contradiction.
           ++ intros k [<-|Hk] Hn env; [rewrite <- Et; apply (lin_is0 _ _ _ _ _ _ _ _ _ OK); exact Ez|]. rewrite <- (Hco k env); [apply I5; assumption|]. intros ->. contradiction.
           ++ intros deriv env. rewrite Hval, <- Et, (lin_is0 _ _ _ _ _ _ _ _ _ OK _ Ez env), (law_mul_0 _ L), (law_add_0 _ L). apply I6.
        -- exists ((m, simplify term) :: new), rem'. split; [rewrite I1, <- app_assoc; reflexivity|]. split; [exact R2|]. split; [|split; [|split]].
           ++ cbn [map fst]. constructor; [|exact I3]. intros G. apply in_map_iff in G as ([k e] & G1 & G2). cbn [fst] in G1. subst k. apply Hnd. apply (I4 m e G2).
           ++ intros k e [Hk|Hk]; [injection Hk as <- <-; split; [left; reflexivity|exact Et]|]. destruct (I4 k e Hk) as [G1 G2]. split; [right; exact G1|]. intros env. rewrite G2. apply Hco. intros ->. contradiction.
           ++ intros k [<-|Hk] Hn env; [exfalso; apply Hn; left; reflexivity|]. rewrite <- (Hco k env); [apply I5; [exact Hk|]; intros G; apply Hn; right; exact G|]. intros ->. contradiction.
           ++ intros deriv env. rewrite Hval, <- Et, I6. cbn [map]. rewrite (nsum_cons N L). apply (law_add_assoc _ L).
Qed.

Notation op_split := (op_split E e_add e_mul e_0 e_mono simplify is0).
Lemma split_start : forall dim (op : oper), (forall c n, In (c, n) op -> length n = dim) -> forall c n m, In (c, n) op -> In m (mults dim) -> le_all n m -> In n (mults dim).
Proof. intros dim op Hl c n m H1 H2 H3. apply mults_In in H2 as [H2 H4]. apply mults_In. split; [apply (Hl c n H1)|]. apply le_all_order in H3. lia. Qed.

Theorem op_split_ok : forall dim (op : oper), (forall c n, In (c, n) op -> length n = dim /\ order n <= 5) ->
  exists r, op_split dim op = Ok r /\ NoDup (map fst r) /\
    (forall n e, In (n, e) r -> length n = dim /\ order n <= 5 /\ forall env, eval e env = coefficient eval op n env) /\
    (forall n, ~ In n (map fst r) -> forall env, coefficient eval op n env = n0) /\
    forall deriv env, op_value eval op deriv env = op_value eval (map (fun '(n, e) => (e, n)) r) deriv env.
Proof.
  intros dim op H. destruct (split_loop_spec (mults dim) dim op [] (mults_later dim)) as (new & rem' & E1 & E2 & E3 & E4 & E5 & E6).
  - intros m Hm. apply mults_In in Hm. apply Hm.
  - intros c n Hin. apply (H c n Hin).
  - apply split_start. intros c n Hin. apply (H c n Hin).
  - assert (rem' = []) as ->. { destruct rem' as [|[c n] l]; [reflexivity|]. exfalso. destruct (proj1 (E2 c n) (or_introl eq_refl)) as [G1 G2]. apply G2. apply mults_In. apply (H c n G1). }
    exists new. unfold OpModel.op_split. rewrite E1. cbn [app]. split; [reflexivity|]. split; [exact E3|]. split; [|split].
    + intros n e Hin. destruct (E4 n e Hin) as [G1 G2]. apply mults_In in G1 as [G1 G3]. auto.
    + intros n Hn env. destruct (in_dec (list_eq_dec Nat.eq_dec) n (mults dim)) as [Hm|Hm]; [apply E5; assumption|]. rewrite coefficient_same.
      replace (filter (same n) op) with (@nil (E * list nat)); [reflexivity|]. symmetry. destruct (filter (same n) op) as [|[c k] l] eqn:Ef; [reflexivity|]. exfalso. assert (G : In (c, k) (filter (same n) op)) by (rewrite Ef; left; reflexivity). apply filter_In in G as [G1 G2]. unfold same in G2. cbn [snd] in G2. destruct (list_eq_dec Nat.eq_dec k n) as [->|]; [|discriminate]. apply Hm. apply mults_In. apply (H c n G1).
    + intros deriv env. rewrite E6. unfold op_value at 1. cbn [map]. change (@nsum N []) with (@n0 N). rewrite add0r'. unfold op_value. rewrite map_map. f_equal. apply map_ext. intros [n e]. reflexivity.
Qed.
Theorem op_split_raises : forall dim (op : oper) c n, (forall c n, In (c, n) op -> length n = dim) -> In (c, n) op -> 5 < order n -> op_split dim op = Throw "ValueError".
Proof.
  intros dim op c n Hl Hin Hn. destruct (split_loop_spec (mults dim) dim op [] (mults_later dim)) as (new & rem' & E1 & E2 & _).
  - intros m Hm. apply mults_In in Hm. apply Hm.
  - exact Hl.
  - apply split_start. exact Hl.
  - unfold OpModel.op_split. rewrite E1. assert (G : In (c, n) rem') by (apply E2; split; [exact Hin|]; intros G; apply mults_In in G; lia). destruct rem'; [destruct G|reflexivity].
Qed.
End Op.
