(** Function.split and Function.project. *)
From Coq Require Import String List Bool Arith ZArith Sorted Lia.
From Verif Require Import Base PyBase Num LinSpec Facts2 PartModel PartSpec PartFacts PosFacts SeriesModel SplitModel SplitSpec.
Import ListNotations.
Local Open Scope string_scope. Local Open Scope list_scope. Local Open Scope nat_scope.

Section Split.
Variable N : num.
Hypothesis L : num_laws N.
Variable E : Type.
Variable eval : E -> (nat -> N) -> N.
Variable e_mul e_div : E -> E -> E.
Variable e_1 : E.
Variable add_args mul_args : E -> list E.
Variable free_vars : E -> list nat.
Hypothesis OK : sympy_ok eval e_mul e_1 add_args mul_args free_vars.
Notation dict := (dict E).
Notation depends_on := (depends_on eval).
Notation split_arg := (split_arg E e_mul free_vars).

Lemma nmul_1_r : forall x : N, nmul x n1 = x. Proof. intros x. rewrite (law_mul_comm N L). apply (law_mul_1 N L). Qed.
Lemma nprod_acc : forall (l : list N) a, fold_left nmul l a = nmul a (nprod l).
Proof.
  induction l as [|x l IH]; intros a; [symmetry; apply nmul_1_r|]. unfold nprod. cbn [fold_left]. rewrite IH, (IH (nmul n1 x)), (law_mul_1 N L). symmetry. apply (law_mul_assoc N L).
Qed.
Lemma nprod_cons : forall (x : N) l, nprod (x :: l) = nmul x (nprod l).
Proof. intros x l. unfold nprod at 1. cbn [fold_left]. rewrite (law_mul_1 N L). apply nprod_acc. Qed.
Lemma nprod_app : forall l l' : list N, nprod (l ++ l') = nmul (nprod l) (nprod l').
Proof. intros l l'. unfold nprod at 1. rewrite fold_left_app. apply nprod_acc. Qed.
Lemma nmul_swap : forall a b c : N, nmul a (nmul b c) = nmul b (nmul a c).
Proof. intros a b c. rewrite !(law_mul_assoc N L), (law_mul_comm N L a b). reflexivity. Qed.

Definition vals (d : dict) env : N := nprod (map (fun '(_, e) => eval e env) d).
Lemma vals_filter : forall (h : fset * E -> bool) d env, vals d env = nmul (vals (filter h d) env) (vals (filter (fun p => negb (h p)) d) env).
Proof.
  intros h d env. unfold vals. induction d as [|[k e] d IH]; [symmetry; apply (law_mul_1 N L)|]. cbn [map filter]. rewrite nprod_cons, IH. destruct (h (k, e)); cbn [negb map]; rewrite nprod_cons; [apply (law_mul_assoc N L)|apply nmul_swap].
Qed.

Definition keys (d : dict) : list fset := map fst d.
Definition good (dirs : list nat) (d : dict) : Prop :=
  ForallOrdPairs apart (keys d) /\ In [] (keys d) /\ (forall x, In x dirs <-> exists k, In k (keys d) /\ In x k) /\ (forall k e, In (k, e) d -> depends_on e k).

Lemma apart_disjoint : forall l, ForallOrdPairs apart l -> ForallOrdPairs disjoint l.
Proof. induction l as [|k l IH]; intros H; [constructor|]. inversion H as [|? ? H1 H2]; subst. constructor; [|apply IH; exact H2]. rewrite Forall_forall in *. intros c Hc. exact (proj1 (H1 c Hc)). Qed.

Lemma d_in_iff : forall key (d : dict), d_in E key d = true <-> exists k, In k (keys d) /\ (forall x, In x key <-> In x k).
Proof.
  intros key d. unfold d_in. rewrite existsb_exists. split.
  - intros ([k v] & H1 & H2). exists k. split; [apply in_map_iff; exists (k, v); auto|]. apply fs_eqb_iff. exact H2.
  - intros (k & H1 & H2). apply in_map_iff in H1 as ([k' v] & <- & H1). exists (k', v). split; [exact H1|]. apply fs_eqb_iff. exact H2.
Qed.

Lemma d_mul_keys : forall key v d, keys (d_mul E e_mul key v d) = keys d.
Proof. intros key v. induction d as [|[k e] d IH]; [reflexivity|]. cbn [d_mul keys map fst]. destruct (fs_eqb key k); cbn [map fst]; [reflexivity|]. f_equal. exact IH. Qed.
Lemma d_mul_vals : forall key v d env, d_in E key d = true -> vals (d_mul E e_mul key v d) env = nmul (vals d env) (eval v env).
Proof.
  intros key v. induction d as [|[k e] d IH]; intros env H; [discriminate|]. unfold vals. cbn [d_mul]. cbn [d_in existsb] in H. destruct (fs_eqb key k) eqn:Ek; cbn [map]; rewrite !nprod_cons.
  - rewrite (ok_mul _ _ _ _ _ _ _ _ OK). rewrite <- !(law_mul_assoc N L). f_equal. apply (law_mul_comm N L).
  - cbn [orb] in H. change (nprod (map (fun '(_, e0) => eval e0 env) (d_mul E e_mul key v d))) with (vals (d_mul E e_mul key v d) env). rewrite IH by exact H. apply (law_mul_assoc N L).
Qed.
Lemma d_mul_dep : forall key v d, (forall k e, In (k, e) d -> depends_on e k) -> depends_on v key -> forall k e, In (k, e) (d_mul E e_mul key v d) -> depends_on e k.
Proof.
  intros key v. induction d as [|[k0 e0] d IH]; intros Hd Hv k e H; [destruct H|]. cbn [d_mul] in H. destruct (fs_eqb key k0) eqn:Ek.
  - destruct H as [H|H]; [|apply Hd; right; exact H]. injection H as <- <-. intros env env' Ha. rewrite !(ok_mul _ _ _ _ _ _ _ _ OK). f_equal; [apply (Hd k0 e0 (or_introl eq_refl)); exact Ha|]. apply Hv. intros x Hx. apply Ha. apply (proj1 (fs_eqb_iff _ _) Ek). exact Hx.
  - destruct H as [H|H]; [apply Hd; left; exact H|]. apply IH; [intros; apply Hd; right; assumption|exact Hv|exact H].
Qed.

(** the loop that collects the keys that meet the variables of the factor *)
Lemma meets_union : forall c k key, disjoint k c -> fs_meets c (fs_union k key) = fs_meets c key.
Proof.
  intros c k key H. apply eq_true_iff_eq. rewrite !fs_meets_iff. split; intros (x & X1 & X2); exists x; (split; [exact X1|]); [|apply in_or_app; auto]. apply in_app_or in X2 as [X2|X2]; [|exact X2]. exfalso. apply (H x X2 X1).
Qed.
Lemma collect_spec : forall (d : dict) key value ks, ForallOrdPairs disjoint (keys d) ->
  exists key' value', fold_left (fun '(key, value, ks) '(existing_key, v) => if fs_meets existing_key key then (fs_union existing_key key, e_mul value v, ks ++ [existing_key]) else (key, value, ks)) d (key, value, ks)
      = (key', value', ks ++ keys (filter (fun p => fs_meets (fst p) key) d)) /\
    (forall x, In x key' <-> In x key \/ exists k, In k (keys (filter (fun p => fs_meets (fst p) key) d)) /\ In x k) /\
    (forall env, eval value' env = nmul (eval value env) (vals (filter (fun p => fs_meets (fst p) key) d) env)) /\
    (depends_on value key -> (forall k e, In (k, e) d -> depends_on e k) -> depends_on value' key').
Proof.
  induction d as [|[k v] d IH]; intros key value ks H.
  - exists key, value. cbn. rewrite app_nil_r. split; [reflexivity|]. split; [intros x; split; [auto|intros [G|(k & [] & _)]; exact G]|]. split; [intros env; symmetry; apply nmul_1_r|auto].
  - inversion H as [|? ? H1 H2]; subst. rewrite Forall_forall in H1. cbn [fold_left filter fst]. destruct (fs_meets k key) eqn:Em.
    + destruct (IH (fs_union k key) (e_mul value v) (ks ++ [k]) H2) as (key' & value' & E1 & E2 & E3 & E4).
      assert (Ef : filter (fun p => fs_meets (fst p) (fs_union k key)) d = filter (fun p => fs_meets (fst p) key) d).
      { apply filter_ext_in. intros [c e] Hc. cbn [fst]. apply meets_union. apply H1. apply in_map_iff. exists (c, e). auto. }
      rewrite Ef in E1, E2, E3. exists key', value'. split; [rewrite E1, <- app_assoc; reflexivity|]. split; [|split].
      * intros x. rewrite E2. unfold fs_union. rewrite in_app_iff. cbn [keys map fst]. split.
        -- intros [[G|G]|(c & G1 & G2)]; [right; exists k; split; [left; reflexivity|exact G]|auto|right; exists c; split; [right; exact G1|exact G2]].
        -- intros [G|(c & [<-|G1] & G2)]; [auto|auto|right; exists c; auto].
      * intros env. rewrite E3, (ok_mul _ _ _ _ _ _ _ _ OK). unfold vals. cbn [map]. rewrite nprod_cons. symmetry. apply (law_mul_assoc N L).
      * intros Dv Dd. apply E4; [|intros; apply Dd; right; assumption]. intros env env' Ha. rewrite !(ok_mul _ _ _ _ _ _ _ _ OK). f_equal; [apply Dv|apply (Dd k v (or_introl eq_refl))]; intros x Hx; apply Ha; apply in_or_app; auto.
    + destruct (IH key value ks H2) as (key' & value' & E1 & E2 & E3 & E4). exists key', value'. split; [exact E1|]. split; [exact E2|]. split; [exact E3|]. intros Dv Dd. apply E4; [exact Dv|]. intros; apply Dd; right; assumption.
Qed.

Lemma d_set_new : forall key v (d : dict), d_in E key d = false -> d_set E key v d = d ++ [(key, v)].
Proof. intros key v. induction d as [|[k e] d IH]; intros H; [reflexivity|]. cbn [d_in existsb] in H. apply orb_false_iff in H as [H1 H2]. cbn [d_set app]. rewrite H1. f_equal. apply IH. exact H2. Qed.

Lemma pairs_app1 : forall A (R : A -> A -> Prop) l x, ForallOrdPairs R l -> (forall y, In y l -> R y x) -> ForallOrdPairs R (l ++ [x]).
Proof.
  intros A R. induction l as [|y l IH]; intros x H Hx; [repeat constructor|]. inversion H as [|? ? H1 H2]; subst. cbn [app]. constructor.
  - rewrite Forall_forall in *. intros z Hz. apply in_app_or in Hz as [Hz|[<-|[]]]; [apply H1; exact Hz|apply Hx; left; reflexivity].
  - apply IH; [exact H2|]. intros z Hz. apply Hx. right. exact Hz.
Qed.
Lemma pairs_filter : forall A B (R : B -> B -> Prop) (g : A -> B) (f : A -> bool) l, ForallOrdPairs R (map g l) -> ForallOrdPairs R (map g (filter f l)).
Proof.
  intros A B R g f. induction l as [|x l IH]; intros H; [constructor|]. cbn [map] in H. inversion H as [|? ? H1 H2]; subst. cbn [filter]. destruct (f x); [|apply IH; exact H2]. cbn [map]. constructor; [|apply IH; exact H2].
  rewrite Forall_forall in *. intros y Hy. apply in_map_iff in Hy as (z & <- & Hz). apply filter_In in Hz. apply H1. apply in_map. apply Hz.
Qed.

Lemma split_arg_spec : forall dirs d arg, good dirs d -> incl (free_vars arg) dirs ->
  good dirs (split_arg d arg) /\ (forall env, vals (split_arg d arg) env = nmul (vals d env) (eval arg env)) /\
  (forall R, ForallOrdPairs disjoint R -> refines (keys d) R -> (free_vars arg <> [] -> within R (free_vars arg)) -> refines (keys (split_arg d arg)) R).
Proof.
  intros dirs d arg (G1 & G2 & G3 & G4) Hi. unfold SplitModel.split_arg. assert (Dv : depends_on arg (free_vars arg)) by (intros env env' Ha; apply (ok_free _ _ _ _ _ _ _ _ OK); exact Ha).
  destruct (d_in E (free_vars arg) d) eqn:Ed.
  - split; [|split].
    + unfold good. rewrite d_mul_keys. split; [exact G1|]. split; [exact G2|]. split; [exact G3|]. apply d_mul_dep; assumption.
    + intros env. apply d_mul_vals. exact Ed.
    + intros R HR Hr _. rewrite d_mul_keys. exact Hr.
  - destruct (collect_spec d (free_vars arg) arg [] (apart_disjoint _ G1)) as (key & value & E1 & E2 & E3 & E4). rewrite E1. cbn [app]. clear E1.
    set (hit := fun p : fset * E => fs_meets (fst p) (free_vars arg)) in *.
    assert (Hne : exists x, In x (free_vars arg)).
    { destruct (free_vars arg) as [|x l] eqn:Ef; [|exists x; left; reflexivity]. exfalso. assert (d_in E [] d = true) by (apply d_in_iff; exists []; split; [exact G2|reflexivity]). congruence. }
    assert (Ef : filter (fun '(k, _) => negb (ps_in k (keys (filter hit d)))) d = filter (fun p => negb (hit p)) d).
    { apply filter_ext_in. intros [k e] Hk. f_equal. apply eq_true_iff_eq. rewrite ps_in_iff. unfold hit at 2. cbn [fst]. split.
      - intros (c & C1 & C2). apply in_map_iff in C1 as ([c' e'] & <- & C1). apply filter_In in C1 as [_ C1]. unfold hit in C1. cbn [fst] in *. apply fs_meets_iff in C1 as (x & X1 & X2). apply fs_meets_iff. exists x. split; [apply C2; exact X1|exact X2].
      - intros Hm. exists k. split; [|reflexivity]. apply in_map_iff. exists (k, e). split; [reflexivity|]. apply filter_In. split; [exact Hk|exact Hm]. }
    assert (Ef' : filter (fun '(k, _) => negb (ps_in k (keys (filter hit d)))) d = filter (fun p => negb (hit p)) d) by exact Ef. rewrite Ef. clear Ef.
    assert (Hdis : forall k, In k (keys (filter (fun p => negb (hit p)) d)) -> disjoint k key).
    { intros k Hk x X1 X2. apply in_map_iff in Hk as ([k' e'] & <- & Hk). cbn [fst] in *. apply filter_In in Hk as [Hk1 Hk2]. apply negb_true_iff in Hk2. unfold hit in Hk2. cbn [fst] in Hk2. apply E2 in X2 as [X2|(c & C1 & C2)].
      - apply (fs_meets_false _ _ Hk2 x X1 X2).
      - apply in_map_iff in C1 as ([c' e''] & <- & C1). cbn [fst] in *. apply filter_In in C1 as [C1 C3]. unfold hit in C3. cbn [fst] in C3.
        assert (k' = c') by (apply (disj_same (keys d) k' c' x (apart_disjoint _ G1)); [apply in_map_iff; exists (k', e'); auto|apply in_map_iff; exists (c', e''); auto|exact X1|exact C2]). subst c'. congruence. }
    destruct Hne as [x0 Hx0]. assert (Hk0 : In x0 key) by (apply E2; left; exact Hx0).
    rewrite d_set_new.
    2: { destruct (d_in E key _) eqn:G; [|reflexivity]. exfalso. apply d_in_iff in G as (k & K1 & K2). apply (Hdis k K1 x0); [apply K2; exact Hk0|exact Hk0]. }
    split; [|split].
    + unfold good, keys. rewrite map_app. cbn [map fst]. split; [|split; [|split]].
      * apply pairs_app1; [apply pairs_filter; exact G1|]. intros k Hk. split; [apply Hdis; exact Hk|]. right. intros ->. destruct Hk0.
      * apply in_or_app. left. apply in_map_iff in G2 as ([k e] & E0 & G2). cbn [fst] in E0. subst k. apply in_map_iff. exists ([], e). split; [reflexivity|]. apply filter_In. split; [exact G2|reflexivity].
      * intros x. rewrite G3. split.
        -- intros (k & K1 & K2). apply in_map_iff in K1 as ([k' e] & <- & K1). cbn [fst] in *. destruct (hit (k', e)) eqn:Hh.
           ++ exists key. split; [apply in_or_app; right; left; reflexivity|]. apply E2. right. exists k'. split; [|exact K2]. apply in_map_iff. exists (k', e). split; [reflexivity|]. apply filter_In. auto.
           ++ exists k'. split; [|exact K2]. apply in_or_app. left. apply in_map_iff. exists (k', e). split; [reflexivity|]. apply filter_In. rewrite Hh. auto.
        -- intros (k & K1 & K2). apply in_app_or in K1 as [K1|[<-|[]]].
           ++ apply in_map_iff in K1 as ([k' e] & <- & K1). apply filter_In in K1. exists k'. split; [apply in_map_iff; exists (k', e); split; [reflexivity|apply K1]|exact K2].
           ++ apply E2 in K2 as [K2|(c & C1 & C2)]; [apply G3; apply Hi; exact K2|]. apply in_map_iff in C1 as ([k' e] & <- & C1). apply filter_In in C1. exists k'. split; [apply in_map_iff; exists (k', e); split; [reflexivity|apply C1]|exact C2].
      * intros k e Hk. apply in_app_or in Hk as [Hk|[Hk|[]]]; [apply filter_In in Hk; apply G4; apply Hk|]. injection Hk as <- <-. apply E4; assumption.
    + intros env. unfold vals at 1. rewrite map_app, nprod_app. cbn [map]. rewrite nprod_cons. unfold nprod at 2. cbn [fold_left]. rewrite nmul_1_r, E3.
      rewrite (vals_filter hit d env). fold (vals (filter (fun p => negb (hit p)) d) env). rewrite (law_mul_comm N L (eval arg env)), (law_mul_assoc N L), (law_mul_comm N L (vals (filter (fun p => negb (hit p)) d) env)). reflexivity.
    + intros R HR Hr Hw b Hb Hbne. unfold keys in Hb. rewrite map_app in Hb. apply in_app_or in Hb as [Hb|[<-|[]]].
      * apply Hr; [|exact Hbne]. apply in_map_iff in Hb as ([k e] & <- & Hb). apply filter_In in Hb. apply in_map_iff. exists (k, e). split; [reflexivity|apply Hb].
      * cbn [fst] in *. destruct Hw as (c & C1 & C2); [intros E0; rewrite E0 in Hx0; destruct Hx0|]. exists c. split; [exact C1|]. intros x Hx. apply E2 in Hx as [Hx|(k & K1 & K2)]; [apply C2; exact Hx|].
        apply in_map_iff in K1 as ([k' e] & <- & K1). cbn [fst] in *. apply filter_In in K1 as [K1 K3]. unfold hit in K3. cbn [fst] in K3. apply fs_meets_iff in K3 as (y & Y1 & Y2).
        destruct (Hr k') as (c' & C3 & C4); [apply in_map_iff; exists (k', e); auto|intros ->; destruct Y1|]. assert (c = c') by (apply (disj_same R c c' y HR C1 C3); auto). subst c'. apply C4. exact K2.
Qed.

Lemma split_init : forall dirs, NoDup dirs -> good dirs (map (fun d => ([d], e_1)) dirs ++ [([], e_1)]) /\ (forall env, vals (map (fun d => ([d], e_1)) dirs ++ [([], e_1)]) env = n1) /\
  (forall R, (forall x, In x dirs -> exists c, In c R /\ In x c) -> refines (keys (map (fun d => ([d], e_1)) dirs ++ [([], e_1)])) R).
Proof.
  intros dirs Hn. assert (Ek : keys (map (fun d => ([d], e_1)) dirs ++ [([], e_1)]) = map (fun d => [d]) dirs ++ [[]]) by (unfold keys; rewrite map_app, map_map; reflexivity).
  split; [|split].
  - unfold good. rewrite Ek. split; [|split; [|split]].
    + apply pairs_app1.
      * clear Ek. induction Hn as [|x l Hx Hn IH]; [constructor|]. cbn [map]. constructor; [|exact IH]. apply Forall_forall. intros k Hk. apply in_map_iff in Hk as (y & <- & Hy). split; [|left; discriminate]. intros z [<-|[]] [Hz|[]]. subst y. contradiction.
      * intros k Hk. apply in_map_iff in Hk as (y & <- & Hy). split; [intros z _ []|left; discriminate].
    + apply in_or_app. right. left. reflexivity.
    + intros x. split.
      * intros Hx. exists [x]. split; [apply in_or_app; left; apply in_map_iff; exists x; auto|left; reflexivity].
      * intros (k & K1 & K2). apply in_app_or in K1 as [K1|[<-|[]]]; [|destruct K2]. apply in_map_iff in K1 as (y & <- & Hy). destruct K2 as [<-|[]]. exact Hy.
    + intros k e H env env' _. apply in_app_or in H as [H|[H|[]]]; [apply in_map_iff in H as (y & H & _)|]; injection H as <- <-; rewrite !(ok_1 _ _ _ _ _ _ _ _ OK); reflexivity.
  - intros env. unfold vals. rewrite map_app, map_map, nprod_app. cbn [map]. rewrite nprod_cons, (ok_1 _ _ _ _ _ _ _ _ OK). unfold nprod at 2. cbn [fold_left]. rewrite !nmul_1_r.
    induction dirs as [|x l IH]; [reflexivity|]. cbn [map]. rewrite nprod_cons, (law_mul_1 N L). apply IH; [inversion Hn; assumption|]. unfold keys. rewrite map_app, map_map. reflexivity.
  - intros R HR. rewrite Ek. intros b Hb Hne. apply in_app_or in Hb as [Hb|[<-|[]]]; [|contradiction]. apply in_map_iff in Hb as (y & <- & Hy). destruct (HR y Hy) as (c & C1 & C2). exists c. split; [exact C1|]. intros z [<-|[]]. exact C2.
Qed.

Lemma split_loop : forall dirs args d, good dirs d -> (forall a, In a args -> incl (free_vars a) dirs) ->
  good dirs (fold_left split_arg args d) /\ (forall env, vals (fold_left split_arg args d) env = nmul (vals d env) (nprod (map (fun a => eval a env) args))) /\
  (forall R, ForallOrdPairs disjoint R -> refines (keys d) R -> (forall a, In a args -> free_vars a <> [] -> within R (free_vars a)) -> refines (keys (fold_left split_arg args d)) R).
Proof.
  intros dirs. induction args as [|a args IH]; intros d Hg Hi.
  - cbn [fold_left map]. split; [exact Hg|]. split; [intros env; symmetry; apply nmul_1_r|auto].
  - destruct (split_arg_spec dirs d a Hg (Hi a (or_introl eq_refl))) as (S1 & S2 & S3). cbn [fold_left]. destruct (IH (split_arg d a) S1 (fun b Hb => Hi b (or_intror Hb))) as (I1 & I2 & I3).
    split; [exact I1|]. split; [intros env; rewrite I2, S2; cbn [map]; rewrite nprod_cons; symmetry; apply (law_mul_assoc N L)|].
    intros R HR Hr Hw. apply I3; [exact HR| |intros b Hb; apply Hw; right; exact Hb]. apply S3; [exact HR|exact Hr|apply Hw; left; reflexivity].
Qed.

Theorem split_term_ok : forall dirs term, NoDup dirs -> (forall a, In a (mul_args term) -> incl (free_vars a) dirs) ->
  let d := split_term E e_mul e_1 mul_args free_vars dirs term in
  good dirs d /\ (forall env, nprod (map (fun '(_, e) => eval e env) d) = eval term env) /\
  (forall R, ForallOrdPairs disjoint R -> (forall x, In x dirs -> exists c, In c R /\ In x c) -> (forall a, In a (mul_args term) -> free_vars a <> [] -> within R (free_vars a)) -> refines (keys d) R).
Proof.
  intros dirs term Hn Hi d. destruct (split_init dirs Hn) as (I1 & I2 & I3). destruct (split_loop dirs (mul_args term) _ I1 Hi) as (S1 & S2 & S3). split; [exact S1|]. split.
  - intros env. change (vals d env = eval term env). unfold d, split_term. rewrite S2, I2, (law_mul_1 N L). symmetry. apply (ok_mul_args _ _ _ _ _ _ _ _ OK).
  - intros R HR Hc Hw. apply S3; [exact HR|apply I3; exact Hc|exact Hw].
Qed.

(** the kind of a key with respect to a set of directions: empty, inside, or something else *)
Definition kind (A : list nat) (k : fset) : nat := if fs_eqb k [] then 0 else if subset k A then 1 else 2.
Definition all_in (A k : list nat) : Prop := forall x, In x k -> In x A.
Definition all_out (A k : list nat) : Prop := forall x, In x k -> ~ In x A.
Definition hom (A k : list nat) : Prop := all_in A k \/ all_out A k.
Lemma subset_iff : forall k A, subset k A = true <-> all_in A k.
Proof. intros k A. unfold subset, all_in. rewrite forallb_forall. split; intros H x Hx; apply py_in_iff; apply H; exact Hx. Qed.
Lemma fs_eqb_nil : forall k, fs_eqb k [] = true <-> k = [].
Proof. intros k. rewrite fs_eqb_iff. split; [|intros ->; reflexivity]. intros H. destruct k as [|x k]; [reflexivity|]. destruct (proj1 (H x) (or_introl eq_refl)). Qed.
Lemma kind_0 : forall A k, kind A k = 0 <-> k = [].
Proof. intros A k. rewrite <- fs_eqb_nil. unfold kind. destruct (fs_eqb k []); [tauto|]. destruct (subset k A); split; discriminate. Qed.
Lemma kind_1 : forall A k, kind A k = 1 <-> k <> [] /\ all_in A k.
Proof.
  intros A k. rewrite <- fs_eqb_nil, <- subset_iff. unfold kind. destruct (fs_eqb k []); [split; [discriminate|intros [H _]; exfalso; apply H; reflexivity]|].
  destruct (subset k A); split; try discriminate; try tauto; intros; split; [discriminate|reflexivity].
Qed.
Lemma kind_same : forall A k k', (forall x, In x k <-> In x k') -> kind A k = kind A k'.
Proof.
  intros A k k' H. unfold kind. replace (fs_eqb k' []) with (fs_eqb k []).
  - destruct (fs_eqb k []); [reflexivity|]. replace (subset k' A) with (subset k A); [reflexivity|]. apply eq_true_iff_eq. rewrite !subset_iff. unfold all_in. split; intros G x Hx; apply G; apply H; exact Hx.
  - apply eq_true_iff_eq. rewrite !fs_eqb_iff. split; intros G x; rewrite <- G; [symmetry; apply H|apply H].
Qed.
Lemma kind_hom : forall A k k' x, hom A k -> hom A k' -> In x k -> In x k' -> kind A k = kind A k'.
Proof.
  intros A k k' x H H' Hx Hx'. unfold kind. replace (fs_eqb k []) with false by (symmetry; apply not_true_iff_false; rewrite fs_eqb_nil; intros ->; exact Hx). replace (fs_eqb k' []) with false by (symmetry; apply not_true_iff_false; rewrite fs_eqb_nil; intros ->; exact Hx').
  replace (subset k' A) with (subset k A); [reflexivity|]. apply eq_true_iff_eq. rewrite !subset_iff.
  destruct H as [H|H]; destruct H' as [H'|H']; split; intros G; try assumption; exfalso.
  all: first [solve [apply (H' x Hx'); first [apply G|apply H|apply H']; assumption] | solve [apply (H x Hx); first [apply G|apply H|apply H']; assumption]].
Qed.

Definition of_kind (A : list nat) (c : nat) (d : dict) : dict := filter (fun p => kind A (fst p) =? c) d.
Lemma d_mul_kind : forall A c key v d env, d_in E key d = true ->
  vals (of_kind A c (d_mul E e_mul key v d)) env = nmul (vals (of_kind A c d) env) (if kind A key =? c then eval v env else n1).
Proof.
  intros A c key v. induction d as [|[k e] d IH]; intros env H; [discriminate|]. cbn [d_mul]. cbn [d_in existsb] in H. destruct (fs_eqb key k) eqn:Ek.
  - unfold of_kind. cbn [filter fst]. rewrite (kind_same A key k) by (apply fs_eqb_iff; exact Ek). destruct (kind A k =? c); [|symmetry; apply nmul_1_r].
    unfold vals. cbn [map]. rewrite !nprod_cons, (ok_mul _ _ _ _ _ _ _ _ OK). rewrite <- !(law_mul_assoc N L). f_equal. apply (law_mul_comm N L).
  - cbn [orb] in H. specialize (IH env H). unfold of_kind in *. cbn [filter fst]. destruct (kind A k =? c); [|exact IH]. unfold vals in *. cbn [map]. rewrite !nprod_cons, IH. apply (law_mul_assoc N L).
Qed.

Lemma split_arg_kind : forall dirs A c d arg env, good dirs d -> (forall k, In k (keys d) -> hom A k) -> hom A (free_vars arg) ->
  vals (of_kind A c (split_arg d arg)) env = nmul (vals (of_kind A c d) env) (if kind A (free_vars arg) =? c then eval arg env else n1) /\ (forall k, In k (keys (split_arg d arg)) -> hom A k).
Proof.
  intros dirs A c d arg env (G1 & G2 & G3 & G4) Hk Ha. unfold SplitModel.split_arg. destruct (d_in E (free_vars arg) d) eqn:Ed.
  - split; [apply d_mul_kind; exact Ed|]. rewrite d_mul_keys. exact Hk.
  - destruct (collect_spec d (free_vars arg) arg [] (apart_disjoint _ G1)) as (key & value & E1 & E2 & E3 & _). rewrite E1. cbn [app]. clear E1.
    set (hit := fun p : fset * E => fs_meets (fst p) (free_vars arg)) in *.
    assert (Hne : exists x, In x (free_vars arg)).
    { destruct (free_vars arg) as [|x l] eqn:Ef; [|exists x; left; reflexivity]. exfalso. assert (d_in E [] d = true) by (apply d_in_iff; exists []; split; [exact G2|reflexivity]). congruence. }
    destruct Hne as [x0 Hx0]. assert (Hk0 : In x0 key) by (apply E2; left; exact Hx0).
    assert (Hhit : forall p, In p d -> hit p = true -> kind A (fst p) = kind A (free_vars arg)).
    { intros [k e] P1 P2. apply fs_meets_iff in P2 as (x & X1 & X2). apply (kind_hom A k _ x); [apply Hk; apply in_map_iff; exists (k, e); auto|exact Ha|exact X1|exact X2]. }
    assert (Hhom : hom A key).
    { assert (forall k, In k (keys (filter hit d)) -> (all_in A (free_vars arg) -> all_in A k) /\ (all_out A (free_vars arg) -> all_out A k)).
      { intros k K. apply in_map_iff in K as ([k' e] & <- & K). cbn [fst]. apply filter_In in K as [K1 K2]. apply fs_meets_iff in K2 as (y & Y1 & Y2). cbn [fst] in Y1. assert (Hh : hom A k') by (apply Hk; apply in_map_iff; exists (k', e); auto). split; intros G; destruct Hh as [Hh|Hh]; try exact Hh; exfalso; [apply (Hh y Y1), (G y Y2)|apply (G y Y2), (Hh y Y1)]. }
      destruct Ha as [Ha|Ha]; [left|right]; intros x Hx; apply E2 in Hx as [Hx|(k & K1 & K2)]; try (apply Ha; exact Hx); apply (H k K1); assumption. }
    assert (Hkk : kind A key = kind A (free_vars arg)) by (apply (kind_hom A _ _ x0); assumption).
    assert (Ef : filter (fun '(k, _) => negb (ps_in k (keys (filter hit d)))) d = filter (fun p => negb (hit p)) d).
    { apply filter_ext_in. intros [k e] Hke. f_equal. apply eq_true_iff_eq. rewrite ps_in_iff. unfold hit at 2. cbn [fst]. split.
      - intros (b & C1 & C2). apply in_map_iff in C1 as ([c' e'] & <- & C1). apply filter_In in C1 as [_ C1]. unfold hit in C1. cbn [fst] in *. apply fs_meets_iff in C1 as (x & X1 & X2). apply fs_meets_iff. exists x. split; [apply C2; exact X1|exact X2].
      - intros Hm. exists k. split; [|reflexivity]. apply in_map_iff. exists (k, e). split; [reflexivity|]. apply filter_In. split; [exact Hke|exact Hm]. }
    rewrite Ef. clear Ef. rewrite d_set_new.
    2: { destruct (d_in E key _) eqn:G; [|reflexivity]. exfalso. apply d_in_iff in G as (k & K1 & K2). apply in_map_iff in K1 as ([k' e] & <- & K1). cbn [fst] in *. apply filter_In in K1 as [K1 K3]. apply negb_true_iff in K3. unfold hit in K3. apply (fs_meets_false _ _ K3 x0); [apply K2; exact Hk0|exact Hx0]. }
    split.
    + unfold of_kind. rewrite filter_app. unfold vals at 1. rewrite map_app, nprod_app. cbn [filter fst]. rewrite Hkk.
      destruct (kind A (free_vars arg) =? c) eqn:Ec.
      * cbn [map]. rewrite nprod_cons. unfold nprod at 2. cbn [fold_left]. rewrite nmul_1_r, E3. rewrite (vals_filter hit (filter (fun p => kind A (fst p) =? c) d) env).
        assert (F1 : filter hit (filter (fun p => kind A (fst p) =? c) d) = filter hit d).
        { rewrite filter_filter. apply filter_ext_in. intros p Hp. destruct (hit p) eqn:Hh; [|apply andb_false_r]. rewrite (Hhit p Hp Hh), Ec. reflexivity. }
        rewrite F1. rewrite !filter_filter. unfold vals.
        replace (filter (fun x => negb (hit x) && (kind A (fst x) =? c)) d) with (filter (fun x => (kind A (fst x) =? c) && negb (hit x)) d) by (apply filter_ext; intros p; apply andb_comm).
        match goal with |- nmul ?a (nmul ?b ?e) = nmul (nmul ?e ?a) ?b => rewrite (law_mul_comm N L e a), <- (law_mul_assoc N L), (law_mul_comm N L e b); reflexivity end.
      * cbn [map]. unfold nprod at 2. cbn [fold_left]. f_equal. unfold vals. do 2 f_equal. rewrite filter_filter. apply filter_ext_in. intros p Hp. destruct (hit p) eqn:Hh; [|apply andb_true_l]. rewrite (Hhit p Hp Hh), Ec. reflexivity.
    + intros k Hin. unfold keys in Hin. rewrite map_app in Hin. apply in_app_or in Hin as [Hin|[<-|[]]]; [|exact Hhom]. apply Hk. apply in_map_iff in Hin as (p & <- & Hin). apply filter_In in Hin. apply in_map. apply Hin.
Qed.

Lemma kind_const : forall A a, (kind A (free_vars a) =? 0) = constant free_vars a.
Proof. intros A a. unfold constant. apply eq_true_iff_eq. rewrite Nat.eqb_eq, kind_0. destruct (free_vars a); split; intros H; try discriminate; reflexivity. Qed.
Lemma kind_inside : forall A a, (kind A (free_vars a) =? 1) = inside free_vars A a.
Proof.
  intros A a. unfold inside, constant. apply eq_true_iff_eq. rewrite Nat.eqb_eq, kind_1, andb_true_iff, forallb_forall. unfold all_in.
  assert (forall x, existsb (Nat.eqb x) A = true <-> In x A) as HA. { intros x. rewrite existsb_exists. split; [intros (y & Hy & Exy); apply Nat.eqb_eq in Exy; subst; exact Hy|intros H; exists x; split; [exact H|apply Nat.eqb_refl]]. }
  split; intros [H1 H2]; split.
  - destruct (free_vars a); [contradiction|reflexivity].
  - intros x Hx. apply HA, H2, Hx.
  - destruct (free_vars a); discriminate.
  - intros x Hx. apply HA, H2, Hx.
Qed.

Lemma split_loop_kind : forall dirs A c env args d, good dirs d -> (forall k, In k (keys d) -> hom A k) -> (forall a, In a args -> incl (free_vars a) dirs /\ hom A (free_vars a)) ->
  vals (of_kind A c (fold_left split_arg args d)) env = nmul (vals (of_kind A c d) env) (product eval (filter (fun a => kind A (free_vars a) =? c) args) env) /\ (forall k, In k (keys (fold_left split_arg args d)) -> hom A k).
Proof.
  intros dirs A c env. unfold product. induction args as [|a args IH]; intros d Hg Hk Ha; [split; [symmetry; apply nmul_1_r|exact Hk]|].
  destruct (Ha a (or_introl eq_refl)) as [A1 A2]. destruct (split_arg_spec dirs d a Hg A1) as (S1 & _). destruct (split_arg_kind dirs A c d a env Hg Hk A2) as [S2 S3].
  cbn [fold_left]. destruct (IH (split_arg d a) S1 S3 (fun b Hb => Ha b (or_intror Hb))) as [I1 I2]. split; [|exact I2]. rewrite I1, S2. cbn [filter]. destruct (kind A (free_vars a) =? c); [|rewrite nmul_1_r; reflexivity].
  cbn [map]. rewrite nprod_cons. symmetry. apply (law_mul_assoc N L).
Qed.

Lemma vals_1 : forall l env, (forall k e, In (k, e) l -> e = e_1) -> vals l env = n1.
Proof. induction l as [|[k e] l IH]; intros env H; [reflexivity|]. unfold vals. cbn [map]. rewrite nprod_cons, (H k e (or_introl eq_refl)), (ok_1 _ _ _ _ _ _ _ _ OK), (law_mul_1 N L). apply IH. intros k' e' H'. apply (H k'). right. exact H'. Qed.

Lemma split_term_kind : forall dirs A c env term, NoDup dirs -> (forall a, In a (mul_args term) -> incl (free_vars a) dirs /\ hom A (free_vars a)) ->
  let d := split_term E e_mul e_1 mul_args free_vars dirs term in
  vals (of_kind A c d) env = product eval (filter (fun a => kind A (free_vars a) =? c) (mul_args term)) env /\ (forall k, In k (keys d) -> hom A k).
Proof.
  intros dirs A c env term Hn Ha d. destruct (split_init dirs Hn) as (I1 & _). destruct (split_loop_kind dirs A c env (mul_args term) _ I1) with (2 := Ha) as [S1 S2].
  - intros k Hk. unfold keys in Hk. rewrite map_app, map_map in Hk. apply in_app_or in Hk as [Hk|[<-|[]]]; [|left; intros x []]. apply in_map_iff in Hk as (y & <- & _). destruct (in_dec Nat.eq_dec y A) as [Hy|Hy]; [left|right]; intros x [<-|[]]; exact Hy.
  - split; [|exact S2]. unfold d, split_term. rewrite S1, vals_1, (law_mul_1 N L); [reflexivity|]. intros k e H. apply filter_In in H as [H _]. apply in_app_or in H as [H|[H|[]]]; [apply in_map_iff in H as (y & H & _)|]; injection H as _ <-; reflexivity.
Qed.

Lemma filter_false : forall A (l : list A), filter (fun _ => false) l = [].
Proof. induction l; auto. Qed.
Lemma get_const : forall A (d : dict), ForallOrdPairs apart (keys d) -> In [] (keys d) -> exists e, d_get E [] d = Ok e /\ forall env, eval e env = vals (of_kind A 0 d) env.
Proof.
  intros A. induction d as [|[k e] d IH]; intros Hp Hi; [destruct Hi|]. cbn [keys map fst] in *. inversion Hp as [|? ? H1 H2]; subst. cbn [d_get]. rewrite Forall_forall in H1. destruct k as [|x k].
  - change (fs_eqb [] []) with true. cbn match. exists e. split; [reflexivity|]. intros env. unfold of_kind. cbn [filter fst]. change (kind A [] =? 0) with true. cbn match. unfold vals. cbn [map]. rewrite nprod_cons.
    replace (filter (fun p => kind A (fst p) =? 0) d) with (@nil (fset * E)); [symmetry; apply nmul_1_r|]. symmetry. rewrite (filter_ext_in _ (fun _ => false)); [apply filter_false|].
    intros [k' e'] Hk'. cbn [fst]. apply Nat.eqb_neq. rewrite kind_0. intros ->. destruct (H1 []) as [_ [G|G]]; try contradiction. apply in_map_iff. exists ([], e'). auto.
  - replace (fs_eqb [] (x :: k)) with false by reflexivity. destruct Hi as [Hi|Hi]; [discriminate|]. destruct (IH H2 Hi) as (e' & E1 & E2). exists e'. split; [exact E1|]. intros env. rewrite E2. unfold of_kind. cbn [filter fst].
    replace (kind A (x :: k) =? 0) with false; [reflexivity|]. symmetry. apply Nat.eqb_neq. rewrite kind_0. discriminate.
Qed.

Notation split_term := (split_term E e_mul e_1 mul_args free_vars).
Notation fun_project := (fun_project E e_mul e_1 add_args mul_args free_vars).

(** the loop of project *)
Lemma project_loop : forall A (d : dict) r0, (forall k e, In (k, e) d -> hom A k) -> A <> [] ->
  exists r, for_in (fun '(v, term) result => if subset v A && negb (fs_eqb v []) then Ok (e_mul result term) else if negb (fs_eqb A []) && subset A v then Throw "ValueError" else Ok result) d r0 = Ok r /\
    forall env, eval r env = nmul (eval r0 env) (vals (of_kind A 1 d) env).
Proof.
  intros A. induction d as [|[k e] d IH]; intros r0 Hh Ha; [exists r0; split; [reflexivity|intros env; symmetry; apply nmul_1_r]|].
  cbn [for_in]. assert (Hk := Hh k e (or_introl eq_refl)). unfold of_kind. cbn [filter fst]. destruct (subset k A && negb (fs_eqb k [])) eqn:Eb.
  - cbn [bind]. destruct (IH (e_mul r0 e) (fun k' e' H => Hh k' e' (or_intror H)) Ha) as (r & E1 & E2). exists r. split; [exact E1|]. intros env. rewrite E2, (ok_mul _ _ _ _ _ _ _ _ OK). apply andb_true_iff in Eb as [B1 B2]. apply negb_true_iff in B2.
    replace (kind A k) with 1 by (unfold kind; rewrite B1, B2; reflexivity). cbn [Nat.eqb]. unfold vals. cbn [map]. rewrite nprod_cons. symmetry. apply (law_mul_assoc N L).
  - replace (negb (fs_eqb A []) && subset A k) with false.
    2: { symmetry. apply not_true_iff_false. rewrite andb_true_iff, subset_iff. intros [_ G]. destruct A as [|a A]; [contradiction|]. assert (In a k) by (apply G; left; reflexivity).
         destruct Hk as [Hk|Hk]; [|apply (Hk a H); left; reflexivity]. apply subset_iff in Hk. rewrite Hk in Eb. cbn [andb] in Eb. apply negb_false_iff in Eb. apply fs_eqb_nil in Eb. subst k. destruct H. }
    cbn [bind]. destruct (IH r0 (fun k' e' H => Hh k' e' (or_intror H)) Ha) as (r & E1 & E2). exists r. split; [exact E1|]. intros env. rewrite E2.
    replace (kind A k =? 1) with false; [reflexivity|]. symmetry. unfold kind. destruct (fs_eqb k []); [reflexivity|]. destruct (subset k A); [discriminate|reflexivity].
Qed.

Lemma not_straddles_hom : forall A a, ~ straddles free_vars A a -> hom A (free_vars a).
Proof.
  intros A a H. unfold straddles in H. destruct (forallb (fun x => if in_dec Nat.eq_dec x A then true else false) (free_vars a)) eqn:E1.
  - left. rewrite forallb_forall in E1. intros x Hx. specialize (E1 x Hx). destruct (in_dec Nat.eq_dec x A); [assumption|discriminate].
  - right. intros x Hx Hxa. apply H. split; [exists x; auto|]. apply not_true_iff_false in E1. destruct (existsb (fun x => if in_dec Nat.eq_dec x A then false else true) (free_vars a)) eqn:E2.
    + apply existsb_exists in E2 as (y & Y1 & Y2). exists y. destruct (in_dec Nat.eq_dec y A); [discriminate|auto].
    + exfalso. apply E1. apply forallb_forall. intros y Hy. destruct (in_dec Nat.eq_dec y A) as [G|G]; [reflexivity|]. exfalso. apply not_true_iff_false in E2. apply E2. apply existsb_exists. exists y. split; [exact Hy|]. destruct (in_dec Nat.eq_dec y A); [contradiction|reflexivity].
Qed.

Theorem project_ok : forall f term first rest A, f_dirs f = first :: rest -> NoDup (f_dirs f) -> add_args (f_sym f) = [term] -> (forall a, In a (mul_args term) -> incl (free_vars a) (f_dirs f)) ->
  A <> [] -> StronglySorted le A -> (forall a, In a (mul_args term) -> ~ straddles free_vars A a) ->
  exists e, fun_project f A = Ok (Fn e A) /\
    forall env, eval e env = nmul (if existsb (Nat.eqb first) A then product eval (filter (constant free_vars) (mul_args term)) env else n1) (product eval (filter (inside free_vars A) (mul_args term)) env).
Proof.
  intros f term first rest A Hf Hn Hs Hi Ha Hsort Hst. unfold SplitModel.fun_project, fun_split. rewrite Hs. cbn [map]. rewrite Hf in *.
  assert (HH : forall a, In a (mul_args term) -> incl (free_vars a) (first :: rest) /\ hom A (free_vars a)) by (intros a Hin; split; [apply Hi; exact Hin|apply not_straddles_hom, Hst, Hin]).
  destruct (split_term_ok (first :: rest) term Hn Hi) as ((G1 & G2 & _) & _). set (d := split_term (first :: rest) term) in *.
  destruct (get_const A d G1 G2) as (c & C1 & C2).
  assert (Hk : forall k e, In (k, e) d -> hom A k). { intros k e H. destruct (split_term_kind (first :: rest) A 0 (fun _ => n0) term Hn HH) as [_ S]. apply S. apply in_map_iff. exists (k, e). auto. }
  destruct (project_loop A d (if py_in first A then c else e_1) Hk Ha) as (r & R1 & R2).
  replace (py_get (first :: rest) 0) with (@Ok nat first) by reflexivity. cbn [bind].
  assert (Er : (if py_in first A then d_get E [] d else Ok e_1) = Ok (if py_in first A then c else e_1)) by (destruct (py_in first A); [exact C1|reflexivity]). rewrite Er. cbn [bind]. rewrite R1. cbn [bind].
  rewrite (proj2 (nats_eqb_eq _ _)) by (symmetry; apply py_sorted_id; exact Hsort). cbn [require bind]. exists r. split; [reflexivity|].
  intros env. rewrite R2. destruct (split_term_kind (first :: rest) A 1 env term Hn HH) as [K1 _]. fold d in K1. rewrite K1. rewrite (filter_ext _ _ (kind_inside A)).
  f_equal. replace (existsb (Nat.eqb first) A) with (py_in first A) by reflexivity. destruct (py_in first A); [|apply (ok_1 _ _ _ _ _ _ _ _ OK)].
  rewrite C2. destruct (split_term_kind (first :: rest) A 0 env term Hn HH) as [K0 _]. fold d in K0. rewrite K0. rewrite (filter_ext _ _ (kind_const A)). reflexivity.
Qed.

Lemma project_terms : forall f A, length (add_args (f_sym f)) <> 1 -> fun_project f A = Throw "ValueError".
Proof. intros f A H. unfold SplitModel.fun_project, fun_split. destruct (add_args (f_sym f)) as [|t [|t' l]]; try reflexivity. exfalso. apply H. reflexivity. Qed.

Lemma project_loop_throws : forall A (d : dict) r0 k e, In (k, e) d -> incl A k -> A <> [] -> ~ incl k A ->
  for_in (fun '(v, term) result => if subset v A && negb (fs_eqb v []) then Ok (e_mul result term) else if negb (fs_eqb A []) && subset A v then Throw "ValueError" else Ok result) d r0 = Throw "ValueError".
Proof.
  intros A. induction d as [|[k e] d IH]; intros r0 k0 e0 H H1 H2 H3; [destruct H|]. cbn [for_in]. destruct H as [H|H].
  - injection H as -> ->. replace (subset k0 A) with false by (symmetry; apply not_true_iff_false; rewrite subset_iff; exact H3). cbn [andb].
    replace (negb (fs_eqb A [])) with true by (symmetry; apply negb_true_iff, not_true_iff_false; rewrite fs_eqb_nil; exact H2). replace (subset A k0) with true by (symmetry; apply subset_iff; exact H1). reflexivity.
  - destruct (subset k A && negb (fs_eqb k [])); cbn [bind]; [apply (IH _ k0 e0); assumption|]. destruct (negb (fs_eqb A []) && subset A k); [reflexivity|]. cbn [bind]. apply (IH _ k0 e0); assumption.
Qed.

(** the key of a factor *)
Lemma d_set_has : forall (key : fset) v (m : dict), exists k', In k' (keys (d_set E key v m)) /\ incl key k'.
Proof.
  intros ky v m. induction m as [|[c e] m IHm]; [exists ky; split; [left; reflexivity|apply incl_refl]|]. cbn [d_set]. destruct (fs_eqb ky c) eqn:Ec; [exists c; split; [left; reflexivity|intros x Hx; apply (proj1 (fs_eqb_iff _ _) Ec); exact Hx]|].
  destruct IHm as (k' & M1 & M2). exists k'. split; [right; exact M1|exact M2].
Qed.
Lemma d_set_old : forall ky v (m : dict) c, In c (keys m) -> In c (keys (d_set E ky v m)).
Proof. intros ky v. induction m as [|[c e] m IHm]; intros c0 Hc0; [destruct Hc0|]. cbn [d_set]. destruct (fs_eqb ky c); [exact Hc0|]. destruct Hc0 as [<-|Hc0]; [left; reflexivity|right; apply IHm; exact Hc0]. Qed.
Lemma split_arg_keep : forall dirs d b k, good dirs d -> In k (keys d) -> exists k', In k' (keys (split_arg d b)) /\ incl k k'.
Proof.
  intros dirs d b k (G1 & G2 & G3 & G4) Hk. unfold SplitModel.split_arg. destruct (d_in E (free_vars b) d) eqn:Ed; [exists k; rewrite d_mul_keys; split; [exact Hk|apply incl_refl]|].
  destruct (collect_spec d (free_vars b) b [] (apart_disjoint _ G1)) as (key & value & E1 & E2 & _). rewrite E1. cbn [app]. set (hits := keys (filter (fun p => fs_meets (fst p) (free_vars b)) d)) in *.
  destruct (ps_in k hits) eqn:Ep.
  - apply ps_in_iff in Ep as (c & C1 & C2). destruct (d_set_has key value (filter (fun '(k0, _) => negb (ps_in k0 hits)) d)) as (k' & M1 & M2). exists k'. split; [exact M1|]. intros x Hx. apply M2. apply E2. right. exists c. split; [exact C1|]. apply C2. exact Hx.
  - exists k. split; [|apply incl_refl]. apply d_set_old. apply in_map_iff in Hk as ([k0 e] & <- & Hk). apply in_map_iff. exists (k0, e). split; [reflexivity|]. apply filter_In. split; [exact Hk|]. cbn [fst] in Ep. rewrite Ep. reflexivity.
Qed.
Lemma split_arg_has : forall dirs d a, good dirs d -> exists k', In k' (keys (split_arg d a)) /\ incl (free_vars a) k'.
Proof.
  intros dirs d a (G1 & G2 & G3 & G4). unfold SplitModel.split_arg. destruct (d_in E (free_vars a) d) eqn:Ed; [rewrite d_mul_keys; apply d_in_iff in Ed as (k & K1 & K2); exists k; split; [exact K1|]; intros x Hx; apply K2; exact Hx|].
  destruct (collect_spec d (free_vars a) a [] (apart_disjoint _ G1)) as (key & value & E1 & E2 & _). rewrite E1. cbn [app].
  match goal with |- context [d_set E key value ?m] => destruct (d_set_has key value m) as (k' & M1 & M2) end. exists k'. split; [exact M1|]. intros x Hx. apply M2. apply E2. left. exact Hx.
Qed.
Lemma split_loop_keep : forall dirs args d k, good dirs d -> (forall b, In b args -> incl (free_vars b) dirs) -> In k (keys d) -> exists k', In k' (keys (fold_left split_arg args d)) /\ incl k k'.
Proof.
  intros dirs. induction args as [|b args IH]; intros d k Hg Hi Hk; [exists k; split; [exact Hk|apply incl_refl]|]. cbn [fold_left].
  destruct (split_arg_spec dirs d b Hg (Hi b (or_introl eq_refl))) as (S1 & _). destruct (split_arg_keep dirs d b k Hg Hk) as (k' & K1 & K2).
  destruct (IH (split_arg d b) k' S1 (fun c Hc => Hi c (or_intror Hc)) K1) as (k'' & L1 & L2). exists k''. split; [exact L1|]. intros x Hx. apply L2, K2, Hx.
Qed.
Lemma split_loop_has : forall dirs args d a, good dirs d -> (forall b, In b args -> incl (free_vars b) dirs) -> In a args -> exists k, In k (keys (fold_left split_arg args d)) /\ incl (free_vars a) k.
Proof.
  intros dirs. induction args as [|b args IH]; intros d a Hg Hi Ha; [destruct Ha|]. cbn [fold_left]. destruct (split_arg_spec dirs d b Hg (Hi b (or_introl eq_refl))) as (S1 & _). destruct Ha as [->|Ha]; [|apply IH; [exact S1|intros c Hc; apply Hi; right; exact Hc|exact Ha]].
  destruct (split_arg_has dirs d a Hg) as (k & K1 & K2). destruct (split_loop_keep dirs args (split_arg d a) k S1 (fun c Hc => Hi c (or_intror Hc)) K1) as (k' & L1 & L2). exists k'. split; [exact L1|]. intros x Hx. apply L2, K2, Hx.
Qed.
Lemma key_of_factor : forall dirs term a, NoDup dirs -> (forall b, In b (mul_args term) -> incl (free_vars b) dirs) -> In a (mul_args term) ->
  exists k e, In (k, e) (split_term dirs term) /\ incl (free_vars a) k.
Proof.
  intros dirs term a Hn Hi Ha. destruct (split_init dirs Hn) as (I1 & _). destruct (split_loop_has dirs (mul_args term) _ a I1 Hi Ha) as (k & K1 & K2). apply in_map_iff in K1 as ([k' e] & <- & K1). exists k', e. split; [exact K1|exact K2].
Qed.

Theorem project_raises : forall f term first rest A a, f_dirs f = first :: rest -> NoDup (f_dirs f) -> add_args (f_sym f) = [term] -> (forall a, In a (mul_args term) -> incl (free_vars a) (f_dirs f)) ->
  In a (mul_args term) -> A <> [] -> incl A (free_vars a) -> ~ incl (free_vars a) A -> fun_project f A = Throw "ValueError".
Proof.
  intros f term first rest A a Hf Hn Hs Hi Hin Ha Hincl Hnot. unfold SplitModel.fun_project, fun_split. rewrite Hs. cbn [map]. rewrite Hf in *.
  destruct (split_term_ok (first :: rest) term Hn Hi) as ((G1 & G2 & _) & _). destruct (key_of_factor (first :: rest) term a Hn Hi Hin) as (k & e & K1 & K2).
  set (d := split_term (first :: rest) term) in *. destruct (get_const A d G1 G2) as (c & C1 & C2). replace (py_get (first :: rest) 0) with (@Ok nat first) by reflexivity. cbn [bind].
  assert (Er : (if py_in first A then d_get E [] d else Ok e_1) = Ok (if py_in first A then c else e_1)) by (destruct (py_in first A); [exact C1|reflexivity]). rewrite Er. cbn [bind].
  rewrite (project_loop_throws A d _ k e K1); [reflexivity|intros x Hx; apply K2, Hincl, Hx|exact Ha|]. intros G. apply Hnot. intros x Hx. apply G, K2, Hx.
Qed.

(** a function whose factors do not straddle is the product of its projections on [A] and the rest *)
Lemma product_filter3 : forall A B args first rest env, In first A -> (forall x, In x (first :: rest) <-> In x A \/ In x B) -> disjoint A B -> (forall a, In a args -> incl (free_vars a) (first :: rest)) -> (forall a, In a args -> ~ straddles free_vars A a) ->
  product eval args env = nmul (nmul (product eval (filter (constant free_vars) args) env) (product eval (filter (inside free_vars A) args) env)) (product eval (filter (inside free_vars B) args) env).
Proof.
  intros A B args first rest env Hf Hab Hd Hi Hs. unfold product. induction args as [|a args IH]; [cbn; rewrite !(law_mul_1 N L); reflexivity|].
  cbn [map]. rewrite nprod_cons, IH; [|intros b Hb; apply Hi; right; exact Hb|intros b Hb; apply Hs; right; exact Hb]. clear IH.
  assert (Hh := not_straddles_hom A a (Hs a (or_introl eq_refl))). assert (Hia := Hi a (or_introl eq_refl)).
  cbn [filter]. rewrite <- (kind_inside A a), <- (kind_inside B a), <- (kind_const A a).
  destruct (free_vars a) as [|x l] eqn:Efv.
  - cbn [kind]. change (kind A [] =? 0) with true. change (kind A [] =? 1) with false. change (kind B [] =? 1) with false. cbn [map]. rewrite nprod_cons, <- !(law_mul_assoc N L). reflexivity.
  - destruct Hh as [Hh|Hh].
    + replace (kind A (x :: l)) with 1 by (symmetry; apply kind_1; split; [discriminate|exact Hh]).
      replace (kind B (x :: l) =? 1) with false. 2: { symmetry. apply Nat.eqb_neq. rewrite kind_1. intros [_ G]. apply (Hd x); [apply Hh|apply G]; left; reflexivity. }
      cbn [Nat.eqb map]. rewrite nprod_cons. rewrite (law_mul_assoc N L). f_equal. apply nmul_swap.
    + replace (kind A (x :: l)) with 2. 2: { unfold kind. change (fs_eqb (x :: l) []) with false. cbn match. destruct (subset (x :: l) A) eqn:Es; [|reflexivity]. exfalso. apply (Hh x); [left; reflexivity|]. apply subset_iff in Es. apply Es. left. reflexivity. }
      replace (kind B (x :: l)) with 1. 2: { symmetry. apply kind_1. split; [discriminate|]. intros y Hy. destruct (proj1 (Hab y) (Hia y Hy)) as [G|G]; [exfalso; apply (Hh y Hy G)|exact G]. }
      cbn [Nat.eqb map]. rewrite nprod_cons. apply nmul_swap.
Qed.
Theorem project_product : forall f term first rest A B, f_dirs f = first :: rest -> NoDup (f_dirs f) -> add_args (f_sym f) = [term] -> (forall a, In a (mul_args term) -> incl (free_vars a) (f_dirs f)) ->
  In first A -> B <> [] -> StronglySorted le A -> StronglySorted le B -> (forall x, In x (f_dirs f) <-> In x A \/ In x B) -> disjoint A B -> (forall a, In a (mul_args term) -> ~ straddles free_vars A a) ->
  exists ea eb, fun_project f A = Ok (Fn ea A) /\ fun_project f B = Ok (Fn eb B) /\ forall env, eval (f_sym f) env = nmul (eval ea env) (eval eb env).
Proof.
  intros f term first rest A B Hf Hn Hs Hi HA HB SA SB Hab Hd Hst.
  assert (HsB : forall a, In a (mul_args term) -> ~ straddles free_vars B a).
  { intros a Ha [(x & X1 & X2) (y & Y1 & Y2)]. apply (Hst a Ha). split; [exists y; split; [exact Y1|]|exists x; split; [exact X1|intros G; apply (Hd x G X2)]]. destruct (proj1 (Hab y) (Hi a Ha y Y1)) as [G|G]; [exact G|contradiction]. }
  destruct (project_ok f term first rest A Hf Hn Hs Hi) as (ea & A1 & A2); [intros ->; destruct HA|exact SA|exact Hst|]. destruct (project_ok f term first rest B Hf Hn Hs Hi HB SB HsB) as (eb & B1 & B2).
  exists ea, eb. split; [exact A1|]. split; [exact B1|]. intros env. rewrite A2, B2.
  replace (existsb (Nat.eqb first) A) with true by (symmetry; apply existsb_exists; exists first; split; [exact HA|apply Nat.eqb_refl]).
  replace (existsb (Nat.eqb first) B) with false by (symmetry; apply not_true_iff_false; intros G; apply existsb_exists in G as (y & Y1 & Y2); apply Nat.eqb_eq in Y2; subst y; apply (Hd first HA Y1)).
  rewrite (law_mul_1 N L). rewrite Hf in *. rewrite <- (product_filter3 A B (mul_args term) first rest env HA Hab Hd Hi Hst).
  rewrite (ok_add_args _ _ _ _ _ _ _ _ OK), Hs. unfold nsum. cbn [map fold_left]. rewrite (law_add_0 N L). rewrite (ok_mul_args _ _ _ _ _ _ _ _ OK). reflexivity.
Qed.

(** legacy=True *)
Lemma split_separated : forall dirs args d, keys d = map (fun x => [x]) dirs ++ [[]] -> (forall a, In a args -> incl (free_vars a) dirs /\ forall x y, In x (free_vars a) -> In y (free_vars a) -> x = y) ->
  keys (fold_left split_arg args d) = map (fun x => [x]) dirs ++ [[]].
Proof.
  intros dirs. induction args as [|a args IH]; intros d Hd Ha; [exact Hd|]. cbn [fold_left]. apply IH; [|intros b Hb; apply Ha; right; exact Hb]. destruct (Ha a (or_introl eq_refl)) as [A1 A2].
  unfold SplitModel.split_arg. replace (d_in E (free_vars a) d) with true; [rewrite d_mul_keys; exact Hd|]. symmetry. apply d_in_iff. rewrite Hd. destruct (free_vars a) as [|x l].
  - exists []. split; [apply in_or_app; right; left; reflexivity|reflexivity].
  - exists [x]. split; [apply in_or_app; left; apply in_map_iff; exists x; split; [reflexivity|apply A1; left; reflexivity]|]. intros y. split; [intros Hy; left; apply (A2 x y); [left; reflexivity|exact Hy]|intros [<-|[]]; left; reflexivity].
Qed.
Lemma d_get_In : forall (d : dict) k e, ForallOrdPairs apart (keys d) -> In (k, e) d -> d_get E k d = Ok e.
Proof.
  induction d as [|[k0 e0] d IH]; intros k e Hp Hin; [destruct Hin|]. cbn [keys map fst] in Hp. inversion Hp as [|? ? H1 H2]; subst. rewrite Forall_forall in H1. cbn [d_get]. destruct Hin as [Hin|Hin].
  - injection Hin as -> ->. replace (fs_eqb k k) with true by (symmetry; apply fs_eqb_iff; reflexivity). reflexivity.
  - replace (fs_eqb k k0) with false; [apply IH; assumption|]. symmetry. apply not_true_iff_false. rewrite fs_eqb_iff. intros G. destruct (H1 k) as [D Ne]; [apply in_map_iff; exists (k, e); auto|].
    destruct k as [|x k]; [|apply (D x); [apply G|]; left; reflexivity]. destruct k0 as [|y k0]; [destruct Ne as [Ne|Ne]; apply Ne; reflexivity|]. destruct (proj2 (G y) (or_introl eq_refl)).
Qed.
Notation split_legacy_term := (split_legacy_term E e_mul e_div e_1 mul_args free_vars).
Theorem legacy_separated : forall dirs term, NoDup dirs -> (forall a, In a (mul_args term) -> incl (free_vars a) dirs /\ forall x y, In x (free_vars a) -> In y (free_vars a) -> x = y) ->
  exists es m, split_legacy_term dirs term = Ok (map (fun '(x, e) => Fn e [x]) (combine dirs es), m) /\ length es = length dirs /\ (forall x e, In (x, e) (combine dirs es) -> depends_on e [x]) /\ depends_on m [] /\
    forall env, nmul (product eval es env) (eval m env) = eval term env.
Proof.
  intros dirs term Hn Ha. destruct (split_term_ok dirs term Hn (fun a H => proj1 (Ha a H))) as ((G1 & G2 & G3 & G4) & P & _). unfold SplitModel.split_legacy_term.
  assert (K : keys (split_term dirs term) = map (fun x => [x]) dirs ++ [[]]). { unfold SplitModel.split_term. apply split_separated; [|exact Ha]. unfold keys. rewrite map_app, map_map. reflexivity. }
  set (d := split_term dirs term) in *. clearbody d. assert (exists es m, length es = length dirs /\ d = map (fun '(x, e) => ([x], e)) (combine dirs es) ++ [([], m)]) as (es & m & Les & Ed).
  { clear - K. revert dirs K. induction d as [|[k e] d IH]; intros dirs K; [destruct dirs; discriminate|]. destruct dirs as [|x dirs]; cbn [keys map app fst] in K.
    - injection K as -> K. apply map_eq_nil in K. subst d. exists [], e. split; reflexivity.
    - injection K as -> K. destruct (IH dirs K) as (es & m & E1 & E2). exists (e :: es), m. split; [cbn; rewrite E1; reflexivity|]. cbn [combine map app]. rewrite E2 at 1. reflexivity. }
  rewrite (d_get_In d [] m G1) by (rewrite Ed; apply in_or_app; right; left; reflexivity). cbn [bind].
  replace (length d =? length dirs + 1) with true. 2: { symmetry. apply Nat.eqb_eq. rewrite Ed, app_length, map_length, combine_length, Les, Nat.min_id. reflexivity. }
  assert (M : mapM (fun x => e <- d_get E [x] d ;; Ok (Fn e [x])) dirs = Ok (map (fun '(x, e) => Fn e [x]) (combine dirs es))).
  { assert (Hc : forall x e, In (x, e) (combine dirs es) -> d_get E [x] d = Ok e) by (intros x e H; apply d_get_In; [exact G1|]; rewrite Ed; apply in_or_app; left; apply in_map_iff; exists (x, e); auto).
    clear - Les Hc. revert es Les Hc. induction dirs as [|x dirs IH]; intros es Les Hc; [reflexivity|]. destruct es as [|e es]; [discriminate|]. cbn [mapM combine map]. rewrite (Hc x e (or_introl eq_refl)). cbn [bind]. rewrite (IH es); [reflexivity|injection Les; auto|]. intros y e' H. apply Hc. right. exact H. }
  rewrite M. cbn [bind]. exists es, m. split; [reflexivity|]. split; [exact Les|]. split; [|split].
  - intros x e H. apply (G4 [x] e). rewrite Ed. apply in_or_app. left. apply in_map_iff. exists (x, e). auto.
  - apply (G4 [] m). rewrite Ed. apply in_or_app. right. left. reflexivity.
  - intros env. rewrite <- P. rewrite Ed, map_app, map_map, nprod_app. cbn [map]. rewrite nprod_cons. unfold nprod at 2. cbn [fold_left]. rewrite nmul_1_r. f_equal. unfold product. f_equal. clear - Les. revert es Les. induction dirs as [|x dirs IH]; intros es Les; destruct es as [|e es]; try discriminate; [reflexivity|]. cbn [combine map]. f_equal. apply IH. injection Les. auto.
Qed.
(** with an inseparable factor there are fewer keys *)
Lemma few_keys : forall dirs d k x y, NoDup dirs -> good dirs d -> In k (keys d) -> In x k -> In y k -> x <> y -> length d <> length dirs + 1.
Proof.
  intros dirs d k x y Hn (G1 & G2 & G3 & _) Hk Hx Hy Hxy Hlen. set (ne := filter (fun b : fset => match b with [] => false | _ => true end) (keys d)).
  assert (Hne : length d <= length ne + 1).
  { rewrite <- (map_length fst d). fold (keys d). unfold ne. clear - G1. induction (keys d) as [|b l IH]; [cbn; lia|]. inversion G1 as [|? ? H1 H2]; subst. specialize (IH H2). cbn [filter]. destruct b as [|z b]; [|cbn; lia]. rewrite Forall_forall in H1.
    replace (filter (fun b : fset => match b with [] => false | _ => true end) l) with l; [cbn; lia|]. symmetry. rewrite (filter_ext_in _ (fun _ => true)); [apply filter_true|]. intros [|w c] Hc; [|reflexivity]. exfalso. destruct (H1 [] Hc) as [_ [G|G]]; apply G; reflexivity. }
  set (rep := fun b : fset => match b with [] => 0 | z :: _ => z end).
  assert (Hrep : forall b, In b ne -> In (rep b) b) by (intros b Hb; apply filter_In in Hb as [_ Hb]; destruct b; [discriminate|left; reflexivity]).
  assert (Hsub : forall b, In b ne -> In b (keys d)) by (intros b Hb; apply filter_In in Hb; apply Hb).
  assert (Hnd : NoDup (map rep ne)).
  { assert (Fp : ForallOrdPairs disjoint ne). { unfold ne. rewrite <- (map_id (filter _ _)). apply pairs_filter. rewrite map_id. apply apart_disjoint. exact G1. }
    clear - Fp Hrep. induction ne as [|b l IH]; [constructor|]. inversion Fp as [|? ? H1 H2]; subst. cbn [map]. constructor; [|apply IH; [intros c Hc; apply Hrep; right; exact Hc|exact H2]].
    intros H. apply in_map_iff in H as (c & C1 & C2). rewrite Forall_forall in H1. apply (H1 c C2 (rep b)); [apply Hrep; left; reflexivity|]. rewrite <- C1. apply Hrep. right. exact C2. }
  assert (exists z, In z k /\ z <> rep k) as (z & Z1 & Z2) by (destruct (Nat.eq_dec x (rep k)); [exists y; split; [exact Hy|congruence]|exists x; auto]).
  assert (Hz : ~ In z (map rep ne)).
  { intros H. apply in_map_iff in H as (c & C1 & C2). assert (c = k) by (apply (disj_same (keys d) c k z (apart_disjoint _ G1)); [apply Hsub, C2|exact Hk|rewrite <- C1; apply Hrep, C2|exact Z1]). subst c. congruence. }
  assert (length (z :: map rep ne) <= length dirs).
  { apply NoDup_incl_length; [constructor; assumption|]. intros w [<-|Hw]; apply G3; [exists k; auto|]. apply in_map_iff in Hw as (c & <- & Hc). exists c. split; [apply Hsub, Hc|apply Hrep, Hc]. }
  cbn [length] in H. rewrite map_length in H. lia.
Qed.
Theorem legacy_inseparable : forall dirs term a x y, NoDup dirs -> (forall a, In a (mul_args term) -> incl (free_vars a) dirs) -> In a (mul_args term) -> In x (free_vars a) -> In y (free_vars a) -> x <> y ->
  exists m, split_legacy_term dirs term = Ok ([Fn (e_div term m) dirs], m) /\ forall env, eval m env = product eval (filter (constant free_vars) (mul_args term)) env.
Proof.
  intros dirs term a x y Hn Hi Ha Hx Hy Hxy. destruct (split_term_ok dirs term Hn Hi) as (G & _ & _). destruct (key_of_factor dirs term a Hn Hi Ha) as (k & e & K1 & K2). unfold SplitModel.split_legacy_term. set (d := split_term dirs term) in *.
  destruct (get_const dirs d (proj1 G) (proj1 (proj2 G))) as (c & C1 & C2). rewrite C1. cbn [bind].
  replace (length d =? length dirs + 1) with false. 2: { symmetry. apply Nat.eqb_neq. apply (few_keys dirs d k x y Hn G); [apply in_map_iff; exists (k, e); auto|apply K2, Hx|apply K2, Hy|exact Hxy]. }
  cbn [bind]. exists c. split; [reflexivity|]. intros env. rewrite C2. destruct (split_term_kind dirs dirs 0 env term Hn) as [S _]; [intros b Hb; split; [apply Hi, Hb|left; exact (Hi b Hb)]|]. fold d in S. rewrite S. rewrite (filter_ext _ _ (kind_const dirs)). reflexivity.
Qed.
End Split.

Lemma zprod_app : forall l l' : list Z, @nprod num_Z (l ++ l') = (@nprod num_Z l * @nprod num_Z l')%Z.
Proof. intros. apply (nprod_app num_Z num_Z_laws). Qed.
Lemma zsum_acc : forall (l : list Z) a, fold_left Z.add l a = (a + @nsum num_Z l)%Z.
Proof. assert (G : forall (l : list Z) a, fold_left Z.add l a = (a + fold_left Z.add l 0)%Z) by (induction l as [|x l IH]; intros a; cbn [fold_left]; [lia|rewrite IH, (IH (0 + x)%Z); lia]). intros l a. apply G. Qed.
Lemma zsum_app : forall l l' : list Z, @nsum num_Z (l ++ l') = (@nsum num_Z l + @nsum num_Z l')%Z.
Proof. intros l l'. unfold nsum at 1. rewrite fold_left_app. apply zsum_acc. Qed.
Lemma x_mul_one : forall z : Z, @nprod num_Z [z] = z. Proof. intros z. unfold nprod. cbn. destruct z; reflexivity. Qed.
Lemma x_ok : @sympy_ok num_Z expr x_eval EMul (EInt 1) x_add_args x_mul_args x_free.
Proof.
  split.
  - reflexivity.
  - reflexivity.
  - induction e; intros env; try (cbn; destruct (env x); reflexivity); try reflexivity.
    cbn [x_add_args x_eval]. rewrite map_app, zsum_app, <- IHe1, <- IHe2. reflexivity.
  - induction e; intros env; cbn [x_mul_args map]; try (symmetry; apply x_mul_one).
    rewrite map_app, zprod_app, <- IHe1, <- IHe2. reflexivity.
  - induction e; intros env env' H; cbn [x_eval x_free] in *; try reflexivity.
    + apply H. left. reflexivity.
    + rewrite (IHe1 env env'), (IHe2 env env'); [reflexivity| |]; intros x Hx; apply H; apply in_or_app; auto.
    + rewrite (IHe1 env env'), (IHe2 env env'); [reflexivity| |]; intros x Hx; apply H; apply in_or_app; auto.
    + rewrite (IHe env env'); [reflexivity|exact H].
Qed.

(** x2 |x0 + x1| projected on directions 0 and 2 *)
Lemma project_drops : exists g, fun_project expr EMul (EInt 1) x_add_args x_mul_args x_free (Fn (EMul (EVar 2) (EAbs (EAdd (EVar 0) (EVar 1)))) [0; 1; 2]) [0; 2] = Ok g /\
  (forall env, x_eval (f_sym g) env = env 2) /\
  ~ exists h, @depends_on num_Z _ x_eval h [1] /\ forall env, x_eval (EMul (EVar 2) (EAbs (EAdd (EVar 0) (EVar 1)))) env = (x_eval (f_sym g) env * x_eval h env)%Z.
Proof.
  eexists. split; [reflexivity|]. assert (Hg : forall env, x_eval (EMul (EMul (EInt 1) (EInt 1)) (EMul (EInt 1) (EVar 2))) env = env 2) by (intros env; cbn [x_eval]; destruct (env 2); reflexivity).
  split; [intros env; cbn [f_sym]; cbn [x_eval]; lia|]. intros (h & H1 & H2).
  assert (E : x_eval h (fun x => if x =? 2 then 1%Z else 0%Z) = x_eval h (fun x => if x =? 1 then 0%Z else 1%Z)) by (apply H1; intros x [<-|[]]; reflexivity).
  assert (A := H2 (fun x => if x =? 2 then 1%Z else 0%Z)). assert (B := H2 (fun x => if x =? 1 then 0%Z else 1%Z)). rewrite E in A.
  cbn [f_sym x_eval Nat.eqb] in A, B. lia.
Qed.

Theorem split_ok : forall (N : num), num_laws N -> forall E (eval : E -> (nat -> N) -> N) e_mul e_1 add_args mul_args free_vars, sympy_ok eval e_mul e_1 add_args mul_args free_vars ->
  forall f, NoDup (f_dirs f) -> (forall t a, In t (add_args (f_sym f)) -> In a (mul_args t) -> incl (free_vars a) (f_dirs f)) ->
  let split := fun_split E e_mul e_1 add_args mul_args free_vars f in
  length split = length (add_args (f_sym f)) /\
  (forall env, eval (f_sym f) env = nsum (map (fun d => nprod (map (fun '(_, e) => eval e env) d)) split)) /\
  forall i term d, nth_error (add_args (f_sym f)) i = Some term -> nth_error split i = Some d ->
    ForallOrdPairs apart (map fst d) /\ (forall x, In x (f_dirs f) <-> exists k, In k (map fst d) /\ In x k) /\ In [] (map fst d) /\
    (forall k e, In (k, e) d -> depends_on eval e k) /\ (forall env, nprod (map (fun '(_, e) => eval e env) d) = eval term env) /\
    forall R, partition (fun x => In x (f_dirs f)) R -> (forall a, In a (mul_args term) -> free_vars a <> [] -> exists c, In c R /\ incl (free_vars a) c) -> refines (map fst d) R.
Proof.
  intros N L E eval e_mul e_1 add_args mul_args free_vars OK f Hn Hi split. unfold split, fun_split. split; [apply map_length|]. split.
  - intros env. rewrite (ok_add_args _ _ _ _ _ _ _ _ OK), map_map. f_equal. apply map_ext_in. intros t Ht. symmetry. apply (split_term_ok N L E eval e_mul e_1 add_args mul_args free_vars OK (f_dirs f) t Hn (fun a => Hi t a Ht)).
  - intros i term d H1 H2. assert (Ht := nth_error_In _ _ H1). rewrite (map_nth_error _ _ _ H1) in H2. injection H2 as <-.
    destruct (split_term_ok N L E eval e_mul e_1 add_args mul_args free_vars OK (f_dirs f) term Hn (fun a => Hi term a Ht)) as ((G1 & G2 & G3 & G4) & P & R). split; [exact G1|]. split; [exact G3|]. split; [exact G2|]. split; [exact G4|]. split; [exact P|].
    intros Q [HQ1 HQ2] Hw. apply R; [exact HQ2|intros x Hx; apply HQ1; exact Hx|exact Hw].
Qed.
