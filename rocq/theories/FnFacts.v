(** Proofs about the constructor of Function and as_xyz. *)
From Coq Require Import String List Bool Arith Lia Sorted.
From Verif Require Import Base PyBase SeriesModel MulModel SplitModel FnModel FnSpec.
Import ListNotations.
Local Open Scope string_scope. Local Open Scope list_scope. Local Open Scope nat_scope.

Lemma symbol_eqb_iff : forall s t, symbol_eqb s t = true <-> s = t.
Proof.
  intros [a b] [c d]. unfold symbol_eqb. cbn [fst snd]. rewrite andb_true_iff, String.eqb_eq, eqb_true_iff. split; [intros [-> ->]; reflexivity|intros H; injection H as -> ->; split; reflexivity].
Qed.
Lemma symbol_eqb_refl : forall s, symbol_eqb s s = true.
Proof. intros s. apply symbol_eqb_iff. reflexivity. Qed.

Lemma conv_coordinate : forall name, conv name = match coordinate name with Some i => nth_error x_sub i | None => None end.
Proof.
  intros name. unfold conv, coordinate.
  repeat match goal with |- context [String.eqb name ?k] => destruct (String.eqb_spec name k) as [->|]; [reflexivity|] end.
  unfold name_index, xyz, x_sub. cbn [fst]. repeat match goal with |- context [String.eqb ?k name] => destruct (String.eqb_spec k name) as [<-|]; [congruence|] end. reflexivity.
Qed.
Lemma coordinate_lt : forall name i, coordinate name = Some i -> i < 5.
Proof. intros name i. unfold coordinate. repeat match goal with |- context [if ?b then _ else _] => destruct b; [intros H; injection H as <-; lia|] end. discriminate. Qed.
Lemma conv_some : forall name i, coordinate name = Some i -> exists t, conv name = Some t /\ nth_error x_sub i = Some t.
Proof. intros name i H. rewrite conv_coordinate, H. apply coordinate_lt in H. do 5 (destruct i as [|i]; [eexists; split; reflexivity|]). lia. Qed.
Lemma x_sub_coordinate : forall i t, nth_error x_sub i = Some t -> coordinate (fst t) = Some i /\ conv (fst t) = Some t.
Proof. intros i t. do 5 (destruct i as [|i]; [intros H; injection H as <-; split; reflexivity|]). destruct i; discriminate. Qed.
Lemma xyz_coordinate : forall i t, nth_error xyz i = Some t -> coordinate (fst t) = Some i.
Proof. intros i t. do 5 (destruct i as [|i]; [intros H; injection H as <-; reflexivity|]). destruct i; discriminate. Qed.
Lemma conv_target : forall name t, conv name = Some t -> exists i, coordinate name = Some i /\ nth_error x_sub i = Some t.
Proof. intros name t H. rewrite conv_coordinate in H. destruct (coordinate name) as [i|]; [|discriminate]. exists i. split; [reflexivity|exact H]. Qed.
Lemma nth_x_sub : forall i, i < 5 -> exists t, nth_error x_sub i = Some t.
Proof. intros i H. do 5 (destruct i as [|i]; [eexists; reflexivity|]). lia. Qed.

Section FnFacts.
Variable V E : Type.
Variable free_symbols : E -> list symbol.
Variable subs : E -> symbol -> symbol -> E.
Variable expand : E -> E.
Variable eval : E -> (symbol -> V) -> V.
Hypothesis L : sympy_laws V E free_symbols subs expand eval.

Notation convert := (convert E free_symbols subs).
Notation variables := (variables E free_symbols).
Notation fn_new := (fn_new E free_symbols subs expand).
Notation as_xyz := (as_xyz E subs).

Definition to_x (l : list symbol) (e : E) : E := fold_left (fun e s => match conv (fst s) with Some t => subs e s t | None => e end) l e.

Lemma to_x_value : forall l e env, eval (to_x l e) env = eval e (fun u => if existsb (symbol_eqb u) l then match conv (fst u) with Some t => env t | None => env u end else env u).
Proof using L.
  induction l as [|s l IH]; intros e env; [reflexivity|]. unfold to_x. cbn [fold_left]. fold (to_x l (match conv (fst s) with Some t => subs e s t | None => e end)). rewrite IH. destruct (conv (fst s)) as [t|] eqn:Es.
  - rewrite (law_subs _ _ _ _ _ _ L). apply (law_free _ _ _ _ _ _ L). intros u _. cbn [existsb]. destruct (symbol_eqb u s) eqn:Eu; cbn [orb].
    + apply symbol_eqb_iff in Eu. subst u. rewrite Es. apply conv_target in Es as (i & _ & Ei). apply x_sub_coordinate in Ei as [_ Ec]. rewrite Ec. destruct (existsb (symbol_eqb t) l); reflexivity.
    + reflexivity.
  - apply (law_free _ _ _ _ _ _ L). intros u _. cbn [existsb]. destruct (symbol_eqb u s) eqn:Eu; cbn [orb]; [|reflexivity]. apply symbol_eqb_iff in Eu. subst u. rewrite Es. destruct (existsb (symbol_eqb s) l); reflexivity.
Qed.
Lemma to_x_free : forall l e u, In u (free_symbols (to_x l e)) -> (In u (free_symbols e) /\ (In u l -> conv (fst u) = None)) \/ exists s, In s (free_symbols e) /\ conv (fst s) = Some u.
Proof using L.
  induction l as [|s l IH]; intros e u H; [left; split; [exact H|intros []]|]. unfold to_x in H. cbn [fold_left] in H. fold (to_x l (match conv (fst s) with Some t => subs e s t | None => e end)) in H. apply IH in H. destruct (conv (fst s)) as [t|] eqn:Es.
  - destruct H as [[H1 H2]|(w & W1 & W2)].
    + apply (law_subs_free _ _ _ _ _ _ L) in H1 as [[H1 H3]|[-> H1]]; [|right; exists s; split; assumption]. left. split; [exact H1|]. intros [H4|H4]; [congruence|exact (H2 H4)].
    + right. apply (law_subs_free _ _ _ _ _ _ L) in W1 as [[W1 _]|[-> W1]]; [exists w; split; assumption|]. exists s. split; [exact W1|]. apply conv_target in Es as Et. destruct Et as (i & _ & Ei). apply x_sub_coordinate in Ei as [_ Ec]. congruence.
  - destruct H as [[H1 H2]|H]; [|right; exact H]. left. split; [exact H1|]. intros [H4|H4]; [congruence|exact (H2 H4)].
Qed.

Lemma existsb_symbol : forall u l, existsb (symbol_eqb u) l = true <-> In u l.
Proof using.
  intros u l. rewrite existsb_exists. split; [intros (x & H1 & H2); apply symbol_eqb_iff in H2; subst x; exact H1|intros H; exists u; split; [exact H|apply symbol_eqb_refl]].
Qed.
Lemma convert_value : forall e env, eval (convert e) env = eval e (fun u => match conv (fst u) with Some t => env t | None => env u end).
Proof using L.
  intros e env. unfold FnModel.convert. fold (to_x (free_symbols e) e). rewrite to_x_value. apply (law_free _ _ _ _ _ _ L). intros s Hs. rewrite (proj2 (existsb_symbol _ _) Hs). reflexivity.
Qed.
Lemma convert_free : forall e u, In u (free_symbols (convert e)) -> (In u (free_symbols e) /\ conv (fst u) = None) \/ exists s, In s (free_symbols e) /\ conv (fst s) = Some u.
Proof using L. intros e u H. apply to_x_free in H as [[H1 H2]|H]; [left; split; [exact H1|exact (H2 H1)]|right; exact H]. Qed.

(** The numbers of the variables. *)
Lemma find_x_sub : forall s, find (fun i => match nth_error x_sub i with Some t => symbol_eqb s t | None => false end) (seq 0 (length x_sub)) = match coordinate (fst s) with Some i => if existsb (symbol_eqb s) x_sub then Some i else None | None => None end.
Proof using.
  intros s. destruct (existsb (symbol_eqb s) x_sub) eqn:Ex.
  - apply existsb_symbol, In_nth_error in Ex as (i & Ei). destruct (x_sub_coordinate _ _ Ei) as [-> _]. revert Ei. do 5 (destruct i as [|i]; [intros H; injection H as <-; reflexivity|]). destruct i; discriminate.
  - replace (match coordinate (fst s) with Some i => None | None => None end) with (@None nat) by (destruct (coordinate (fst s)); reflexivity).
    cbn [existsb x_sub] in Ex. repeat (apply orb_false_iff in Ex as [? Ex]). cbn [seq length find nth_error x_sub]. repeat match goal with H : symbol_eqb s _ = false |- _ => rewrite H; clear H end. reflexivity.
Qed.
Lemma variables_in : forall e i, In i (variables e) <-> exists t, nth_error x_sub i = Some t /\ In t (free_symbols e).
Proof using.
  intros e i. unfold FnModel.variables. rewrite in_flat_map. split.
  - intros (s & H1 & H2). rewrite find_x_sub in H2. destruct (coordinate (fst s)) as [j|] eqn:Ej; [|destruct H2]. destruct (existsb (symbol_eqb s) x_sub) eqn:Ex; [|destruct H2]. destruct H2 as [<-|[]]. apply existsb_symbol, In_nth_error in Ex as (k & Ek). destruct (x_sub_coordinate _ _ Ek) as [Ek' _]. exists s. split; [|exact H1]. congruence.
  - intros (t & H1 & H2). exists t. split; [exact H2|]. rewrite find_x_sub. destruct (x_sub_coordinate _ _ H1) as [-> _]. rewrite (proj2 (existsb_symbol _ _)) by (apply nth_error_In with i; exact H1). left. reflexivity.
Qed.
Lemma variables_reads : forall e i, In i (variables (convert e)) -> reads free_symbols e i.
Proof using L.
  intros e i H. apply variables_in in H as (t & H1 & H2). apply x_sub_coordinate in H1 as [H3 H4]. apply convert_free in H2 as [[_ H2]|(s & S1 & S2)]; [congruence|]. exists s. split; [exact S1|]. apply conv_target in S2 as (j & J1 & J2). apply x_sub_coordinate in J2 as [J2 _]. congruence.
Qed.

(** The check of the directions. *)
Lemma reads_sub : forall dirs, (exists l, mapM (fun d => py_get x_sub d) dirs = Ok l) \/ mapM (fun d => py_get x_sub d) dirs = Throw "IndexError".
Proof using.
  induction dirs as [|d dirs IH]; [left; exists []; reflexivity|]. cbn [mapM]. unfold py_get at 1 3. destruct (nth_error x_sub d); cbn [bind]; [|right; reflexivity]. destruct IH as [(l & ->)| ->]; cbn [bind]; [left; eexists; reflexivity|right; reflexivity].
Qed.
Lemma sub_ok : forall dirs, Forall (fun d => d < 5) dirs -> exists l, mapM (fun d => py_get x_sub d) dirs = Ok l.
Proof using.
  induction 1 as [|d dirs H _ [l IH]]; [exists []; reflexivity|]. cbn [mapM]. unfold py_get at 1. destruct (nth_x_sub d H) as [t ->]. cbn [bind]. rewrite IH. eexists. reflexivity.
Qed.
Lemma sub_only : forall dirs l, mapM (fun d => py_get x_sub d) dirs = Ok l -> Forall (fun d => d < 5) dirs.
Proof using.
  induction dirs as [|d dirs IH]; intros l H; [constructor|]. cbn [mapM] in H. unfold py_get at 1 in H. destruct (nth_error x_sub d) as [t|] eqn:Ed; [|discriminate H]. cbn [bind] in H. destruct (mapM (fun d => py_get x_sub d) dirs) as [l'| | | |] eqn:El; try discriminate H.
  constructor; [|exact (IH _ eq_refl)]. change 5 with (length x_sub). apply nth_error_Some. rewrite Ed. discriminate.
Qed.
Lemma check_ok : forall vars dirs, Forall (fun d => d < 5) dirs -> incl vars dirs -> check vars dirs = Ok tt.
Proof using.
  intros vars dirs H1 H2. unfold check. destruct (sub_ok dirs H1) as [l ->]. cbn [bind]. unfold require. replace (forallb (fun v => py_in v dirs) vars) with true; [reflexivity|]. symmetry. apply forallb_forall. intros v Hv. unfold py_in. apply existsb_exists. exists v. split; [apply H2; exact Hv|apply Nat.eqb_refl].
Qed.
Lemma check_only : forall vars dirs, check vars dirs = Ok tt -> Forall (fun d => d < 5) dirs /\ incl vars dirs.
Proof using.
  intros vars dirs H. unfold check in H. destruct (mapM (fun d => py_get x_sub d) dirs) as [l| | | |] eqn:El; try discriminate H. cbn [bind] in H. split; [eapply sub_only; exact El|]. unfold require in H. destruct (forallb (fun v => py_in v dirs) vars) eqn:Ef; [|discriminate H]. rewrite forallb_forall in Ef. intros v Hv. specialize (Ef v Hv). unfold py_in in Ef. apply existsb_exists in Ef as (w & W1 & W2). apply Nat.eqb_eq in W2. subst w. exact W1.
Qed.
Lemma check_limit : forall vars dirs, Exists (fun d => 5 <= d) dirs -> check vars dirs = Throw "IndexError".
Proof using.
  intros vars dirs H. unfold check. destruct (reads_sub dirs) as [(l & El)| ->]; [|reflexivity]. exfalso. apply sub_only in El. rewrite Forall_forall in El. apply Exists_exists in H as (d & D1 & D2). specialize (El d D1). lia.
Qed.

(** What a constructed function is. *)
Lemma fn_new_inv : forall e dirs dim f, fn_new e dirs dim = Ok f -> f_sym f = expand (convert e) /\ Forall (fun d => d < 5) (f_dirs f) /\ incl (variables (convert e)) (f_dirs f).
Proof using.
  intros e dirs dim f H. unfold FnModel.fn_new in H. match type of H with bind ?x _ = _ => destruct x as [ds| | | |]; try discriminate H end. cbn [bind] in H. destruct (check (variables (convert e)) ds) as [[]| | | |] eqn:Ec; try discriminate H. injection H as <-. cbn [f_sym f_dirs]. split; [reflexivity|]. apply check_only, Ec.
Qed.

Lemma new_value : forall e dirs dim f, fn_new e dirs dim = Ok f -> forall point param, eval (f_sym f) (reading point param) = eval e (reading point param).
Proof using L.
  intros e dirs dim f H point param. apply fn_new_inv in H as [-> _]. rewrite (law_expand _ _ _ _ _ _ L), convert_value. apply (law_free _ _ _ _ _ _ L). intros s _. unfold reading at 3. rewrite conv_coordinate. destruct (coordinate (fst s)) as [i|] eqn:Ei.
  - destruct (nth_x_sub i) as [t Et]; [eapply coordinate_lt; exact Ei|]. rewrite Et. unfold reading. destruct (x_sub_coordinate _ _ Et) as [-> _]. reflexivity.
  - unfold reading. rewrite Ei. reflexivity.
Qed.

Lemma new_free : forall e dirs dim f u, fn_new e dirs dim = Ok f -> In u (free_symbols (f_sym f)) -> (exists d, In d (f_dirs f) /\ nth_error x_sub d = Some u) \/ coordinate (fst u) = None.
Proof using L.
  intros e dirs dim f u H Hu. apply fn_new_inv in H as (E1 & E2 & E3). rewrite E1 in Hu. apply (law_expand_free _ _ _ _ _ _ L) in Hu. destruct (coordinate (fst u)) as [i|] eqn:Ei; [|right; reflexivity]. left. pose proof Hu as Hu'. apply convert_free in Hu as [[_ Hu]|(s & S1 & S2)].
  - destruct (conv_some _ _ Ei) as (t & C1 & _). congruence.
  - apply conv_target in S2 as (j & J1 & J2). exists j. split; [|exact J2]. apply E3, variables_in. exists u. split; assumption.
Qed.
Lemma new_depends : forall e dirs dim f, fn_new e dirs dim = Ok f -> forall env env', (forall d t, In d (f_dirs f) -> nth_error x_sub d = Some t -> env t = env' t) -> (forall s, coordinate (fst s) = None -> env s = env' s) -> eval (f_sym f) env = eval (f_sym f) env'.
Proof using L.
  intros e dirs dim f H env env' H1 H2. apply (law_free _ _ _ _ _ _ L). intros u Hu. destruct (new_free _ _ _ _ _ H Hu) as [(d & D1 & D2)|Hc]; [exact (H1 d u D1 D2)|exact (H2 u Hc)].
Qed.

(** Which arguments are accepted. *)
Lemma sorted_py : forall l, Sorted le l -> py_sorted l = l.
Proof using.
  unfold py_sorted. induction l as [|x l IH]; intros H; [reflexivity|]. inversion H as [|? ? H1 H2]; subst. cbn [fold_right]. rewrite IH by exact H1. destruct l as [|y l]; [reflexivity|]. inversion H2; subst. unfold insert. rewrite (proj2 (Nat.leb_le x y)) by assumption. reflexivity.
Qed.
Lemma insert_sorted' : forall x l, Sorted le l -> Sorted le (insert x l).
Proof using.
  intros x. induction l as [|y l IH]; intros H; cbn [insert]; [repeat constructor|]. destruct (Nat.leb_spec x y) as [Hxy|Hxy]; [constructor; [exact H|constructor; exact Hxy]|]. inversion H as [|? ? H1 H2]; subst. constructor; [apply IH; exact H1|]. destruct l as [|z l]; cbn [insert]; [constructor; lia|]. destruct (x <=? z); constructor; [lia|]. inversion H2; subst; lia.
Qed.
Lemma py_sorted_sorted' : forall l, Sorted le (py_sorted l).
Proof using. unfold py_sorted. induction l as [|x l IH]; [constructor|]. cbn [fold_right]. apply insert_sorted', IH. Qed.
Lemma nats_eqb_iff : forall a b, nats_eqb a b = true <-> a = b.
Proof using. induction a as [|x a IH]; intros [|y b]; cbn [nats_eqb]; try (split; [discriminate|discriminate]); [split; reflexivity|]. rewrite andb_true_iff, Nat.eqb_eq, IH. split; [intros [-> ->]; reflexivity|intros H; injection H as -> ->; split; reflexivity]. Qed.

Lemma new_accepts : forall e dirs, Sorted le dirs -> Forall (fun d => d < 5) dirs -> (forall i, reads free_symbols e i -> In i dirs) -> exists f, fn_new e (Some dirs) None = Ok f /\ f_dirs f = dirs.
Proof using L.
  intros e dirs H1 H2 H3. unfold FnModel.fn_new. rewrite sorted_py by exact H1. rewrite (proj2 (nats_eqb_iff _ _) eq_refl). cbn [andb require bind]. rewrite check_ok; [cbn [bind]; eexists; split; reflexivity|exact H2|]. intros i Hi. apply H3, variables_reads, Hi.
Qed.
Lemma new_only : forall e dirs dim f, fn_new e (Some dirs) dim = Ok f -> dim = None /\ Sorted le dirs /\ Forall (fun d => d < 5) dirs /\ f_dirs f = dirs.
Proof using.
  intros e dirs dim f H. pose proof (fn_new_inv _ _ _ _ H) as (_ & I2 & _). unfold FnModel.fn_new in H. unfold require in H. destruct dim; [discriminate H|]. cbn [andb] in H. destruct (nats_eqb dirs (py_sorted dirs)) eqn:Es; [|discriminate H]. cbn [bind] in H. destruct (check (variables (convert e)) dirs); try discriminate H. injection H as <-. cbn [f_dirs] in *.
  split; [reflexivity|]. split; [|split; [exact I2|reflexivity]]. apply nats_eqb_iff in Es. rewrite Es. apply py_sorted_sorted'.
Qed.
Lemma new_limit : forall e dirs, Sorted le dirs -> Exists (fun d => 5 <= d) dirs -> fn_new e (Some dirs) None = Throw "IndexError".
Proof using.
  intros e dirs H1 H2. unfold FnModel.fn_new. rewrite sorted_py by exact H1. rewrite (proj2 (nats_eqb_iff _ _) eq_refl). cbn [andb require bind]. rewrite check_limit by exact H2. reflexivity.
Qed.

Lemma fold_max_in : forall l, l <> [] -> In (fold_right Nat.max 0 l) l.
Proof using.
  induction l as [|x l IH]; intros H; [contradiction|]. cbn [fold_right]. destruct (Nat.max_spec x (fold_right Nat.max 0 l)) as [[H1 ->]|[H1 ->]]; [|left; reflexivity]. right. apply IH. intros ->. cbn in H1. lia.
Qed.
Lemma fold_max_le : forall l x, In x l -> x <= fold_right Nat.max 0 l.
Proof using. induction l as [|y l IH]; intros x H; [destruct H|]. cbn [fold_right]. destruct H as [->|H]; [lia|]. specialize (IH x H). lia. Qed.
Lemma new_default : forall e, exists f k, fn_new e None None = Ok f /\ f_dirs f = seq 0 k /\ k <= 5 /\ (k = 0 \/ reads free_symbols e (k - 1)).
Proof using L.
  intros e. unfold FnModel.fn_new. cbn [bind]. set (vars := variables (convert e)). set (k := match vars with [] => 0 | _ => S (fold_right Nat.max 0 vars) end).
  assert (Hv : forall i, In i vars -> i < 5) by (intros i Hi; apply variables_in in Hi as (t & Ht & _); change 5 with (length x_sub); apply nth_error_Some; rewrite Ht; discriminate).
  assert (Hk : (k = 0 /\ vars = []) \/ (k = S (fold_right Nat.max 0 vars) /\ In (fold_right Nat.max 0 vars) vars)).
  { unfold k. destruct vars as [|x l] eqn:Ev; [left; split; reflexivity|]. right. split; [reflexivity|]. apply fold_max_in. discriminate. }
  assert (Hk5 : k <= 5) by (destruct Hk as [[-> _]|[-> Hk]]; [lia|]; specialize (Hv _ Hk); lia).
  rewrite check_ok.
  - cbn [bind]. eexists. exists k. split; [reflexivity|]. split; [reflexivity|]. split; [exact Hk5|]. destruct Hk as [[Hk _]|[Hk1 Hk2]]; [left; exact Hk|]. right. rewrite Hk1. replace (S (fold_right Nat.max 0 vars) - 1) with (fold_right Nat.max 0 vars) by lia. apply variables_reads, Hk2.
  - apply Forall_forall. intros d Hd. apply in_seq in Hd. lia.
  - intros i Hi. apply in_seq. destruct Hk as [[_ Hk]|[-> _]]; [rewrite Hk in Hi; destruct Hi|]. apply fold_max_le in Hi. lia.
Qed.
Lemma new_dim : forall e n, n <= 5 -> (forall i, reads free_symbols e i -> i < n) -> exists f, fn_new e None (Some n) = Ok f /\ f_dirs f = seq 0 n.
Proof using L.
  intros e n H1 H2. unfold FnModel.fn_new. cbn [bind]. rewrite check_ok; [cbn [bind]; eexists; split; reflexivity| |].
  - apply Forall_forall. intros d Hd. apply in_seq in Hd. lia.
  - intros i Hi. apply in_seq. apply variables_reads, H2 in Hi. lia.
Qed.

(** as_xyz *)
Lemma as_xyz_value : forall f point param, eval (as_xyz f) (reading point param) = eval (f_sym f) (reading point param).
Proof using L.
  intros f point param. unfold FnModel.as_xyz. cbn [combine x_sub xyz fold_left]. rewrite !(law_subs _ _ _ _ _ _ L). apply (law_free _ _ _ _ _ _ L). intros u _.
  repeat match goal with |- (if symbol_eqb u ?t then _ else _) = _ => let H := fresh in destruct (symbol_eqb u t) eqn:H; [apply symbol_eqb_iff in H; rewrite H; reflexivity|] end. reflexivity.
Qed.
Lemma subs_list_free : forall l, (forall s t, In (s, t) l -> ~ In t (map fst l)) -> forall e u, In u (free_symbols (fold_left (fun e '(s, t) => subs e s t) l e)) ->
  (In u (free_symbols e) /\ ~ In u (map fst l)) \/ exists s, In (s, u) l /\ In s (free_symbols e).
Proof using L.
  induction l as [|[s t] l IH]; intros Hl e u H; [left; split; [exact H|intros []]|]. cbn [fold_left] in H. apply IH in H; [|intros a b Hab Hb; apply (Hl a b); [right; exact Hab|right; exact Hb]].
  assert (Ht : ~ In t (map fst l)) by (intros G; apply (Hl s t (or_introl eq_refl)); right; exact G). destruct H as [[H1 H2]|(s' & S1 & S2)].
  - apply (law_subs_free _ _ _ _ _ _ L) in H1 as [[H1 H3]|[-> H1]].
    + left. split; [exact H1|]. intros [G|G]; [apply H3; symmetry; exact G|exact (H2 G)].
    + right. exists s. split; [left; reflexivity|exact H1].
  - apply (law_subs_free _ _ _ _ _ _ L) in S2 as [[S2 _]|[-> S2]]; [right; exists s'; split; [right; exact S1|exact S2]|]. exfalso. apply Ht. apply in_map_iff. exists (t, u). split; [reflexivity|exact S1].
Qed.
Lemma xyz_pairs : forall s t, In (s, t) (combine x_sub xyz) -> exists i, nth_error x_sub i = Some s /\ nth_error xyz i = Some t.
Proof using. intros s t H. apply In_nth_error in H as (i & Hi). exists i. revert Hi. do 5 (destruct i as [|i]; [intros H; injection H as <- <-; split; reflexivity|]). destruct i; discriminate. Qed.
Lemma as_xyz_free : forall f u, In u (free_symbols (as_xyz f)) -> (In u (free_symbols (f_sym f)) /\ ~ In u x_sub) \/ exists i s, nth_error x_sub i = Some s /\ nth_error xyz i = Some u /\ In s (free_symbols (f_sym f)).
Proof using L.
  intros f u H. apply subs_list_free in H.
  - destruct H as [[H1 H2]|(s & S1 & S2)]; [left; split; [exact H1|exact H2]|]. right. apply xyz_pairs in S1 as (i & I1 & I2). exists i, s. repeat split; assumption.
  - intros s t Hst Ht. apply xyz_pairs in Hst as (i & _ & I2). change (map fst (combine x_sub xyz)) with x_sub in Ht. revert I2 Ht. clear. do 5 (destruct i as [|i]; [intros H; injection H as <-; intros H; cbn in H; decompose [or] H; try discriminate; assumption|]). destruct i; discriminate.
Qed.
Lemma round_trip : forall e dirs dim f, fn_new e dirs dim = Ok f -> Sorted le (f_dirs f) ->
  (forall u, In u (free_symbols (as_xyz f)) -> ~ In u x_sub) /\
  exists g, fn_new (as_xyz f) (Some (f_dirs f)) None = Ok g /\ f_dirs g = f_dirs f /\ forall point param, eval (f_sym g) (reading point param) = eval (f_sym f) (reading point param).
Proof using L.
  intros e dirs dim f H Hs. split.
  - intros u Hu Hx. apply as_xyz_free in Hu as [[_ Hu]|(i & s & _ & Hu & _)]; [exact (Hu Hx)|]. apply In_nth_error in Hx as (j & Hj). revert Hu Hj. clear. do 5 (destruct i as [|i]; [intros H; injection H as <-; do 5 (destruct j as [|j]; [discriminate|]); destruct j; discriminate|]). destruct i; discriminate.
  - destruct (new_accepts (as_xyz f) (f_dirs f)) as (g & G1 & G2); [exact Hs|apply (fn_new_inv _ _ _ _ H)| |].
    + intros i (u & U1 & U2). apply as_xyz_free in U1 as [[U1 U3]|(j & s & J1 & J2 & J3)].
      * destruct (new_free _ _ _ _ _ H U1) as [(d & _ & D2)|U4]; [|congruence]. exfalso. apply U3. eapply nth_error_In. exact D2.
      * apply xyz_coordinate in J2. assert (j = i) by congruence. subst j. destruct (new_free _ _ _ _ _ H J3) as [(d & D1 & D2)|U4]; [|apply x_sub_coordinate in J1 as [J1 _]; congruence]. apply x_sub_coordinate in J1 as [J1 _]. apply x_sub_coordinate in D2 as [D2 _]. assert (d = i) by congruence. subst d. exact D1.
    + exists g. split; [exact G1|]. split; [exact G2|]. intros point param. rewrite (new_value _ _ _ _ G1). apply as_xyz_value.
Qed.

Lemma new_sorted : forall e dirs dim f, fn_new e dirs dim = Ok f -> Sorted le (f_dirs f).
Proof using.
  intros e [dirs|] dim f H; [apply new_only in H as (_ & H & _ & ->); exact H|]. assert (S : forall n a, Sorted le (seq a n)).
  { induction n as [|n IH]; intros a; [constructor|]. cbn [seq]. constructor; [apply IH|]. destruct n; constructor. lia. }
  unfold FnModel.fn_new in H. destruct dim as [n|]; cbn [bind] in H; match type of H with bind ?x _ = _ => destruct x; try discriminate H end; injection H as <-; apply S.
Qed.
Lemma round_trip' : forall e dirs dim f, fn_new e dirs dim = Ok f ->
  (forall u, In u (free_symbols (as_xyz f)) -> ~ In u x_sub) /\
  exists g, fn_new (as_xyz f) (Some (f_dirs f)) None = Ok g /\ f_dirs g = f_dirs f /\ forall point param, eval (f_sym g) (reading point param) = eval (f_sym f) (reading point param).
Proof using L. intros e dirs dim f H. exact (round_trip e dirs dim f H (new_sorted _ _ _ _ H)). Qed.
Lemma new_reads : forall e dirs dim f, fn_new e dirs dim = Ok f -> forall point point' param, (forall d, In d (f_dirs f) -> point d = point' d) -> eval e (reading point param) = eval e (reading point' param).
Proof using L.
  intros e dirs dim f H point point' param Hp. rewrite <- !(new_value _ _ _ _ H). apply (new_depends _ _ _ _ H).
  - intros d t Hd Ht. unfold reading. destruct (x_sub_coordinate _ _ Ht) as [-> _]. exact (Hp d Hd).
  - intros s Hs. unfold reading. rewrite Hs. reflexivity.
Qed.

(** The constructor of the other files: a symbol for every direction. *)
Lemma new_init : forall e dirs, (forall s, In s (free_symbols e) -> conv (fst s) = None \/ (conv (fst s) = Some s /\ subs e s s = e)) -> expand e = e -> Forall (fun d => d < 5) dirs ->
  fn_new e (Some dirs) None = function_init E variables e dirs.
Proof using.
  intros e dirs H1 H2 H3. assert (Ec : convert e = e).
  { unfold FnModel.convert. assert (G : forall l, incl l (free_symbols e) -> fold_left (fun e s => match conv (fst s) with Some t => subs e s t | None => e end) l e = e).
    { induction l as [|s l IH]; intros Hl; [reflexivity|]. cbn [fold_left]. destruct (H1 s (Hl s (or_introl eq_refl))) as [-> |[-> Hs]]; [|rewrite Hs]; apply IH; intros x Hx; apply Hl; right; exact Hx. }
    apply G. intros x Hx. exact Hx. }
  unfold FnModel.fn_new, function_init. rewrite Ec, H2. cbn [andb]. unfold require at 1 2. destruct (nats_eqb dirs (py_sorted dirs)); cbn [bind]; [|reflexivity]. unfold check. destruct (sub_ok dirs H3) as [l ->]. cbn [bind]. reflexivity.
Qed.
End FnFacts.
