(** Proofs about the hyperbolic cross enumeration. *)
From Coq Require Import List Arith ZArith Lia Bool.
From Verif Require Import Base Lists IndexModel Spec Traverse Triangle Shell ShellList.
Import ListNotations.

Lemma MAX_max : forall i j, MAX i j = Nat.max i j.
Proof. intros. unfold MAX. destruct (j <? i) eqn:E; [apply Nat.ltb_lt in E|apply Nat.ltb_ge in E]; lia. Qed.

Lemma Some_inj : forall A (x y : A), Some x = Some y -> x = y.
Proof. congruence. Qed.

(** * Phase 1: 0/1 filling *)
Fixpoint fillo (v : mi) : option mi :=
  match v with
  | [] => None
  | x :: t => if x =? 1 then option_map (cons 0) (fillo t)
              else if x =? 0 then Some (1 :: t)
              else option_map (cons x) (fillo t)
  end.

Definition core1 (x : nat) : nat := if x =? 1 then 0 else x.
Definition coreof (v : mi) : mi := map core1 v.
Definition is_core (v : mi) : Prop := Forall (fun x => x <> 1) v.

Definition fill_body (i : nat) (m : mi) : res (ctl mi mi) :=
  x <- vget m i ;;
  if x =? 1 then m' <- vset m i 0 ;; Ok (Next m')
  else if x =? 0 then m' <- vset m i 1 ;; Ok (Return m')
  else Ok (Next m).

Lemma fill_loop : forall v p,
  for_loop fill_body (length v) (length p) (p ++ v) =
  match fillo v with
  | Some v' => Ok (inl (p ++ v'))
  | None => Ok (inr (length (p ++ v), p ++ coreof v))
  end.
Proof.
  induction v as [|x v IH]; intros p.
  - simpl. rewrite !app_nil_r. reflexivity.
  - cbn [length]. rewrite for_loop_S. unfold fill_body at 1.
    rewrite vget_app_hd by reflexivity. cbn [bind fillo coreof map].
    assert (L : forall y, length (p ++ [y]) = S (length p)) by (intros; rewrite app_length; simpl; lia).
    assert (L2 : length (p ++ x :: v) = S (length (p ++ v))) by (rewrite !app_length; simpl; lia).
    assert (L3 : forall y, length ((p ++ [y]) ++ v) = S (length (p ++ v))) by (intros; rewrite !app_length; simpl; lia).
    destruct (x =? 1) eqn:E1.
    + rewrite vset_app_hd by reflexivity. cbn [bind].
      specialize (IH (p ++ [0])). rewrite L, L3, <- !app_assoc in IH. cbn [app] in IH. rewrite IH, L2.
      unfold core1 at 1. rewrite E1.
      destruct (fillo v); cbn [option_map]; rewrite <- ?app_assoc; reflexivity.
    + destruct (x =? 0) eqn:E0.
      * rewrite vset_app_hd by reflexivity. reflexivity.
      * cbn [bind]. specialize (IH (p ++ [x])). rewrite L, L3, <- !app_assoc in IH. cbn [app] in IH. rewrite IH, L2.
        unfold core1 at 1. rewrite E1.
        destruct (fillo v); cbn [option_map]; rewrite <- ?app_assoc; reflexivity.
Qed.

Fixpoint fills (c : mi) : list mi :=
  match c with
  | [] => [[]]
  | x :: t => if x =? 0 then flat_map (fun v => [0 :: v; 1 :: v]) (fills t) else map (cons x) (fills t)
  end.

Lemma fills_ne : forall c, fills c <> [].
Proof.
  induction c as [|x c IH]; [discriminate|]. simpl. destruct (x =? 0).
  - apply flat_map_ne; [assumption|discriminate].
  - intro H. apply map_eq_nil in H. contradiction.
Qed.

Lemma fills_hd : forall c, hd_error (fills c) = Some c.
Proof.
  induction c as [|x c IH]; [reflexivity|]. simpl. destruct (x =? 0) eqn:E.
  - apply Nat.eqb_eq in E. subst. destruct (fills c); [discriminate|]. injection IH as ->. reflexivity.
  - rewrite hd_error_map, IH. reflexivity.
Qed.

Lemma fills_last : forall c, last_opt (fills c) = Some (map (fun x => if x =? 0 then 1 else x) c).
Proof.
  induction c as [|x c IH]; [reflexivity|]. simpl. destruct (x =? 0) eqn:E.
  - apply last_opt_Some_app in IH as [l ->]. rewrite last_opt_flat_map_snoc by discriminate. reflexivity.
  - rewrite last_opt_map, IH. reflexivity.
Qed.

Lemma fillo_last : forall c, is_core c -> fillo (map (fun x => if x =? 0 then 1 else x) c) = None /\
  coreof (map (fun x => if x =? 0 then 1 else x) c) = c.
Proof.
  induction 1 as [|x c Hx Hc [IH1 IH2]]; [split; reflexivity|]. simpl.
  destruct x as [|[|x]]; [| contradiction |]; simpl; rewrite IH1, IH2; split; reflexivity.
Qed.

Lemma linked_fills : forall c, is_core c -> linked (fun v w => fillo v = Some w) (fills c).
Proof.
  induction 1 as [|x c Hx Hc IH]; [simpl; auto|]. simpl. destruct (x =? 0) eqn:E.
  - eapply linked_flat_map; [| |exact IH|].
    + intros; discriminate.
    + intros v _. simpl. auto.
    + intros a b u w _ _ Hab Hu Hw. simpl in Hu, Hw. injection Hu as <-. injection Hw as <-.
      simpl. rewrite Hab. reflexivity.
  - eapply linked_map; [|exact IH]. intros v w Hvw. simpl. apply Nat.eqb_neq in E.
    destruct x as [|[|x]]; [contradiction|contradiction|]. simpl. rewrite Hvw. reflexivity.
Qed.

Lemma in_fills : forall c v, is_core c -> (In v (fills c) <-> coreof v = c).
Proof.
  intros c v Hc. revert v. induction Hc as [|x c Hx Hc IH]; intros v.
  - simpl. split; [intros [<-|[]]; reflexivity|]. intros H. left. symmetry. eapply map_eq_nil; eassumption.
  - simpl. destruct (x =? 0) eqn:E.
    + apply Nat.eqb_eq in E. subst. rewrite in_flat_map. split.
      * intros [t [Ht Hv]]. apply IH in Ht. destruct Hv as [<-|[<-|[]]]; simpl; rewrite Ht; reflexivity.
      * intros H. destruct v as [|y v]; [discriminate|]. injection H as H1 H2.
        exists v. split; [apply IH; assumption|]. unfold core1 in H1. destruct (y =? 1) eqn:E1.
        -- apply Nat.eqb_eq in E1. subst. right; left; reflexivity.
        -- subst. left; reflexivity.
    + apply Nat.eqb_neq in E. rewrite in_map_iff. split.
      * intros [t [<- Ht]]. apply IH in Ht. simpl. rewrite Ht. f_equal. unfold core1.
        destruct (x =? 1) eqn:E1; [|reflexivity]. apply Nat.eqb_eq in E1. contradiction.
      * intros H. destruct v as [|y v]; [discriminate|]. injection H as H1 H2. exists v.
        split; [|apply IH; assumption]. f_equal. unfold core1 in H1. destruct (y =? 1); [congruence|congruence].
Qed.

Lemma NoDup_fills : forall c, NoDup (fills c).
Proof.
  induction c as [|x c IH]; [constructor; [simpl; tauto|constructor]|]. simpl. destruct (x =? 0).
  - apply NoDup_flat_map; [assumption| |].
    + intros v _. constructor; [|constructor; [simpl; tauto|constructor]]. simpl. intros [H|[]]; discriminate.
    + intros a b y _ _ Ha Hb. simpl in Ha, Hb.
      destruct Ha as [<-|[<-|[]]]; destruct Hb as [H|[H|[]]]; congruence.
  - apply NoDup_map_inj; [congruence|assumption].
Qed.

Lemma coreof_core : forall v, is_core (coreof v).
Proof.
  induction v as [|x v IH]; [constructor|]. constructor; [|exact IH]. unfold core1.
  destruct (x =? 1) eqn:E; [discriminate|]. apply Nat.eqb_neq. assumption.
Qed.

Lemma coreof_id : forall c, is_core c -> coreof c = c.
Proof.
  induction 1 as [|x c Hx Hc IH]; [reflexivity|]. simpl. fold (coreof c). rewrite IH. f_equal.
  unfold core1. apply Nat.eqb_neq in Hx. rewrite Hx. reflexivity.
Qed.

Lemma cross_prod_cons : forall x v, cross_prod (x :: v) = Nat.max 1 x * cross_prod v.
Proof. reflexivity. Qed.

Lemma cross_prod_app : forall v w, cross_prod (v ++ w) = cross_prod v * cross_prod w.
Proof.
  induction v as [|x v IH]; intros w; [unfold cross_prod; simpl; lia|].
  simpl app. rewrite !cross_prod_cons, IH. lia.
Qed.

Lemma cross_prod_pos : forall v, 1 <= cross_prod v.
Proof. induction v as [|x v IH]; [unfold cross_prod; simpl; lia|]. rewrite cross_prod_cons. nia. Qed.

Lemma cross_prod_core : forall v, cross_prod (coreof v) = cross_prod v.
Proof.
  induction v as [|x v IH]; [reflexivity|]. simpl. fold (coreof v). rewrite !cross_prod_cons, IH. f_equal.
  unfold core1. destruct (x =? 1) eqn:E; [|reflexivity]. apply Nat.eqb_eq in E. subst. reflexivity.
Qed.

Lemma cross_prod_single : forall x, cross_prod [x] = Nat.max 1 x.
Proof. intros. rewrite cross_prod_cons. unfold cross_prod. cbn [map fold_right]. lia. Qed.

Lemma cross_prod_zeros : forall n, cross_prod (zeros n) = 1.
Proof. induction n as [|n IH]; [reflexivity|]. rewrite zeros_S, cross_prod_cons, IH. reflexivity. Qed.

(** * Ordered factorisations *)
Definition divs (P : nat) : list nat := filter (fun f => P mod f =? 0) (seq 1 P).

Fixpoint fac (d P : nat) : list mi :=
  match d with
  | 0 => [[core1 P]]
  | S d' => flat_map (fun f => map (fun v => v ++ [core1 (P / f)]) (fac d' f)) (divs P)
  end.

Lemma in_divs : forall P f, 1 <= P -> (In f (divs P) <-> 1 <= f /\ P mod f = 0).
Proof.
  intros P f HP. unfold divs. rewrite filter_In, in_seq, Nat.eqb_eq. split; [intros; lia|].
  intros [H1 H2]. repeat split; try lia.
  apply Nat.mod_divide in H2; [|lia]. apply Nat.divide_pos_le in H2; lia.
Qed.

Lemma divs_ex : forall P f, 1 <= P -> In f (divs P) -> 1 <= f /\ f * (P / f) = P /\ 1 <= P / f.
Proof.
  intros P f HP H. apply in_divs in H as [H1 H2]; [|assumption].
  assert (E : f * (P / f) = P) by (symmetry; apply Nat.div_exact; lia).
  repeat split; try assumption. destruct (P / f); lia.
Qed.

Lemma core1_max : forall x, 1 <= x -> Nat.max 1 (core1 x) = x.
Proof. intros x Hx. unfold core1. destruct (x =? 1) eqn:E; [apply Nat.eqb_eq in E|]; lia. Qed.

Lemma core1_ne1 : forall x, core1 x <> 1.
Proof. intros. unfold core1. destruct (x =? 1) eqn:E; [discriminate|apply Nat.eqb_neq; assumption]. Qed.

Lemma core1_inj : forall x y, 1 <= x -> 1 <= y -> core1 x = core1 y -> x = y.
Proof. intros x y Hx Hy H. rewrite <- (core1_max x), <- (core1_max y), H by assumption. reflexivity. Qed.

Lemma in_fac : forall d P m, 1 <= P ->
  (In m (fac d P) <-> length m = S d /\ is_core m /\ cross_prod m = P).
Proof.
  induction d as [|d IH]; intros P m HP.
  - simpl. split.
    + intros [<-|[]]. split; [reflexivity|]. split; [constructor; [apply core1_ne1|constructor]|].
      rewrite cross_prod_single, core1_max by assumption. lia.
    + intros [Hl [Hc Hp]]. destruct m as [|x [|]]; try discriminate. inversion Hc; subst.
      rewrite cross_prod_single. left. f_equal.
      unfold core1. destruct x as [|[|x]]; [reflexivity|contradiction|reflexivity].
  - simpl fac. rewrite in_flat_map. split.
    + intros [f [Hf Hm]]. apply in_map_iff in Hm as [v [<- Hv]]. apply divs_ex in Hf as [Hf [E He]]; [|assumption].
      apply IH in Hv as [Hl [Hc Hp]]; [|assumption].
      rewrite app_length, cross_prod_app. split; [simpl; lia|]. split.
      * apply Forall_app. split; [assumption|]. constructor; [apply core1_ne1|constructor].
      * rewrite cross_prod_single, core1_max by assumption. lia.
    + intros [Hl [Hc Hp]]. destruct m as [|x v] using rev_ind; [discriminate|]. clear IHv.
      rewrite app_length in Hl. simpl in Hl. rewrite cross_prod_app in Hp.
      rewrite cross_prod_single in Hp.
      apply Forall_app in Hc as [Hc Hx]. inversion Hx; subst.
      pose proof (cross_prod_pos v). set (f := cross_prod v) in *.
      exists f. split.
      * apply in_divs; [lia|]. split; [assumption|]. rewrite Nat.mul_comm. apply Nat.mod_mul. lia.
      * apply in_map_iff. exists v. split.
        -- f_equal. f_equal. rewrite Nat.mul_comm, Nat.div_mul by lia. unfold core1.
           destruct x as [|[|x]]; [reflexivity|contradiction|reflexivity].
        -- apply IH; [assumption|]. repeat split; [lia|assumption].
Qed.

Lemma fac_core : forall d P m, 1 <= P -> In m (fac d P) -> is_core m.
Proof. intros d P m HP H. apply in_fac in H; tauto. Qed.

Lemma fac_ne : forall d P, 1 <= P -> fac d P <> [].
Proof.
  intros d P HP H. assert (Hin : In (zeros d ++ [core1 P]) (fac d P)).
  { apply in_fac; [assumption|]. rewrite app_length, zeros_length, cross_prod_app, cross_prod_zeros. split; [simpl; lia|]. split.
    - apply Forall_app. split; [|constructor; [apply core1_ne1|constructor]].
      clear. induction d; [constructor|]. rewrite zeros_S. constructor; [discriminate|assumption].
    - rewrite cross_prod_single, core1_max by assumption. lia. }
  rewrite H in Hin. exact Hin.
Qed.

Lemma NoDup_fac : forall d P, 1 <= P -> NoDup (fac d P).
Proof.
  induction d as [|d IH]; intros P HP; [constructor; [simpl; tauto|constructor]|].
  simpl fac. apply NoDup_flat_map.
  - apply NoDup_filter, seq_NoDup.
  - intros f Hf. apply divs_ex in Hf as [Hf _]; [|assumption]. apply NoDup_map_inj; [|apply IH; assumption].
    intros x y _ _ E. apply app_inj_tail in E. tauto.
  - intros a b x Ha Hb Hx Hx'. apply divs_ex in Ha as [Ha [Ea Ha']]; [|assumption]. apply divs_ex in Hb as [Hb [Eb Hb']]; [|assumption].
    apply in_map_iff in Hx as [v [<- _]]. apply in_map_iff in Hx' as [w [E _]].
    apply app_inj_tail in E as [_ E]. apply core1_inj in E; [|assumption|assumption]. rewrite E in Eb. nia.
Qed.

Lemma divs_1 : forall P, 1 <= P -> exists l, divs P = 1 :: l.
Proof.
  intros P HP. unfold divs. destruct P; [lia|]. cbn [seq filter]. rewrite Nat.mod_1_r. cbn [Nat.eqb]. eexists; reflexivity.
Qed.

Lemma divs_last : forall P, 1 <= P -> exists l, divs P = l ++ [P].
Proof.
  intros P HP. unfold divs. destruct P; [lia|]. rewrite seq_S, filter_app. simpl plus.
  assert (filter (fun f => S P mod f =? 0) [S P] = [S P]) as ->.
  { cbn [filter]. rewrite Nat.mod_same by lia. reflexivity. }
  eexists; reflexivity.
Qed.

Lemma fac_hd : forall d P, 1 <= P -> hd_error (fac d P) = Some (zeros d ++ [core1 P]).
Proof.
  induction d as [|d IH]; intros P HP; [reflexivity|]. simpl fac.
  destruct (divs_1 P HP) as [l ->]. rewrite hd_error_flat_map.
  - rewrite hd_error_map, IH by lia. cbn [option_map]. rewrite Nat.div_1_r. f_equal.
    change (core1 1) with 0. rewrite zeros_snoc. reflexivity.
  - intro H. apply map_eq_nil in H. apply fac_ne in H; [assumption|lia].
Qed.

Lemma fac_last : forall d P, 1 <= P -> last_opt (fac d P) = Some (core1 P :: zeros d).
Proof.
  induction d as [|d IH]; intros P HP; [reflexivity|]. simpl fac.
  destruct (divs_last P HP) as [l ->]. rewrite last_opt_flat_map_snoc.
  - rewrite last_opt_map, IH by lia. cbn [option_map app]. rewrite Nat.div_same by lia.
    change (core1 1) with 0. rewrite zeros_snoc. reflexivity.
  - intro H. apply map_eq_nil in H. apply fac_ne in H; [assumption|lia].
Qed.

(** * Phase 2 on core vectors *)
Lemma cross_factor_spec : forall f P f',
  f < f' -> f' <= P -> P mod f' = 0 -> (forall c, f < c < f' -> P mod c <> 0) ->
  cross_factor (f + 1) P = Ok f'.
Proof.
  intros f P f' H1 H2 H3 H4. unfold cross_factor.
  assert (G : forall n s, s <= f' -> f' < s + n -> (forall c, s <= c < f' -> P mod c <> 0) ->
    for_loop (R := unit) (fun f0 (factor : nat) => Ok (if P mod f0 =? 0 then Break f0 else Next factor)) n s 0
    = Ok (inr (f', f'))).
  { induction n as [|n IH]; intros s Hs1 Hs2 Hc; [lia|].
    rewrite for_loop_S. cbn [bind]. destruct (Nat.eq_dec s f') as [->|Hne].
    - rewrite H3. reflexivity.
    - specialize (Hc s ltac:(lia)) as Hm. apply Nat.eqb_neq in Hm. rewrite Hm.
      apply IH; [lia|lia|]. intros; apply Hc; lia. }
  rewrite G; [reflexivity|lia|lia|]. intros; apply H4; lia.
Qed.

Definition cscan_body (i : nat) (m : mi) : res (ctl mi unit) :=
  x <- vget m (i + 1) ;;
  if x =? 0 then Ok (Next m)
  else
    x0 <- vget m 0 ;;
    let product := MAX 1 x0 * x in
    factor <- cross_factor (MAX 1 x0 + 1) product ;;
    m <- vset m i factor ;;
    if negb (factor =? product) && (factor =? 0) then Ub
    else
      m <- vset m (i + 1) (if factor =? product then 0 else product / factor) ;;
      Ok (Break m).

Lemma cscan_none : forall k p,
  p <> [] ->
  for_loop cscan_body k (length p - 1) (p ++ zeros k)
  = Ok (inr (length p - 1 + k, p ++ zeros k)).
Proof.
  induction k as [|k IH]; intros p Hp.
  - rewrite zeros_0. simpl. rewrite Nat.add_0_r. reflexivity.
  - rewrite !zeros_S. rewrite for_loop_S. unfold cscan_body at 1.
    assert (length p <> 0) by (destruct p; [contradiction|simpl; lia]).
    rewrite vget_app_hd by lia. cbn.
    replace (p ++ 0 :: zeros k) with ((p ++ [0]) ++ zeros k) by (rewrite <- app_assoc; reflexivity).
    replace (S (length p - 1)) with (length (p ++ [0]) - 1) by (rewrite app_length; simpl; lia).
    rewrite IH by (destruct p; discriminate). rewrite app_length. simpl. do 3 f_equal. lia.
Qed.

(** the loop skips zeros *)
Lemma cscan_skip : forall k p q n,
  p <> [] ->
  for_loop cscan_body (k + n) (length p - 1) (p ++ zeros k ++ q)
  = for_loop cscan_body n (length p - 1 + k) (p ++ zeros k ++ q).
Proof.
  induction k as [|k IH]; intros p q n Hp.
  - rewrite zeros_0. simpl. rewrite Nat.add_0_r. reflexivity.
  - rewrite !zeros_S. cbn [plus app]. rewrite for_loop_S. unfold cscan_body at 1.
    assert (length p <> 0) by (destruct p; [contradiction|simpl; lia]).
    rewrite vget_app_hd by lia. cbn [Nat.eqb bind].
    replace (p ++ 0 :: zeros k ++ q) with ((p ++ [0]) ++ zeros k ++ q) by (rewrite <- app_assoc; reflexivity).
    replace (S (length p - 1)) with (length (p ++ [0]) - 1) by (rewrite app_length; simpl; lia).
    rewrite IH by (destruct p; discriminate). f_equal. rewrite app_length. simpl. lia.
Qed.

Definition cstep (v w : mi) : Prop :=
  exists a k e t f, a <> 1 /\ e <> 0 /\
    v = a :: zeros k ++ e :: t /\
    w = (zeros k ++ [f]) ++ core1 ((Nat.max 1 a * e) / f) :: t /\
    Nat.max 1 a < f /\ f <= Nat.max 1 a * e /\ (Nat.max 1 a * e) mod f = 0 /\
    (forall c, Nat.max 1 a < c < f -> (Nat.max 1 a * e) mod c <> 0).

Lemma cstep_app : forall v w u, cstep v w -> cstep (v ++ u) (w ++ u).
Proof.
  intros v w u [a [k [e [t [f [Ha [He [-> [-> H]]]]]]]]]. exists a, k, e, (t ++ u), f. split; [assumption|]. split; [assumption|]. split.
  - simpl. rewrite <- app_assoc. reflexivity.
  - split; [|exact H]. rewrite <- !app_assoc. reflexivity.
Qed.

Lemma core1_div : forall f P, 1 <= f -> f <= P -> P mod f = 0 ->
  (if f =? P then 0 else P / f) = core1 (P / f).
Proof.
  intros f P H1 H2 H3. unfold core1. destruct (f =? P) eqn:E.
  - apply Nat.eqb_eq in E. subst. rewrite Nat.div_same by lia. reflexivity.
  - apply Nat.eqb_neq in E. destruct (P / f =? 1) eqn:E1; [|reflexivity].
    apply Nat.eqb_eq in E1. exfalso. assert (P = f * (P / f)) by (apply Nat.div_exact; lia). rewrite E1 in H. lia.
Qed.

(** second half of the increment, after the filling loop found nothing *)
Definition cross_phase2 (degree : nat) (m : mi) : res (bool * mi) :=
  if degree =? 1 then Ok (true, m)
  else
    match length m with
    | 0 => Ub
    | S dim1 =>
        r <- for_loop cscan_body dim1 0 m ;;
        match r with
        | inl _ => Ub
        | inr (i, m) =>
            x0 <- vget m 0 ;;
            if (i =? dim1) && (x0 =? degree) then Ok (true, m)
            else
              m <- (if i =? dim1 then vset m i (1 + MAX 1 x0) else Ok m) ;;
              m <- (if 0 <? i then vset m 0 0 else Ok m) ;;
              Ok (false, m)
        end
    end.

Lemma coreof_length : forall v, length (coreof v) = length v.
Proof. intros. apply map_length. Qed.

Lemma cross_increment_phases : forall degree m,
  cross_increment degree m =
  match fillo m with Some m' => Ok (false, m') | None => cross_phase2 degree (coreof m) end.
Proof.
  intros. unfold cross_increment. pose proof (fill_loop m []) as H. cbn [app length] in H.
  unfold fill_body in H. rewrite H. clear H. destruct (fillo m); [reflexivity|].
  cbn [bind]. unfold cross_phase2. rewrite coreof_length. reflexivity.
Qed.

Lemma phase2_step : forall degree v w, degree <> 1 -> cstep v w -> cross_phase2 degree v = Ok (false, w).
Proof.
  intros degree v w Hd [a [k [e [t [f [Ha [He [-> [-> [H1 [H2 [H3 H4]]]]]]]]]]]].
  unfold cross_phase2. apply Nat.eqb_neq in Hd. rewrite Hd.
  change (length (a :: zeros k ++ e :: t)) with (S (length (zeros k ++ e :: t))). cbv iota.
  rewrite app_length, zeros_length. cbn [length].
  pose proof (cscan_skip k [a] (e :: t) (S (length t)) ltac:(discriminate)) as G.
  cbn [app length] in G. change (1 - 1) with 0 in G. rewrite G. clear G. cbn [plus].
  rewrite for_loop_S. unfold cscan_body at 1.
  change (a :: zeros k ++ e :: t) with ((a :: zeros k) ++ e :: t).
  rewrite vget_app_hd by (simpl; rewrite zeros_length; lia). cbn [bind].
  apply Nat.eqb_neq in He. rewrite He. apply Nat.eqb_neq in He.
  change (vget ((a :: zeros k) ++ e :: t) 0) with (@Ok nat a). cbn [bind]. cbv zeta.
  rewrite MAX_max. rewrite (cross_factor_spec _ _ f) by assumption. cbn [bind].
  set (P := Nat.max 1 a * e) in *.
  assert (Hf0 : f <> 0) by lia. apply Nat.eqb_neq in Hf0. rewrite Hf0, andb_false_r.
  rewrite core1_div by (lia || assumption).
  assert (Hset : vset ((a :: zeros k) ++ e :: t) k f
     = Ok (match k with 0 => [f] | S k' => a :: zeros k' ++ [f] end ++ e :: t)).
  { destruct k as [|k'].
    - reflexivity.
    - rewrite <- zeros_snoc. 
      replace ((a :: zeros k' ++ [0]) ++ e :: t) with ((a :: zeros k') ++ 0 :: e :: t)
        by (simpl; rewrite <- app_assoc; reflexivity).
      rewrite vset_app_hd by (simpl; rewrite zeros_length; reflexivity).
      simpl. rewrite <- app_assoc. reflexivity. }
  rewrite Hset. cbn [bind].
  rewrite vset_app_hd by (destruct k; simpl; [reflexivity|rewrite app_length, zeros_length; simpl; lia]).
  cbn [bind].
  rewrite (proj2 (Nat.eqb_neq k (k + S (length t))) ltac:(lia)). cbn [andb].
  destruct k as [|k'].
  - reflexivity.
  - cbn. rewrite zeros_S. reflexivity.
Qed.

Lemma phase2_level : forall degree P d, 1 <= P -> degree <> 1 -> core1 P <> degree ->
  cross_phase2 degree (core1 P :: zeros d) = Ok (false, zeros d ++ [S P]).
Proof.
  intros degree P d HP H1 Hd. unfold cross_phase2. apply Nat.eqb_neq in H1. rewrite H1. cbn [length]. rewrite zeros_length.
  pose proof (cscan_none d [core1 P] ltac:(discriminate)) as G. cbn [app length] in G. change (1 - 1) with 0 in G.
  rewrite G. cbn [bind plus]. change (vget (core1 P :: zeros d) 0) with (@Ok nat (core1 P)). cbn [bind].
  apply Nat.eqb_neq in Hd. rewrite Hd, andb_false_r, Nat.eqb_refl. rewrite MAX_max, core1_max by assumption.
  destruct d as [|d].
  - reflexivity.
  - rewrite <- zeros_snoc at 1. change (core1 P :: zeros d ++ [0]) with ((core1 P :: zeros d) ++ [0]).
    rewrite vset_app_hd by (simpl; rewrite zeros_length; reflexivity). cbn. rewrite zeros_S. reflexivity.
Qed.

Lemma phase2_end : forall degree P d, degree = 1 \/ core1 P = degree ->
  exists x', cross_phase2 degree (core1 P :: zeros d) = Ok (true, x').
Proof.
  intros degree P d H. unfold cross_phase2. destruct (degree =? 1) eqn:E; [eexists; reflexivity|].
  destruct H as [ -> |H]; [discriminate|].
  cbn [length]. rewrite zeros_length.
  pose proof (cscan_none d [core1 P] ltac:(discriminate)) as G. cbn [app length] in G. change (1 - 1) with 0 in G.
  rewrite G. cbn [bind plus]. change (vget (core1 P :: zeros d) 0) with (@Ok nat (core1 P)). cbn [bind].
  rewrite H, !Nat.eqb_refl. eexists; reflexivity.
Qed.

(** * linking *)
Lemma linked_fac : forall d P, 1 <= P -> linked cstep (fac d P).
Proof.
  induction d as [|d IH]; intros P HP; [simpl; auto|].
  simpl fac. eapply linked_flat_map.
  - intros f Hf H. apply map_eq_nil in H. apply fac_ne in H; [assumption|]. apply divs_ex in Hf; tauto.
  - intros f Hf. eapply linked_map; [|apply IH; apply divs_ex in Hf; tauto]. intros. apply cstep_app. assumption.
  - unfold divs. apply filter_seq_linked.
  - intros f f' x y Hf Hf' [H1 [H2 [H3 H4]]] Hx Hy.
    apply divs_ex in Hf as [Hf [Ef Ef1]]; [|assumption]. 
    pose proof Hf' as Hin'. apply divs_ex in Hf' as [Hf' [Ef' Ef1']]; [|assumption].
    apply in_divs in Hin' as [_ Hmod]; [|assumption].
    rewrite last_opt_map, fac_last in Hx by assumption. rewrite hd_error_map, fac_hd in Hy by assumption.
    injection Hx as <-. injection Hy as <-.
    assert (He : 2 <= P / f). { clear H4 H2 H3. destruct (P / f) as [|[|n]]; [lia| |lia]. exfalso. nia. }
    assert (Hc : core1 (P / f) = P / f) by (unfold core1; replace (P / f =? 1) with false by (symmetry; apply Nat.eqb_neq; lia); reflexivity).
    assert (Hc' : core1 f' = f') by (unfold core1; replace (f' =? 1) with false by (symmetry; apply Nat.eqb_neq; lia); reflexivity).
    exists (core1 f), d, (P / f), [], f'. rewrite core1_max by assumption. rewrite Ef, Hc, Hc'.
    split; [apply core1_ne1|]. split; [lia|]. split; [reflexivity|]. split; [reflexivity|].
    split; [assumption|]. split; [nia|]. split; [assumption|].
    intros c Hcc Hm. specialize (H4 c Hcc). apply Nat.eqb_neq in H4. contradiction.
Qed.

Definition clev (d P : nat) : list mi := flat_map fills (fac d P).
Definition cross_spec (d degree : nat) : list mi := flat_map (clev d) (seq 1 (Nat.max 1 degree)).

Lemma clev_ne : forall d P, 1 <= P -> clev d P <> [].
Proof. intros. apply flat_map_ne; [apply fac_ne; assumption|intros; apply fills_ne]. Qed.

Lemma clev_hd : forall d P, 1 <= P -> hd_error (clev d P) = Some (zeros d ++ [core1 P]).
Proof.
  intros. unfold clev. pose proof (fac_hd d P H) as G. destruct (fac d P); [discriminate|].
  injection G as ->. rewrite hd_error_flat_map by apply fills_ne. apply fills_hd.
Qed.

Definition fillmax (x : nat) : nat := if x =? 0 then 1 else x.
Lemma clev_last : forall d P, 1 <= P -> last_opt (clev d P) = Some (map fillmax (core1 P :: zeros d)).
Proof.
  intros. unfold clev. pose proof (fac_last d P H) as G. apply last_opt_Some_app in G as [l ->].
  rewrite last_opt_flat_map_snoc by apply fills_ne. apply fills_last.
Qed.

Lemma core_zeros : forall P d, is_core (core1 P :: zeros d).
Proof.
  intros. constructor; [apply core1_ne1|]. induction d; [constructor|]. rewrite zeros_S. constructor; [discriminate|assumption].
Qed.

Lemma linked_clev : forall degree d P, 1 <= P -> (degree <> 1 \/ P = 1) ->
  linked (stepf (cross_increment degree)) (clev d P).
Proof.
  intros degree d P HP Hd. unfold clev.
  assert (HQ : linked (fun v w => degree <> 1 /\ is_core v /\ cstep v w) (fac d P)).
  { destruct Hd as [Hd| -> ].
    - eapply linked_impl; [|apply linked_fac; assumption]. intros x y Hx _ Hs. split; [assumption|]. split; [|assumption].
      eapply fac_core; eassumption.
    - assert (G : exists a, fac d 1 = [a]).
      { clear. induction d as [|d [a IH]]; [eexists; reflexivity|]. simpl fac. change (divs 1) with [1].
        cbn [flat_map]. rewrite IH. eexists; reflexivity. }
      destruct G as [a ->]. simpl. auto. }
  eapply linked_flat_map; [| |exact HQ|].
  - intros; apply fills_ne.
  - intros c Hc. eapply linked_impl; [|apply linked_fills; eapply fac_core; eassumption].
    intros x y _ _ H. unfold stepf. rewrite cross_increment_phases, H. reflexivity.
  - intros a b x y _ _ [Hd1 [Hc Hs]] Hx Hy. rewrite fills_last in Hx. rewrite fills_hd in Hy.
    injection Hx as <-. injection Hy as <-. unfold stepf. rewrite cross_increment_phases.
    destruct (fillo_last a Hc) as [-> ->]. apply phase2_step; assumption.
Qed.

Lemma cross_linked : forall d degree, linked (stepf (cross_increment degree)) (cross_spec d degree).
Proof.
  intros. unfold cross_spec. eapply linked_flat_map with (Q := fun x y => y = S x).
  - intros P HP. apply in_seq in HP. apply clev_ne. lia.
  - intros P HP. apply in_seq in HP. apply linked_clev; lia.
  - apply linked_seq.
  - intros a b x y Ha Hb -> Hx Hy. apply in_seq in Ha, Hb.
    rewrite clev_last in Hx by lia. rewrite clev_hd in Hy by lia.
    apply Some_inj in Hx, Hy. subst x y.
    unfold stepf. rewrite cross_increment_phases.
    destruct (fillo_last (core1 a :: zeros d) (core_zeros a d)) as [H1 H2]. unfold fillmax. rewrite H1, H2.
    rewrite phase2_level.
    + f_equal. f_equal. f_equal. unfold core1. replace (S a =? 1) with false by (symmetry; apply Nat.eqb_neq; lia). reflexivity.
    + lia.
    + lia.
    + unfold core1. destruct (a =? 1) eqn:E; lia.
Qed.

Lemma cross_hd : forall d degree, hd_error (cross_spec d degree) = Some (zeros (S d)).
Proof.
  intros. unfold cross_spec. assert (exists n, Nat.max 1 degree = S n) as [n ->] by (exists (Nat.max 1 degree - 1); lia).
  simpl seq. rewrite hd_error_flat_map by (apply clev_ne; lia). rewrite clev_hd by lia. change (core1 1) with 0. rewrite zeros_snoc. reflexivity.
Qed.

Lemma cross_last : forall d degree,
  last_opt (cross_spec d degree) = Some (Nat.max 1 degree :: repeat 1 d).
Proof.
  intros. unfold cross_spec. assert (exists n, Nat.max 1 degree = S n) as [n E] by (exists (Nat.max 1 degree - 1); lia).
  rewrite E, seq_S. rewrite last_opt_flat_map_snoc by (apply clev_ne; lia). rewrite clev_last by lia. simpl plus.
  cbn [map]. f_equal. f_equal.
  - unfold fillmax, core1. destruct n; reflexivity.
  - clear. induction d; [reflexivity|]. rewrite zeros_S. simpl. f_equal. assumption.
Qed.

Lemma cross_stop : forall d degree x, last_opt (cross_spec d degree) = Some x ->
  exists x', cross_increment degree x = Ok (true, x').
Proof.
  intros d degree x. unfold cross_spec. assert (exists n, Nat.max 1 degree = S n) as [n E] by (exists (Nat.max 1 degree - 1); lia).
  rewrite E, seq_S. rewrite last_opt_flat_map_snoc by (apply clev_ne; lia). rewrite clev_last by lia. simpl plus.
  intros H. apply Some_inj in H. subst x. rewrite cross_increment_phases.
  destruct (fillo_last _ (core_zeros (S n) d)) as [H1 H2].
  unfold fillmax. rewrite H1, H2. apply phase2_end.
  destruct degree as [|[|degree]]; [right|left; reflexivity|right]; simpl in E; injection E as <-; reflexivity.
Qed.

Lemma in_cross_spec : forall d degree m,
  In m (cross_spec d degree) <-> length m = S d /\ cross_prod m <= Nat.max 1 degree.
Proof.
  intros. unfold cross_spec, clev. rewrite in_flat_map. split.
  - intros [P [HP Hm]]. apply in_seq in HP. apply in_flat_map in Hm as [c [Hc Hm]].
    pose proof (fac_core d P c ltac:(lia) Hc) as Hcore. apply in_fills in Hm; [|assumption].
    apply in_fac in Hc as [Hl [_ Hp]]; [|lia]. rewrite <- (coreof_length m), Hm. split; [assumption|].
    rewrite <- cross_prod_core, Hm. lia.
  - intros [Hl Hp]. exists (cross_prod m). pose proof (cross_prod_pos m). split; [apply in_seq; lia|].
    apply in_flat_map. exists (coreof m). split.
    + apply in_fac; [assumption|]. rewrite coreof_length, cross_prod_core. repeat split; auto. apply coreof_core.
    + apply in_fills; [apply coreof_core|reflexivity].
Qed.

Lemma NoDup_cross_spec : forall d degree, NoDup (cross_spec d degree).
Proof.
  intros. unfold cross_spec. apply NoDup_flat_map; [apply seq_NoDup| |].
  - intros P HP. apply in_seq in HP. apply NoDup_flat_map; [apply NoDup_fac; lia|intros; apply NoDup_fills|].
    intros a b x Ha Hb Hx Hx'. apply fac_core in Ha; [|lia]. apply fac_core in Hb; [|lia].
    apply in_fills in Hx; [|assumption]. apply in_fills in Hx'; [|assumption]. congruence.
  - intros a b x Ha Hb Hx Hx'. apply in_seq in Ha, Hb.
    assert (G : forall P, 1 <= P -> In x (clev d P) -> cross_prod x = P).
    { intros P HP H. apply in_flat_map in H as [c [Hc Hm]]. pose proof (fac_core d P c HP Hc) as Hcore.
      apply in_fills in Hm; [|assumption]. apply in_fac in Hc as [_ [_ Hp]]; [|assumption].
      rewrite <- cross_prod_core, Hm. assumption. }
    rewrite <- (G a), <- (G b); [reflexivity| | | |]; lia || assumption.
Qed.

Lemma cross_prefix : forall d degree degree', degree <= degree' ->
  prefix (cross_spec d degree) (cross_spec d degree').
Proof.
  intros. unfold cross_spec.
  exists (flat_map (clev d) (seq (S (Nat.max 1 degree)) (Nat.max 1 degree' - Nat.max 1 degree))).
  rewrite <- flat_map_app. f_equal.
  replace (Nat.max 1 degree') with (Nat.max 1 degree + (Nat.max 1 degree' - Nat.max 1 degree)) at 1 by lia.
  rewrite seq_app. reflexivity.
Qed.
