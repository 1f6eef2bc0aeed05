(** Proofs about the cube and rectangle enumerations: shells of the weighted maximum. *)
From Coq Require Import List Arith ZArith Lia Bool Permutation.
From Verif Require Import Base Lists IndexModel Spec Traverse.
Import ListNotations.

(** * Generic increment: Rectangle_iterator::s_increment with arbitrary factors *)
Definition gen_argmax (ws m : mi) : res (nat * nat) :=
  for_each (fun i '(max, ind) =>
      x <- vget m i ;;
      f <- vget ws i ;;
      Ok (if max <=? x * f then (x * f, i) else (max, ind))) (length m) 0 (0, 0).

Definition gen_body (ws : mi) (max ind : nat) (i : nat) (m : mi) : res (ctl mi mi) :=
  x <- vget m i ;;
  f <- vget ws i ;;
  if (x + 1) * f <? max + (if i <? ind then 1 else 0) then
    m' <- vset m i (x + 1) ;; Ok (Return m')
  else if negb (i =? ind) then
    m' <- vset m i 0 ;; Ok (Next m')
  else Ok (Next m).

Definition next_body (ws : mi) (max next : nat) (_ : unit) : res (ctl unit unit) :=
  f <- vget ws next ;;
  Ok (if max mod f =? 0 then Break tt else Next tt).

Definition gen_increment (ws : mi) (degree : nat) (m : mi) : res (bool * mi) :=
  let dim := length m in
  '(max, ind) <- gen_argmax ws m ;;
  r <- for_loop (gen_body ws max ind) dim 0 m ;;
  match r with
  | inl m => Ok (false, m)
  | inr (_, m) =>
      if ind + 1 =? dim then
        if degree <=? max then Ok (true, m)
        else m <- vset m ind 0 ;; m <- vset m 0 (max + 1) ;; Ok (false, m)
      else
        m <- vset m ind 0 ;;
        r <- for_loop (next_body ws max) (dim - (ind + 1)) (ind + 1) tt ;;
        match r with
        | inl _ => Ub
        | inr (next, _) =>
            if next <? dim then
              f <- vget ws next ;;
              m <- vset m ind 0 ;;
              m <- vset m next (max / f) ;;
              Ok (false, m)
            else if max =? degree then Ok (true, m)
            else m <- vset m ind 0 ;; m <- vset m 0 (max + 1) ;; Ok (false, m)
        end
  end.

Lemma rect_increment_gen : forall degree m,
  rect_increment degree m = gen_increment (rect_factors (length m)) degree m.
Proof. reflexivity. Qed.

Lemma for_each_ext : forall S (b1 b2 : nat -> S -> res S) n i s,
  (forall j s, i <= j < i + n -> b1 j s = b2 j s) -> for_each b1 n i s = for_each b2 n i s.
Proof.
  induction n as [|n IH]; intros i s H; [reflexivity|].
  rewrite !for_each_S, H by lia. destruct (b2 i s); simpl; try reflexivity. apply IH. intros; apply H; lia.
Qed.

Lemma for_loop_ext : forall S R (b1 b2 : nat -> S -> res (ctl S R)) n i s,
  (forall j s, i <= j < i + n -> b1 j s = b2 j s) -> for_loop b1 n i s = for_loop b2 n i s.
Proof.
  induction n as [|n IH]; intros i s H; [reflexivity|].
  rewrite !for_loop_S, H by lia. destruct (b2 i s) as [[]| | | |]; simpl; try reflexivity. apply IH. intros; apply H; lia.
Qed.

Lemma vget_repeat : forall A (x : A) n i, i < n -> vget (repeat x n) i = Ok x.
Proof.
  intros. unfold vget. rewrite (nth_error_nth' _ x) by (rewrite repeat_length; assumption).
  rewrite nth_repeat. reflexivity.
Qed.

Lemma bind_ext : forall A B (x : res A) (f g : A -> res B), (forall a, x = Ok a -> f a = g a) -> bind x f = bind x g.
Proof. intros. destruct x; simpl; auto. Qed.

Lemma cube_argmax_gen : forall m, cube_argmax m = gen_argmax (repeat 1 (length m)) m.
Proof.
  intros. unfold cube_argmax, gen_argmax. apply for_each_ext. intros j [mx ind] Hj.
  destruct (vget m j); simpl; try reflexivity. rewrite vget_repeat by lia. simpl. rewrite Nat.mul_1_r. reflexivity.
Qed.

Lemma for_loop_length : forall S R (b : nat -> S -> res (ctl S R)) (P : S -> Prop) n i s j s',
  (forall j s s', P s -> b j s = Ok (Next s') -> P s') ->
  (forall j s s', P s -> b j s = Ok (Break s') -> P s') ->
  P s -> for_loop b n i s = Ok (inr (j, s')) -> P s'.
Proof.
  induction n as [|n IH]; intros i s j s' H1 H2 Hs H.
  - injection H as <- <-. assumption.
  - rewrite for_loop_S in H. destruct (b i s) as [[]| | | |] eqn:E; simpl in H; try discriminate.
    + eapply IH; [assumption|assumption| |exact H]. eapply H1; eassumption.
    + injection H as <- <-. eapply H2; eassumption.
Qed.

Lemma vset_length : forall A (v : list A) i x v', vset v i x = Ok v' -> length v' = length v.
Proof. intros A v i x v' H. unfold vset in H. destruct (i <? length v); [|discriminate]. injection H as <-. apply upd_length. Qed.

Lemma vset_lt : forall A (v : list A) i x v', vset v i x = Ok v' -> i < length v.
Proof. intros A v i x v' H. unfold vset in H. destruct (i <? length v) eqn:E; [|discriminate]. apply Nat.ltb_lt in E. exact E. Qed.

Lemma upd_upd : forall A (v : list A) i x y, upd (upd v i x) i y = upd v i y.
Proof. induction v as [|z v IH]; intros [|i] x y; simpl; auto. rewrite IH. reflexivity. Qed.

Lemma vset_vset : forall A (v : list A) i x y, (m <- vset v i x ;; vset m i y) = vset v i y.
Proof.
  intros. unfold vset at 1. destruct (i <? length v) eqn:E; simpl.
  - unfold vset. rewrite upd_length, E, upd_upd. reflexivity.
  - unfold vset. rewrite E. reflexivity.
Qed.

Lemma gen_argmax_lt : forall ws m mx ind, gen_argmax ws m = Ok (mx, ind) -> m <> [] -> ind < length m.
Proof.
  intros ws m mx ind H Hm. unfold gen_argmax in H.
  assert (G : forall n i st st', i + n <= length m -> snd st < length m ->
     for_each (fun i '(max, ind) =>
      x <- vget m i ;;
      f <- vget ws i ;;
      Ok (if max <=? x * f then (x * f, i) else (max, ind))) n i st = Ok st' -> snd st' < length m).
  { induction n as [|n IH]; intros i [a b] st' Hn Hs E.
    - injection E as <-. exact Hs.
    - rewrite for_each_S in E. destruct (vget m i); simpl in E; try discriminate.
      destruct (vget ws i); simpl in E; try discriminate.
      eapply IH in E; [exact E|lia|]. destruct (a <=? a0 * a1); simpl; [lia|exact Hs]. }
  apply G in H; simpl in *; try lia; destruct m; simpl in *; try contradiction; lia.
Qed.

Ltac kill_vset H := match type of H with context[vset ?a ?b ?c] => destruct (vset a b c) end; simpl in H; discriminate.
Ltac kill_if H := match type of H with (if ?c then _ else _) = _ => destruct c end.
Ltac kill_neg H := match type of H with context[negb ?a] => destruct (negb a) end.

Lemma cube_increment_gen : forall degree m, m <> [] ->
  cube_increment degree m = gen_increment (repeat 1 (length m)) degree m.
Proof.
  intros degree m Hm. unfold cube_increment, gen_increment. rewrite cube_argmax_gen.
  apply bind_ext. intros [mx ind] Harg. apply gen_argmax_lt in Harg; [|assumption].
  rewrite (for_loop_ext _ _ (gen_body (repeat 1 (length m)) mx ind)
     (fun i m0 => x <- vget m0 i ;;
         if x + 1 <? mx + (if i <? ind then 1 else 0) then
           m' <- vset m0 i (x + 1) ;; Ok (Return m')
         else if negb (i =? ind) then
           m' <- vset m0 i 0 ;; Ok (Next m')
         else Ok (Next m0))).
  2:{ intros j s Hj. unfold gen_body. rewrite vget_repeat by lia. simpl.
      destruct (vget s j); simpl; try reflexivity. rewrite Nat.mul_1_r. reflexivity. }
  apply bind_ext. intros [m'|[j m']] HL; [reflexivity|].
  destruct (ind + 1 =? length m) eqn:E; [reflexivity|].
  apply Nat.eqb_neq in E.
  assert (Hlen : length m' = length m).
  { eapply (for_loop_length _ _ _ (fun s => length s = length m)); [| | |exact HL].
    - intros j0 s s' Hs Hb. cbv beta in Hb. destruct (vget s j0); simpl in Hb; try discriminate.
      kill_if Hb; [kill_vset Hb|].
      kill_neg Hb.
      + destruct (vset s j0 0) eqn:Ev; simpl in Hb; try discriminate. injection Hb as <-.
        apply vset_length in Ev. congruence.
      + injection Hb as <-. assumption.
    - intros j0 s s' Hs Hb. cbv beta in Hb. destruct (vget s j0); simpl in Hb; try discriminate.
      kill_if Hb; [kill_vset Hb|].
      kill_neg Hb; [kill_vset Hb|discriminate].
    - reflexivity. }
  rewrite vset_Ok by lia. cbn [bind].
  replace (length m - (ind + 1)) with (S (length m - (ind + 2))) by lia.
  rewrite for_loop_S. unfold next_body at 1. rewrite vget_repeat by lia. cbn [bind].
  rewrite Nat.mod_1_r. cbn [Nat.eqb]. cbn [bind].
  replace (ind + 1 <? length m) with true by (symmetry; apply Nat.ltb_lt; lia).
  rewrite vget_repeat by lia. cbn [bind]. rewrite Nat.div_1_r.
  rewrite (vset_Ok _ (upd m' ind 0) ind) by (rewrite upd_length; lia).
  cbn [bind]. rewrite upd_upd. reflexivity.
Qed.

(** * Boxes: all vectors bounded by [cs], first coordinate fastest *)
Fixpoint box (cs : mi) : list mi :=
  match cs with
  | [] => [[]]
  | c :: cs' => flat_map (fun t => map (fun x => x :: t) (seq 0 (S c))) (box cs')
  end.

Fixpoint odo (cs v : mi) : option mi :=
  match cs, v with
  | c :: cs', x :: v' => if x <? c then Some (S x :: v') else option_map (cons 0) (odo cs' v')
  | _, _ => None
  end.

Lemma box_cons : forall c cs,
  box (c :: cs) = flat_map (fun t => map (fun x => x :: t) (seq 0 (S c))) (box cs).
Proof. reflexivity. Qed.

Lemma in_box : forall cs v, In v (box cs) <-> Forall2 le v cs.
Proof.
  induction cs as [|c cs IH]; intros v; [simpl box|rewrite box_cons].
  - split; [intros [<-|[]]; constructor|intros H; inversion H; left; reflexivity].
  - rewrite in_flat_map. split.
    + intros [t [Ht Hv]]. apply in_map_iff in Hv as [x [<- Hx]]. apply in_seq in Hx.
      constructor; [lia|apply IH; assumption].
    + intros H. inversion H; subst. exists l. split; [apply IH; assumption|].
      apply in_map_iff. exists x. split; [reflexivity|]. apply in_seq. lia.
Qed.

Lemma NoDup_box : forall cs, NoDup (box cs).
Proof.
  induction cs as [|c cs IH]; [constructor; [simpl; tauto|constructor]|]. rewrite box_cons.
  apply NoDup_flat_map; [assumption| |].
  - intros t _. apply NoDup_map_inj; [congruence|apply seq_NoDup].
  - intros a b x _ _ Ha Hb. apply in_map_iff in Ha as [u [<- _]]. apply in_map_iff in Hb as [w [E _]]. congruence.
Qed.

Lemma box_ne : forall cs, box cs <> [].
Proof.
  intros cs H. assert (In (zeros (length cs)) (box cs)).
  { apply in_box. clear H. induction cs as [|c cs IH]; [constructor|]. simpl. rewrite zeros_S. constructor; [lia|exact IH]. }
  rewrite H in H0. exact H0.
Qed.

Lemma box_length : forall cs, length (box cs) = fold_right Nat.mul 1 (map S cs).
Proof.
  induction cs as [|c cs IH]; [reflexivity|].
  change (box (c :: cs)) with (flat_map (fun t => map (fun x => x :: t) (seq 0 (S c))) (box cs)).
  cbn [map fold_right]. rewrite <- IH. generalize (box cs). clear. intros l.
  induction l as [|a l IH]; [simpl; lia|].
  cbn [flat_map]. rewrite app_length, map_length, seq_length, IH. simpl length. lia.
Qed.

Lemma row_ne : forall c t, map (fun x => x :: t) (seq 0 (S c)) <> ([] : list mi).
Proof. discriminate. Qed.

Lemma box_hd : forall cs, hd_error (box cs) = Some (zeros (length cs)).
Proof.
  induction cs as [|c cs IH]; [reflexivity|]. rewrite box_cons.
  destruct (box cs) as [|t l]; [discriminate|]. injection IH as ->.
  rewrite hd_error_flat_map by discriminate. reflexivity.
Qed.

Lemma box_last : forall cs, last_opt (box cs) = Some cs.
Proof.
  induction cs as [|c cs IH]; [reflexivity|].
  apply last_opt_Some_app in IH as [l E].
  change (box (c :: cs)) with (flat_map (fun t => map (fun x => x :: t) (seq 0 (S c))) (box cs)).
  rewrite E, last_opt_flat_map_snoc by apply row_ne.
  rewrite seq_S, map_app. simpl map. rewrite last_opt_snoc. reflexivity.
Qed.

Lemma odo_last : forall cs, odo cs cs = None.
Proof. induction cs as [|c cs IH]; [reflexivity|]. simpl. rewrite Nat.ltb_irrefl, IH. reflexivity. Qed.

Lemma linked_box : forall cs, linked (fun v w => odo cs v = Some w) (box cs).
Proof.
  induction cs as [|c cs IH]; [simpl; auto|].
  change (box (c :: cs)) with (flat_map (fun t => map (fun x => x :: t) (seq 0 (S c))) (box cs)).
  eapply linked_flat_map; [| |exact IH|].
  - intros; apply row_ne.
  - intros t _. eapply linked_map with (R := fun x y => y = S x /\ x < c).
    + intros x y [-> Hx]. simpl. apply Nat.ltb_lt in Hx. rewrite Hx. reflexivity.
    + clear. assert (G : forall n a, a + n <= S c -> linked (fun x y => y = S x /\ x < c) (seq a n)).
      { induction n as [|n IH]; intros a Ha; simpl; [exact I|]. split; [|apply IH; lia].
        destruct n; simpl; [exact I|]. split; [reflexivity|lia]. }
      apply G. lia.
  - intros a b x y _ _ Hab Hx Hy. rewrite seq_S, map_app in Hx. simpl map in Hx. rewrite last_opt_snoc in Hx.
    injection Hx as <-. simpl in Hy. injection Hy as <-. simpl. rewrite Nat.ltb_irrefl, Hab. reflexivity.
Qed.

Lemma odo_length : forall cs v w, odo cs v = Some w -> length w = length v.
Proof.
  induction cs as [|c cs IH]; intros [|x v] w H; simpl in H; try discriminate.
  destruct (x <? c); [injection H as <-; reflexivity|].
  destruct (odo cs v) eqn:E; [|discriminate]. injection H as <-. simpl. f_equal. eapply IH; eassumption.
Qed.

(** odometer on a concatenation *)
Lemma odo_app : forall ca va cb vb, length ca = length va ->
  odo (ca ++ cb) (va ++ vb) =
  match odo ca va with
  | Some va' => Some (va' ++ vb)
  | None => option_map (app (zeros (length va))) (odo cb vb)
  end.
Proof.
  induction ca as [|c ca IH]; intros [|x va] cb vb Hl; try discriminate.
  - simpl. destruct (odo cb vb); reflexivity.
  - simpl. injection Hl as Hl. destruct (x <? c); [reflexivity|].
    rewrite IH by assumption. destruct (odo ca va); [reflexivity|].
    destruct (odo cb vb); simpl; [|reflexivity]. rewrite zeros_S. reflexivity.
Qed.

(** the carry loop over a segment [seg] of the vector, all of whose positions differ from ind *)
Lemma carry_segment : forall ws max ind n seg cs p q,
  length cs = length seg ->
  (forall j x c, nth_error seg j = Some x -> nth_error cs j = Some c -> length p + j <> ind) ->
  (forall j x c, nth_error seg j = Some x -> nth_error cs j = Some c -> exists f,
     nth_error ws (length p + j) = Some f /\
     ((x + 1) * f <? max + (if length p + j <? ind then 1 else 0)) = (x <? c)) ->
  for_loop (gen_body ws max ind) (length seg + n) (length p) (p ++ seg ++ q) =
  match odo cs seg with
  | Some seg' => Ok (inl (p ++ seg' ++ q))
  | None => for_loop (gen_body ws max ind) n (length p + length seg) (p ++ zeros (length seg) ++ q)
  end.
Proof.
  intros ws max ind n seg. induction seg as [|x seg IH]; intros cs p q Hl Hind Hc.
  - destruct cs; [|discriminate]. simpl. rewrite Nat.add_0_r, zeros_0. reflexivity.
  - destruct cs as [|c cs]; [discriminate|]. injection Hl as Hl.
    cbn [length]. change (S (length seg) + n) with (S (length seg + n)). rewrite for_loop_S.
    unfold gen_body at 1. cbn [app]. rewrite vget_app_hd by reflexivity. cbn [bind].
    destruct (Hc 0 x c eq_refl eq_refl) as [f [Hf Hb]]. rewrite Nat.add_0_r in Hf, Hb.
    unfold vget at 1. rewrite Hf. cbn [bind]. rewrite Hb.
    specialize (Hind 0 x c eq_refl eq_refl) as Hi. rewrite Nat.add_0_r in Hi.
    cbn [odo]. destruct (x <? c).
    + rewrite vset_app_hd by reflexivity. cbn [bind]. rewrite Nat.add_1_r. reflexivity.
    + apply Nat.eqb_neq in Hi. rewrite Hi. cbn [negb]. rewrite vset_app_hd by reflexivity. cbn [bind].
      specialize (IH cs (p ++ [0]) q Hl).
      rewrite app_length in IH. cbn [length] in IH. rewrite <- !app_assoc in IH. cbn [app] in IH.
      replace (length p + 1) with (S (length p)) in IH by lia.
      rewrite IH.
      * destruct (odo cs seg); cbn [option_map].
        -- rewrite <- app_assoc. reflexivity.
        -- rewrite zeros_S. cbn [app].
           replace (length p + S (length seg)) with (S (length p) + length seg) by lia.
           reflexivity.
      * intros j y d Hy Hd. specialize (Hind (S j) y d Hy Hd). lia.
      * intros j y d Hy Hd. specialize (Hc (S j) y d Hy Hd).
        replace (length p + S j) with (S (length p) + j) in Hc by lia. exact Hc.
Qed.

(** * One shell block: the last position of the weighted maximum [M] is [length va] *)
Section Block.
  Variables (wa wb : mi) (w M X : nat).
  Hypothesis Hpos : Forall (fun w => 1 <= w) (wa ++ w :: wb).
  Hypothesis HX : X * w = M.
  Hypothesis HM : M <> 0 \/ wb = [].
  Let ws := wa ++ w :: wb.
  Definition cap_a (wa : mi) (M : nat) : mi := map (fun f => M / f) wa.
  Definition cap_b (wb : mi) (M : nat) : mi := map (fun f => (M - 1) / f) wb.

  Lemma w_pos : 1 <= w.
  Proof. rewrite Forall_forall in Hpos. apply Hpos. apply in_or_app. right; left; reflexivity. Qed.

  Lemma argmax_a : forall va wa' p pw q qw mx ind,
    length p = length pw ->
    Forall2 (fun x f => x * f <= M) va wa' -> mx <= M ->
    forall n, exists mx' ind', mx' <= M /\
    for_each (fun i '(max, ind) =>
      x <- vget (p ++ va ++ q) i ;;
      f <- vget (pw ++ wa' ++ qw) i ;;
      Ok (if max <=? x * f then (x * f, i) else (max, ind))) (length va + n) (length p) (mx, ind)
    = for_each (fun i '(max, ind) =>
      x <- vget (p ++ va ++ q) i ;;
      f <- vget (pw ++ wa' ++ qw) i ;;
      Ok (if max <=? x * f then (x * f, i) else (max, ind))) n (length p + length va) (mx', ind').
  Proof.
    induction va as [|x va IH]; intros wa' p pw q qw mx ind Hp HF Hmx n; inversion HF; subst.
    - exists mx, ind. rewrite Nat.add_0_r. split; [assumption|reflexivity].
    - cbn [length]. change (S (length va) + n) with (S (length va + n)). rewrite for_each_S.
      cbn [app]. rewrite vget_app_hd by reflexivity. cbn [bind].
      rewrite vget_app_hd by assumption. cbn [bind].
      specialize (IH l' (p ++ [x]) (pw ++ [y]) q qw
        (if mx <=? x * y then x * y else mx) (if mx <=? x * y then length p else ind)).
      rewrite !app_length in IH. cbn [length] in IH. rewrite <- !app_assoc in IH. cbn [app] in IH.
      destruct (IH ltac:(lia) H3 ltac:(destruct (mx <=? x * y); lia) n) as [mx' [ind' [Hm' E]]].
      exists mx', ind'. split; [assumption|].
      replace (length p + S (length va)) with (length p + 1 + length va) by lia. rewrite <- E.
      rewrite Nat.add_1_r. destruct (mx <=? x * y); reflexivity.
  Qed.

  Lemma argmax_b : forall vb wb' p pw ind,
    length p = length pw ->
    Forall2 (fun x f => x * f < M) vb wb' ->
    for_each (fun i '(max, ind) =>
      x <- vget (p ++ vb) i ;;
      f <- vget (pw ++ wb') i ;;
      Ok (if max <=? x * f then (x * f, i) else (max, ind))) (length vb) (length p) (M, ind)
    = Ok (M, ind).
  Proof.
    induction vb as [|x vb IH]; intros wb' p pw ind Hp HF; inversion HF; subst wb'; subst.
    - reflexivity.
    - cbn [length]. rewrite for_each_S.
      rewrite vget_app_hd by reflexivity. cbn [bind].
      rewrite vget_app_hd by assumption. cbn [bind].
      replace (X * w <=? x * y) with false by (symmetry; apply Nat.leb_gt; lia).
      specialize (IH l' (p ++ [x]) (pw ++ [y]) ind).
      rewrite !app_length in IH. cbn [length] in IH. rewrite <- !app_assoc in IH. cbn [app] in IH.
      rewrite Nat.add_1_r in IH. apply IH; [lia|assumption].
  Qed.

  Lemma gen_argmax_block : forall va vb,
    Forall2 (fun x f => x * f <= M) va wa ->
    Forall2 (fun x f => x * f < M) vb wb ->
    gen_argmax ws (va ++ X :: vb) = Ok (M, length va).
  Proof.
    intros va vb Ha Hb. unfold gen_argmax. rewrite app_length. cbn [length].
    destruct (argmax_a va wa [] [] (X :: vb) (w :: wb) 0 0 eq_refl Ha ltac:(lia) (S (length vb)))
      as [mx [ind [Hmx E]]].
    cbn [app length] in E. unfold ws. rewrite E. clear E.
    rewrite for_each_S. rewrite vget_app_hd by lia. cbn [bind].
    assert (Hl : length va = length wa) by (eapply Forall2_length; eassumption).
    rewrite vget_app_hd by lia. cbn [bind]. rewrite HX.
    replace (mx <=? M) with true by (symmetry; apply Nat.leb_le; assumption).
    pose proof (argmax_b vb wb (va ++ [X]) (wa ++ [w]) (length va)) as G.
    rewrite !app_length in G. cbn [length] in G. rewrite <- !app_assoc in G. cbn [app] in G.
    rewrite Nat.add_1_r in G. apply G; [lia|assumption].
  Qed.

  Lemma caps_a : forall va, Forall2 le va (cap_a wa M) -> Forall2 (fun x f => x * f <= M) va wa.
  Proof.
    intros va H. unfold cap_a in H. revert va H.
    assert (Hp : Forall (fun w => 1 <= w) wa) by (apply Forall_app in Hpos; tauto).
    clear Hpos. induction Hp as [|f wa' Hf Hp IH]; intros va H; inversion H; subst; constructor.
    - eapply Nat.le_trans; [apply Nat.mul_le_mono_r; eassumption|]. rewrite Nat.mul_comm. apply Nat.mul_div_le. lia.
    - apply IH. assumption.
  Qed.

  Lemma caps_b : forall vb, Forall2 le vb (cap_b wb M) -> Forall2 (fun x f => x * f < M) vb wb.
  Proof.
    intros vb H. unfold cap_b in H.
    assert (Hp : Forall (fun w => 1 <= w) wb) by (apply Forall_app in Hpos as [_ Hp]; inversion Hp; assumption).
    destruct HM as [HM'| -> ]; [|inversion H; constructor]. clear HX HM Hpos. revert vb H.
    induction Hp as [|f wb' Hf Hp IH]; intros vb H; inversion H; subst; constructor.
    - assert (x * f <= M - 1); [|lia].
      eapply Nat.le_trans; [apply Nat.mul_le_mono_r; eassumption|]. rewrite Nat.mul_comm. apply Nat.mul_div_le. lia.
    - apply IH; assumption.
  Qed.

  Lemma caps_a_inv : forall va, Forall2 (fun x f => x * f <= M) va wa -> Forall2 le va (cap_a wa M).
  Proof.
    intros va H. unfold cap_a.
    assert (Hp : Forall (fun w => 1 <= w) wa) by (apply Forall_app in Hpos; tauto).
    clear Hpos. induction H; simpl; inversion Hp; subst; constructor.
    - apply Nat.div_le_lower_bound; lia.
    - apply IHForall2; assumption.
  Qed.

  Lemma caps_b_inv : forall vb, Forall2 (fun x f => x * f < M) vb wb -> Forall2 le vb (cap_b wb M).
  Proof.
    intros vb H. unfold cap_b.
    assert (Hp : Forall (fun w => 1 <= w) wb) by (apply Forall_app in Hpos as [_ Hp]; inversion Hp; assumption).
    clear Hpos HM. induction H; simpl; inversion Hp; subst; constructor.
    - apply Nat.div_le_lower_bound; lia.
    - apply IHForall2; assumption.
  Qed.

  Lemma carry_block : forall va vb,
    In va (box (cap_a wa M)) -> In vb (box (cap_b wb M)) ->
    for_loop (gen_body ws M (length va)) (length (va ++ X :: vb)) 0 (va ++ X :: vb) =
    match odo (cap_a wa M) va with
    | Some va' => Ok (inl (va' ++ X :: vb))
    | None =>
        match odo (cap_b wb M) vb with
        | Some vb' => Ok (inl (zeros (length va) ++ X :: vb'))
        | None => Ok (inr (length (va ++ X :: vb), zeros (length va) ++ X :: zeros (length vb)))
        end
    end.
  Proof.
    intros va vb Ha Hb. apply in_box in Ha, Hb.
    assert (La : length va = length wa) by (apply Forall2_length in Ha; rewrite Ha; apply map_length).
    assert (Lb : length vb = length wb) by (apply Forall2_length in Hb; rewrite Hb; apply map_length).
    rewrite app_length. cbn [length].
    pose proof (carry_segment ws M (length va) (S (length vb)) va (cap_a wa M) [] (X :: vb)) as Ga.
    cbn [app length plus] in Ga. rewrite Ga.
    2:{ apply Forall2_length in Ha. symmetry; assumption. }
    2:{ intros j x c Hx Hc. assert (j < length va) by (apply nth_error_Some; congruence). lia. }
    2:{ intros j x c Hx Hc. unfold cap_a in Hc. rewrite nth_error_map in Hc.
        destruct (nth_error wa j) as [f|] eqn:Ef; [|discriminate]. injection Hc as <-.
        assert (Hj : j < length va) by (apply nth_error_Some; congruence).
        exists f. split.
        - unfold ws. rewrite nth_error_app1 by lia. assumption.
        - apply Nat.ltb_lt in Hj. rewrite Hj.
          assert (1 <= f). { apply nth_error_In in Ef. rewrite Forall_forall in Hpos. apply Hpos. apply in_or_app; auto. }
          apply eq_true_iff_eq. rewrite !Nat.ltb_lt. split; intros Hlt.
          + apply Nat.div_le_lower_bound; lia.
          + assert ((x + 1) * f <= M); [|lia].
            eapply Nat.le_trans; [apply Nat.mul_le_mono_r with (m := M / f); lia|].
            rewrite Nat.mul_comm. apply Nat.mul_div_le. lia. }
    clear Ga. destruct (odo (cap_a wa M) va); [reflexivity|].
    (* position ind *)
    rewrite for_loop_S. unfold gen_body at 1.
    rewrite vget_app_hd by (rewrite zeros_length; reflexivity). cbn [bind].
    unfold ws at 1. rewrite vget_app_hd by lia. cbn [bind].
    rewrite Nat.ltb_irrefl, Nat.add_0_r.
    replace ((X + 1) * w <? M) with false by (symmetry; apply Nat.ltb_ge; pose proof w_pos; lia).
    rewrite Nat.eqb_refl. cbn [negb bind].
    pose proof (carry_segment ws M (length va) 0 vb (cap_b wb M) (zeros (length va) ++ [X]) []) as Gb.
    rewrite !app_length, zeros_length in Gb. cbn [length] in Gb.
    rewrite Nat.add_0_r, !app_nil_r, <- !app_assoc in Gb. cbn [app] in Gb. rewrite Nat.add_1_r in Gb.
    rewrite Gb.
    2:{ apply Forall2_length in Hb. symmetry; assumption. }
    2:{ intros; lia. }
    2:{ intros j x c Hx Hc. unfold cap_b in Hc. rewrite nth_error_map in Hc.
        destruct (nth_error wb j) as [f|] eqn:Ef; [|discriminate]. injection Hc as <-.
        exists f. split.
        - unfold ws. rewrite nth_error_app2 by lia.
          replace (S (length va) + j - length wa) with (S j) by lia. exact Ef.
        - replace (S (length va) + j <? length va) with false by (symmetry; apply Nat.ltb_ge; lia).
          assert (1 <= f). { apply nth_error_In in Ef. rewrite Forall_forall in Hpos. apply Hpos. apply in_or_app; right; right; auto. }
          rewrite Nat.add_0_r.
          assert (HM' : M <> 0) by (destruct HM as [|Hw]; [assumption|rewrite Hw in Ef; destruct j; discriminate]).
          apply eq_true_iff_eq. rewrite !Nat.ltb_lt. split; intros Hlt.
          + apply Nat.div_le_lower_bound; lia.
          + assert ((x + 1) * f <= M - 1); [|lia].
            eapply Nat.le_trans; [apply Nat.mul_le_mono_r with (m := (M - 1) / f); lia|].
            rewrite Nat.mul_comm. apply Nat.mul_div_le. lia. }
    destruct (odo (cap_b wb M) vb) as [vb'|].
    - rewrite app_nil_r, <- app_assoc. reflexivity.
    - cbn [for_loop]. rewrite ?app_nil_r, <- ?app_assoc. cbn [app].
      rewrite (Nat.add_succ_r (length va)). reflexivity.
  Qed.

  Lemma gen_increment_block : forall degree va vb,
    In va (box (cap_a wa M)) -> In vb (box (cap_b wb M)) ->
    gen_increment ws degree (va ++ X :: vb) =
    match odo (cap_a wa M ++ cap_b wb M) (va ++ vb) with
    | Some v' => Ok (false, firstn (length wa) v' ++ X :: skipn (length wa) v')
    | None =>
      let z := zeros (length va) ++ X :: zeros (length vb) in
      let dim := length (va ++ X :: vb) in
      let m1 := zeros dim in
      if length va + 1 =? dim then
        if degree <=? M then Ok (true, z)
        else m <- vset m1 0 (M + 1) ;; Ok (false, m)
      else
        r <- for_loop (next_body ws M) (length vb) (length va + 1) tt ;;
        match r with
        | inl _ => Ub
        | inr (next, _) =>
            if next <? dim then
              f <- vget ws next ;;
              m <- vset m1 next (M / f) ;;
              Ok (false, m)
            else if M =? degree then Ok (true, m1)
            else m <- vset m1 0 (M + 1) ;; Ok (false, m)
        end
    end.
  Proof.
    intros degree va vb Ha Hb. unfold gen_increment.
    pose proof Ha as Ha'. pose proof Hb as Hb'. apply in_box in Ha', Hb'.
    rewrite gen_argmax_block by (apply caps_a || apply caps_b; assumption). cbn [bind].
    rewrite carry_block by assumption.
    assert (La : length va = length wa) by (apply Forall2_length in Ha'; rewrite Ha'; apply map_length).
    rewrite odo_app by (symmetry; eapply Forall2_length; eassumption).
    destruct (odo (cap_a wa M) va) as [va'|] eqn:Ea.
    { cbn [bind]. apply odo_length in Ea.
      rewrite firstn_app_exact, skipn_app_exact by lia. reflexivity. }
    destruct (odo (cap_b wb M) vb) as [vb'|] eqn:Eb.
    { cbn [bind option_map].
      rewrite firstn_app_exact, skipn_app_exact by (rewrite zeros_length; assumption). reflexivity. }
    cbn [bind option_map]. cbv zeta.
    set (z := zeros (length va) ++ X :: zeros (length vb)).
    assert (Hm1 : upd z (length va) 0 = zeros (length (va ++ X :: vb))).
    { unfold z. rewrite upd_app_hd by (rewrite zeros_length; reflexivity).
      rewrite app_length. cbn [length]. clear. generalize (length va) (length vb).
      induction n as [|n IH]; intros k; [rewrite zeros_0; simpl; rewrite zeros_S; reflexivity|].
      rewrite zeros_S. simpl app. rewrite IH. simpl plus. rewrite zeros_S. reflexivity. }
    assert (Hlz : length z = length (va ++ X :: vb)).
    { unfold z. rewrite !app_length. cbn [length]. rewrite !zeros_length. reflexivity. }
    assert (Hlt : length va < length (va ++ X :: vb)) by (rewrite app_length; simpl; lia).
    rewrite !vset_Ok with (v := z) by lia. rewrite Hm1. cbn [bind].
    destruct (length va + 1 =? length (va ++ X :: vb)) eqn:E.
    - destruct (degree <=? M); [reflexivity|]. reflexivity.
    - replace (length (va ++ X :: vb) - (length va + 1)) with (length vb) by (rewrite app_length; simpl; lia).
      assert (Hz0 : upd (zeros (length (va ++ X :: vb))) (length va) 0 = zeros (length (va ++ X :: vb))).
      { rewrite <- Hm1. apply upd_upd. }
      apply bind_ext. intros [u|[next u]] _; [reflexivity|].
      rewrite vset_Ok by (rewrite zeros_length; lia). rewrite Hz0. cbn [bind]. reflexivity.
  Qed.
End Block.
