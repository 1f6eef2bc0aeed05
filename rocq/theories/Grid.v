(** Proofs about Grid_iterator. *)
From Coq Require Import List Bool Arith ZArith Lia.
From Verif Require Import Base Lists IndexModel Spec Traverse Shell.
Import ListNotations.

Fixpoint glist (bounds : list nat) : list (list nat) :=
  match bounds with
  | [] => [[]]
  | b :: bs => flat_map (fun x => map (cons x) (glist bs)) (seq 0 b)
  end.

Definition pos_bounds (bounds : list nat) : Prop := Forall (fun b => 0 < b) bounds.

Lemma in_glist : forall bounds v, In v (glist bounds) <-> Forall2 lt v bounds.
Proof.
  induction bounds as [|b bs IH]; intros v; cbn [glist].
  - split; [intros [<-|[]]; constructor|]. intros H; inversion H; left; reflexivity.
  - rewrite in_flat_map. split.
    + intros [x [Hx Hv]]. apply in_seq in Hx. apply in_map_iff in Hv as [t [<- Ht]]. constructor; [lia|]. apply IH. assumption.
    + intros H. inversion H; subst. exists x. split; [apply in_seq; lia|]. apply in_map. apply IH. assumption.
Qed.

Lemma NoDup_glist : forall bounds, NoDup (glist bounds).
Proof.
  induction bounds as [|b bs IH]; cbn [glist]; [constructor; [simpl; tauto|constructor]|].
  apply NoDup_flat_map; [apply seq_NoDup| |].
  - intros x _. apply NoDup_map_inj; [congruence|assumption].
  - intros x y v _ _ Hx Hy. apply in_map_iff in Hx as [? [<- _]]. apply in_map_iff in Hy as [? [E _]]. congruence.
Qed.

Lemma glist_length : forall bounds, length (glist bounds) = fold_right Nat.mul 1 bounds.
Proof.
  induction bounds as [|b bs IH]; [reflexivity|]. cbn [glist fold_right].
  rewrite <- IH. generalize 0. induction b as [|b IHb]; intros k; [reflexivity|].
  cbn [seq flat_map]. rewrite app_length, map_length, IHb. lia.
Qed.

Lemma glist_hd : forall bounds, pos_bounds bounds -> hd_error (glist bounds) = Some (zeros (length bounds)).
Proof.
  induction 1 as [|b bs Hb Hbs IH]; [reflexivity|]. cbn [glist]. destruct b; [lia|]. cbn [seq flat_map length].
  rewrite zeros_S. rewrite hd_error_app, hd_error_map, IH. destruct (glist bs); [discriminate|]. reflexivity.
Qed.

Lemma glist_ne : forall bounds, pos_bounds bounds -> glist bounds <> [].
Proof. intros bounds H E. apply glist_hd in H. rewrite E in H. discriminate. Qed.

Lemma glist_last : forall bounds, pos_bounds bounds -> last_opt (glist bounds) = Some (map pred bounds).
Proof.
  induction 1 as [|b bs Hb Hbs IH]; [reflexivity|]. cbn [glist]. destruct b; [lia|]. rewrite seq_S.
  rewrite last_opt_flat_map_snoc.
  - rewrite last_opt_map, IH. reflexivity.
  - intros E. apply map_eq_nil in E. apply glist_ne in E; assumption.
Qed.

Definition gstep (bounds v w : list nat) : Prop :=
  exists p x q bp b bq, v = p ++ x :: q /\ w = p ++ S x :: zeros (length q) /\
    bounds = bp ++ b :: bq /\ length p = length bp /\ Forall2 (fun y c => y + 1 = c) q bq /\ S x < b.

Lemma max_suffix : forall bs, pos_bounds bs -> Forall2 (fun y c => y + 1 = c) (map pred bs) bs.
Proof. induction 1; simpl; constructor; [lia|assumption]. Qed.

Lemma linked_glist : forall bounds, pos_bounds bounds -> linked (gstep bounds) (glist bounds).
Proof.
  induction 1 as [|b bs Hb Hbs IH]; [simpl; auto|]. cbn [glist].
  eapply linked_flat_map with (Q := fun x y => y = S x).
  - intros x _ E. apply map_eq_nil in E. apply glist_ne in E; assumption.
  - intros x _. eapply linked_map; [|exact IH]. intros v w [p [y [q [bp [c [bq [-> [-> [E [Hl [Hq Hy]]]]]]]]]]].
    exists (x :: p), y, q, (b :: bp), c, bq. subst bs. repeat split; auto. simpl. rewrite Hl. reflexivity.
  - clear. generalize 0. induction b as [|b IH]; intros k; [exact I|]. cbn [seq linked]. split; [destruct b; reflexivity|apply IH].
  - intros x y v w Hx Hy -> Hv Hw. apply in_seq in Hx, Hy.
    rewrite last_opt_map, glist_last in Hv by assumption. rewrite hd_error_map, glist_hd in Hw by assumption.
    injection Hv as <-. injection Hw as <-.
    exists [], x, (map pred bs), [], b, bs. rewrite map_length. repeat split; [apply max_suffix; assumption|lia].
Qed.

(** the while loop *)
Lemma grid_while_unfold : forall m bounds i, grid_while m bounds i =
  (x <- vget m i ;; b <- vget bounds i ;;
  if x + 1 =? b then
    match i with
    | 0 => Ok (0, m)
    | S i' => m' <- vset m i 0 ;; grid_while m' bounds i'
    end
  else Ok (i, m)).
Proof. destruct i; reflexivity. Qed.

Lemma gw_skip : forall q bq p z bp bz,
  p <> [] -> length p = length bp -> Forall2 (fun y c => y + 1 = c) q bq ->
  grid_while (p ++ q ++ z) (bp ++ bq ++ bz) (length p + length q - 1)
  = grid_while (p ++ zeros (length q) ++ z) (bp ++ bq ++ bz) (length p - 1).
Proof.
  induction q as [|y q IH] using rev_ind; intros bq p z bp bz Hp Hl H.
  - inversion H; subst. cbn [length]. rewrite zeros_0, Nat.add_0_r. reflexivity.
  - apply Forall2_app_inv_l in H as [b1 [b2 [H1 [H2 ->]]]].
    inversion H2 as [|? c ? ? Hc Hn]; subst. inversion Hn; subst. clear H2 Hn.
    pose proof (Forall2_length _ _ _ _ _ H1) as Hl1.
    assert (length p <> 0) by (destruct p; [contradiction|simpl; lia]).
    rewrite app_length. cbn [length]. replace (length p + (length q + 1) - 1) with (S (length p + length q - 1)) by lia.
    rewrite grid_while_unfold.
    replace (p ++ (q ++ [y]) ++ z) with ((p ++ q) ++ y :: z) by (rewrite <- !app_assoc; reflexivity).
    replace (bp ++ (b1 ++ [y + 1]) ++ bz) with ((bp ++ b1) ++ (y + 1) :: bz) by (rewrite <- !app_assoc; reflexivity).
    rewrite vget_app_hd by (rewrite app_length; lia). cbn [bind].
    rewrite vget_app_hd by (rewrite app_length; lia). cbn [bind].
    rewrite Nat.eqb_refl. rewrite vset_app_hd by (rewrite app_length; lia). cbn [bind].
    rewrite <- !app_assoc. rewrite (IH b1 p (0 :: z) bp ((y + 1) :: bz)) by assumption.
    f_equal. rewrite Nat.add_1_r, <- zeros_snoc, <- app_assoc. reflexivity.
Qed.

Lemma grid_increment_step : forall bounds v w, gstep bounds v w -> grid_increment bounds v = Ok (false, w).
Proof.
  intros bounds v w [p [x [q [bp [b [bq [-> [-> [-> [Hl [Hq Hx]]]]]]]]]]]. pose proof (Forall2_length _ _ _ _ _ Hq) as Hlq.
  unfold grid_increment. rewrite app_length. cbn [length]. rewrite Nat.add_succ_r.
  pose proof (gw_skip q bq (p ++ [x]) [] (bp ++ [b]) [] ltac:(destruct p; discriminate)
    ltac:(rewrite !app_length, Hl; reflexivity) Hq) as G.
  rewrite !app_nil_r, <- !app_assoc in G. cbn [app] in G. rewrite app_length in G. cbn [length] in G.
  replace (length bp + length bq) with (length p + 1 + length q - 1) by lia. rewrite G. clear G.
  replace (length p + 1 - 1) with (length p) by lia. rewrite grid_while_unfold.
  rewrite vget_app_hd by reflexivity. cbn [bind]. rewrite vget_app_hd by assumption. cbn [bind].
  rewrite (proj2 (Nat.eqb_neq (x + 1) b)) by lia. cbn [bind].
  assert (E0 : exists x0 b0, vget (p ++ x :: zeros (length q)) 0 = Ok x0 /\ vget (bp ++ b :: bq) 0 = Ok b0 /\
     (length p =? 0) && (x0 + 1 =? b0) = false).
  { destruct p as [|p0 p]; destruct bp as [|b0 bp]; try discriminate.
    - exists x, b. repeat split; auto. apply andb_false_iff. right. apply Nat.eqb_neq. lia.
    - exists p0, b0. repeat split; auto. }
  destruct E0 as [x0 [b0 [-> [-> E]]]]. cbn [bind]. rewrite E.
  rewrite vget_app_hd by reflexivity. cbn [bind]. rewrite vset_app_hd by reflexivity. cbn [bind]. rewrite Nat.add_1_r. reflexivity.
Qed.

Lemma grid_increment_end : forall bounds, pos_bounds bounds -> bounds <> [] ->
  exists m, grid_increment bounds (map pred bounds) = Ok (true, m).
Proof.
  intros bounds H Hne. destruct bounds as [|b bs]; [contradiction|]. inversion H as [|? ? Hb Hbs]; subst.
  unfold grid_increment. cbn [length map].
  pose proof (gw_skip (map pred bs) bs [pred b] [] [b] [] ltac:(discriminate) eq_refl (max_suffix bs Hbs)) as G.
  rewrite !app_nil_r in G. cbn [app length] in G. rewrite map_length in G. replace (1 + length bs - 1) with (length bs) in G by lia.
  rewrite G. change (1 - 1) with 0. rewrite grid_while_unfold.
  change (vget (pred b :: zeros (length bs)) 0) with (@Ok nat (pred b)). change (vget (b :: bs) 0) with (@Ok nat b). cbn [bind].
  replace (pred b + 1 =? b) with true by (symmetry; apply Nat.eqb_eq; lia). cbn [bind].
  change (vget (pred b :: zeros (length bs)) 0) with (@Ok nat (pred b)). cbn [bind].
  replace (pred b + 1 =? b) with true by (symmetry; apply Nat.eqb_eq; lia). cbn [andb]. eexists. reflexivity.
Qed.

Theorem grid_list_Ok : forall bounds, pos_bounds bounds -> bounds <> [] -> grid_list bounds = Ok (glist bounds).
Proof.
  intros bounds H Hne. unfold grid_list. destruct (grid_increment_end bounds H Hne) as [m Hm].
  eapply enumerate_linked; [apply glist_hd; assumption| |apply glist_last; assumption|exact Hm|rewrite glist_length; lia].
  eapply linked_impl; [|apply linked_glist; assumption]. intros x y _ _ Hs. apply grid_increment_step. assumption.
Qed.

(** * index *)
Fixpoint gidx (bounds m : list nat) : nat :=
  match bounds, m with
  | b :: bs, x :: m' => x * fold_right Nat.mul 1 bs + gidx bs m'
  | _, _ => 0
  end.

Definition gbody (bounds m : list nat) (i : nat) (st : Z * Z) : res (Z * Z) :=
  let '(result, factor) := st in
  let position := length bounds - 1 - i in
  x <- vget m position ;;
  b <- vget bounds position ;;
  Ok (u32 (result + factor * Z.of_nat x), u32 (factor * Z.of_nat b))%Z.

Lemma u32_eq : forall a b, (a mod 2 ^ 32 = b mod 2 ^ 32)%Z -> u32 a = u32 b.
Proof. intros. exact H. Qed.

Lemma gloop : forall p bp q bq, length p = length bp -> length q = length bq ->
  for_each (gbody (bp ++ bq) (p ++ q)) (length p) (length q)
    (u32 (Z.of_nat (gidx bq q)), u32 (Z.of_nat (fold_right Nat.mul 1 bq)))
  = Ok (u32 (Z.of_nat (gidx (bp ++ bq) (p ++ q))), u32 (Z.of_nat (fold_right Nat.mul 1 (bp ++ bq)))).
Proof.
  induction p as [|x p IH] using rev_ind; intros bp q bq Hp Hq.
  - destruct bp; [|discriminate]. reflexivity.
  - destruct bp as [|b bp _] using rev_ind; [rewrite app_length in Hp; simpl in Hp; lia|].
    rewrite !app_length in Hp. cbn [length] in Hp. assert (Hp' : length p = length bp) by lia.
    rewrite app_length. cbn [length]. rewrite Nat.add_1_r, for_each_S.
    assert (E : gbody ((bp ++ [b]) ++ bq) ((p ++ [x]) ++ q) (length q)
       (u32 (Z.of_nat (gidx bq q)), u32 (Z.of_nat (fold_right Nat.mul 1 bq)))
       = Ok (u32 (Z.of_nat (gidx (b :: bq) (x :: q))), u32 (Z.of_nat (fold_right Nat.mul 1 (b :: bq))))).
    { unfold gbody. rewrite <- !app_assoc. cbn [app].
      assert (Epos : length (bp ++ b :: bq) - 1 - length q = length bp) by (rewrite app_length; cbn [length]; lia).
      rewrite Epos. rewrite vget_app_hd by lia. cbn [bind]. rewrite vget_app_hd by lia. cbn [bind].
      f_equal. f_equal.
      - apply u32_eq. unfold u32. cbn [gidx]. rewrite Zplus_mod, Zmult_mod_idemp_l, Z.mod_mod by lia.
        rewrite <- Zplus_mod. f_equal. lia.
      - apply u32_eq. unfold u32. cbn [fold_right]. rewrite Zmult_mod_idemp_l. f_equal. lia. }
    rewrite E. cbn [bind]. specialize (IH bp (x :: q) (b :: bq) Hp').
    rewrite <- !app_assoc. cbn [app]. cbn [length] in IH. rewrite IH by lia. reflexivity.
Qed.

Lemma grid_index_gidx : forall bounds m, length m = length bounds -> grid_index bounds m = Ok (u32 (Z.of_nat (gidx bounds m))).
Proof.
  intros bounds m H. pose proof (gloop m bounds [] [] H eq_refl) as G. rewrite !app_nil_r in G. cbn [length] in G.
  unfold grid_index. unfold gbody in G. rewrite H in G.
  change (u32 (Z.of_nat (gidx [] []))) with 0%Z in G. change (u32 (Z.of_nat (fold_right Nat.mul 1 []))) with 1%Z in G.
  rewrite G. reflexivity.
Qed.

Lemma gidx_app : forall bp p bq q, length p = length bp ->
  gidx (bp ++ bq) (p ++ q) = gidx bp p * fold_right Nat.mul 1 bq + gidx bq q.
Proof.
  induction bp as [|b bp IH]; intros [|x p] bq q H; try discriminate; [reflexivity|].
  cbn [app gidx]. rewrite IH by (simpl in H; lia). rewrite fold_right_app.
  assert (E : forall l a, fold_right Nat.mul a l = fold_right Nat.mul 1 l * a).
  { clear. induction l; intros; simpl; [lia|]. rewrite IHl. lia. }
  rewrite (E bp). lia.
Qed.

Lemma gidx_zeros : forall bs, gidx bs (zeros (length bs)) = 0.
Proof. induction bs as [|b bs IH]; [reflexivity|]. cbn [length]. rewrite zeros_S. cbn [gidx]. lia. Qed.

Lemma gidx_max : forall q bq, Forall2 (fun y c => y + 1 = c) q bq -> gidx bq q + 1 = fold_right Nat.mul 1 bq.
Proof. induction 1 as [|y c q bq H Hq IH]; [reflexivity|]. cbn [gidx fold_right]. subst c. lia. Qed.

Lemma gidx_step : forall bounds v w, gstep bounds v w -> gidx bounds w = gidx bounds v + 1.
Proof.
  intros bounds v w [p [x [q [bp [b [bq [-> [-> [-> [Hl [Hq Hx]]]]]]]]]]]. rewrite !gidx_app by assumption.
  cbn [gidx]. pose proof (gidx_max _ _ Hq). rewrite (Forall2_length _ _ _ _ _ Hq), gidx_zeros. lia.
Qed.

Lemma glist_gidx : forall bounds i m, pos_bounds bounds -> nth_error (glist bounds) i = Some m -> gidx bounds m = i.
Proof.
  intros bounds i m H Hi.
  assert (G : forall l i x h, linked (gstep bounds) l -> hd_error l = Some h -> nth_error l i = Some x -> gidx bounds x = gidx bounds h + i).
  { induction l as [|a l IH]; intros j x h HL Hh Hx; [discriminate|]. injection Hh as ->. destruct j as [|j].
    - injection Hx as ->. lia.
    - destruct l as [|c l]; [destruct j; discriminate|]. destruct HL as [Hs HL].
      rewrite (IH j x c HL eq_refl Hx). rewrite (gidx_step _ _ _ Hs). lia. }
  rewrite (G _ i m _ (linked_glist bounds H) (glist_hd bounds H) Hi). rewrite gidx_zeros. reflexivity.
Qed.

Theorem grid_index_nth : forall bounds i m, pos_bounds bounds ->
  nth_error (glist bounds) i = Some m -> (Z.of_nat i < 2 ^ 32)%Z -> grid_index bounds m = Ok (Z.of_nat i).
Proof.
  intros bounds i m H Hi H32. rewrite grid_index_gidx.
  - rewrite (glist_gidx bounds i m H Hi). unfold u32. rewrite Z.mod_small by lia. reflexivity.
  - apply nth_error_In, in_glist, Forall2_length in Hi. assumption.
Qed.

(** * lexicographic order *)
Lemma glist_sorted : forall bounds i j v w, i < j ->
  nth_error (glist bounds) i = Some v -> nth_error (glist bounds) j = Some w -> lex_lt v w.
Proof.
  induction bounds as [|b bs IH]; intros i j v w Hij Hi Hj.
  - cbn [glist] in *. destruct j as [|j]; [lia|]. destruct j; discriminate.
  - cbn [glist] in Hi, Hj.
    assert (G : forall n k i j v w, i < j ->
      nth_error (flat_map (fun x => map (cons x) (glist bs)) (seq k n)) i = Some v ->
      nth_error (flat_map (fun x => map (cons x) (glist bs)) (seq k n)) j = Some w -> lex_lt v w).
    { clear -IH. induction n as [|n IHn]; intros k i j v w Hij Hi Hj; [destruct i; discriminate|].
      cbn [seq flat_map] in Hi, Hj. set (L := map (cons k) (glist bs)) in *.
      destruct (Nat.lt_ge_cases i (length L)) as [Hli|Hli].
      - rewrite nth_error_app1 in Hi by assumption. unfold L in Hi. rewrite nth_error_map in Hi.
        destruct (nth_error (glist bs) i) as [v'|] eqn:Ev; [|discriminate]. injection Hi as <-.
        destruct (Nat.lt_ge_cases j (length L)) as [Hlj|Hlj].
        + rewrite nth_error_app1 in Hj by assumption. unfold L in Hj. rewrite nth_error_map in Hj.
          destruct (nth_error (glist bs) j) as [w'|] eqn:Ew; [|discriminate]. injection Hj as <-.
          right. split; [reflexivity|]. exact (IH i j v' w' Hij Ev Ew).
        + rewrite nth_error_app2 in Hj by assumption. apply nth_error_In, in_flat_map in Hj as [y [Hy Hw]].
          apply in_seq in Hy. apply in_map_iff in Hw as [w' [<- _]]. left. lia.
      - rewrite nth_error_app2 in Hi by assumption. rewrite nth_error_app2 in Hj by lia.
        eapply IHn; [|exact Hi|exact Hj]. lia. }
    eapply G; eassumption.
Qed.
