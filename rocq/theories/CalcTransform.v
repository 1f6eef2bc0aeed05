(** transform.cpp: the nested loops compute sums over the grid or over the index set. *)
From Coq Require Import String List Bool Arith ZArith Lia.
From Verif Require Import Base Lists IndexModel Spec Machine IndexSet Grid Degree Num Fnum LinModel LinSpec LinBase MatBase Tensorize Facts2 CalcModel CalcBase.
Import ListNotations.

Lemma for_in_acc : forall T A (h : T -> A -> T) l (out : list T), length out = length l ->
  for_in (fun '(j, m) out => o <- vget out j ;; vset out j (h o m)) (enum l) out = Ok (map (fun '(o, m) => h o m) (combine out l)).
Proof.
  intros T A h l out Hl. unfold enum.
  assert (G : forall l pre out, length out = length l ->
    for_in (fun '(j, m) out => o <- vget out j ;; vset out j (h o m)) (combine (seq (length pre) (length l)) l) (pre ++ out)
    = Ok (pre ++ map (fun '(o, m) => h o m) (combine out l))).
  { clear. induction l as [|m l IH]; intros pre out Hl; destruct out as [|o out]; try discriminate; [reflexivity|].
    cbn [length seq combine for_in map]. rewrite vget_app_hd by reflexivity. cbn [bind]. rewrite vset_app_hd by reflexivity. cbn [bind].
    specialize (IH (pre ++ [h o m]) out). rewrite app_length in IH. cbn [length] in IH. rewrite Nat.add_1_r in IH.
    rewrite <- !app_assoc in IH. cbn [app] in IH. apply IH. injection Hl as Hl. assumption. }
  apply (G l [] out Hl).
Qed.

Lemma fold_map_combine : forall T A X (h : X -> T -> A -> T) (xs : list X) (l : list A) (f : A -> T),
  fold_left (fun out x => map (fun '(o, m) => h x o m) (combine out l)) xs (map f l) = map (fun m => fold_left (fun o x => h x o m) xs (f m)) l.
Proof.
  intros T A X h. induction xs as [|x xs IH]; intros l f; [reflexivity|]. cbn [fold_left].
  assert (E : map (fun '(o, m) => h x o m) (combine (map f l) l) = map (fun m => h x (f m) m) l).
  { clear. induction l as [|m l IH]; [reflexivity|]. cbn [map combine]. f_equal. exact IH. }
  rewrite E. rewrite IH. reflexivity.
Qed.

Lemma repeat_map : forall A B (x : B) (l : list A), repeat x (length l) = map (fun _ => x) l.
Proof. intros A B x. induction l as [|a l IH]; [reflexivity|]. cbn [length repeat map]. f_equal. exact IH. Qed.

Section Transform.
Variable F : fnum.

Lemma n_points_tot_Ok : forall bounds, (Z.of_nat (length (glist bounds)) < 2 ^ 32)%Z -> n_points_tot bounds = length (glist bounds).
Proof.
  intros bounds H. unfold n_points_tot. change 1%Z with (u32 1) at 1. rewrite fold_u32 by lia. rewrite <- glist_length.
  unfold u32. rewrite Z.mul_1_l, Z.mod_small by lia. apply Nat2Z.id.
Qed.

(** element [n] of the table of direction [k] at node [i] *)
Definition tab (bases : list (list (list F))) (k i n : nat) : F := nth n (nth i (nth k bases []) []) n0.

Lemma val_at_point_Ok : forall bases p m dim, length bases = dim -> length p = dim -> length m = dim ->
  (forall k, k < dim -> nth k p 0 < length (nth k bases [])) ->
  (forall k, k < dim -> nth k m 0 < length (nth (nth k p 0) (nth k bases []) [])) ->
  val_at_point F bases p m dim = Ok (fold_left (fun v k => nmul v (tab bases k (nth k p 0) (nth k m 0))) (seq 0 dim) n1).
Proof.
  intros bases p m dim Hb Hp Hm H1 H2. unfold val_at_point. apply (for_each_fold _ _ (fun (v : F) k => _)). intros j v Hj. cbv beta.
  rewrite (vget_nth_ok _ bases j []) by lia. cbn [bind]. rewrite (vget_nth_ok _ p j 0) by lia. cbn [bind].
  rewrite (vget_nth_ok _ _ (nth j p 0) []) by (apply H1; lia). cbn [bind]. rewrite (vget_nth_ok _ m j 0) by lia. cbn [bind].
  rewrite (vget_nth_ok _ _ (nth j m 0) n0) by (apply H2; lia). reflexivity.
Qed.

Lemma point_weight_Ok : forall weights p dim, length weights = dim -> length p = dim ->
  (forall k, k < dim -> nth k p 0 < length (nth k weights [])) ->
  point_weight F weights p dim = Ok (fold_left (fun v k => nmul v (nth (nth k p 0) (nth k weights []) n0)) (seq 0 dim) n1).
Proof.
  intros weights p dim Hw Hp H1. unfold point_weight. apply (for_each_fold _ _ (fun (v : F) k => _)). intros j v Hj. cbv beta.
  rewrite (vget_nth_ok _ weights j []) by lia. cbn [bind]. rewrite (vget_nth_ok _ p j 0) by lia. cbn [bind].
  rewrite (vget_nth_ok _ _ (nth j p 0) n0) by (apply H1; lia). reflexivity.
Qed.

Section Loops.
Variables (s : iset) (d degree : nat) (input : list F) (nodes weights : list (list F)) (flags : list nat) (bases : list (list (list F))).
Variables (V : list nat -> mi -> F) (W : list nat -> F).
Let dim := length nodes.
Let bounds := map (@length F) nodes.
Let G := glist bounds.
Let L := spec_list s d degree.
Hypothesis Hdim : dim = S d.
Hypothesis Hset : set_ok s (S d) degree.
Hypothesis Hsize : (Z.of_nat (length L) < 2 ^ 32)%Z.
Hypothesis Hgrid : (Z.of_nat (length G) < 2 ^ 32)%Z.
Hypothesis Hbases : bases_1d F degree nodes flags = Ok bases.
Hypothesis HV : forall p m, In p G -> In m L -> val_at_point F bases p m dim = Ok (V p m).
Hypothesis HW : forall p, In p G -> point_weight F weights p dim = Ok (W p).

Lemma bounds_ne : bounds <> [].
Proof using Hdim. clear - Hdim. subst bounds dim. destruct nodes; [discriminate|]. discriminate. Qed.

Lemma transform_forward : length input = length G ->
  transform F s degree input nodes weights flags true =
  Ok (map (fun m => fold_left (fun (o : F) '(y, p) => nadd o (nmul (nmul y (W p)) (V p m))) (combine input G) n0) L).
Proof using Hset Hsize Hgrid Hbases HV HW Hdim.
  intros Hin. unfold transform. fold dim. rewrite Hdim. rewrite s_size_Ok by assumption. cbn [bind]. rewrite Nat2Z.id. fold L.
  rewrite Hbases. cbn [bind]. rewrite make_iterator_Ok by assumption. cbn [bind]. fold bounds. rewrite n_points_tot_Ok by exact Hgrid. fold G.
  rewrite reset_fresh.
  rewrite (bind_snd (list nat) (list F)). rewrite (for_each_grid (list F) _
     (fun i p out => for_in (fun '(j, m) out => o <- vget out j ;; vset out j (nadd o (nmul (nmul (nth i input n0) (W p)) (V p m)))) (enum L) out) bounds bounds_ne).
  - cbn [skipn].
    destruct (for_in_fold _ (list F) (fun out => length out = length L)
      (fun '(i, p) out => for_in (fun '(j, m) out => o <- vget out j ;; vset out j (nadd o (nmul (nmul (nth i input n0) (W p)) (V p m)))) (enum L) out)
      (fun out '(i, p) => map (fun '(o, m) => nadd o (nmul (nmul (nth i input n0) (W p)) (V p m))) (combine out L)) (enum G) (repeat n0 (length L))) as [E _].
    + intros [i p] out Hi Hl. split; [apply (for_in_acc F _ (fun o m => nadd o (nmul (nmul (nth i input n0) (W p)) (V p m)))); assumption|].
      rewrite map_length, combine_length. lia.
    + apply repeat_length.
    + fold G. rewrite E. cbn [bind]. f_equal. rewrite repeat_map.
      assert (E2 : forall out, fold_left (fun out '(i, p) => map (fun '(o, m) => nadd o (nmul (nmul (nth i input n0) (W p)) (V p m))) (combine out L)) (enum G) out
          = fold_left (fun out x => map (fun '(o, m) => nadd o (nmul (nmul (fst x) (W (snd x))) (V (snd x) m))) (combine out L)) (combine input G) out).
      { unfold enum.
        assert (K : forall G1 (inp1 : list F) pre out, length inp1 = length G1 ->
           fold_left (fun out '(i, p) => map (fun '(o, m) => nadd o (nmul (nmul (nth i (pre ++ inp1) n0) (W p)) (V p m))) (combine out L)) (combine (seq (length pre) (length G1)) G1) out
           = fold_left (fun out x => map (fun '(o, m) => nadd o (nmul (nmul (fst x) (W (snd x))) (V (snd x) m))) (combine out L)) (combine inp1 G1) out).
        { clear. intros G1. induction G1 as [|p G1 IH]; intros inp1 pre out H; destruct inp1 as [|y inp1]; try discriminate; [reflexivity|].
          cbn [length seq combine fold_left fst snd]. rewrite app_nth2 by lia. rewrite Nat.sub_diag. cbn [nth].
          specialize (IH inp1 (pre ++ [y])). rewrite app_length in IH. cbn [length] in IH. rewrite Nat.add_1_r in IH. rewrite <- app_assoc in IH. apply IH.
          injection H as H. assumption. }
        intros out. apply (K G input [] out Hin). }
      rewrite E2. rewrite (fold_map_combine F mi (F * list nat) (fun x o m => nadd o (nmul (nmul (fst x) (W (snd x))) (V (snd x) m)))).
      clear E2. apply map_ext. intros m. generalize (n0 : F). induction (combine input G) as [|[y p] l IH]; intros o; [reflexivity|]. cbn [fold_left fst snd]. apply IH.
  - intros i p out Hp. assert (Hip : i < length G) by (unfold G; apply nth_error_Some; rewrite Hp; discriminate). assert (Hpin : In p G) by (eapply nth_error_In; exact Hp).
    rewrite <- Hdim. rewrite HW by assumption. cbn [bind].
    rewrite (bind_snd iterator (list F)).
    rewrite (for_each_it (list F) _ (fun j m out => o <- vget out j ;; vset out j (nadd o (nmul (nmul (nth i input n0) (W p)) (V p m)))) L).
    + cbn [skipn]. reflexivity.
    + intros j it out' Hj Hs. assert (Hm : In (it_multi_index it) L) by (destruct Hs as [_ [_ [_ [Hs _]]]]; eapply nth_error_In; exact Hs).
      rewrite HV by assumption. cbn [bind]. rewrite (vget_nth_ok _ input i n0) by lia. cbn [bind]. rewrite !bind_assoc. reflexivity.
    + apply fresh_state. assumption.
    + reflexivity.
  - rewrite <- Hdim. subst bounds dim. rewrite <- (map_length (@length F) nodes). apply grid_at_0.
  - reflexivity.
Qed.

Lemma transform_backward : length input = length L ->
  transform F s degree input nodes weights flags false =
  Ok (map (fun p => fold_left (fun (o : F) '(y, m) => nadd o (nmul (nmul y n1) (V p m))) (combine input L) n0) G).
Proof using Hset Hsize Hgrid Hbases HV Hdim.
  clear HW W. intros Hin. unfold transform. fold dim. rewrite Hdim. rewrite s_size_Ok by assumption. cbn [bind]. rewrite Nat2Z.id. fold L.
  rewrite Hbases. cbn [bind]. rewrite make_iterator_Ok by assumption. cbn [bind]. fold bounds. rewrite n_points_tot_Ok by exact Hgrid. fold G.
  rewrite reset_fresh.
  rewrite (bind_snd (list nat) (list F)). rewrite (for_each_grid (list F) _
     (fun i p out => o <- vget out i ;; vset out i (fold_left (fun (o : F) '(y, m) => nadd o (nmul (nmul y n1) (V p m))) (combine input L) o)) bounds bounds_ne).
  - cbn [skipn]. fold G. rewrite (for_in_acc F _ (fun o p => fold_left (fun (o : F) '(y, m) => nadd o (nmul (nmul y n1) (V p m))) (combine input L) o)) by apply repeat_length.
    cbn [bind]. f_equal. rewrite repeat_map. clear. induction G as [|p G' IH]; [reflexivity|]. cbn [map combine]. f_equal. exact IH.
  - intros i p out Hp. assert (Hip : i < length G) by (unfold G; apply nth_error_Some; rewrite Hp; discriminate). assert (Hpin : In p G) by (eapply nth_error_In; exact Hp).
    rewrite <- Hdim. cbn [bind].
    rewrite (bind_snd iterator (list F)).
    rewrite (for_each_it (list F) _ (fun j m out => o <- vget out i ;; vset out i (nadd o (nmul (nmul (nth j input n0) n1) (V p m)))) L).
    + cbn [skipn]. f_equal.
      assert (K : forall L1 (inp1 : list F) pre out, length inp1 = length L1 -> L1 <> [] \/ i < length out ->
         for_in (fun '(j, m) out => o <- vget out i ;; vset out i (nadd o (nmul (nmul (nth j (pre ++ inp1) n0) n1) (V p m)))) (combine (seq (length pre) (length L1)) L1) out
         = (o <- vget out i ;; vset out i (fold_left (fun (o : F) '(y, m) => nadd o (nmul (nmul y n1) (V p m))) (combine inp1 L1) o))).
      { clear. intros L1. induction L1 as [|m L1 IH]; intros inp1 pre out H Ho; destruct inp1 as [|y inp1]; try discriminate.
        - destruct Ho as [Ho|Ho]; [contradiction|]. cbn. rewrite (vget_nth_ok _ out i n0) by assumption. cbn [bind]. rewrite vset_Ok by assumption. f_equal.
          clear - Ho. revert i Ho. induction out as [|x out IH]; intros i Ho; [cbn in Ho; lia|]. destruct i; [reflexivity|]. cbn [nth upd]. f_equal. apply IH. cbn in Ho. lia.
        - cbn [length seq combine for_in fold_left]. rewrite app_nth2 by lia. rewrite Nat.sub_diag. cbn [nth].
          destruct (Nat.lt_ge_cases i (length out)) as [Hi|Hi]; [|rewrite vget_ub by assumption; reflexivity].
          rewrite (vget_nth_ok _ out i n0) by assumption. cbn [bind]. rewrite vset_Ok by assumption. cbn [bind].
          specialize (IH inp1 (pre ++ [y])). rewrite app_length in IH. cbn [length] in IH. rewrite Nat.add_1_r in IH. rewrite <- app_assoc in IH. cbn [app] in IH.
          rewrite IH; [|injection H as H; assumption|right; rewrite upd_length; assumption].
          rewrite (vget_nth_ok _ _ i n0) by (rewrite upd_length; assumption). cbn [bind]. rewrite nth_upd, Nat.eqb_refl, (proj2 (Nat.ltb_lt _ _)) by assumption. cbn [andb].
          rewrite !vset_Ok by (rewrite ?upd_length; assumption). f_equal. generalize (fold_left (fun (o : F) '(y0, m0) => nadd o (nmul (nmul y0 n1) (V p m0))) (combine inp1 L1) (nadd (nth i out n0) (nmul (nmul y n1) (V p m)))).
          generalize (nadd (nth i out n0) (nmul (nmul y n1) (V p m))). clear. revert i. induction out as [|x out IH]; intros i a b; [reflexivity|].
          destruct i; [reflexivity|]. cbn [upd]. f_equal. apply IH. }
      apply (K L input [] out Hin). left. subst L. intros E. pose proof (iterator_list_first s d degree Hset) as Hf. rewrite E in Hf. discriminate.
    + intros j it out' Hj Hs. assert (Hm : In (it_multi_index it) L) by (destruct Hs as [_ [_ [_ [Hs _]]]]; eapply nth_error_In; exact Hs).
      rewrite HV by assumption. cbn [bind]. rewrite (vget_nth_ok _ input j n0) by lia. cbn [bind]. rewrite !bind_assoc. reflexivity.
    + apply fresh_state. assumption.
    + reflexivity.
  - rewrite <- Hdim. subst bounds dim. rewrite <- (map_length (@length F) nodes). apply grid_at_0.
  - reflexivity.
Qed.
End Loops.
End Transform.
