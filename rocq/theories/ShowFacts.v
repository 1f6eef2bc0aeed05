(** Proofs for C105. *)
From Coq Require Import String List Bool Arith ZArith Lia.
From Verif Require Import Base Lists IndexModel Spec Traverse Triangle Shell ShellList Cross IndexSet Facts1 Num LinModel LinSpec PyBase PosModel SeriesModel SeriesSpec CoreModel ShowModel.
Import ListNotations.
Local Open Scope nat_scope.
Local Notation zeros := Lists.zeros.

Lemma lines_app : forall f a n i la b, lines_loop f n i a = Ok la -> lines_loop f n i (a ++ b) = bind (lines_loop f (n + length la) (i + length a) b) (fun lb => Ok (la ++ lb)).
Proof.
  induction a as [|m a IH]; intros n i la b H; cbn [lines_loop app length] in *.
  - injection H as <-. cbn [length app]. rewrite !Nat.add_0_r. destruct (lines_loop f n i b); reflexivity.
  - destruct (f m) as [x| | | |]; cbn [bind] in *; try discriminate H. destruct (n <? x).
    + destruct (lines_loop f (S n) (S i) a) as [rest| | | |] eqn:E; cbn [bind] in H; try discriminate H. injection H as <-. rewrite (IH _ _ _ b E). cbn [length]. replace (S n + length rest) with (n + S (length rest)) by lia. replace (S i + length a) with (i + S (length a)) by lia.
      destruct (lines_loop f (n + S (length rest)) (i + S (length a)) b); reflexivity.
    + rewrite (IH _ _ _ b H). replace (S i + length a) with (i + S (length a)) by lia. reflexivity.
Qed.
Lemma lines_none : forall f l n i, (forall m, In m l -> exists x, f m = Ok x /\ x <= n) -> lines_loop f n i l = Ok [].
Proof.
  induction l as [|m l IH]; intros n i H; [reflexivity|]. cbn [lines_loop]. destruct (H m (or_introl eq_refl)) as (x & E & Hx). rewrite E. cbn [bind]. destruct (Nat.ltb_spec n x); [lia|]. apply IH. intros m' H'. apply H. right. exact H'.
Qed.
Lemma lines_layer : forall f l n i m rest, l = m :: rest -> f m = Ok (S n) -> (forall m, In m l -> exists x, f m = Ok x /\ x <= S n) -> lines_loop f n i l = Ok [i].
Proof.
  intros f l n i m rest -> Hm H. cbn [lines_loop]. rewrite Hm. cbn [bind]. destruct (Nat.ltb_spec n (S n)); [|lia]. rewrite lines_none; [reflexivity|]. intros m' H'. apply H. right. exact H'.
Qed.

(** Degrees. *)
Definition deg (s : iset) (m : mi) : nat := match s with Triangle => list_sum m | _ => fold_right Nat.max 0 m end.
Lemma degree_deg : forall s m, m <> [] -> degree_function s m = Ok (deg s m).
Proof. intros s m H. destruct s; cbn [degree_function deg]; try reflexivity; destruct m; try reflexivity; contradiction H; reflexivity. Qed.
Lemma max_le : forall m n, fold_right Nat.max 0 m <= n <-> Forall (fun x => x <= n) m.
Proof. induction m as [|x m IH]; intros n; cbn [fold_right]; [split; [constructor|lia]|]. rewrite Forall_cons_iff, <- IH. lia. Qed.
Lemma max_zeros : forall d, fold_right Nat.max 0 (zeros d) = 0.
Proof. intros d. change (fold_right Nat.max 0 (repeat 0 d) = 0). induction d; [reflexivity|]. cbn. assumption. Qed.
Lemma deg_bound : forall s d n m, s <> CrossNc -> s <> Cross -> In m (spec_list s d n) -> m <> [] /\ deg s m <= n.
Proof.
  intros s d n m H1 H2 H. destruct s; try contradiction; cbn [spec_list deg] in *.
  - apply in_tri_spec in H as [L H]. split; [intros ->; discriminate L|exact H].
  - apply in_cube_spec in H as [L H]. split; [intros ->; discriminate L|apply max_le; exact H].
  - apply in_rect_spec in H as [L H]. split; [intros ->; discriminate L|]. destruct m as [|x m]; [discriminate L|]. destruct H as [Hx Hm]. apply max_le. constructor; [exact Hx|]. eapply Forall_impl; [|exact Hm]. cbn. intros. lia.
Qed.
Lemma upd_0 : forall d M, upd (zeros (S d)) 0 M = M :: zeros d.
Proof. reflexivity. Qed.
Lemma shell_S : forall ws n, shell_spec ws (S n) = shell_spec ws n ++ lvl ws (S n).
Proof. intros ws n. unfold shell_spec. rewrite (seq_S (S n) 0), flat_map_app. cbn [flat_map Nat.add]. rewrite app_nil_r. reflexivity. Qed.
Lemma layer : forall s d n, s <> CrossNc -> s <> Cross -> exists m rest, spec_list s d (S n) = spec_list s d n ++ m :: rest /\ deg s m = S n.
Proof.
  intros s d n H1 H2. assert (Sh : forall ws, Forall (fun w => 1 <= w) ws -> hd_error ws = Some 1 -> length ws = S d -> exists m rest, shell_spec ws (S n) = shell_spec ws n ++ m :: rest /\ fold_right Nat.max 0 m = S n).
  { intros ws Hp Hh Hl. rewrite shell_S. pose proof (lvl_hd ws Hp Hh (S n) ltac:(lia)) as G. destruct (lvl ws (S n)) as [|m rest]; [discriminate G|]. injection G as ->. exists (upd (zeros (length ws)) 0 (S n)), rest. split; [reflexivity|].
    rewrite Hl, upd_0. cbn [fold_right]. rewrite max_zeros. lia. }
  destruct s; try contradiction; cbn [spec_list deg].
  - destruct (spec_list_prefix Triangle d n (S n) ltac:(discriminate) ltac:(lia)) as (l3 & E). cbn [spec_list] in E. assert (Hin : In (S n :: zeros d) (tri_spec d (S n))).
    { apply in_tri_spec. split; [cbn; rewrite zeros_length; reflexivity|]. cbn. change (zeros d) with (repeat 0 d). assert (Z : forall k, list_sum (repeat 0 k) = 0) by (induction k; cbn; auto). rewrite Z. lia. }
    destruct l3 as [|m rest].
    + exfalso. rewrite app_nil_r in E. rewrite E in Hin. apply in_tri_spec in Hin as [_ Hin]. cbn in Hin. lia.
    + exists m, rest. split; [exact E|]. assert (Hm : In m (tri_spec d (S n))) by (rewrite E; apply in_or_app; right; left; reflexivity). pose proof Hm as Hm'. apply in_tri_spec in Hm' as [Lm Sm].
      assert (N : ~ In m (tri_spec d n)). { intros I. pose proof (NoDup_spec_list Triangle d (S n)) as ND. cbn [spec_list] in ND. rewrite E in ND. apply NoDup_remove_2 in ND. apply ND. apply in_or_app. left. exact I. }
      destruct (Nat.le_gt_cases (list_sum m) n) as [K|K]; [|lia]. exfalso. apply N. apply in_tri_spec. split; assumption.
  - apply (Sh _ (ones_pos (S d)) eq_refl). apply repeat_length.
  - apply (Sh _ (rect_pos d) (rect_hd d)). apply rect_factors_length.
Qed.
Lemma first_list : forall s d, s <> CrossNc -> s <> Cross -> lines_loop (degree_function s) 0 0 (spec_list s d 0) = Ok [].
Proof. intros s d H1 H2. apply lines_none. intros m Hm. destruct (deg_bound s d 0 m H1 H2 Hm) as (N & Hd). exists (deg s m). split; [apply degree_deg; exact N|exact Hd]. Qed.
Lemma lines_spec : forall s d, s <> CrossNc -> s <> Cross -> forall n, lines_loop (degree_function s) 0 0 (spec_list s d n) = Ok (map (fun k => length (spec_list s d k)) (seq 0 n)).
Proof.
  intros s d H1 H2. induction n as [|n IH]; [apply first_list; assumption|]. destruct (layer s d n H1 H2) as (m & rest & E & Hm). rewrite E. rewrite (lines_app _ _ _ _ _ _ IH). rewrite map_length, seq_length. cbn [Nat.add].
  assert (B : forall x, In x (m :: rest) -> x <> [] /\ deg s x <= S n) by (intros x Hx; apply (deg_bound s d (S n)); try assumption; rewrite E; apply in_or_app; right; exact Hx).
  rewrite (lines_layer _ (m :: rest) n _ m rest eq_refl); [| |].
  - cbn [bind]. rewrite seq_S, map_app. reflexivity.
  - rewrite degree_deg by (apply (B m); left; reflexivity). rewrite Hm. reflexivity.
  - intros x Hx. destruct (B x Hx) as (N & Hd). exists (deg s x). split; [apply degree_deg; exact N|exact Hd].
Qed.
Lemma s_list_dim : forall s dim degree, s <> CrossNc -> 1 <= dim -> exists d, dim = S d /\ s_list s dim degree = Ok (spec_list s d degree) /\ points s dim degree = spec_list s d degree.
Proof.
  intros s dim degree Hs Hd. destruct dim as [|d]; [lia|]. exists d. split; [reflexivity|]. assert (G : s_list s (S d) degree = Ok (spec_list s d degree)) by (apply s_list_Ok; destruct s; try exact I; contradiction Hs; reflexivity). split; [exact G|]. unfold points. rewrite G. reflexivity.
Qed.
Lemma plot_lines_ok : forall s dim degree, s <> CrossNc -> s <> Cross -> 1 <= dim -> plot_lines s dim degree = Ok (map (fun n => length (points s dim n)) (seq 0 degree)).
Proof.
  intros s dim degree H1 H2 Hd. destruct (s_list_dim s dim degree H1 Hd) as (d & -> & E & _). unfold plot_lines. rewrite E. cbn [bind]. rewrite lines_spec by assumption. f_equal. apply map_ext. intros n. destruct (s_list_dim s (S d) n H1 Hd) as (d' & Ed & _ & P). injection Ed as <-. rewrite P. reflexivity.
Qed.

(** The cross. *)
Lemma cross_max : forall m, fold_right Nat.max 0 m <= cross_prod m /\ 1 <= cross_prod m.
Proof. induction m as [|x m IH]; [cbn; lia|]. unfold cross_prod in *. cbn [map fold_right]. destruct IH as [A B]. set (p := fold_right Nat.mul 1 (map (Nat.max 1) m)) in *. nia. Qed.
Lemma cross_S : forall d n, 1 <= n -> cross_spec d (S n) = cross_spec d n ++ clev d (S n).
Proof. intros d n H. unfold cross_spec. replace (Nat.max 1 (S n)) with (S n) by lia. replace (Nat.max 1 n) with n by lia. rewrite seq_S, flat_map_app. cbn [flat_map Nat.add]. rewrite app_nil_r. reflexivity. Qed.
Lemma cross_bound : forall d n m, 1 <= n -> In m (cross_spec d n) -> m <> [] /\ fold_right Nat.max 0 m <= n.
Proof. intros d n m Hn H. apply in_cross_spec in H as [L P]. split; [intros ->; discriminate L|]. pose proof (cross_max m). lia. Qed.
Lemma cross_first : forall d, lines_loop (degree_function Cross) 0 0 (cross_spec d 1) = Ok [1].
Proof.
  intros d. assert (S : exists a b rest, cross_spec d 1 = a :: b :: rest /\ fold_right Nat.max 0 a = 0 /\ fold_right Nat.max 0 b = 1).
  { unfold cross_spec. cbn [Nat.max seq flat_map]. rewrite app_nil_r. unfold clev. pose proof (fac_hd d 1 ltac:(lia)) as H. destruct (fac d 1) as [|c rest]; [discriminate H|]. injection H as ->. cbn [flat_map].
    change (core1 1) with 0. rewrite zeros_snoc.
    replace (zeros (S d)) with (0 :: zeros d) by reflexivity. cbn [fills Nat.eqb]. pose proof (fills_hd (zeros d)) as F. destruct (fills (zeros d)) as [|v vs]; [discriminate F|]. injection F as ->. cbn [flat_map app].
    do 3 eexists. split; [reflexivity|]. cbn [fold_right]. rewrite max_zeros. split; reflexivity. }
  destruct S as (a & b & rest & E & Ha & Hb). rewrite E. cbn [lines_loop].
  assert (B : forall x, In x (a :: b :: rest) -> degree_function Cross x = Ok (fold_right Nat.max 0 x) /\ fold_right Nat.max 0 x <= 1). { intros x Hx. destruct (cross_bound d 1 x ltac:(lia)) as (N & L); [rewrite E; exact Hx|]. split; [apply (degree_deg Cross); exact N|exact L]. }
  rewrite (proj1 (B a (or_introl eq_refl))), Ha. cbn [bind Nat.ltb Nat.leb]. rewrite (proj1 (B b (or_intror (or_introl eq_refl)))), Hb. cbn [bind Nat.ltb Nat.leb]. rewrite lines_none; [reflexivity|].
  intros x Hx. exists (fold_right Nat.max 0 x). apply B. right. right. exact Hx.
Qed.
Lemma cross_lines : forall d n, 1 <= n -> lines_loop (degree_function Cross) 0 0 (cross_spec d n) = Ok (1 :: map (fun k => length (cross_spec d k)) (seq 1 (n - 1))).
Proof.
  intros d. induction n as [|n IH]; intros Hn; [lia|]. destruct n as [|n]; [apply cross_first|]. specialize (IH ltac:(lia)). rewrite cross_S by lia. rewrite (lines_app _ _ _ _ _ _ IH). cbn [length]. rewrite map_length, seq_length. replace (0 + S (S n - 1)) with (S n) by lia. cbn [Nat.add].
  pose proof (clev_hd d (S (S n)) ltac:(lia)) as H. destruct (clev d (S (S n))) as [|m rest] eqn:E; [discriminate H|]. injection H as ->. set (m := zeros d ++ [core1 (S (S n))]) in *.
  assert (B : forall x, In x (m :: rest) -> degree_function Cross x = Ok (fold_right Nat.max 0 x) /\ fold_right Nat.max 0 x <= S (S n)).
  { intros x Hx. destruct (cross_bound d (S (S n)) x ltac:(lia)) as (N & L); [rewrite cross_S by lia; rewrite E; apply in_or_app; right; exact Hx|]. split; [apply (degree_deg Cross); exact N|exact L]. }
  assert (Hm : fold_right Nat.max 0 m = S (S n)). { unfold m. rewrite fold_right_app. cbn [fold_right core1 Nat.eqb Nat.max]. change (core1 (S (S n))) with (S (S n)). clear. change (zeros d) with (repeat 0 d). induction d; [reflexivity|]. cbn [repeat fold_right]. rewrite IHd. reflexivity. }
  rewrite (lines_layer _ (m :: rest) (S n) _ m rest eq_refl).
  - cbn [bind app]. replace (S (S n) - 1) with (S (S n - 1)) by lia. rewrite (seq_S (S n - 1) 1), map_app. replace (1 + (S n - 1)) with (S n) by lia. reflexivity.
  - rewrite (proj1 (B m (or_introl eq_refl))), Hm. reflexivity.
  - intros x Hx. exists (fold_right Nat.max 0 x). apply B. exact Hx.
Qed.
Lemma plot_lines_cross : forall dim degree, 1 <= dim -> 1 <= degree -> plot_lines Cross dim degree = Ok (1 :: map (fun n => length (points Cross dim n)) (seq 1 (degree - 1))).
Proof.
  intros dim degree Hd Hn. destruct (s_list_dim Cross dim degree ltac:(discriminate) Hd) as (d & -> & E & _). unfold plot_lines. rewrite E. cbn [bind spec_list]. rewrite cross_lines by assumption. do 2 f_equal. apply map_ext. intros n. destruct (s_list_dim Cross (S d) n ltac:(discriminate) Hd) as (d' & Ed & _ & P). injection Ed as <-. rewrite P. reflexivity.
Qed.
