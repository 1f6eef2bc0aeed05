(** Proofs for C105: the points, the texts, the numbers. *)
From Coq Require Import String List Bool Arith ZArith Lia.
From Verif Require Import Base Lists IndexModel Spec IndexSet Facts1 Facts2 Num LinModel LinSpec LinBase PyBase PosModel SeriesModel SeriesSpec CoreModel ShowModel ShowSpec.
Import ListNotations.
Local Open Scope string_scope. Local Open Scope list_scope. Local Open Scope nat_scope.

Lemma in_enum : forall A (l : list A) k i x, In (i, x) (combine (seq k (length l)) l) <-> k <= i /\ nth_error l (i - k) = Some x.
Proof.
  induction l as [|y l IH]; intros k i x; cbn [length seq combine In].
  - split; [contradiction|]. intros [_ H]. destruct (i - k); discriminate H.
  - rewrite IH. split.
    + intros [H|[L H]]; [injection H as <- <-; split; [lia|]; rewrite Nat.sub_diag; reflexivity|]. split; [lia|]. replace (i - k) with (S (i - S k)) by lia. exact H.
    + intros [L H]. destruct (i - k) as [|n] eqn:E; [left; injection H as ->; f_equal; lia|]. right. split; [lia|]. replace (i - S k) with n by lia. exact H.
Qed.
Lemma in_enum0 : forall A (l : list A) i x, In (i, x) (combine (seq 0 (length l)) l) <-> nth_error l i = Some x.
Proof. intros A l i x. rewrite in_enum, Nat.sub_0_r. intuition lia. Qed.
Lemma nodup_keys : forall A B (g : nat * A -> list (nat * nat * B)) l k,
  (forall i x p, In p (g (i, x)) -> fst (fst p) = i) -> (forall i x, NoDup (map fst (g (i, x)))) -> NoDup (map fst (flat_map g (combine (seq k (length l)) l))).
Proof.
  intros A B g l k Hk Hn. revert k. induction l as [|y l IH]; intros k; cbn [length seq combine flat_map map]; [constructor|]. rewrite map_app. apply NoDup_app_intro; [apply Hn|apply IH|].
  intros p H1 H2. apply in_map_iff in H1 as (a & <- & Ha). apply in_map_iff in H2 as (b & Eb & Hb). apply in_flat_map in Hb as ((i & x) & Hi & Hb). apply Hk in Ha. apply Hk in Hb. apply in_enum in Hi as [Hi _]. rewrite Eb in Hb. lia.
Qed.

Section Show.
Variable N : num.
Variable nabs : N -> N.
Variable visible : N -> bool.
Lemma dense_in : forall A i j x, In (i, j, x) (dense_points N nabs visible A) <-> exists a, dense_entry A i j a /\ visible a = true /\ x = nabs a.
Proof.
  intros A i j x. unfold dense_points, dense_entry. rewrite in_flat_map. split.
  - intros ((i' & row) & Hr & H). apply in_enum0 in Hr. apply in_flat_map in H as ((j' & a) & Ha & H). apply in_enum0 in Ha. destruct (visible a) eqn:V; [|contradiction]. destruct H as [H|[]]. injection H as <- <- <-. exists a. split; [exists row; split; assumption|split; [exact V|reflexivity]].
  - intros (a & (row & Hr & Ha) & V & ->). exists (i, row). split; [apply in_enum0; exact Hr|]. apply in_flat_map. exists (j, a). split; [apply in_enum0; exact Ha|]. rewrite V. left. reflexivity.
Qed.
Lemma dense_nodup : forall A, NoDup (map fst (dense_points N nabs visible A)).
Proof.
  intros A. unfold dense_points. apply nodup_keys.
  - intros i row p H. apply in_flat_map in H as ((j & a) & _ & H). destruct (visible a); [|contradiction]. destruct H as [<-|[]]. reflexivity.
  - intros i row. generalize 0 as k. induction row as [|a row IH]; intros k; cbn [length seq combine flat_map]; [constructor|]. rewrite map_app. apply NoDup_app_intro; [destruct (visible a); [constructor; [intros []|constructor]|constructor]|apply IH|].
    intros p H1 H2. destruct (visible a); [|contradiction]. destruct H1 as [<-|[]]. apply in_map_iff in H2 as (q & Eq & Hq). apply in_flat_map in Hq as ((j & b) & Hj & Hq). apply in_enum in Hj as [Hj _]. destruct (visible b); [|contradiction]. destruct Hq as [<-|[]]. injection Eq as E. lia.
Qed.
Lemma sparse_in : forall (c : csr N) i j x, In (i, j, x) (sparse_points N c) <-> i < c_rows c /\ exists k, nth i (c_indptr c) 0 <= k < nth (S i) (c_indptr c) 0 /\ nth k (c_indices c) 0 = j /\ nth k (c_data c) n0 = x.
Proof.
  intros c i j x. unfold sparse_points. rewrite in_flat_map. split.
  - intros (i' & Hi & H). apply in_map_iff in H as (k & E & Hk). injection E as <- <- <-. apply in_seq in Hi. apply in_seq in Hk. split; [lia|]. exists k. split; [lia|split; reflexivity].
  - intros (Hi & k & Hk & <- & <-). exists i. split; [apply in_seq; lia|]. apply in_map_iff. exists k. split; [reflexivity|]. apply in_seq. lia.
Qed.
Lemma sparse_entry : num_laws N -> forall (c : csr N) i j x, csr_distinct (c_indices c) (c_indptr c) (c_rows c) -> In (i, j, x) (sparse_points N c) -> csr_entry (c_data c) (c_indices c) (c_indptr c) i j = x.
Proof.
  intros L c i j x Hd H. apply sparse_in in H as (Hi & k & Hk & Ej & Ex). unfold csr_entry.
  assert (F : filter (fun q => nth q (c_indices c) 0 =? j) (seq (nth i (c_indptr c) 0) (nth (S i) (c_indptr c) 0 - nth i (c_indptr c) 0)) = [k]).
  { assert (G : forall a n, nth i (c_indptr c) 0 <= a -> a + n <= nth (S i) (c_indptr c) 0 -> filter (fun q => nth q (c_indices c) 0 =? j) (seq a n) = if (a <=? k) && (k <? a + n) then [k] else []).
    { intros a n. revert a. induction n as [|n IH]; intros a Ha Hn; cbn [seq filter]; [destruct (Nat.leb_spec a k), (Nat.ltb_spec k (a + 0)); cbn; try reflexivity; lia|]. rewrite IH by lia. destruct (Nat.eqb_spec (nth a (c_indices c) 0) j) as [E|E].
      - assert (a = k) by (apply (Hd i); [assumption|lia|lia|congruence]). subst a. destruct (Nat.leb_spec (S k) k); [lia|]. destruct (Nat.leb_spec k k), (Nat.ltb_spec k (k + S n)); try lia. reflexivity.
      - assert (a <> k) by (intros ->; contradiction). destruct (Nat.leb_spec (S a) k), (Nat.leb_spec a k), (Nat.ltb_spec k (S a + n)), (Nat.ltb_spec k (a + S n)); try lia; reflexivity. }
    rewrite G by lia. destruct (Nat.leb_spec (nth i (c_indptr c) 0) k), (Nat.ltb_spec k (nth i (c_indptr c) 0 + (nth (S i) (c_indptr c) 0 - nth i (c_indptr c) 0))); try lia. reflexivity. }
  rewrite F. cbn [map]. rewrite Ex. cbn. rewrite ?(law_add_0 _ L). first [reflexivity | rewrite (law_add_comm _ L); apply (law_add_0 _ L)].
Qed.
Lemma sparse_zero : forall (c : csr N) i j, i < c_rows c -> (forall x, ~ In (i, j, x) (sparse_points N c)) -> csr_entry (c_data c) (c_indices c) (c_indptr c) i j = n0.
Proof.
  intros c i j Hi H. unfold csr_entry. assert (F : forall l, (forall k, In k l -> nth i (c_indptr c) 0 <= k < nth (S i) (c_indptr c) 0) -> filter (fun q => nth q (c_indices c) 0 =? j) l = []).
  { induction l as [|k l IH]; intros Hl; [reflexivity|]. cbn [filter]. destruct (Nat.eqb_spec (nth k (c_indices c) 0) j) as [E|E]; [|apply IH; intros q Hq; apply Hl; right; exact Hq]. exfalso. apply (H (nth k (c_data c) n0)). apply sparse_in. split; [exact Hi|]. exists k. split; [apply Hl; left; reflexivity|split; [exact E|reflexivity]]. }
  rewrite F; [reflexivity|]. intros k Hk. apply in_seq in Hk. lia.
Qed.
Lemma todense_entry : num_laws N -> forall (c : csr N) i j a, dense_entry (todense N c) i j a <-> i < c_rows c /\ j < c_cols c /\ a = csr_entry (c_data c) (c_indices c) (c_indptr c) i j.
Proof.
  intros L c i j a. unfold dense_entry, todense. split.
  - intros (row & Hr & Ha). rewrite nth_error_map in Hr. destruct (nth_error (seq 0 (c_rows c)) i) as [i'|] eqn:Ei; [|discriminate Hr]. assert (Li : i < c_rows c) by (rewrite <- (seq_length (c_rows c) 0); apply nth_error_Some; congruence). assert (i' = i). { apply (nth_error_nth _ _ 0) in Ei. rewrite seq_nth in Ei by exact Li. lia. } subst i'.
    injection Hr as <-. rewrite nth_error_map in Ha. destruct (nth_error (seq 0 (c_cols c)) j) as [j'|] eqn:Ej; [|discriminate Ha]. assert (Lj : j < c_cols c) by (rewrite <- (seq_length (c_cols c) 0); apply nth_error_Some; congruence). assert (j' = j). { apply (nth_error_nth _ _ 0) in Ej. rewrite seq_nth in Ej by exact Lj. lia. } subst j'.
    injection Ha as <-. split; [exact Li|split; [exact Lj|]]. rewrite (sum_acc N L), (law_add_0 _ L). reflexivity.
  - intros (Li & Lj & ->). eexists. split; [apply map_nth_error; rewrite (nth_error_nth' _ 0) by (rewrite seq_length; exact Li); rewrite seq_nth by exact Li; reflexivity|]. cbn [Nat.add].
    rewrite nth_error_map, (nth_error_nth' _ 0) by (rewrite seq_length; exact Lj). rewrite seq_nth by exact Lj. cbn [option_map Nat.add]. rewrite (sum_acc N L), (law_add_0 _ L). reflexivity.
Qed.
Lemma same_points : num_laws N -> forall (c : csr N), csr_wf (c_data c) (c_indices c) (c_indptr c) (c_rows c) (c_cols c) -> csr_distinct (c_indices c) (c_indptr c) (c_rows c) ->
  visible n0 = false -> (forall x, In x (c_data c) -> visible x = true /\ nabs x = x) -> forall p, In p (sparse_points N c) <-> In p (dense_points N nabs visible (todense N c)).
Proof.
  intros L c (W1 & W2 & W3 & W4) Hd V0 Hx ((i & j) & x). rewrite dense_in. split.
  - intros H. pose proof (sparse_entry L c i j x Hd H) as E. apply sparse_in in H as (Hi & k & Hk & Ej & Ex). assert (Lk : k < length (c_data c)) by (pose proof (W3 i Hi); lia). assert (Ix : In x (c_data c)) by (rewrite <- Ex; apply nth_In; exact Lk). destruct (Hx x Ix) as [V A].
    exists x. split; [|split; [exact V|symmetry; exact A]]. apply (todense_entry L). split; [exact Hi|split; [|symmetry; exact E]]. rewrite <- Ej. rewrite Forall_forall in W4. apply W4. apply nth_In. lia.
  - intros (a & Ha & V & ->). apply (todense_entry L) in Ha as (Hi & Hj & Ea). destruct (filter (fun k => nth k (c_indices c) 0 =? j) (seq (nth i (c_indptr c) 0) (nth (S i) (c_indptr c) 0 - nth i (c_indptr c) 0))) as [|k rest] eqn:F.
    + exfalso. unfold csr_entry in Ea. rewrite F in Ea. cbn in Ea. subst a. congruence.
    + assert (Ik : In k (k :: rest)) by (left; reflexivity). rewrite <- F in Ik. apply filter_In in Ik as [Ik Ek]. apply in_seq in Ik. apply Nat.eqb_eq in Ek. assert (Q : In (i, j, nth k (c_data c) n0) (sparse_points N c)) by (apply sparse_in; split; [exact Hi|]; exists k; split; [lia|split; [exact Ek|reflexivity]]).
      pose proof (sparse_entry L c i j _ Hd Q) as E. rewrite <- Ea in E. rewrite E. destruct (Hx (nth k (c_data c) n0)) as [_ A]; [apply nth_In; pose proof (W3 i Hi); lia|]. rewrite A. exact Q.
Qed.

Variable E : Type.
Lemma indices_ok : forall (f : series N E) dim, series_ok f dim -> series_indices N E f = Ok (map Some (points (s_set f) dim (s_degree f))) /\ p_dim (s_pos f) = dim /\ 1 <= dim /\ map (series_at f) (points (s_set f) dim (s_degree f)) = s_coeffs f.
Proof.
  intros f dim ((H1 & H2 & Hu) & Hv). unfold series_indices, p_dim. rewrite H2. assert (D : 1 <= dim) by apply Hu. destruct (Nat.eqb_spec dim 0); [lia|]. rewrite points_list by exact Hu. split; [reflexivity|split; [reflexivity|split; [exact D|]]].
  unfold series_at. rewrite H1. apply map_value; [apply points_NoDup; exact Hu|exact Hv].
Qed.
Lemma column_ok : forall k l, Forall (fun m => k < length m) l -> column k (map Some l) = Ok (map (fun m => nth k m 0) l).
Proof.
  intros k l H. unfold column. induction H as [|m l Hm _ IH]; [reflexivity|]. cbn [map mapM]. unfold py_get at 1. rewrite (nth_error_nth' m 0 Hm). cbn [bind]. rewrite IH. reflexivity.
Qed.
Lemma points_length : forall s dim degree, usable s dim degree -> Forall (fun m => length m = dim) (points s dim degree).
Proof. intros s dim degree Hu. apply Forall_forall. intros m Hm. apply points_In in Hm; [apply Hm|exact Hu]. Qed.
Lemma combine_map2 : forall A B C (g : A -> B) (h : A -> C) l, combine (map g l) (map h l) = map (fun a => (g a, h a)) l.
Proof. induction l as [|a l IH]; [reflexivity|]. cbn. rewrite IH. reflexivity. Qed.
Lemma plot1 : forall given (f : series N E), series_ok f 1 -> series_plot N nabs E given f = Ok (Bars (map (fun m => (nth 0 m 0, series_at f m)) (points (s_set f) 1 (s_degree f)))).
Proof.
  intros given f H. destruct (indices_ok f 1 H) as (I & D & _ & V). unfold series_plot. rewrite I. cbn [bind]. rewrite D. rewrite column_ok; [|eapply Forall_impl; [|apply points_length, H]; cbn; intros; lia]. cbn [bind]. rewrite <- V, combine_map2. reflexivity.
Qed.
Lemma plot2 : forall given (f : series N E), series_ok f 2 -> series_plot N nabs E given f = Ok (Points (map (fun m => (nth 0 m 0, nth 1 m 0, nabs (series_at f m))) (points (s_set f) 2 (s_degree f)))).
Proof.
  intros given f H. destruct (indices_ok f 2 H) as (I & D & _ & V). unfold series_plot. rewrite I. cbn [bind]. rewrite D. rewrite !column_ok by (eapply Forall_impl; [|apply points_length, H]; cbn; intros; lia). cbn [bind]. rewrite <- V, map_map, !combine_map2. reflexivity.
Qed.
Lemma plot_other : forall given (f : series N E) dim, series_ok f dim -> 3 <= dim -> series_plot N nabs E given f = if given then Throw "UnboundLocalError" else Ok Empty.
Proof. intros given f dim H Hd. destruct (indices_ok f dim H) as (I & D & _). unfold series_plot. rewrite I. cbn [bind]. rewrite D. destruct dim as [|[|[|d]]]; try lia. reflexivity. Qed.

Variable show_index : option mi -> string.
Variable show_num : N -> string.
Lemma repr_loop : forall A (g : A -> string) l acc, fold_left (fun r a => append r (g a)) l acc = append acc (String.concat EmptyString (map g l)).
Proof.
  assert (AA : forall a b c, append a (append b c) = append (append a b) c) by (induction a as [|x a IH]; intros b c; [reflexivity|cbn; rewrite IH; reflexivity]).
  assert (A0 : forall a, append a EmptyString = a) by (induction a as [|x a IH]; [reflexivity|cbn; rewrite IH; reflexivity]).
  intros A g. induction l as [|a l IH]; intros acc; cbn [fold_left map].
  - cbn. rewrite A0. reflexivity.
  - rewrite IH. destruct l as [|b l]; [cbn; rewrite A0; reflexivity|]. cbn [map]. rewrite <- AA. reflexivity.
Qed.
Lemma fold_ext : forall A B (f g : B -> A -> B) l b, (forall b a, f b a = g b a) -> fold_left f l b = fold_left g l b.
Proof. intros A B f g. induction l as [|a l IH]; intros b H; [reflexivity|]. cbn [fold_left]. rewrite H. apply IH. exact H. Qed.
Lemma text_eq : forall a b, append (append (append a ": ") b) newline = text_line a b.
Proof.
  assert (AA : forall a b c, append a (append b c) = append (append a b) c) by (induction a as [|x a IH]; intros b c; [reflexivity|cbn; rewrite IH; reflexivity]).
  intros a b. unfold text_line. fold newline. rewrite !AA. reflexivity.
Qed.
Lemma repr_ok : forall (f : series N E) dim, series_ok f dim ->
  series_repr N E show_index show_num f = Ok (String.concat EmptyString (map (fun m => text_line (show_index (Some m)) (show_num (series_at f m))) (points (s_set f) dim (s_degree f)))).
Proof.
  intros f dim H. destruct (indices_ok f dim H) as (I & D & _ & V). unfold series_repr. rewrite I. cbn [bind]. assert (L : length (map Some (points (s_set f) dim (s_degree f))) =? length (s_coeffs f) = true) by (apply Nat.eqb_eq; rewrite map_length; symmetry; apply H). rewrite L. cbn [require bind]. f_equal.
  rewrite <- V. rewrite combine_map2.
  transitivity (fold_left (fun r a => append r ((fun '(m, c) => append (append (append (show_index m) ": ") (show_num c)) newline) a)) (map (fun a => (Some a, series_at f a)) (points (s_set f) dim (s_degree f))) EmptyString).
  { apply fold_ext. intros acc [m c]. reflexivity. }
  rewrite repr_loop. cbn [append]. f_equal. rewrite map_map. apply map_ext. intros m. apply text_eq.
Qed.
Lemma repr_0 : forall (f : series N E), p_dim (s_pos f) = 0 -> series_repr N E show_index show_num f = match s_coeffs f with [c] => Ok (text_line (show_index None) (show_num c)) | _ => Throw "ValueError" end.
Proof.
  intros f D. unfold series_repr, series_indices. rewrite D. cbn [Nat.eqb bind length]. destruct (s_coeffs f) as [|c [|c' l]]; cbn [length Nat.eqb require bind combine fold_left]; try reflexivity. rewrite <- text_eq. reflexivity.
Qed.
Lemma float_0 : forall (f : series N E) c, p_dim (s_pos f) = 0 -> s_coeffs f = [c] -> series_float N E f = Ok c.
Proof. intros f c D H. unfold series_float. rewrite D, H. reflexivity. Qed.
Lemma float_other : forall (f : series N E), p_dim (s_pos f) <> 0 -> series_float N E f = Throw "ValueError".
Proof. intros f D. unfold series_float. destruct (Nat.eqb_spec (p_dim (s_pos f)) 0); [contradiction|]. reflexivity. Qed.
Lemma getitem_ok : forall (f : series N E) dim i, series_ok f dim -> series_getitem N E f i = match nth_error (points (s_set f) dim (s_degree f)) i with Some m => Ok (series_at f m) | None => Throw "IndexError" end.
Proof.
  intros f dim i H. destruct (indices_ok f dim H) as (_ & _ & _ & V). unfold series_getitem, py_get. rewrite <- V, nth_error_map. destruct (nth_error (points (s_set f) dim (s_degree f)) i); reflexivity.
Qed.
End Show.
