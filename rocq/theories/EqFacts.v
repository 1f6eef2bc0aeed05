(** The equalities are reflexive and symmetric, and what they mean. *)
From Coq Require Import String List Bool Arith ZArith Reals Lia Lra.
From Verif Require Import Base Lists PyBase IndexModel Spec Num Fnum LinModel LinSpec LinBase PosModel PosSpec PosFacts SeriesModel SeriesSpec SeriesFacts PyQuadModel SplitSpec MulSpec ProjFacts EqModel EqSpec.
Import ListNotations.
Local Open Scope R_scope.

Lemma sq_nonneg : forall v : list R, 0 <= fold_right Rplus 0 (map (fun x => x * x) v).
Proof. induction v as [|a v IH]; cbn; [lra|]. nra. Qed.
Lemma norm_entry : forall v x, In x v -> Rabs x <= vec_norm v.
Proof.
  intros v x H. unfold vec_norm. rewrite <- sqrt_Rsqr_abs. apply sqrt_le_1_alt. unfold Rsqr. induction v as [|a v IH]; [destruct H|]. cbn. pose proof (sq_nonneg v). destruct H as [->|H]; [lra|]. specialize (IH H). nra.
Qed.
Lemma norm_zero : forall v, (forall x, In x v -> x = 0) -> vec_norm v = 0.
Proof. intros v H. unfold vec_norm. replace (fold_right Rplus 0 (map (fun x => x * x) v)) with 0; [apply sqrt_0|]. symmetry. induction v as [|a v IH]; [reflexivity|]. cbn. rewrite IH, (H a (or_introl eq_refl)); [ring|]. intros x Hx. apply H. right. exact Hx. Qed.
Lemma norm_opp : forall v, vec_norm (map Ropp v) = vec_norm v.
Proof. intros v. unfold vec_norm. f_equal. rewrite map_map. induction v as [|a v IH]; [reflexivity|]. cbn. rewrite IH. ring. Qed.
Lemma frobenius_opp : forall m, frobenius (map (map Ropp) m) = frobenius m.
Proof. intros m. unfold frobenius. rewrite <- concat_map. apply norm_opp. Qed.
Lemma small_lt : forall x, small x = true -> x < tol.
Proof. intros x. unfold small, tol. destruct (Rlt_dec x (/ 10 ^ 10)); [intros _; assumption|discriminate]. Qed.
Lemma small_0 : small 0 = true.
Proof. unfold small. destruct (Rlt_dec 0 (/ 10 ^ 10)) as [_|H]; [reflexivity|]. exfalso. apply H. apply Rinv_0_lt_compat. apply pow_lt. lra. Qed.

(** differences *)
Lemma np_add_R : forall v w : list R, np_add num_R v w = (if (@length R v =? @length R w)%nat then Ok (map (fun '(x, y) => x + y) (combine v w))
  else match v, w with [x], _ => Ok (map (Rplus x) w) | _, [y] => Ok (map (fun x => x + y) v) | _, _ => Throw "ValueError"%string end).
Proof. reflexivity. Qed.
Lemma np_add_mat_R : forall A B : list (list R), np_add_mat num_R A B = (if (@length (list R) A =? @length (list R) B)%nat then mapM (fun '(r, s) => (np_add num_R r s : res (list R))) (combine A B)
  else match A, B with [r], _ => mapM (np_add num_R r : list R -> res (list R)) B | _, [s] => mapM (fun r : list R => np_add num_R r s : res (list R)) A | _, _ => Throw "ValueError"%string end).
Proof. reflexivity. Qed.
Definition diff (x y : list R) : list R := map (fun '(a, b) => a + b) (combine x (map Ropp y)).
Lemma sub_same : forall x y, length x = length y -> np_sub x y = Ok (diff x y).
Proof. intros x y H. unfold np_sub. rewrite np_add_R. rewrite map_length, H, Nat.eqb_refl. reflexivity. Qed.
Lemma diff_entry : forall x y i a b, nth_error x i = Some a -> nth_error y i = Some b -> nth_error (diff x y) i = Some (a - b).
Proof.
  unfold diff. induction x as [|a x IH]; intros [|b y] [|i] a' b' Ha Hb; try discriminate; cbn in Ha, Hb |- *; [injection Ha as ->; injection Hb as ->; reflexivity|apply IH; assumption].
Qed.
Lemma diff_self : forall x z, In z (diff x x) -> z = 0.
Proof. unfold diff. induction x as [|a x IH]; intros z H; [destruct H|]. cbn in H. destruct H as [<-|H]; [lra|apply IH; exact H]. Qed.
Lemma sub_mat_same : forall n k x y, mat_wf n k x -> mat_wf n k y -> np_sub_mat x y = Ok (map (fun '(r, s) => diff r s) (combine x y)).
Proof.
  intros n k x y [X1 X2] [Y1 Y2]. unfold np_sub_mat. rewrite np_add_mat_R. rewrite map_length.  rewrite (proj2 (Nat.eqb_eq _ _) (eq_trans X1 (eq_sym Y1))). clear n X1 Y1. revert y Y2.
  induction X2 as [|r x Hr X2 IH]; intros y Y2; [reflexivity|]. destruct Y2 as [|s y Hs Y2]; [reflexivity|]. cbn [map combine mapM]. specialize (IH y Y2).
  change (np_add num_R r (map Ropp s)) with (np_sub r s). rewrite sub_same by congruence. cbn [bind]. rewrite IH. reflexivity.
Qed.
Lemma diffm_entry : forall x y i r s, nth_error x i = Some r -> nth_error y i = Some s -> nth_error (map (fun '(r, s) => diff r s) (combine x y)) i = Some (diff r s).
Proof. induction x as [|r0 x IH]; intros [|s0 y] [|i] r s Hr Hs; try discriminate; cbn in Hr, Hs |- *; [injection Hr as ->; injection Hs as ->; reflexivity|apply IH; assumption]. Qed.
Lemma diffm_self : forall x r z, In r (map (fun '(r, s) => diff r s) (combine x x)) -> In z r -> z = 0.
Proof. induction x as [|a x IH]; intros r z Hr Hz; [destruct Hr|]. cbn in Hr. destruct Hr as [<-|Hr]; [eapply diff_self; exact Hz|eapply IH; eassumption]. Qed.
Lemma vec_close : forall x y, length x = length y -> small (vec_norm (diff x y)) = true -> close tol x y.
Proof. intros x y Hl H. apply small_lt in H. split; [exact Hl|]. intros i a b Ha Hb. eapply Rle_lt_trans; [|exact H]. apply norm_entry. eapply nth_error_In. apply diff_entry; eassumption. Qed.
Lemma mat_close : forall n k x y norm, mat_wf n k x -> mat_wf n k y -> (forall m r z, In r m -> In z r -> Rabs z <= norm m) -> small (norm (map (fun '(r, s) => diff r s) (combine x y))) = true -> close_mat tol x y.
Proof.
  intros n k x y norm [X1 X2] [Y1 Y2] Hn H. apply small_lt in H. split; [congruence|]. intros i r s Hr Hs. rewrite Forall_forall in X2, Y2. split; [rewrite (X2 r (nth_error_In _ _ Hr)), (Y2 s (nth_error_In _ _ Hs)); reflexivity|].
  intros j a b Ha Hb. eapply Rle_lt_trans; [|exact H]. eapply Hn; [eapply nth_error_In; apply diffm_entry; eassumption|eapply nth_error_In; apply diff_entry; eassumption].
Qed.
Lemma frobenius_entry : forall m r z, In r m -> In z r -> Rabs z <= frobenius m.
Proof. intros m r z Hr Hz. apply norm_entry. apply in_concat. exists r. split; assumption. Qed.
Lemma frobenius_zero : forall m, (forall r z, In r m -> In z r -> z = 0) -> frobenius m = 0.
Proof. intros m H. apply norm_zero. intros z Hz. apply in_concat in Hz as (r & Hr & Hz). eapply H; eassumption. Qed.

(** symmetry of the differences, with NumPy's broadcasting *)
Definition mirror {A} (neg : A -> A) (o o' : res A) : Prop := match o with Ok d => o' = Ok (neg d) | e => o' = e end.
Lemma sub_mirror : forall x y, mirror (map Ropp) (np_sub x y) (np_sub y x).
Proof.
  intros x y. unfold np_sub. rewrite !np_add_R. rewrite !map_length. rewrite (Nat.eqb_sym (length y)). destruct (length x =? length y)%nat eqn:El.
  - cbn [mirror]. f_equal. apply Nat.eqb_eq in El. revert y El. induction x as [|a x IH]; intros [|b y] El; try discriminate El; [reflexivity|]. cbn. f_equal; [match goal with |- ?a = ?b => change (@eq R a b) end; ring|]. apply IH. cbn in El. lia.
  - apply Nat.eqb_neq in El. destruct x as [|a [|a' x]], y as [|b [|b' y]]; cbn in El; try lia; cbn; try reflexivity; f_equal.
    + f_equal; [match goal with |- ?a = ?b => change (@eq R a b) end; ring|]. f_equal; [match goal with |- ?a = ?b => change (@eq R a b) end; ring|]. rewrite !map_map. apply map_ext. intros z. match goal with |- ?a = ?b => change (@eq R a b) end; ring.
    + f_equal; [match goal with |- ?a = ?b => change (@eq R a b) end; ring|]. f_equal; [match goal with |- ?a = ?b => change (@eq R a b) end; ring|]. rewrite !map_map. apply map_ext. intros z. match goal with |- ?a = ?b => change (@eq R a b) end; ring.
Qed.
Lemma mapM_mirror : forall A B C (f : A -> res C) (g : B -> res C) (neg : C -> C) la lb, Forall2 (fun a b => mirror neg (f a) (g b)) la lb -> mirror (map neg) (mapM f la) (mapM g lb).
Proof.
  intros A B C f g neg la lb H. induction H as [|a b la lb H1 H2 IH]; [reflexivity|]. cbn [mapM]. unfold mirror in H1. destruct (f a); cbn [bind]; rewrite H1; cbn [bind]; try reflexivity. unfold mirror in IH. destruct (mapM f la); cbn [bind]; rewrite IH; reflexivity.
Qed.
Lemma sub_mat_mirror : forall x y, mirror (map (map Ropp)) (np_sub_mat x y) (np_sub_mat y x).
Proof.
  intros x y. unfold np_sub_mat. rewrite !np_add_mat_R. rewrite !map_length. rewrite (Nat.eqb_sym (length y)). destruct (length x =? length y)%nat eqn:El.
  - apply mapM_mirror. apply Nat.eqb_eq in El. revert y El. induction x as [|r x IH]; intros [|s y] El; try discriminate El; [constructor|]. cbn [map combine]. constructor; [apply (sub_mirror r s)|]. apply IH. cbn in El. lia.
  - apply Nat.eqb_neq in El. destruct x as [|a [|a' x]], y as [|b [|b' y]]; cbn [length] in El; try lia; cbn [map]; try reflexivity.
    + apply (mapM_mirror _ _ _ (np_add num_R a) (fun r => np_add num_R r (map Ropp a)) (map Ropp) (map (map Ropp) (b :: b' :: y)) (b :: b' :: y)). induction (b :: b' :: y) as [|s l IH]; [constructor|]. cbn [map]. constructor; [apply (sub_mirror a s)|exact IH].
    + apply (mapM_mirror _ _ _ (fun r => np_add num_R r (map Ropp b)) (np_add num_R b) (map Ropp) (a :: a' :: x) (map (map Ropp) (a :: a' :: x))). induction (a :: a' :: x) as [|s l IH]; [constructor|]. cbn [map]. constructor; [apply (sub_mirror s b)|exact IH].
Qed.
Lemma bind_mirror : forall A B (neg : A -> A) (o o' : res A) (k : A -> res B), mirror neg o o' -> (forall d, k (neg d) = k d) -> bind o k = bind o' k.
Proof. intros A B neg o o' k H Hk. unfold mirror in H. destruct o; rewrite H; cbn [bind]; try reflexivity. symmetry. apply Hk. Qed.

Lemma nats_eqb_sym : forall a b, nats_eqb a b = nats_eqb b a.
Proof. intros a b. destruct (nats_eqb a b) eqn:H; symmetry; [apply nats_eqb_eq in H; subst; apply nats_eqb_eq; reflexivity|]. apply not_true_is_false. intros G. apply nats_eqb_eq in G. subst. rewrite (proj2 (nats_eqb_eq _ _) eq_refl) in H. discriminate H. Qed.
Lemma strings_eqb_eq : forall a b, strings_eqb a b = true <-> a = b.
Proof.
  induction a as [|x a IH]; intros [|y b]; cbn; split; intros H; try discriminate H; try reflexivity.
  - apply andb_true_iff in H as [H1 H2]. apply String.eqb_eq in H1. apply IH in H2. congruence.
  - injection H as -> ->. rewrite String.eqb_refl. apply IH. reflexivity.
Qed.
Lemma strings_eqb_sym : forall a b, strings_eqb a b = strings_eqb b a.
Proof. intros a b. destruct (strings_eqb a b) eqn:H; symmetry; [apply strings_eqb_eq in H; subst; apply strings_eqb_eq; reflexivity|]. apply not_true_is_false. intros G. apply strings_eqb_eq in G. subst. rewrite (proj2 (strings_eqb_eq _ _) eq_refl) in H. discriminate H. Qed.

Section Eq.
Variable E : Type.
Variable sym_eqb : E -> E -> bool.
Hypothesis sym_ok : forall x y, sym_eqb x y = true <-> x = y.
Variable spectral : list (list R) -> R.
Hypothesis Hs : spectral_ok spectral.
Notation position_eq := (position_eq spectral).
Notation series_eq := (series_eq E sym_eqb spectral).
Notation varf_eq := (varf_eq E spectral).
Notation quad_eq := (quad_eq E sym_eqb spectral).

Lemma func_eqb_iff : forall f g, func_eqb E sym_eqb f g = true <-> f = g.
Proof using sym_ok.
  intros [fs fd] [gs gd]. unfold func_eqb. cbn. rewrite andb_true_iff. rewrite sym_ok. split.
  - intros [H1 H2]. apply nats_eqb_eq in H1. congruence.
  - intros H. injection H as -> ->. split; [apply nats_eqb_eq; reflexivity|reflexivity].
Qed.
Lemma func_eqb_sym : forall f g, func_eqb E sym_eqb f g = func_eqb E sym_eqb g f.
Proof using sym_ok. intros f g. destruct (func_eqb E sym_eqb f g) eqn:H; symmetry; [apply func_eqb_iff in H; subst; apply func_eqb_iff; reflexivity|]. apply not_true_is_false. intros G. apply func_eqb_iff in G. subst. rewrite (proj2 (func_eqb_iff _ _) eq_refl) in H. discriminate H. Qed.

(** positions *)
Theorem position_refl : forall p, pos_shape p -> position_eq p p = Ok true.
Proof using Hs.
  intros p (P2 & P3). unfold EqModel.position_eq, and_then. rewrite (proj2 (nats_eqb_eq _ _) eq_refl). cbn [bind]. rewrite sub_same by reflexivity. cbn [bind]. rewrite norm_zero by apply diff_self. rewrite small_0. cbn [bind].
  rewrite (sub_mat_same _ _ _ _ P3 P3). cbn [bind]. rewrite (spectral_zero _ Hs) by apply diffm_self. rewrite small_0. rewrite (proj2 (strings_eqb_eq _ _) eq_refl). reflexivity.
Qed.
Theorem position_sym : forall p q, position_eq p q = position_eq q p.
Proof using Hs.
  intros p q. unfold EqModel.position_eq, and_then. rewrite (nats_eqb_sym (p_dirs p)), (strings_eqb_sym (p_types p)).
  rewrite (bind_mirror _ _ _ _ _ (fun d => Ok (small (vec_norm d))) (sub_mirror (p_mean p) (p_mean q))) by (intros d; rewrite norm_opp; reflexivity).
  rewrite (bind_mirror _ _ _ _ _ (fun d => Ok (small (spectral d))) (sub_mat_mirror (p_cov p) (p_cov q))) by (intros d; rewrite (spectral_opp _ Hs); reflexivity). reflexivity.
Qed.
Lemma and_then_true : forall a b, and_then a b = Ok true -> a = Ok true /\ b = Ok true.
Proof using. intros [[|]| | | |] b H; cbn in H; try discriminate H. split; [reflexivity|exact H]. Qed.
Theorem position_meaning : forall p q, pos_shape p -> pos_shape q -> position_eq p q = Ok true -> same_position p q.
Proof using Hs.
  intros p q (P2 & P3) (Q2 & Q3) H. unfold EqModel.position_eq in H. apply and_then_true in H as [H1 H]. apply and_then_true in H as [H2 H]. apply and_then_true in H as [H3 H4].
  injection H1 as H1. apply nats_eqb_eq in H1. injection H4 as H4. apply strings_eqb_eq in H4. rewrite <- H1 in Q2, Q3. pose proof (eq_trans P2 (eq_sym Q2)) as Hl. rewrite (sub_same _ _ Hl) in H2. injection H2 as H2. rewrite (sub_mat_same _ _ _ _ P3 Q3) in H3. injection H3 as H3.
  split; [exact H1|]. split; [exact H4|]. split; [apply vec_close; [exact Hl|exact H2]|]. eapply mat_close; [exact P3|exact Q3|apply (spectral_entry _ Hs)|exact H3].
Qed.

(** series *)
Theorem series_refl : forall f, pos_shape (s_pos f) -> series_eq f f = Ok true.
Proof using Hs sym_ok.
  intros f Hp. unfold EqModel.series_eq. rewrite position_refl by exact Hp. rewrite (proj2 (func_eqb_iff _ _) eq_refl). unfold and_then. cbn [bind]. rewrite sub_same by reflexivity. cbn [bind]. rewrite norm_zero by apply diff_self. rewrite small_0. reflexivity.
Qed.
Theorem series_sym : forall f g, series_eq f g = series_eq g f.
Proof using Hs sym_ok.
  intros f g. unfold EqModel.series_eq, and_then. rewrite position_sym, func_eqb_sym. rewrite (bind_mirror _ _ _ _ _ (fun d => Ok (small (vec_norm d))) (sub_mirror (s_coeffs f) (s_coeffs g))) by (intros d; rewrite norm_opp; reflexivity). reflexivity.
Qed.
Theorem series_meaning : forall f g, pos_shape (s_pos f) -> pos_shape (s_pos g) -> length (s_coeffs f) = length (s_coeffs g) -> series_eq f g = Ok true ->
  same_position (s_pos f) (s_pos g) /\ s_factor f = s_factor g /\ close tol (s_coeffs f) (s_coeffs g).
Proof using Hs sym_ok.
  intros f g Hf Hg Hl H. unfold EqModel.series_eq in H. apply and_then_true in H as [H1 H]. apply and_then_true in H as [H2 H3]. injection H2 as H2. apply func_eqb_iff in H2. rewrite sub_same in H3 by exact Hl. injection H3 as H3.
  split; [apply position_meaning; assumption|]. split; [exact H2|]. apply vec_close; assumption.
Qed.

(** variational forms *)
Theorem varf_refl : forall v n, pos_shape (v_pos v) -> mat_wf n n (v_mat v) -> varf_eq v v = Ok true.
Proof using Hs.
  intros v n Hp Hm. unfold EqModel.varf_eq. rewrite position_refl by exact Hp. unfold and_then. cbn [bind]. rewrite (sub_mat_same _ _ _ _ Hm Hm). cbn [bind]. rewrite frobenius_zero by apply diffm_self. rewrite small_0. reflexivity.
Qed.
Theorem varf_sym : forall v w, varf_eq v w = varf_eq w v.
Proof using Hs.
  intros v w. unfold EqModel.varf_eq, and_then. rewrite position_sym. rewrite (bind_mirror _ _ _ _ _ (fun d => Ok (small (frobenius d))) (sub_mat_mirror (v_mat v) (v_mat w))) by (intros d; rewrite frobenius_opp; reflexivity). reflexivity.
Qed.
Theorem varf_meaning : forall v w n, pos_shape (v_pos v) -> pos_shape (v_pos w) -> mat_wf n n (v_mat v) -> mat_wf n n (v_mat w) -> varf_eq v w = Ok true -> same_position (v_pos v) (v_pos w) /\ close_mat tol (v_mat v) (v_mat w).
Proof using Hs.
  intros v w n Hv Hw M1 M2 H. unfold EqModel.varf_eq in H. apply and_then_true in H as [H1 H2]. rewrite (sub_mat_same _ _ _ _ M1 M2) in H2. injection H2 as H2. split; [apply position_meaning; assumption|]. eapply mat_close; [exact M1|exact M2|exact frobenius_entry|exact H2].
Qed.

(** quadratures *)
Theorem quad_refl : forall q n k, quad_shape q n k -> quad_eq q q = Ok true.
Proof using Hs sym_ok.
  intros q n k (Hp & _ & H1 & H2). unfold EqModel.quad_eq. change (EqModel.position_eq spectral (q_pos q) (q_pos q)) with (position_eq (q_pos q) (q_pos q)). rewrite position_refl by exact Hp. rewrite (proj2 (func_eqb_iff _ _) eq_refl). unfold and_then. cbn [bind].
  rewrite (sub_mat_same _ _ _ _ H1 H1). cbn [bind]. rewrite frobenius_zero by apply diffm_self. rewrite small_0. rewrite (sub_mat_same _ _ _ _ H2 H2). cbn [bind]. rewrite frobenius_zero by apply diffm_self. rewrite small_0. reflexivity.
Qed.
Theorem quad_sym : forall q r, quad_eq q r = quad_eq r q.
Proof using Hs sym_ok.
  intros q r. unfold EqModel.quad_eq, and_then. rewrite (position_sym (q_pos q)), func_eqb_sym. rewrite (bind_mirror _ _ _ _ _ (fun d => Ok (small (frobenius d))) (sub_mat_mirror (q_nodes q) (q_nodes r))) by (intros d; rewrite frobenius_opp; reflexivity).
  rewrite (bind_mirror _ _ _ _ _ (fun d => Ok (small (frobenius d))) (sub_mat_mirror (q_weights q) (q_weights r))) by (intros d; rewrite frobenius_opp; reflexivity). reflexivity.
Qed.
Theorem quad_meaning : forall q r n k, quad_shape q n k -> quad_shape r n k -> quad_eq q r = Ok true ->
  same_position (q_pos q) (q_pos r) /\ q_factor q = q_factor r /\ close_mat tol (q_nodes q) (q_nodes r) /\ close_mat tol (q_weights q) (q_weights r).
Proof using Hs sym_ok.
  intros q r n k (P1 & _ & P2 & P3) (Q1 & _ & Q2 & Q3) H. unfold EqModel.quad_eq in H. apply and_then_true in H as [H1 H]. apply and_then_true in H as [H2 H]. apply and_then_true in H as [H3 H4]. injection H2 as H2. apply func_eqb_iff in H2.
  rewrite (sub_mat_same _ _ _ _ P2 Q2) in H3. injection H3 as H3. rewrite (sub_mat_same _ _ _ _ P3 Q3) in H4. injection H4 as H4.
  split; [apply position_meaning; assumption|]. split; [exact H2|]. split; eapply mat_close; try eassumption; exact frobenius_entry.
Qed.
End Eq.

(** coefficients by multi-index *)
Lemma close_cons : forall eps a v b w, close eps (a :: v) (b :: w) -> Rabs (a - b) < eps /\ close eps v w.
Proof. intros eps a v b w [H1 H2]. split; [apply (H2 0%nat); reflexivity|]. split; [cbn in H1; lia|]. intros i x y Hx Hy. apply (H2 (S i)); assumption. Qed.
Lemma value_close : forall eps l v w m, 0 < eps -> close eps v w -> Rabs (value 0 l v m - value 0 l w m) < eps.
Proof.
  intros eps l v w m He. revert v w. induction l as [|x l IH]; intros v w H; [cbn; rewrite Rminus_0_r, Rabs_R0; exact He|]. destruct v as [|a v], w as [|b w]; try (destruct H as [H _]; discriminate H); [cbn; rewrite Rminus_0_r, Rabs_R0; exact He|].
  apply close_cons in H as [H1 H2]. cbn [value]. destruct (mi_eqb x m); [exact H1|apply IH; exact H2].
Qed.
Lemma close_nil : forall eps, close eps [] [].
Proof. intros eps. split; [reflexivity|]. intros [|i] a b H; discriminate H. Qed.
Lemma value_close_row : forall eps l (A B : list (list R)) m, close_mat eps A B -> close eps (value [] l A m) (value [] l B m).
Proof.
  intros eps l A B m. revert A B. induction l as [|x l IH]; intros A B H; [apply close_nil|]. destruct A as [|a v], B as [|b w]; try (destruct H as [H _]; discriminate H); [apply close_nil|].
  destruct H as [H1 H2]. cbn [value]. destruct (mi_eqb x m); [apply (H2 0%nat); reflexivity|]. apply IH. split; [cbn in H1; lia|]. intros i r s Hr Hs. apply (H2 (S i)); assumption.
Qed.
Lemma tol_pos : 0 < tol.
Proof. apply Rinv_0_lt_compat, pow_lt. lra. Qed.

(** the Frobenius norm satisfies what is asked of the spectral norm *)
Lemma frobenius_ok : spectral_ok frobenius.
Proof. constructor; [exact frobenius_zero|exact frobenius_opp|exact frobenius_entry]. Qed.

(** two series whose positions and factors are equal *)
Lemma series_eq_same : forall E sym_eqb spectral (f g : series num_R E), (forall x y, sym_eqb x y = true <-> x = y) -> spectral_ok spectral -> pos_shape (s_pos f) -> s_pos f = s_pos g -> s_factor f = s_factor g ->
  series_eq E sym_eqb spectral f g = (d <- np_sub (s_coeffs f) (s_coeffs g) ;; Ok (small (vec_norm d))).
Proof. intros E sym_eqb spectral f g H1 H2 Hp Ep Ef. unfold series_eq. rewrite <- Ep, <- Ef. rewrite position_refl by assumption. rewrite (proj2 (func_eqb_iff _ _ H1 _ _) eq_refl). reflexivity. Qed.

Lemma series_values : forall E (sym_eqb : E -> E -> bool), (forall x y, sym_eqb x y = true <-> x = y) -> forall spectral, spectral_ok spectral -> forall (f g : series num_R E) dim,
  series_ok f dim -> series_ok g dim -> pos_shape (s_pos f) -> pos_shape (s_pos g) -> s_set f = s_set g -> s_degree f = s_degree g -> series_eq E sym_eqb spectral f g = Ok true ->
  same_position (s_pos f) (s_pos g) /\ s_factor f = s_factor g /\ forall m, Rabs (series_at f m - series_at g m) < tol.
Proof.
  intros E sym_eqb H1 spectral H2 f g dim [F1 F2] [G1 G2] Pf Pg Es Ed H. unfold vec_for in F2, G2. rewrite <- Es, <- Ed in G2. destruct (series_meaning E sym_eqb H1 spectral H2 f g Pf Pg (eq_trans F2 (eq_sym G2)) H) as (A & B & C).
  split; [exact A|]. split; [exact B|]. intros m. unfold series_at, coef. rewrite <- Es, <- Ed. destruct A as [A _]. rewrite <- A. apply (value_close tol _ (s_coeffs f) (s_coeffs g)); [exact tol_pos|exact C].
Qed.
Lemma varf_values : forall E spectral, spectral_ok spectral -> forall (v w : varf num_R E) dim,
  varf_ok v dim -> varf_ok w dim -> pos_shape (v_pos v) -> pos_shape (v_pos w) -> v_set v = v_set w -> v_degree v = v_degree w -> varf_eq E spectral v w = Ok true ->
  same_position (v_pos v) (v_pos w) /\ forall r c, Rabs (varf_at v r c - varf_at w r c) < tol.
Proof.
  intros E spectral H2 f g dim [F1 F2] [G1 G2] Pf Pg Es Ed H. unfold mat_for in F2, G2. rewrite <- Es, <- Ed in G2. destruct (varf_meaning E spectral H2 f g _ Pf Pg F2 G2 H) as (A & C).
  split; [exact A|]. intros r c. unfold varf_at, entry, mvalue. rewrite <- Es, <- Ed. destruct A as [A _]. rewrite <- A. apply (value_close tol); [exact tol_pos|]. apply value_close_row. exact C.
Qed.

Lemma x_eqb_iff : forall a b, x_eqb a b = true <-> a = b.
Proof.
  induction a; intros b; destruct b; cbn; split; intros H; try discriminate H; try (apply andb_true_iff in H as [H1 H2]);
    try (apply Z.eqb_eq in H); try (apply Nat.eqb_eq in H); try (injection H; intros; subst; clear H); subst; try reflexivity;
    try (rewrite Z.eqb_refl; reflexivity); try (rewrite Nat.eqb_refl; reflexivity); try (apply IHa1 in H1; apply IHa2 in H2; subst; reflexivity);
    try (apply andb_true_iff; split; [apply IHa1; reflexivity|apply IHa2; reflexivity]); try (apply IHa in H; subst; reflexivity); try (apply IHa; reflexivity).
Qed.
Lemma pos_ok_shape : forall p : position num_R, pos_ok p -> pos_shape p.
Proof. intros p (_ & H1 & H2 & _). split; assumption. Qed.
Lemma sub_mat_1 : forall a b, np_sub_mat [[a]] [[b]] = Ok [[a + - b]].
Proof. reflexivity. Qed.
