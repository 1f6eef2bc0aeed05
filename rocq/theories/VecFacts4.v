(** Lemmas for C110: the norm. *)
From Coq Require Import String List Bool Arith ZArith Lia Reals Lra.
From Verif Require Import Base Lists Num Fnum LinModel LinSpec LinBase MatBase Sparse Facts2 CalcSpec CalcReal OpQuadFacts VecModel VecSpec VecFacts VecFacts2.
Import ListNotations.
Local Open Scope R_scope.

Lemma norm_loop : forall T (f : T -> res R) (g : T -> R) l c k0 s, (k0 + c <= length l)%nat -> (forall a, In a l -> f a = Ok (g a)) ->
  for_each (fun i s => a <- vget l i ;; r <- f a ;; Ok (nadd (n := fnum_R) s (nmul (n := fnum_R) r r))) c k0 s = Ok (s + rsum (map (fun a => g a * g a) (firstn c (skipn k0 l)))).
Proof.
  intros T f g l c. induction c as [|c IH]; intros k0 s Hk H; [cbn; f_equal; lra|]. cbn [for_each]. destruct (nth_error l k0) as [a|] eqn:E; [|apply nth_error_None in E; lia]. unfold vget at 1. rewrite E. cbn [bind]. rewrite (H a) by (apply (nth_error_In _ _ E)). cbn [bind]. rewrite IH by (try lia; exact H).
  f_equal. assert (K : skipn k0 l = a :: skipn (S k0) l). { clear - E. revert k0 E. induction l as [|x l IHl]; intros [|k0] E; cbn in E |- *; try discriminate; [injection E as ->; reflexivity|]. apply IHl in E. exact E. } rewrite K. cbn [firstn map]. rewrite rsum_cons. cbn. lra.
Qed.
Lemma norm_ok : forall T (f : T -> res R) (g : T -> R) l, (forall a, In a l -> f a = Ok (g a)) -> norm fnum_R f l = Ok (sqrt (rsum (map (fun a => g a * g a) l))).
Proof.
  intros T f g l H. unfold norm. pose proof (norm_loop T f g l (length l) 0 0 ltac:(lia) H) as E. rewrite skipn_O, firstn_all, Rplus_0_l in E. change (n0 : fnum_R) with 0. cbn [carrier] in *. refine (eq_trans (f_equal (fun x => bind x (fun s => Ok (fsqrt (f := fnum_R) s))) E) _). reflexivity.
Qed.
Lemma squares_pos : forall v, 0 <= squares v.
Proof. intros v. unfold squares. induction v as [|x v IH]; [right; reflexivity|]. cbn [map]. rewrite rsum_cons. nra. Qed.
Lemma vec_norm_ok : forall v, vec_norm fnum_R v = Ok (sqrt (squares v)).
Proof. intros v. unfold vec_norm. rewrite (norm_ok R _ Rabs) by reflexivity. f_equal. f_equal. unfold squares. f_equal. apply map_ext. intros x. rewrite <- Rabs_mult. apply Rabs_pos_eq. nra. Qed.
Lemma squares_app : forall v w, squares (v ++ w) = squares v + squares w.
Proof. intros v w. unfold squares. rewrite map_app. induction (map (fun x => x * x) v) as [|x l IH]; [symmetry; apply Rplus_0_l|]. cbn [app]. rewrite !rsum_cons, IH. symmetry. apply Rplus_assoc. Qed.
Lemma mat_norm_ok : forall A, mat_norm fnum_R A = Ok (sqrt (squares (concat A))).
Proof.
  intros A. unfold mat_norm. rewrite (norm_ok _ _ (fun v => sqrt (squares v))) by (intros; apply vec_norm_ok). f_equal. f_equal. induction A as [|v A IH]; [reflexivity|]. cbn [map concat]. rewrite rsum_cons, squares_app, IH. f_equal. apply sqrt_sqrt. apply squares_pos.
Qed.
Lemma squares_scale : forall v x, squares (map (fun a => a * x) v) = squares v * (x * x).
Proof. intros v x. unfold squares. rewrite map_map. induction v as [|a v IH]; [cbn; lra|]. cbn [map]. rewrite !rsum_cons, IH. lra. Qed.
Lemma sqrt_scale : forall s x, 0 <= s -> sqrt (s * (x * x)) = sqrt s * Rabs x.
Proof. intros s x Hs. rewrite sqrt_mult; [|exact Hs|nra]. f_equal. exact (sqrt_Rsqr_abs x). Qed.
Lemma squares_zero : forall v, sqrt (squares v) = 0 <-> Forall (fun x => x = 0) v.
Proof.
  intros v. split.
  - intros H. apply sqrt_eq_0 in H; [|apply squares_pos]. induction v as [|x v IH]; [constructor|]. unfold squares in H. cbn [map] in H. rewrite rsum_cons in H. pose proof (squares_pos v) as P. unfold squares in P. constructor; [nra|]. apply IH. unfold squares. nra.
  - intros H. replace (squares v) with 0; [apply sqrt_0|]. induction H as [|x v -> H IH]; [reflexivity|]. unfold squares. cbn [map]. rewrite rsum_cons. unfold squares in IH. rewrite <- IH. lra.
Qed.
Definition rdot (v w : list R) : R := rsum (map (fun '(x, y) => x * y) (combine v w)).
Lemma schwarz : forall v w, Rabs (rdot v w) <= sqrt (squares v) * sqrt (squares w).
Proof.
  induction v as [|a v IH]; intros [|b w]; try (unfold rdot; cbn [combine map rsum fold_right]; rewrite Rabs_R0; apply Rmult_le_pos; apply sqrt_pos).
  unfold rdot, squares. cbn [combine map]. rewrite !rsum_cons. fold (rdot v w). fold (squares v). fold (squares w). pose proof (squares_pos v) as Pv. pose proof (squares_pos w) as Pw. rewrite <- sqrt_mult by nra.
  apply Rle_trans with (sqrt (squares v) * sqrt (squares w) + Rabs a * Rabs b); [eapply Rle_trans; [apply Rabs_triang|]; rewrite Rabs_mult, Rplus_comm; apply Rplus_le_compat_r, IH|].
  pose proof (sqrt_pos (squares v)) as Qv. pose proof (sqrt_pos (squares w)) as Qw. pose proof (Rabs_pos a) as Qa. pose proof (Rabs_pos b) as Qb. rewrite <- (sqrt_square (sqrt (squares v) * sqrt (squares w) + Rabs a * Rabs b)) by nra. apply sqrt_le_1_alt.
  pose proof (sqrt_sqrt _ Pv) as Sv. pose proof (sqrt_sqrt _ Pw) as Sw. assert (Sa : Rabs a * Rabs a = a * a) by (rewrite <- Rabs_mult; apply Rabs_pos_eq; nra). assert (Sb : Rabs b * Rabs b = b * b) by (rewrite <- Rabs_mult; apply Rabs_pos_eq; nra).
  assert (G : forall p q x y, (p * q + x * y) * (p * q + x * y) <= (x * x + p * p) * (y * y + q * q)) by (intros p q x y; pose proof (Rle_0_sqr (p * y - x * q)) as K; unfold Rsqr in K; nra).
  specialize (G (sqrt (squares v)) (sqrt (squares w)) (Rabs a) (Rabs b)). rewrite Sa, Sb, Sv, Sw in G. exact G.
Qed.
Lemma squares_add : forall v w, length v = length w -> squares (map (fun '(x, y) => x + y) (combine v w)) = squares v + 2 * rdot v w + squares w.
Proof. unfold squares, rdot. induction v as [|a v IH]; intros [|b w] H; try discriminate H; [cbn; lra|]. cbn [combine map]. rewrite !rsum_cons. injection H as H. rewrite (IH w H). lra. Qed.
Lemma triangle_norm : forall v w, length v = length w -> sqrt (squares (map (fun '(x, y) => x + y) (combine v w))) <= sqrt (squares v) + sqrt (squares w).
Proof.
  intros v w H. pose proof (sqrt_pos (squares v)) as Qv. pose proof (sqrt_pos (squares w)) as Qw. rewrite <- (sqrt_square (sqrt (squares v) + sqrt (squares w))) by lra. apply sqrt_le_1_alt. rewrite squares_add by exact H.
  pose proof (schwarz v w) as S. pose proof (Rle_abs (rdot v w)) as S'. pose proof (sqrt_sqrt _ (squares_pos v)). pose proof (sqrt_sqrt _ (squares_pos w)). nra.
Qed.
Lemma combine_seq : forall (f : R -> R -> R) v w, (length v <= length w)%nat -> map (fun k => f (nth k v 0) (nth k w 0)) (seq 0 (length v)) = map (fun '(x, y) => f x y) (combine v w).
Proof. intros f. induction v as [|a v IH]; intros [|b w] H; cbn [length] in H; try lia; try reflexivity. cbn [length seq map combine nth]. f_equal. rewrite <- seq_shift, map_map. rewrite <- IH by lia. reflexivity. Qed.
Lemma vec_add_R : forall v w : list R, (length v <= length w)%nat -> vec_add num_R v w = Ok (map (fun '(x, y) => x + y) (combine v w)).
Proof. intros v w H. unfold vec_add. rewrite <- (combine_seq Rplus) by exact H. apply binop_ok; [exact H|reflexivity]. Qed.
Lemma vec_dot_R : forall v w : list R, (length v <= length w)%nat -> vec_dot num_R v w = Ok (rdot v w).
Proof. intros v w H. rewrite dot_ok by exact H. f_equal. unfold dot, rdot. rewrite nsum_rsum. rewrite <- (combine_seq Rmult) by exact H. reflexivity. Qed.

Lemma norm_scale : forall (v : list R) x, exists w, vec_scale num_R v x = Ok w /\ vec_norm fnum_R w = Ok (sqrt (squares v) * Rabs x).
Proof. intros v x. eexists. split; [apply (scale_ok _ _ (fun a => a * x)); reflexivity|]. rewrite vec_norm_ok. f_equal. rewrite squares_scale. apply sqrt_scale. apply squares_pos. Qed.
Lemma norm_triangle : forall v w : list R, length v = length w -> exists s, vec_add num_R v w = Ok s /\ exists r, vec_norm fnum_R s = Ok r /\ r <= sqrt (squares v) + sqrt (squares w).
Proof. intros v w H. eexists. split; [apply vec_add_R; exact (Nat.eq_le_incl _ _ H)|]. eexists. split; [apply vec_norm_ok|]. apply triangle_norm. exact H. Qed.
Lemma norm_dot : forall v w : list R, length v = length w -> exists d, vec_dot num_R v w = Ok d /\ Rabs d <= sqrt (squares v) * sqrt (squares w).
Proof. intros v w H. eexists. split; [apply vec_dot_R; exact (Nat.eq_le_incl _ _ H)|apply schwarz]. Qed.

Lemma concat_add : forall m (A B : list (list R)), length A = length B -> Forall (fun r => length r = m) A -> Forall (fun r => length r = m) B ->
  concat (map (fun '(v, w) => map (fun '(x, y) => x + y) (combine v w)) (combine A B)) = map (fun '(x, y) => x + y) (combine (concat A) (concat B)) /\ length (concat A) = length (concat B).
Proof.
  intros m A. induction A as [|v A IH]; intros [|w B] H HA HB; try discriminate H; [split; reflexivity|]. injection H as H. inversion HA as [|? ? Hv HA']; subst. inversion HB as [|? ? Hw HB']; subst. destruct (IH B H HA' HB') as (E & L). cbn [combine map concat]. split; [|rewrite !app_length; lia].
  rewrite E. rewrite <- map_app. f_equal. clear - Hw. revert w Hw. induction v as [|x v IHv]; intros [|y w] Hw; try discriminate Hw; [reflexivity|]. cbn [combine app]. f_equal. apply IHv. injection Hw as Hw. exact Hw.
Qed.
Lemma combine_seq2 : forall (f : list R -> list R -> list R) v w, (length v <= length w)%nat -> map (fun k => f (nth k v []) (nth k w [])) (seq 0 (length v)) = map (fun '(x, y) => f x y) (combine v w).
Proof. intros f. induction v as [|a v IH]; intros [|b w] H; cbn [length] in H; try lia; try reflexivity. cbn [length seq map combine nth]. f_equal. rewrite <- seq_shift, map_map. rewrite <- IH by lia. reflexivity. Qed.
Lemma mat_norm_triangle : forall n m (A B : list (list R)), mat_wf n m A -> mat_wf n m B -> exists S, mat_add num_R A B = Ok S /\ mat_wf n m S /\ (forall i j, (i < n)%nat -> (j < m)%nat -> @entry num_R S i j = @entry num_R A i j + @entry num_R B i j) /\
  exists r, mat_norm fnum_R S = Ok r /\ r <= sqrt (squares (concat A)) + sqrt (squares (concat B)).
Proof.
  intros n m A B (LA & FA) (LB & FB). exists (map (fun '(v, w) => map (fun '(x, y) => x + y) (combine v w)) (combine A B)). split; [|split; [|split]].
  - unfold mat_add. rewrite <- (combine_seq2 (fun v w => map (fun '(x, y) => x + y) (combine v w))) by lia. apply binop_ok; [cbn [carrier num_R] in *; lia|]. intros k Hk. apply vec_add_R. rewrite Forall_forall in FA, FB. cbn [carrier num_R] in *. rewrite FA, FB by (apply nth_In; lia). lia.
  - split; [rewrite map_length, combine_length; lia|]. apply Forall_forall. intros r Hr. apply in_map_iff in Hr as ((v & w) & <- & Hin). rewrite Forall_forall in FA, FB. rewrite map_length, combine_length, (FA v), (FB w) by (eapply in_combine_l + eapply in_combine_r; exact Hin). lia.
  - intros i j Hi Hj. unfold entry. rewrite (nth_map_lt _ _ _ _ i [] ([], [])) by (rewrite combine_length; lia). rewrite combine_nth by lia. rewrite Forall_forall in FA, FB. assert (length (nth i A []) = m) by (apply FA, nth_In; lia). assert (length (nth i B []) = m) by (apply FB, nth_In; lia).
    change (@n0 num_R) with 0 in *. rewrite (nth_map_lt _ _ _ (combine (nth i A []) (nth i B [])) j 0 (0, 0)) by (rewrite combine_length; lia). rewrite combine_nth by lia. reflexivity.
  - eexists. split; [apply mat_norm_ok|]. destruct (concat_add m A B ltac:(lia) FA FB) as (E & L). refine (Rle_trans _ _ _ (Req_le _ _ (f_equal (fun l => sqrt (squares l)) E)) _). apply triangle_norm. exact L.
Qed.
