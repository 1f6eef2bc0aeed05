(** The number computed from the potential of the noise. *)
From Coq Require Import String List Bool Arith ZArith Lia Reals Lra.
From Verif Require Import Base Lists IndexModel Spec Grid Num LinModel LinSpec PyBase PosModel PosSpec PosFacts PartModel PartSpec SplitSpec MulSpec SeriesModel SplitModel MulModel Fnum CalcModel CalcSpec CalcReal CalcInt PyQuadModel PyQuadSpec PyQuadFacts2
  SolveSpec OpModel OpQuadModel OpQuadFacts QuadIntModel QuadMakeModel QuadMakeSpec QuadMakeFacts EqnModel NoiseModel NoiseSpec.
Import ListNotations.
Local Open Scope string_scope. Local Open Scope list_scope. Local Open Scope nat_scope.

(** * Symmetric matrices *)
Notation rdot := (dot (N := num_R)).
Notation rmatvec := (matvec (N := num_R)).

Lemma dot_nth : forall n (v w : list R), length v = n -> length w = n -> rdot v w = rsum (map (fun k => nth k v 0 * nth k w 0)%R (seq 0 n)).
Proof.
  unfold dot. intros n v w Hv Hw. rewrite nsum_rsum. revert v w Hv Hw.
  induction n as [|n IH]; intros [|x v] [|y w] Hv Hw; try discriminate Hv; try discriminate Hw; [reflexivity|]. cbn [combine map length seq]. rewrite <- seq_shift, map_map. rewrite !rsum_cons. cbn [nth].
  injection Hv as Hv. injection Hw as Hw. rewrite (IH v w Hv Hw). reflexivity.
Qed.

Lemma matvec_length : forall (A : list (list R)) v, length (rmatvec A v) = length A.
Proof. intros A v. apply map_length. Qed.

Lemma matvec_nth : forall (A : list (list R)) v i, i < length A -> nth i (rmatvec A v) 0%R = rdot (nth i A []) v.
Proof. intros A v i Hi. unfold matvec. rewrite (nth_indep _ 0%R (rdot [] v)) by (rewrite map_length; exact Hi). rewrite (map_nth (fun row => rdot row v)). reflexivity. Qed.

Lemma bilinear : forall A u v, square_matrix A -> length u = length A -> length v = length A ->
  rdot u (rmatvec A v) = rsum (map (fun i => rsum (map (fun j => nth i u 0 * nth j (nth i A []) 0 * nth j v 0)%R (seq 0 (length A)))) (seq 0 (length A))).
Proof.
  intros A u v HA Hu Hv. rewrite (dot_nth (length A) u (rmatvec A v) Hu (matvec_length A v)). apply rsum_map_ext. intros i Hi. apply in_seq in Hi.
  rewrite matvec_nth by lia. assert (Hr : length (nth i A []) = length A). { unfold square_matrix in HA. rewrite Forall_forall in HA. apply HA. apply nth_In. lia. }
  rewrite (dot_nth (length A) _ v Hr Hv). rewrite <- rsum_map_mult. apply rsum_map_ext. intros j _. symmetry. apply Rmult_assoc.
Qed.

Lemma self_adjoint : forall A u v, symmetric A -> length u = length A -> length v = length A -> rdot u (rmatvec A v) = rdot v (rmatvec A u).
Proof.
  intros A u v (HA & HS) Hu Hv. rewrite !bilinear by assumption. rewrite rsum_swap. apply rsum_map_ext. intros i _. apply rsum_map_ext. intros j _. rewrite (HS i j). ring.
Qed.

Lemma dot_comm : forall u v : list R, length u = length v -> rdot u v = rdot v u.
Proof. intros u v H. rewrite (dot_nth (length v) u v H eq_refl), (dot_nth (length v) v u eq_refl H). apply rsum_map_ext. intros k _. ring. Qed.

(** Two solutions of a system with a symmetric matrix have the same product with the right-hand side. *)
Theorem same_product : forall A b u v, symmetric A -> length u = length A -> length v = length A -> rmatvec A u = b -> rmatvec A v = b -> rdot u b = rdot v b.
Proof. intros A b u v HA Hu Hv Eu Ev. rewrite <- Ev at 1. rewrite (self_adjoint A u v HA Hu Hv), Eu. reflexivity. Qed.

Definition minus_vec (v u : list R) : list R := map (fun '(x, y) => x - y)%R (combine v u).
Lemma minus_length : forall v u, length v = length u -> length (minus_vec v u) = length v.
Proof. intros v u H. unfold minus_vec. rewrite map_length, combine_length, H. apply Nat.min_id. Qed.
Lemma minus_nth : forall v u k, length v = length u -> nth k (minus_vec v u) 0%R = (nth k v 0 - nth k u 0)%R.
Proof.
  intros v. induction v as [|x v IH]; intros [|y u] k H; try discriminate H; destruct k as [|k]; cbn; try ring. apply IH. injection H; auto.
Qed.

Definition bil (A : list (list R)) (n : nat) (u v : list R) : R := rsum (map (fun i => rsum (map (fun j => nth i u 0 * nth j (nth i A []) 0 * nth j v 0)%R (seq 0 n))) (seq 0 n)).
Lemma expand_minus : forall A u v n, length v = length u -> bil A n (minus_vec v u) (minus_vec v u) = (bil A n v v - (bil A n v u + bil A n u v) + bil A n u u)%R.
Proof.
  intros A u v n Hl. unfold bil. generalize (seq 0 n) at 2 4 6 8 10. intros l. induction l as [|i l IH]; [cbn; ring|]. cbn [map]. rewrite !rsum_cons.
  assert (Y : rsum (map (fun j => nth i (minus_vec v u) 0 * nth j (nth i A []) 0 * nth j (minus_vec v u) 0)%R (seq 0 n)) =
    (rsum (map (fun j => nth i v 0 * nth j (nth i A []) 0 * nth j v 0)%R (seq 0 n)) - (rsum (map (fun j => nth i v 0 * nth j (nth i A []) 0 * nth j u 0)%R (seq 0 n)) + rsum (map (fun j => nth i u 0 * nth j (nth i A []) 0 * nth j v 0)%R (seq 0 n)))
      + rsum (map (fun j => nth i u 0 * nth j (nth i A []) 0 * nth j u 0)%R (seq 0 n)))%R).
  { clear IH. generalize (seq 0 n). intros m. induction m as [|j m IH]; [cbn; ring|]. cbn [map]. rewrite !rsum_cons, IH, !minus_nth by exact Hl. ring. }
  rewrite Y. rewrite IH. ring.
Qed.

Theorem maximum : forall A b u v, symmetric A -> nonnegative A -> length u = length A -> length v = length A -> rmatvec A u = b -> (quadratic A b v <= rdot u b)%R.
Proof.
  intros A b u v HS HN Hu Hv E. pose proof (proj1 HS) as HA. assert (Hl : length v = length u) by lia. assert (Hw : length (minus_vec v u) = length A) by (rewrite minus_length by exact Hl; exact Hv).
  pose proof (HN (minus_vec v u) Hw) as P.
  assert (X : rdot (minus_vec v u) (rmatvec A (minus_vec v u)) = (rdot v (rmatvec A v) - (rdot v (rmatvec A u) + rdot u (rmatvec A v)) + rdot u (rmatvec A u))%R).
  { rewrite (bilinear A _ _ HA Hw Hw), (bilinear A _ _ HA Hv Hv), (bilinear A _ _ HA Hv Hu), (bilinear A _ _ HA Hu Hv), (bilinear A _ _ HA Hu Hu). exact (expand_minus A u v (length A) Hl). }
  rewrite (self_adjoint A u v HS Hu Hv) in X.
  unfold quadratic. rewrite E in X. assert (Y : rdot u b = rdot u (rmatvec A u)) by (rewrite E; reflexivity). rewrite Y, E. rewrite X in P. lra.
Qed.

Lemma attained : forall A b u, rmatvec A u = b -> quadratic A b u = rdot u b.
Proof. intros A b u E. unfold quadratic. rewrite E. ring. Qed.

Lemma inner_dot : forall u b : list R, length u = length b -> np_inner fnum_R u b = Ok (rdot u b).
Proof.
  intros u b H. unfold np_inner. match goal with |- (if ?c then _ else _) = _ => replace c with true by (symmetry; apply Nat.eqb_eq; exact H) end. f_equal.
  enough (G : forall (l : list (R * R)) (s : R), fold_left (fun (s : fnum_R) '(x, y) => nadd s (nmul x y)) l s = fold_left (@nadd num_R) (map (fun '(x, y) => @nmul num_R x y) l) s) by exact (G (combine u b) 0%R).
  intros l. induction l as [|(x, y) l IH]; intros s; [reflexivity|]. cbn [map fold_left]. apply IH.
Qed.

Theorem product_value : forall la_solve A b u, solves (N := num_R) la_solve -> la_solve A b = Ok u -> noise_product fnum_R la_solve A b = Ok (rdot u b) /\ length u = length A /\ rmatvec A u = b.
Proof.
  intros la_solve A b u HS Hu. destruct (HS A b u Hu) as (L & E). split; [|split; assumption]. unfold noise_product. rewrite Hu. cbn [bind]. apply inner_dot. rewrite <- E. etransitivity; [exact L|symmetry; apply matvec_length].
Qed.

(** What np.dot(la.solve(A, b), b) is, for symmetric A. *)
Theorem product_symmetric : forall la_solve A b c, solves (N := num_R) la_solve -> symmetric A -> noise_product fnum_R la_solve A b = Ok c ->
  (forall x, length x = length A -> rmatvec A x = b -> rdot x b = c) /\ (nonnegative A -> (forall v, length v = length A -> (quadratic A b v <= c)%R) /\ exists v, length v = length A /\ quadratic A b v = c).
Proof.
  intros la_solve A b c HS HA H. unfold noise_product in H. destruct (la_solve A b) as [u| |x|x|] eqn:Hu; try discriminate H. destruct (HS A b u Hu) as (L & E).
  destruct (product_value la_solve A b u HS Hu) as (P & _). unfold noise_product in P. rewrite Hu in P. rewrite P in H. injection H as <-.
  split; [intros x Lx Ex; exact (same_product A b x u HA Lx L Ex E)|]. intros HN. split; [intros v Lv; exact (maximum A b u v HA HN L Lv E)|]. exists u. split; [exact L|exact (attained A b u E)].
Qed.

Lemma function_init_ok : forall E (free_vars : E -> list nat) e D, increasing D -> incl (free_vars e) D -> function_init E free_vars e D = Ok (Fn e D).
Proof.
  intros E free_vars e D HD Hf. unfold function_init. rewrite py_sorted_id by (apply increasing_sorted; exact HD). rewrite (proj2 (nats_eqb_eq _ _) eq_refl). cbn [require bind].
  assert (S : subset (free_vars e) D = true) by (apply forallb_forall; intros d Hd; apply py_in_iff; apply Hf; exact Hd). rewrite S. reflexivity.
Qed.

Section Noise.
Variable far : list (list R) -> bool.
Hypothesis far_ok : forall l, far (diag_mat fnum_R l) = false.
Variable E : Type.
Variable e_add e_mul e_div : E -> E -> E.
Variable e_opp : E -> E.
Variable e_0 e_1 : E.
Variable e_var : nat -> E.
Variable e_sqrt e_exp : E -> E.
Variable e_diff : nat -> E -> E.
Variable e_num : R -> E.
Variable e_pi : E.
Variable e_mono : list nat -> E.
Variable simplify : E -> E.
Variable is0 : E -> bool.
Variable free_vars : E -> list nat.
Variable eval : E -> (nat -> R) -> R.
Hypothesis RF : reads_free eval free_vars.
Variable sym_eqb : E -> E -> bool.
Variable pos_eqb : position fnum_R -> position fnum_R -> bool.
Variable cov_factor : list (list R) -> list (list R).
Variable la_inv : list (list R) -> res (list (list R)).
Variable far8 : list (list R) -> bool.
Variable junk tiny : R.
Hypothesis NP : numpy_ok cov_factor la_inv far8.
Variable la_eig : list (list R) -> list R.
Variable op_map : oper E -> func E -> oper E.
Variable density : position fnum_R -> E.
Variable hermegauss : nat -> list R * list R.
Variable la_solve : list (list R) -> list R -> res (list R).
Variable limit : R -> R.
Notation gauss := (gauss_hermite fnum_R far E free_vars hermegauss).
Notation integrate := (quad_integrate_fun fnum_R E e_1 free_vars eval cov_factor junk tiny density).
Notation number := (noise_number fnum_R far E e_add e_mul e_div e_opp e_0 e_1 e_var e_sqrt e_exp e_diff e_num e_pi e_mono simplify is0 free_vars eval sym_eqb pos_eqb cov_factor junk tiny la_eig op_map density hermegauss).

Lemma made : forall n factor, 0 < n -> (Z.of_nat n < 2 ^ 32)%Z -> length (fst (hermegauss n)) = n -> length (snd (hermegauss n)) = n -> incl (free_vars factor) [1] ->
  exists q, gauss (One n) None (Some [1]) None factor None None None = Ok q /\ quad_R q [1%R] /\ p_dirs (q_pos q) = [1] /\ p_types (q_pos q) = ["hermite"] /\ q_nodes q = [fst (hermegauss n)].
Proof using far_ok.
  intros n factor Hn Hz H1 H2 Hf.
  assert (HP : gauss_position (F := fnum_R) None None [0%R] [1%R] (length [1])) by (split; right; split; reflexivity).
  destruct (position_init_default far far_ok [1] None None [0%R] [1%R] (Some [1]) HP (or_introl eq_refl)) as (P1 & P2 & P3).
  destruct (new_ok far E free_vars [1] [0%R] [1%R] (repeat "hermite" (length [1])) (fst (hermegauss n)) (normalised (snd (hermegauss n))) n factor) as (N1 & N2 & N3 & N4 & N5 & N6); try assumption; try reflexivity.
  { repeat constructor. } { discriminate. } { unfold normalised. rewrite map_length. exact H2. } { constructor; [lra|constructor]. } { cbn [length Nat.pow]. rewrite Nat.mul_1_r. exact Hz. }
  eexists. split; [|split; [exact N4|]].
  - unfold gauss_hermite. cbn [length np_full bind]. rewrite (rules_nd hermegauss n 1 Hn). cbn [bind]. unfold quad_new in N2 |- *. cbn [length] in N2. rewrite !same_lengths_repeat in *. cbn [require andb bind] in *.
    match goal with |- bind ?x _ = _ => replace x with (Ok (Pos (N := fnum_R) [1] [0%R] (diag_mat fnum_R [1%R]) (repeat "hermite" (length [1])) true)) by (symmetry; exact P1) end. exact N2.
  - split; [reflexivity|]. split; reflexivity.
Qed.

Lemma flat_ub : forall (q : quad fnum_R E) vars f k xs, quad_R q vars -> f_dirs f = p_dirs (q_pos q) -> incl (free_vars (f_sym f)) (f_dirs f) -> increasing (p_dirs (q_pos q)) ->
  incl (free_vars (pos_weight fnum_R E e_1 density (q_pos q))) (p_dirs (q_pos q)) ->
  nth_error (p_types (q_pos q)) k = Some "hermite" -> nth_error (q_nodes q) k = Some xs -> xs <> [] -> integrate q f true = Ub.
Proof using NP RF.
  intros q vars f k xs Hq Hd Hi Hs Hw Hk Hx H0. destruct (discretize_values E free_vars eval cov_factor la_inv far8 junk NP RF q vars f Hq Hd Hi) as (values & W1 & W2).
  unfold quad_integrate_fun. rewrite W1. cbn [bind]. unfold quad_integrate.
  assert (HF : function_init E free_vars (pos_weight fnum_R E e_1 density (q_pos q)) (p_dirs (q_pos q)) = Ok (Fn (pos_weight fnum_R E e_1 density (q_pos q)) (p_dirs (q_pos q)))) by (apply function_init_ok; assumption).
  rewrite HF. cbn [bind]. destruct (discretize_values E free_vars eval cov_factor la_inv far8 junk NP RF q vars (Fn (pos_weight fnum_R E e_1 density (q_pos q)) (p_dirs (q_pos q))) Hq eq_refl Hw) as (w & V1 & V2).
  rewrite V1. cbn [bind]. rewrite np_vec_ok by (rewrite map_length; exact (eq_trans (proj1 W2) (eq_sym (proj1 V2)))). cbn [bind].
  apply (integrate_ub fnum_R _ _ _ _ k xs); try assumption. unfold do_fourier. rewrite nth_error_map, Hk. reflexivity.
Qed.

Theorem noise_undefined : forall Vy, length (fst (hermegauss noise_points)) = noise_points -> length (snd (hermegauss noise_points)) = noise_points ->
  incl (free_vars e_1) [1] -> (forall p, p_dirs p = [1] -> incl (free_vars (density p)) [1]) -> incl (free_vars (noise_density E e_opp e_exp Vy)) [1] -> number la_solve limit Vy = Ub.
Proof using far_ok RF NP.
  intros Vy H1 H2 V1 Vd Hv. assert (Hn : 0 < noise_points) by (unfold noise_points; lia).
  destruct (made noise_points e_1 Hn ltac:(unfold noise_points; lia) H1 H2) as (q & Q1 & Q2 & Q3 & Q4 & Q5); [exact V1|].
  unfold noise_number, noise_with, noise_with_of. rewrite Q1. cbn [bind]. rewrite Q3.
  assert (HI : increasing [1]) by (repeat constructor).
  rewrite (function_init_ok E free_vars _ [1] HI Hv). cbn [bind].
  rewrite (flat_ub q [1%R] (Fn (noise_density E e_opp e_exp Vy) [1]) 0 (fst (hermegauss noise_points)) Q2); try reflexivity; try assumption.
  - symmetry. exact Q3.
  - rewrite Q3. exact HI.
  - unfold pos_weight. rewrite Q4. cbn [filter String.eqb Ascii.eqb Bool.eqb length Nat.eqb]. rewrite Q3. apply Vd. exact Q3.
  - rewrite Q4. reflexivity.
  - rewrite Q5. reflexivity.
  - intros H. rewrite H in H1. cbn in H1. lia.
Qed.

End Noise.
