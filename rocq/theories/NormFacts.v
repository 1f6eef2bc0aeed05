(** Quad.norm of a series. *)
From Coq Require Import String List Bool Arith ZArith Lia Permutation Reals Lra.
From Verif Require Import Base Lists IndexModel Spec Grid Num LinModel LinSpec LinBase MatBase PyBase PosModel PosSpec PosFacts SeriesModel SeriesSpec PartModel PartSpec
  SplitModel SplitSpec MulModel MulSpec Fnum CalcModel CalcSpec CalcReal CalcHermite CalcQuad CalcVarf2 CalcTensor QuadModel CalcFourierQuad Facts6 Facts7 PyQuadModel PyQuadSpec PyQuadFacts PyQuadFacts2 TensQuadFacts3 QuadIntModel QuadIntSpec QuadIntFacts QuadMakeModel QuadMakeSpec GaussFacts QuadMakeFacts TensQuadFacts.
Import ListNotations.
Local Open Scope R_scope.

Lemma coef_all : forall s n degree (c : list R), (1 <= n)%nat -> fits s n degree -> @vec_for num_R s n degree c -> map (@coef num_R s n degree c) (points s n degree) = c.
Proof.
  intros s n degree c Hn (H1 & H2 & H3) Hc. pose proof (points_NoDup_ok s n degree H1 H2) as Hnd. unfold coef, vec_for in *.
  apply (list_ext_nth _ _ _ 0); [rewrite map_length; symmetry; assumption|]. intros i Hi. rewrite map_length in Hi.
  rewrite (nth_map_lt _ _ _ _ _ _ []) by assumption. apply value_nth; [assumption|apply nth_error_nth'; assumption|assumption].
Qed.

Section Parseval.
Variables (s : iset) (degree : nat) (nodes weights : list (list R)) (flags : list nat).
Hypothesis Hn : (1 <= length nodes)%nat.
Hypothesis Hfit : fits s (length nodes) degree.
Hypothesis Hgrid : grid_fits nodes.
Hypothesis Hflags : flags_ok s degree flags.
Hypothesis Hex : exact_rules degree flags nodes weights.

Lemma project_coef : forall c m, @vec_for num_R s (length nodes) degree c -> In m (points s (length nodes) degree) ->
  quadrature nodes weights (map (fun p => CalcSpec.series s degree flags c (at_pos nodes p)) (grid nodes)) (phi flags m) = @coef num_R s (length nodes) degree c m.
Proof using Hn Hfit Hgrid Hflags Hex.
  intros c m Hc Hm. assert (Hlf : length flags = length nodes) by apply Hex.
  destruct (transform_eval s degree nodes weights flags Hfit Hgrid Hflags Hex c Hc) as (values & T1 & T2).
  rewrite transform_backward_R in T1 by assumption. injection T1 as <-.
  rewrite transform_forward_R in T2; [|assumption|assumption|assumption|assumption|eapply exact_match; eassumption|apply map_length].
  injection T2 as T2. pose proof (eq_trans T2 (eq_sym (coef_all s (length nodes) degree c Hn Hfit Hc))) as G.
  exact (ext_in_map G m Hm).
Qed.

Theorem parseval : forall c, @vec_for num_R s (length nodes) degree c ->
  rsum (map (fun p => rprod (at_pos weights p) * (CalcSpec.series s degree flags c (at_pos nodes p) * CalcSpec.series s degree flags c (at_pos nodes p))) (grid nodes)) = rsum (map (fun x => x * x) c).
Proof using Hn Hfit Hgrid Hflags Hex.
  intros c Hc. assert (Hlf : length flags = length nodes) by apply Hex.
  transitivity (rsum (map (fun m => @coef num_R s (length nodes) degree c m * @coef num_R s (length nodes) degree c m) (points s (length nodes) degree))).
  2:{ transitivity (rsum (map (fun x => x * x) (map (@coef num_R s (length nodes) degree c) (points s (length nodes) degree)))); [rewrite map_map; reflexivity|]. f_equal. f_equal. apply coef_all; assumption. }
  transitivity (rsum (map (fun m => @coef num_R s (length nodes) degree c m * quadrature nodes weights (map (fun p => CalcSpec.series s degree flags c (at_pos nodes p)) (grid nodes)) (phi flags m)) (points s (length nodes) degree))).
  2:{ apply rsum_map_ext. intros m Hm. rewrite (project_coef c m Hc Hm). reflexivity. }
  transitivity (rsum (map (fun m => rsum (map (fun p => CalcSpec.series s degree flags c (at_pos nodes p) * rprod (at_pos weights p) * (@coef num_R s (length nodes) degree c m * phi flags m (at_pos nodes p))) (grid nodes))) (points s (length nodes) degree))).
  2:{ apply rsum_map_ext. intros m Hm. rewrite quadrature_map, <- rsum_map_mult. apply rsum_map_ext. intros p _. cbn [carrier num_R]. ring. }
  rewrite (rsum_swap _ _ (fun m p => CalcSpec.series s degree flags c (at_pos nodes p) * rprod (at_pos weights p) * (@coef num_R s (length nodes) degree c m * phi flags m (at_pos nodes p))) (points s (length nodes) degree) (grid nodes)).
  apply rsum_map_ext. intros p _. rewrite rsum_map_mult. unfold CalcSpec.series at 2. rewrite Hlf. ring.
Qed.
End Parseval.

Section Norm.
Variable far : list (list R) -> bool.
Hypothesis far_ok : forall l, far (diag_mat fnum_R l) = false.
Variable E : Type.
Variable eval : E -> (nat -> R) -> R.
Variable e_mul : E -> E -> E.
Variable e_1 : E.
Variable add_args mul_args : E -> list E.
Variable free_vars : E -> list nat.
Hypothesis OK : sympy_ok (N := fnum_R) eval e_mul e_1 add_args mul_args free_vars.
Hypothesis V : sympy_vars e_mul e_1 add_args mul_args free_vars.
Variable cov_factor : list (list R) -> list (list R).
Variable la_inv : list (list R) -> res (list (list R)).
Variable far8 : list (list R) -> bool.
Variable junk tiny : R.
Hypothesis NP : numpy_ok cov_factor la_inv far8.
Variable density : position fnum_R -> E.
Notation norm_series := (quad_norm_series fnum_R E e_1 free_vars eval cov_factor la_inv far8 junk tiny density).

Theorem norm_of_series : forall (q : quad fnum_R E) vars (f : SeriesModel.series fnum_R E) flat, quad_R q vars -> increasing (p_dirs (q_pos q)) -> all_fourier q -> s_pos f = q_pos q ->
  f_dirs (s_factor f) = p_dirs (q_pos q) -> incl (free_vars (f_sym (s_factor f))) (f_dirs (s_factor f)) -> (forall env, eval (f_sym (s_factor f)) env = 1) ->
  series_ok f (length vars) -> flags_ok (s_set f) (s_degree f) (kinds (p_types (q_pos q))) -> exact_rules (s_degree f) (kinds (p_types (q_pos q))) (q_nodes q) (q_weights q) ->
  norm_series q f 2 flat = Ok (Some (sqrt (rsum (map (fun x => x * x) (s_coeffs f))))).
Proof using NP OK V.
  intros q vars f flat Hq Hi Hf Hp Hfd Hfi H1 ((S1 & S2 & S3) & S4) Hfl Hex. pose proof Hq as ((P1 & P2 & P3 & P4 & P5 & P6) & Q1 & Q2 & Q3). pose proof (ok_free _ _ _ _ _ _ _ _ OK) as RF.
  destruct (eval_values E free_vars eval cov_factor la_inv far8 junk NP RF q vars f vars Hq) as (values & V1 & V2 & V3); try assumption.
  { rewrite Hp. apply Hq. } { rewrite Hp. reflexivity. } { apply usable_fits. exact S3. }
  unfold quad_norm_series. rewrite V1. cbn [bind].
  destruct (norm_array E eval e_mul e_1 add_args mul_args free_vars OK V cov_factor la_inv far8 junk tiny NP density q vars values flat Hq Hi Hf (exact_match _ _ _ _ Hex) V2) as (N1 & _).
  rewrite N1. apply (f_equal (fun x => Ok (Some (sqrt x)))).
  assert (W : values = map (fun p => CalcSpec.series (s_set f) (s_degree f) (kinds (p_types (q_pos q))) (s_coeffs f) (at_pos (q_nodes q) p)) (grid (q_nodes q))).
  { apply (list_ext_nth _ _ _ 0); [rewrite map_length; exact V2|]. intros k Hk. assert (Hk2 : (k < length (grid (q_nodes q)))%nat) by (eapply Nat.lt_le_trans; [exact Hk|apply Nat.eq_le_incl; exact V2]). destruct (nth_error (grid (q_nodes q)) k) as [p|] eqn:Ek; [|apply nth_error_None in Ek; lia].
    pose proof (env_at_point E q vars p Hq (nth_error_In _ _ Ek)) as Hat.
    rewrite (nth_error_nth _ _ _ (V3 k p _ Ek Hat)). rewrite (nth_error_nth _ _ _ (map_nth_error _ _ _ Ek)). rewrite H1, Rmult_1_r. rewrite Hp. f_equal. apply standard_located; [exact P4| |exact P2].
    etransitivity; [apply at_pos_length, grid_length_in; exact (nth_error_In _ _ Ek)|exact Q1]. }
  assert (S3' : usable (s_set f) (length (q_nodes q)) (s_degree f)) by (rewrite Q1; exact S3).
  assert (S4' : @vec_for num_R (s_set f) (length (q_nodes q)) (s_degree f) (s_coeffs f)) by (rewrite Q1; exact S4).
  rewrite <- (parseval (s_set f) (s_degree f) (q_nodes q) (q_weights q) (kinds (p_types (q_pos q)))); try assumption; [|destruct (q_nodes q); [contradiction|cbn; lia]|apply usable_fits; exact S3'].
  rewrite W. unfold weighted_sum. f_equal. rewrite map_map. clear. induction (grid (q_nodes q)) as [|p l IH]; [reflexivity|]. cbn [map combine]. f_equal. exact IH.
Qed.

Theorem fourier_norm : forall n_points bounds dirs n B D factor flat, fourier_arguments (F := fnum_R) n_points bounds dirs n B D -> D <> [] -> increasing D -> Forall (fun b => fst b < snd b)%R B -> (0 < n)%nat -> (Z.of_nat (n ^ length D) < 2 ^ 32)%Z -> incl (free_vars factor) D ->
  (forall env, eval factor env = 1) ->
  exists q, quad_fourier fnum_R far E free_vars n_points bounds None factor dirs = Ok q /\
    forall f : SeriesModel.series fnum_R E, s_pos f = q_pos q -> s_factor f = q_factor q -> series_ok f (length D) -> Nat.even (s_degree f) = true -> (s_set f = Cross \/ s_set f = CrossNc -> 1 <= s_degree f)%nat -> (s_degree f < n)%nat ->
    norm_series q f 2 flat = Ok (Some (sqrt (rsum (map (fun x => x * x) (s_coeffs f))))).
Proof using far_ok NP OK V.
  intros n_points bounds dirs n B D factor flat HA H0 HD HB Hn Hfit Hf H1.
  destruct (fourier_made far far_ok E free_vars n_points bounds dirs n B D factor HA H0 HD HB Hn Hfit Hf) as (q & vars & Q1 & Q2 & Q3 & Q4 & Q5 & Q6 & Q7 & Q8 & Q9 & Q10).
  exists q. split; [exact Q1|]. intros f Fp Ff Fs Fe F1 Fn. assert (Lv : length vars = length D) by (pose proof Q3 as ((_ & _ & P & _) & _); rewrite <- Q6; symmetry; exact P).
  apply (norm_of_series q vars f flat Q3); rewrite ?Ff, ?Q7; cbn [f_dirs f_sym]; try assumption; [rewrite Q6; exact HD|symmetry; exact Q6|rewrite Lv; exact Fs| |apply Q10; assumption].
  split; [|exact F1]. apply Forall_forall. intros k Hk. unfold kinds in Hk. apply in_map_iff in Hk as (t & <- & Ht). unfold all_fourier in Q4. rewrite Forall_forall in Q4. rewrite (Q4 t Ht). right. split; [reflexivity|exact Fe].
Qed.
End Norm.
