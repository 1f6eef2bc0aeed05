(** Evaluation and transform with the quadratures made by the constructors of Quad. *)
From Coq Require Import String List Bool Arith ZArith Lia Permutation Reals Lra.
From Verif Require Import Base Lists IndexModel Spec Grid Num LinModel LinSpec LinBase MatBase PyBase PosModel PosSpec PosFacts SeriesModel SeriesSpec PartModel PartSpec
  SplitModel SplitSpec MulModel MulSpec Fnum CalcModel CalcSpec CalcReal CalcHermite CalcQuad CalcVarf2 CalcTensor QuadModel CalcFourierQuad Facts6 Facts7 PyQuadModel PyQuadSpec PyQuadFacts PyQuadFacts2 TensQuadFacts3 QuadIntModel QuadIntSpec QuadIntFacts QuadMakeModel QuadMakeSpec GaussFacts QuadMakeFacts NewtonFacts TensQuadFacts.
Import ListNotations.
Local Open Scope string_scope. Local Open Scope list_scope. Local Open Scope nat_scope.

Section Inverts.
Variable far : list (list R) -> bool.
Hypothesis far_ok : forall l, far (diag_mat fnum_R l) = false.
Variable E : Type.
Variable eval : E -> (nat -> R) -> R.
Variable e_1 : E.
Variable free_vars : E -> list nat.
Hypothesis RF : reads_free eval free_vars.
Variable cov_factor : list (list R) -> list (list R).
Variable la_inv : list (list R) -> res (list (list R)).
Variable far8 : list (list R) -> bool.
Variable junk tiny : R.
Hypothesis NP : numpy_ok cov_factor la_inv far8.
Variable hermegauss : nat -> list R * list R.
Notation quad_eval := (quad_eval fnum_R E free_vars eval cov_factor la_inv far8 junk).
Notation quad_transform := (quad_transform fnum_R E e_1 free_vars eval cov_factor junk tiny).

Theorem gauss_inverts : forall n_points dim dirs mean cov n D (ms vs : list R) factor, gauss_arguments n_points dim dirs n D -> gauss_position (F := fnum_R) mean cov ms vs (length D) -> D <> [] -> increasing D ->
  Forall (fun v => 0 < v)%R vs -> 0 < n -> gauss_rule n (hermegauss n) -> (Z.of_nat (n ^ length D) < 2 ^ 32)%Z -> incl (free_vars factor) D -> (forall env, eval factor env <> 0%R) ->
  exists q, gauss_hermite fnum_R far E free_vars hermegauss n_points dim dirs None factor mean cov None = Ok q /\
    forall f : SeriesModel.series fnum_R E, s_pos f = q_pos q -> s_factor f = q_factor q -> series_ok f (length D) -> 1 <= s_degree f -> s_degree f < n ->
    exists values g, quad_eval q f = Ok values /\ quad_transform q values (s_degree f) (s_set f) = Ok g /\
      s_coeffs g = s_coeffs f /\ s_pos g = s_pos f /\ s_set g = s_set f /\ s_factor g = s_factor f /\ (s_set f <> CrossNc -> g = f).
Proof using far_ok RF NP.
  intros n_points dim dirs mean cov n D ms vs factor HA HP H0 HD HV Hn HG Hfit Hf Hz.
  destruct (gauss_made far far_ok E free_vars hermegauss n_points dim dirs mean cov n D ms vs factor HA HP H0 HD HV Hn HG Hfit Hf) as (q & Q1 & Q2 & Q3 & Q4 & Q5 & Q6 & Q7 & Q8 & Q9).
  exists q. split; [exact Q1|]. intros f Fp Ff Fs F1 Fn. assert (Lv : length vs = length D) by (destruct HP as [_ [[_ L]|[_ ->]]]; [exact L|apply repeat_length]).
  apply (transform_eval_same E free_vars eval cov_factor la_inv far8 junk tiny e_1 NP RF q vs f Q3 Fp Ff); rewrite ?Q8; cbn [f_dirs f_sym]; [symmetry; exact Q6|exact Hf|intros p env _ _; apply Hz|rewrite Lv; exact Fs| |apply Q9; exact Fn].
  split; [|intros _; exact F1]. apply Forall_forall. intros k Hk. unfold kinds in Hk. apply in_map_iff in Hk as (t & <- & Ht). rewrite Forall_forall in Q4. rewrite (Q4 t Ht). left. split; [reflexivity|exact F1].
Qed.

Theorem fourier_inverts : forall n_points bounds dirs n B D factor, fourier_arguments (F := fnum_R) n_points bounds dirs n B D -> D <> [] -> increasing D -> Forall (fun b => fst b < snd b)%R B -> 0 < n -> (Z.of_nat (n ^ length D) < 2 ^ 32)%Z -> incl (free_vars factor) D -> (forall env, eval factor env <> 0%R) ->
  exists q, quad_fourier fnum_R far E free_vars n_points bounds None factor dirs = Ok q /\
    forall f : SeriesModel.series fnum_R E, s_pos f = q_pos q -> s_factor f = q_factor q -> series_ok f (length D) -> Nat.even (s_degree f) = true -> (s_set f = Cross \/ s_set f = CrossNc -> 1 <= s_degree f) -> s_degree f < n ->
    exists values g, quad_eval q f = Ok values /\ quad_transform q values (s_degree f) (s_set f) = Ok g /\
      s_coeffs g = s_coeffs f /\ s_pos g = s_pos f /\ s_set g = s_set f /\ s_factor g = s_factor f /\ (s_set f <> CrossNc -> g = f).
Proof using far_ok RF NP.
  intros n_points bounds dirs n B D factor HA H0 HD HB Hn Hfit Hf Hz.
  destruct (fourier_made far far_ok E free_vars n_points bounds dirs n B D factor HA H0 HD HB Hn Hfit Hf) as (q & vars & Q1 & Q2 & Q3 & Q4 & Q5 & Q6 & Q7 & Q8 & Q9 & Q10).
  exists q. split; [exact Q1|]. intros f Fp Ff Fs Fe F1 Fn. assert (Lv : length vars = length D).
  { pose proof Q3 as ((_ & P) & _). rewrite <- Q6. tauto || idtac. destruct P as (P1 & P2 & P3 & P4 & P5). congruence. }
  apply (transform_eval_same E free_vars eval cov_factor la_inv far8 junk tiny e_1 NP RF q vars f Q3 Fp Ff); rewrite ?Q7; cbn [f_dirs f_sym]; [symmetry; exact Q6|exact Hf|intros p env _ _; apply Hz|rewrite Lv; exact Fs| |apply Q10; assumption].
  split; [|exact F1]. apply Forall_forall. intros k Hk. unfold kinds in Hk. apply in_map_iff in Hk as (t & <- & Ht). unfold all_fourier in Q4. rewrite Forall_forall in Q4. rewrite (Q4 t Ht). right. split; [reflexivity|exact Fe].
Qed.
End Inverts.
