(** A Series is determined by its values on quadratures of one point. *)
From Coq Require Import String List Bool Arith ZArith Reals Lia Lra.
From Verif Require Import Base IndexModel Spec Num Fnum LinModel LinSpec CalcModel CalcSpec PyBase PosModel PosSpec SeriesModel SeriesSpec PyQuadModel PyQuadSpec PyQuadFacts2 IndepFacts.
Import ListNotations.
Local Open Scope R_scope.

(** Values of the variables for the coordinates x in the directions. *)
Fixpoint env_of (dirs : list nat) (x : list R) (k : nat) : R :=
  match dirs, x with d :: dirs, t :: x => if (k =? d)%nat then t else env_of dirs x k | _, _ => 0 end.
Lemma env_at : forall dirs x, NoDup dirs -> length dirs = length x -> at_point dirs x (env_of dirs x).
Proof.
  induction dirs as [|d dirs IH]; intros x ND L i e H; [destruct i; discriminate H|]. destruct x as [|t x]; [discriminate L|]. inversion ND as [|? ? N0 ND']; subst. destruct i as [|i]; cbn in H |- *.
  - injection H as <-. rewrite Nat.eqb_refl. reflexivity.
  - destruct (Nat.eqb_spec e d) as [->|_]; [exfalso; apply N0; eapply nth_error_In; exact H|]. apply IH; [exact ND'|cbn in L; lia|exact H].
Qed.

Lemma eval_injective : forall E (free_vars : E -> list nat) (eval : E -> (nat -> R) -> R) cov_factor la_inv far8 junk, numpy_ok cov_factor la_inv far8 -> reads_free eval free_vars ->
  forall (f g : SeriesModel.series fnum_R E) vs, gaussian (s_pos f) vs -> s_pos g = s_pos f -> s_set g = s_set f -> s_degree g = s_degree f -> s_factor g = s_factor f ->
  f_dirs (s_factor f) = p_dirs (s_pos f) -> incl (free_vars (f_sym (s_factor f))) (f_dirs (s_factor f)) -> (forall env, eval (f_sym (s_factor f)) env <> 0) ->
  fits (s_set f) (length vs) (s_degree f) -> flags_ok (s_set f) (s_degree f) (kinds (p_types (s_pos f))) ->
  vec_for (N := fnum_R) (s_set f) (length vs) (s_degree f) (s_coeffs f) -> vec_for (N := fnum_R) (s_set f) (length vs) (s_degree f) (s_coeffs g) ->
  (forall q : quad fnum_R E, quad_R q vs -> q_pos q = s_pos f -> length (grid (q_nodes q)) = 1%nat -> quad_eval fnum_R E free_vars eval cov_factor la_inv far8 junk q f = quad_eval fnum_R E free_vars eval cov_factor la_inv far8 junk q g) -> f = g.
Proof.
  intros E free_vars eval cov_factor la_inv far8 junk NP RF f g vs HG Ep Es Ed Ef Hfd Hff Hnz F FO V V' H.
  destruct f as [cf pf sf df ff], g as [cg pg sg dg fg]. cbn [s_pos s_set s_degree s_factor s_coeffs] in *. subst pg sg dg fg.
  pose proof HG as (G1 & G2 & G3 & G4 & G5 & G6). change (@length R (p_mean pf) = length vs) in G4.
  assert (K : length (kinds (p_types pf)) = length vs) by (unfold kinds; rewrite map_length; exact G5).
  assert (C : cf = cg).
  { apply (series_unique sf df (kinds (p_types pf))); [rewrite K; exact F|rewrite K; exact V|rewrite K; exact V'|]. rewrite K. intros x Hx.
    set (q := Qd (F := fnum_R) (map (fun t => [t]) x) (map (fun t => [t]) x) pf ff).
    assert (GR : grid (q_nodes q) = [repeat 0%nat (length x)]) by exact (grid_one x).
    assert (QR : quad_R q vs).
    { split; [exact HG|]. split; [exact (eq_trans (map_length _ x) Hx)|]. split; [|unfold grid_fits; rewrite GR; cbn; lia]. destruct F as (F1 & _). destruct x; [cbn in Hx; lia|discriminate]. }
    pose proof (H q QR eq_refl ltac:(rewrite GR; reflexivity)) as Q.
    destruct (eval_values E free_vars eval cov_factor la_inv far8 junk NP RF q vs (Ser (N := fnum_R) cf pf sf df ff) vs QR HG eq_refl Hfd Hff F FO V) as (v & A1 & A2 & A3).
    destruct (eval_values E free_vars eval cov_factor la_inv far8 junk NP RF q vs (Ser (N := fnum_R) cg pf sf df ff) vs QR HG eq_refl Hfd Hff F FO V') as (w & B1 & B2 & B3).
    assert (v = w) as <- by congruence.
    pose proof (eq_trans (f_equal (fun l => nth_error l 0) GR) eq_refl : nth_error (grid (q_nodes q)) 0 = Some (repeat 0%nat (length x))) as P0.
    assert (PT : grid_point q vs (repeat 0%nat (length x)) = located (p_mean pf) vs x) by (unfold grid_point; cbn [q_pos q_nodes q]; rewrite at_one; reflexivity).
    assert (LL : length (located (p_mean pf) vs x) = length vs) by (unfold located; rewrite map_length, !combine_length; lia).
    pose proof (env_at (p_dirs pf) (located (p_mean pf) vs x) G6 ltac:(lia)) as AT.
    pose proof (A3 0%nat _ (env_of (p_dirs pf) (located (p_mean pf) vs x)) P0 ltac:(rewrite PT; exact AT)) as A4.
    pose proof (B3 0%nat _ (env_of (p_dirs pf) (located (p_mean pf) vs x)) P0 ltac:(rewrite PT; exact AT)) as B4.
    rewrite A4 in B4. injection B4 as B4. cbn [s_pos s_set s_degree s_factor s_coeffs q_pos q] in B4. rewrite PT in B4. rewrite !standard_located in B4 by (assumption || lia). cbn [q_pos q] in B4.
    apply Rmult_eq_reg_r in B4; [exact B4|apply Hnz]. }
  subst cg. reflexivity.
Qed.
