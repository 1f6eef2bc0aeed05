(** The constructor Quad.newton_cotes. *)
From Coq Require Import String List Bool Arith ZArith Lia Permutation Reals Lra.
From Verif Require Import Base Lists IndexModel Spec Grid Num LinModel LinSpec LinBase MatBase PyBase PosModel PosSpec PosFacts SeriesModel SeriesSpec PartModel PartSpec
  SplitModel SplitSpec MulModel MulSpec Fnum CalcModel CalcSpec CalcReal CalcHermite CalcQuad CalcVarf2 CalcTensor QuadModel CalcFourierQuad Facts6 Facts7 PyQuadModel PyQuadSpec PyQuadFacts PyQuadFacts2 TensQuadFacts3 QuadIntModel QuadIntSpec QuadIntFacts QuadMakeModel QuadMakeSpec GaussFacts QuadMakeFacts NewtonFacts TensQuadFacts.
Import ListNotations.
Local Open Scope R_scope.

Section Newton.
Variable far : list (list R) -> bool.
Hypothesis far_ok : forall l, far (diag_mat fnum_R l) = false.
Variable E : Type.
Variable free_vars : E -> list nat.

Lemma same_lengths_all : forall n (rows : list (list R)), Forall (fun r => length r = n) rows -> same_lengths fnum_R rows = true.
Proof.
  intros n rows H. unfold same_lengths. apply forallb_forall. intros r Hr. rewrite Forall_forall in H. apply Nat.eqb_eq. etransitivity; [exact (H r Hr)|]. destruct rows as [|x rows]; [destruct Hr|]. symmetry. exact (H x (or_introl eq_refl)).
Qed.

Theorem newton_made : forall n extrema D dirs mean cov (ms vs : list R) factor, (2 <= n)%nat -> length extrema = length D -> increasing D -> dirs = Some D \/ dirs = None /\ D = seq 0 (length D) -> gauss_position (F := fnum_R) mean cov ms vs (length D) -> incl (free_vars factor) D ->
  exists q, newton_cotes fnum_R far E free_vars exp (repeat n (length D)) extrema None factor mean cov dirs None = Ok q /\
    p_dirs (q_pos q) = D /\ p_mean (q_pos q) = ms /\ p_cov (q_pos q) = diag_mat fnum_R vs /\ Forall (fun t => t = "hermite"%string) (p_types (q_pos q)) /\ q_factor q = Fn factor D /\ length (q_nodes q) = length D /\
    forall i e, nth_error extrema i = Some e -> exists xs ws, nth_error (q_nodes q) i = Some xs /\ nth_error (q_weights q) i = Some ws /\ length xs = n /\ length ws = n /\
      (forall k, (k < n)%nat -> nth k xs 0 = - e + 2 * e / INR (n - 1) * INR k) /\
      forall g, rsum (map (fun '(x, w) => w * g x) (combine xs ws)) = trapezoidal (n - 1) (- e) e (fun x => g x * gaussian_density x).
Proof using far_ok.
  intros n extrema D dirs mean cov ms vs factor Hn HL HD Hd HP Hf.
  destruct (position_init_default far far_ok D mean cov ms vs dirs HP Hd) as (P1 & P2 & P3).
  assert (HF : function_init E free_vars factor D = Ok (Fn factor D)).
  { unfold function_init. rewrite py_sorted_id by (apply increasing_sorted; exact HD). rewrite (proj2 (nats_eqb_eq _ _) eq_refl). cbn [require bind].
    assert (S : subset (free_vars factor) D = true) by (apply forallb_forall; intros d Hx; apply py_in_iff; apply Hf; exact Hx). rewrite S. reflexivity. }
  assert (M : forall (l : list R) k, (k + length l <= length D)%nat -> exists rules, mapM (fun '(i, extremum) => n <- py_get (repeat n (length D)) i ;; newton_rule fnum_R exp extremum n) (combine (seq k (length l)) l) = Ok rules /\
    Forall2 (fun e '(xs, ws) => newton_rule fnum_R exp e n = Ok (xs, ws)) l rules).
  { induction l as [|e l IH]; intros k Hk; [exists []; split; [reflexivity|constructor]|]. cbn [length seq combine mapM] in *.
    assert (Hget : py_get (repeat n (length D)) k = Ok n) by (apply py_get_ok, nth_error_repeat; lia). rewrite Hget. cbn [bind]. destruct (newton_ok e n Hn) as (xs & ws & N1 & _). rewrite N1. cbn [bind].
    destruct (IH (S k)) as (rules & R1 & R2); [exact (eq_ind _ (fun z => (z <= length D)%nat) Hk _ (Nat.add_succ_r k (length l)))|]. rewrite R1. cbn [bind]. exists ((xs, ws) :: rules). split; [reflexivity|]. constructor; [exact N1|exact R2]. }
  destruct (M extrema 0%nat) as (rules & R1 & R2); [exact (Nat.eq_le_incl _ _ HL)|].
  assert (Lr : length rules = length D) by (etransitivity; [|exact HL]; symmetry; exact (Forall2_length _ _ _ _ _ R2)).
  assert (Lx : Forall (fun r => length r = n) (map fst rules) /\ Forall (fun r => length r = n) (map snd rules)).
  { clear - R2 Hn. induction R2 as [|e (xs, ws) l rules H R2 [I1 I2]]; [split; constructor|]. destruct (newton_ok e n Hn) as (xs' & ws' & N1 & N2 & N3 & _). rewrite N1 in H. injection H as <- <-. split; constructor; assumption. }
  exists (Qd (F := fnum_R) (map fst rules) (map snd rules) (Pos (N := fnum_R) D ms (diag_mat fnum_R vs) (repeat "hermite"%string (length D)) true) (Fn factor D)). split.
  - unfold newton_cotes. match goal with |- bind ?x _ = _ => replace x with (Ok rules) by (symmetry; exact R1) end. cbn [bind]. unfold quad_new. destruct Lx as [Lx Lw]. rewrite (same_lengths_all n _ Lx), (same_lengths_all n _ Lw). cbn [andb require bind].
    rewrite map_length, Lr. match goal with |- bind ?x _ = _ => replace x with (Ok (Pos (N := fnum_R) D ms (diag_mat fnum_R vs) (repeat "hermite"%string (length D)) true)) by (symmetry; exact P1) end. cbn [bind p_dirs]. rewrite HF. reflexivity.
  - cbn [q_pos q_nodes q_weights q_factor p_dirs p_mean p_cov p_types]. split; [reflexivity|]. split; [reflexivity|]. split; [reflexivity|]. split; [apply Forall_forall; intros t Ht; apply repeat_spec in Ht; exact Ht|]. split; [reflexivity|]. split; [rewrite map_length; exact Lr|].
    intros i e He. assert (G : exists r, nth_error rules i = Some r /\ newton_rule fnum_R exp e n = Ok r).
    { clear - R2 He. revert i He. induction R2 as [|e' (xs, ws) l rules H R2 IH]; intros i He; destruct i; try discriminate He; [injection He as ->; eexists; split; [reflexivity|exact H]|]. apply IH. exact He. }
    destruct G as ((xs, ws) & G1 & G2). destruct (newton_ok e n Hn) as (xs' & ws' & N1 & N2). rewrite N1 in G2. injection G2 as -> ->. exists xs, ws. rewrite !nth_error_map, G1. split; [reflexivity|]. split; [reflexivity|exact N2].
Qed.
End Newton.
