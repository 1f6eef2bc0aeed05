(** The matrix of the generator of the noise. *)
From Coq Require Import String List Bool Arith ZArith Lia Reals Lra.
From Verif Require Import Base Lists IndexModel Spec IndexSet Grid Num LinModel LinSpec PyBase PosModel PosSpec SeriesModel SeriesSpec SplitModel MulModel Fnum CalcModel CalcSpec CalcReal CalcHermite CalcQuad CalcOps Facts10 PyQuadModel PyQuadSpec PyQuadFacts2
  OpModel OpSpec OpQuadModel OpQuadSpec OpQuadFacts SteadySpec NoiseModel NoiseSpec.
Import ListNotations.
Local Open Scope string_scope. Local Open Scope list_scope. Local Open Scope R_scope.

Section Matrix.
Variables (mu sigma : R) (V1 V2 W : R -> R).
Hypothesis Hsigma : 0 < sigma.
Hypothesis HW : balances mu sigma V1 W.
Hypothesis HV : forall x, derivable_pt_lim V1 x (V2 x).

Let z (x : R) : R := (x - mu) / sqrt sigma.
Let P (c : nat) (x : R) : R := hermite c (z x).
Let P1 (c : nat) (x : R) : R := sqrt (INR c) * hermite (c - 1) (z x) / sqrt sigma.
Let P2 (c : nat) (x : R) : R := sqrt (INR c) * (sqrt (INR (c - 1)) * hermite (c - 1 - 1) (z x)) / sigma.
Let Q (x : R) : R := (V1 x - (x - mu) / sigma) / 2.
Let Q1 (x : R) : R := (V2 x - 1 / sigma) / 2.

Lemma root_pos : 0 < sqrt sigma.
Proof using Hsigma. apply sqrt_lt_R0. exact Hsigma. Qed.
Lemma root_square : sqrt sigma * sqrt sigma = sigma.
Proof using Hsigma. apply sqrt_sqrt. lra. Qed.

Lemma z_deriv : forall x, derivable_pt_lim z x (/ sqrt sigma).
Proof.
  intros x. apply (derivable_pt_lim_ext (fun t => / sqrt sigma * t + - mu / sqrt sigma)); [intros t; unfold z, Rdiv; ring|].
  pose proof (derivable_pt_lim_plus (fun t => / sqrt sigma * t) (fun _ => - mu / sqrt sigma) x _ _ (lin_deriv _ _) (derivable_pt_lim_const _ _)) as G. rewrite Rplus_0_r in G. exact G.
Qed.
Lemma h_deriv : forall c x, derivable_pt_lim (fun x => hermite c (z x)) x (sqrt (INR c) * hermite (c - 1) (z x) / sqrt sigma).
Proof. intros c x. exact (derivable_pt_lim_comp z (hermite c) x _ _ (z_deriv x) (hermite_deriv c (z x))). Qed.
Lemma P_deriv : forall c x, derivable_pt_lim (P c) x (P1 c x).
Proof. exact h_deriv. Qed.
Lemma P1_deriv : forall c x, derivable_pt_lim (P1 c) x (P2 c x).
Proof using Hsigma.
  intros c x. pose proof root_pos as R0. apply (derivable_pt_lim_ext (fun t => (sqrt (INR c) / sqrt sigma) * hermite (c - 1) (z t))); [intros t; unfold P1, Rdiv; ring|].
  replace (P2 c x) with ((sqrt (INR c) / sqrt sigma) * (sqrt (INR (c - 1)) * hermite (c - 1 - 1) (z x) / sqrt sigma)); [apply derivable_pt_lim_scal, h_deriv|].
  unfold P2. rewrite <- root_square at 3. field. lra.
Qed.
Lemma Q_deriv : forall x, derivable_pt_lim Q x (Q1 x).
Proof using HV.
  intros x. apply (derivable_pt_lim_ext (fun t => / 2 * (V1 t + (- / sigma * t + mu / sigma)))); [intros t; unfold Q, Rdiv; ring|].
  replace (Q1 x) with (/ 2 * (V2 x + (- / sigma + 0))) by (unfold Q1, Rdiv; ring). apply derivable_pt_lim_scal. apply derivable_pt_lim_plus; [apply HV|]. apply derivable_pt_lim_plus; [apply lin_deriv|apply derivable_pt_lim_const].
Qed.

Lemma ode : forall c x, - P2 c x + (x - mu) / sigma * P1 c x = INR c / sigma * P c x.
Proof using Hsigma.
  intros [|n] x; unfold P2, P1, P.
  - cbn [INR Nat.sub]. rewrite sqrt_0. unfold Rdiv. ring.
  - replace (S n - 1)%nat with n by lia. pose proof root_pos as R0.
    assert (X : (x - mu) / sigma * (sqrt (INR (S n)) * hermite n (z x) / sqrt sigma) = sqrt (INR (S n)) / sigma * (z x * hermite n (z x))) by (unfold z; field; lra).
    rewrite X, hermite_x. assert (S2 : sqrt (INR (S n)) * sqrt (INR (S n)) = INR (S n)) by (apply sqrt_sqrt, pos_INR). replace (INR (S n) / sigma) with (sqrt (INR (S n)) * sqrt (INR (S n)) / sigma) by (rewrite S2; reflexivity). field. lra.
Qed.

(** The generator applied to W P, divided by W. *)
Lemma generator : forall c x, (V1 x * (W x * Q x * P c x + W x * P1 c x) + - 1 * ((W x * Q x * Q x + W x * Q1 x) * P c x + W x * Q x * P1 c x + (W x * Q x * P1 c x + W x * P2 c x))) / W x
  = (INR c / sigma + schroedinger mu sigma V1 V2 x) * P c x.
Proof using Hsigma HW.
  intros c x. destruct (HW x) as (W0 & _). transitivity (INR c / sigma * P c x + schroedinger mu sigma V1 V2 x * P c x); [|ring]. rewrite <- ode. unfold schroedinger, Q, Q1. field. split; [lra|exact W0].
Qed.

Lemma line : forall (g : R -> R) g' x, (forall t, derivable_pt_lim g t (g' t)) -> length x = 1%nat -> derivable_pt_lim (fun t => g (nth 0 (with_entry x 0 t) 0)) (nth 0 x 0) (g' (nth 0 x 0)).
Proof. intros g g' x H _. unfold with_entry. cbn [firstn app nth]. apply H. Qed.

Lemma product_deriv : forall c x, derivable_pt_lim (fun t => W t * P c t) x (W x * Q x * P c x + W x * P1 c x).
Proof using HW. intros c x. exact (derivable_pt_lim_mult W (P c) x _ _ (proj2 (HW x)) (P_deriv c x)). Qed.
Lemma product_deriv2 : forall c x, derivable_pt_lim (fun x => W x * Q x * P c x + W x * P1 c x) x ((W x * Q x * Q x + W x * Q1 x) * P c x + W x * Q x * P1 c x + (W x * Q x * P1 c x + W x * P2 c x)).
Proof using Hsigma HW HV.
  intros c x. apply derivable_pt_lim_plus.
  - exact (derivable_pt_lim_mult (fun t => W t * Q t) (P c) x _ _ (derivable_pt_lim_mult W Q x _ _ (proj2 (HW x)) (Q_deriv x)) (P_deriv c x)).
  - exact (derivable_pt_lim_mult W (P1 c) x _ _ (proj2 (HW x)) (P1_deriv c x)).
Qed.

Lemma along1 : forall c, deriv_along 1 [0]%nat (fun x => W (nth 0 x 0) * P c (nth 0 x 0)) (fun x => W (nth 0 x 0) * Q (nth 0 x 0) * P c (nth 0 x 0) + W (nth 0 x 0) * P1 c (nth 0 x 0)).
Proof using HW. intros c. exists (fun x => W (nth 0 x 0) * P c (nth 0 x 0)). split; [intros x _; reflexivity|]. intros x Hx. exact (line (fun t => W t * P c t) _ x (product_deriv c) Hx). Qed.
Lemma along2 : forall c, deriv_along 1 [0; 0]%nat (fun x => W (nth 0 x 0) * P c (nth 0 x 0))
  (fun x => let t := nth 0 x 0 in (W t * Q t * Q t + W t * Q1 t) * P c t + W t * Q t * P1 c t + (W t * Q t * P1 c t + W t * P2 c t)).
Proof using Hsigma HW HV.
  intros c. eexists. split; [exact (along1 c)|]. intros x Hx. exact (line (fun t => W t * Q t * P c t + W t * P1 c t) _ x (product_deriv2 c) Hx).
Qed.

(** The value of the generator on W psi_c, for any derivatives of W psi_c. *)
Lemma value_at : forall c (f : list R -> R) D x, (forall t, f [t] = W t * hermite c ((t - mu) / sqrt sigma)) -> derivatives 1 f D ->
  (V1 x * D [1]%nat [x] + - 1 * D [2]%nat [x]) / W x = (INR c / sigma + schroedinger mu sigma V1 V2 x) * hermite c ((x - mu) / sqrt sigma).
Proof using Hsigma HW HV.
  intros c f D x Hf HD. assert (Hf' : forall y : list R, length y = 1%nat -> f y = W (nth 0 y 0) * P c (nth 0 y 0)) by (intros [|t [|? ?]] Hy; try discriminate Hy; apply Hf).
  assert (E1 := deriv_unique [1] [0]%nat f _ (D [1]%nat) _ ltac:(repeat constructor) Hf' (HD [1]%nat eq_refl ltac:(cbn; lia)) (along1 c) [x] eq_refl).
  assert (E2 := deriv_unique [1] [0; 0]%nat f _ (D [2]%nat) _ ltac:(repeat constructor) Hf' (HD [2]%nat eq_refl ltac:(cbn; lia)) (along2 c) [x] eq_refl).
  rewrite E1, E2. cbn [nth]. exact (generator c x).
Qed.
End Matrix.

(** * Quadratures in one direction *)
Lemma integral_1d : forall xs ws g, length xs = length ws -> integral [xs] [ws] g = rsum (map (fun '(x, w) => w * g [x]) (combine xs ws)).
Proof.
  intros xs ws g H. unfold integral. rewrite (quadrature_map [xs] [ws] (fun _ => 1) g). unfold grid. cbn [map row_major].
  assert (F : forall l : list nat, flat_map (fun i => [[i]]) l = map (fun i => [i]) l) by (intros l; induction l as [|a l IH]; [reflexivity|]; cbn; rewrite IH; reflexivity). rewrite F, map_map.
  unfold at_pos. cbn [combine map]. revert ws H. induction xs as [|x xs IH]; intros [|w ws] H; try discriminate H; [reflexivity|]. cbn [length seq map combine]. rewrite <- seq_shift, map_map, !rsum_cons. cbn [nth]. f_equal.
  - unfold rprod. cbn [fold_right]. ring.
  - apply (IH ws). injection H; auto.
Qed.

Lemma symmetric_of : forall n (A : list (list R)) f, length A = S n -> Forall (fun row => length row = S n) A -> (forall i j, (i <= n)%nat -> (j <= n)%nat -> nth j (nth i A []) 0 = f i j) ->
  (forall i j, (i <= n)%nat -> (j <= n)%nat -> f i j = f j i) -> symmetric A.
Proof.
  intros n A f M1 M2 HA HF. split; [unfold square_matrix; rewrite M1; exact M2|]. rewrite Forall_forall in M2.
  assert (OUT : forall i j, (n < i \/ n < j)%nat -> nth j (nth i A []) 0 = 0).
  { intros i j Hij. destruct (le_lt_dec i n) as [Hi|Hi]; [|rewrite (nth_overflow A) by lia; destruct j; reflexivity]. apply nth_overflow. rewrite (M2 (nth i A [])) by (apply nth_In; lia). lia. }
  intros i j. destruct (le_lt_dec i n) as [Hi|Hi]; [|rewrite (OUT i j), (OUT j i) by lia; reflexivity]. destruct (le_lt_dec j n) as [Hj|Hj]; [|rewrite (OUT i j), (OUT j i) by lia; reflexivity].
  rewrite !HA by assumption. apply HF; assumption.
Qed.

Section Galerkin.
Variable E : Type.
Variable free_vars : E -> list nat.
Variable eval : E -> (nat -> R) -> R.
Variable cov_factor : list (list R) -> list (list R).
Variable la_inv : list (list R) -> res (list (list R)).
Variable far8 : list (list R) -> bool.
Variable junk : R.
Variable e_1 : E.
Variable la_eig : list (list R) -> list R.
Hypothesis NP : numpy_ok cov_factor la_inv far8.
Hypothesis RF : reads_free eval free_vars.
Hypothesis HE : eig_ok la_eig.
Variable e_add e_mul : E -> E -> E.
Variable e_0 : E.
Variable e_mono : list nat -> E.
Variable simplify : E -> E.
Variable is0 : E -> bool.
Variable sym_eqb : E -> E -> bool.
Variable pos_eqb : position fnum_R -> position fnum_R -> bool.
Variable op_map : oper E -> func E -> oper E.
Hypothesis LIN : sympy_lin (N := num_R) eval e_add e_mul e_0 e_mono simplify is0.
Hypothesis PE : forall p, pos_eqb p p = true.
Hypothesis SE : forall e, sym_eqb e e = true.
Hypothesis SS : forall a b, sym_eqb a b = true -> forall env, eval a env = eval b env.

Theorem noise_matrix : forall (q : quad fnum_R E) d mu sigma degree xs ws (V1 V2 W : R -> R) (v1 minus1 : E) (D : list nat -> list nat -> list R -> R),
  let op := [(v1, [1]%nat); (minus1, [2]%nat)] in let env := fun (x : list R) (_ : nat) => nth 0 x 0 in
  setting q [sigma] Triangle degree -> p_dirs (q_pos q) = [d] -> p_mean (q_pos q) = [mu] -> p_types (q_pos q) = ["hermite"] -> q_nodes q = [xs] -> q_weights q = [ws] -> 0 < sigma -> exact_rule degree 0 xs ws ->
  sympy_lin_vars e_add e_mul e_0 e_1 e_mono simplify free_vars [d] -> (forall x, eval e_1 x = 1) -> f_dirs (q_factor q) = [d] -> incl (free_vars (f_sym (q_factor q))) [d] -> incl (free_vars v1) [d] -> incl (free_vars minus1) [d] ->
  (forall x, eval v1 (fun _ => x) = V1 x) -> (forall x, eval minus1 (fun _ => x) = - 1) -> (forall x, eval (f_sym (q_factor q)) (fun _ => x) = W x) -> balances mu sigma V1 W -> (forall x, derivable_pt_lim V1 x (V2 x)) ->
  maps eval free_vars [d] env op (q_factor q) (op_map op (q_factor q)) ->
  (forall op' n values, (sym_eqb (f_sym (q_factor q)) e_1 = true /\ op' = op) \/ (sym_eqb (f_sym (q_factor q)) e_1 = false /\ op' = op_map op (q_factor q)) -> length n = 1%nat ->
    grid_values q [sigma] values (coefficient (N := num_R) eval op' n) -> nothing_dropped Triangle degree [xs] [ws] [0]%nat values) ->
  (forall c, (c <= degree)%nat -> derivatives 1 (fun x => W (nth 0 x 0) * psi [mu] [sigma] [0]%nat [c] x) (D [c])) ->
  exists v, quad_discretize_op fnum_R E e_add e_mul e_0 e_1 e_mono simplify is0 free_vars eval sym_eqb pos_eqb cov_factor junk la_eig op_map q op degree Triangle = Ok v /\ length (v_mat v) = S degree /\ symmetric (v_mat v) /\
    forall i j, (i <= degree)%nat -> (j <= degree)%nat ->
      varf_at v [i] [j] = (if (i =? j)%nat then INR j / sigma else 0) + rsum (map (fun '(x, w) => w * (hermite i x * hermite j x * schroedinger mu sigma V1 V2 (mu + sqrt sigma * x))) (combine xs ws)) /\ varf_at v [i] [j] = nth j (nth i (v_mat v) []) 0.
Proof using NP RF HE LIN PE SE SS.
  intros q d mu sigma degree xs ws V1 V2 W v1 minus1 D op env Hset Hd Hm Ht Hn Hw Hs Hex Hlv H1 Hfd Hff Hv1 Hm1 EV EM EW HB HV Hmaps Hdrop HD.
  assert (Hk : kinds (p_types (q_pos q)) = [0]%nat) by (rewrite Ht; reflexivity).
  destruct (discretize_op_galerkin E free_vars eval cov_factor la_inv far8 junk e_1 la_eig NP RF HE e_add e_mul e_0 e_mono simplify is0 sym_eqb pos_eqb op_map LIN PE SE SS q [sigma] Triangle degree env Hset) with (op := op) (D := D) as (v & G1 & G2 & G3 & G4 & G5 & G6 & G7 & G8).
  - intros k Hkk. rewrite Hk in Hkk. destruct k as [|[|k]]; discriminate Hkk.
  - rewrite Hd. repeat constructor.
  - rewrite Hd. intros x Hx [|k] dd Hdd; cbn in Hdd; [injection Hdd as <-|destruct k; discriminate Hdd]. destruct x as [|a x]; [discriminate Hx|reflexivity].
  - rewrite Hd. exact Hlv.
  - rewrite Hd. exact Hfd.
  - rewrite Hd. exact Hff.
  - exact H1.
  - rewrite Hd. intros c n [H|[H|[]]]; injection H as <- <-; (split; [reflexivity|]); (split; [cbn; lia|]); assumption.
  - rewrite Hd. exact Hmaps.
  - intros p _. unfold env. rewrite EW. apply HB.
  - rewrite Hn, Hw, Hk. exact Hdrop.
  - intros c Hc. rewrite Hm, Hk. destruct c as [|c [|? ?]]; try (destruct Hc as [Hc _]; discriminate Hc). assert (Hle : (c <= degree)%nat) by (destruct Hc as [_ Hc]; cbn in Hc; lia).
    intros n Ln On. specialize (HD c Hle n Ln On). cbn [length] in HD |- *.
    assert (X : forall x : list R, eval (f_sym (q_factor q)) (env x) = W (nth 0 x 0)) by (intros x; exact (EW (nth 0 x 0))).
    revert HD. clear -X. generalize (D [c] n). generalize (coordinates n). intros ks. induction ks as [|k ks IH]; intros g; cbn [deriv_along].
    + intros H x Hx. rewrite X. apply H. exact Hx.
    + intros (h & A & B). exists h. split; [apply IH; exact A|exact B].
  - assert (PT : points Triangle 1 degree = map (fun i => [i]) (seq 0 (S degree))) by (rewrite points_spec_ok by exact I; cbn [spec_list]; apply tri_1).
    assert (MW : mat_wf (S degree) (S degree) (v_mat v)).
    { destruct G2 as (_ & G2). rewrite G4, G6 in G2. unfold mat_for in G2. cbn [length Degree.recovered] in G2. rewrite PT, map_length, seq_length in G2. exact G2. }
    assert (VA : forall i j, (i <= degree)%nat -> (j <= degree)%nat -> varf_at v [i] [j] = nth j (nth i (v_mat v) []) 0).
    { intros i j Hi Hj. unfold varf_at, entry, mvalue. rewrite G3, G4, G6, Hd. cbn [length Degree.recovered]. rewrite PT. destruct MW as (M1 & M2).
      rewrite (value_1 _ [] (S degree) (v_mat v) i) by lia. apply value_1; [lia|]. rewrite Forall_forall in M2. apply M2. apply nth_In. lia. }
    assert (EN : forall i j, (i <= degree)%nat -> (j <= degree)%nat ->
      varf_at v [i] [j] = (if (i =? j)%nat then INR j / sigma else 0) + rsum (map (fun '(x, w) => w * (hermite i x * hermite j x * schroedinger mu sigma V1 V2 (mu + sqrt sigma * x))) (combine xs ws))).
    2:{ exists v. split; [exact G1|]. destruct MW as (M1 & M2). split; [exact M1|]. split; [|intros i j Hi Hj; split; [exact (EN i j Hi Hj)|exact (VA i j Hi Hj)]].
        refine (symmetric_of degree (v_mat v) (fun i j => varf_at v [i] [j]) M1 M2 (fun i j Hi Hj => eq_sym (VA i j Hi Hj)) _). intros i j Hi Hj. cbv beta. refine (eq_trans (EN i j Hi Hj) (eq_trans _ (eq_sym (EN j i Hj Hi)))). f_equal.
        - rewrite (Nat.eqb_sym j i). destruct (Nat.eqb_spec i j) as [->|_]; reflexivity.
        - apply rsum_map_ext. intros (x, w) _. ring. }
    intros i j Hi Hj. destruct Hex as (Hlen & Hex).
    assert (Ii : forall a, (a <= degree)%nat -> varf_index v [a]) by (intros a Ha; apply G7; split; [reflexivity|cbn; lia]).
    rewrite (G8 [i] [j] (Ii i Hi) (Ii j Hj)). rewrite Hn, Hw, Hk, Hm, integral_1d by exact Hlen.
    transitivity (INR j / sigma * rsum (map (fun '(x, w) => w * (basis 0 i x * basis 0 j x)) (combine xs ws)) + rsum (map (fun '(x, w) => w * (hermite i x * hermite j x * schroedinger mu sigma V1 V2 (mu + sqrt sigma * x))) (combine xs ws))).
    + rewrite <- rsum_map_mult, <- rsum_map_plus. apply rsum_map_ext. intros (x, w) _. unfold op_value, op, env, located. cbn [combine map nth]. rewrite EW.
      match goal with |- context [nsum ?l] => replace (nsum l) with (V1 (mu + sqrt sigma * x) * D [j] [1]%nat [mu + sqrt sigma * x] + - 1 * D [j] [2]%nat [mu + sqrt sigma * x]) end.
      2:{ rewrite EV, EM. unfold nsum. cbn. ring. }
      rewrite (value_at mu sigma V1 V2 W Hs HB HV j (fun x => W (nth 0 x 0) * psi [mu] [sigma] [0]%nat [j] x) (D [j]) (mu + sqrt sigma * x)); [|intros t|exact (HD j Hj)].
      * assert (R0 : 0 < sqrt sigma) by (apply sqrt_lt_R0; exact Hs). replace ((mu + sqrt sigma * x - mu) / sqrt sigma) with x by (field; lra). unfold phi, basis, rprod. cbn [combine map fold_right Nat.eqb]. ring.
      * unfold psi, standardised, phi, basis, rprod. cbn [combine map fold_right Nat.eqb nth]. ring.
    + match goal with |- INR j / sigma * ?X + _ = _ => replace X with (if (i =? j)%nat then 1 else 0) by (symmetry; exact (Hex i j Hi Hj)) end. destruct (Nat.eqb_spec i j); match goal with |- @eq _ ?a ?b => change (@eq R a b) end; ring.
Qed.
End Galerkin.

Lemma gauss_quotient : forall s g e i : R, 0 < s -> 0 < e -> 0 < i -> i / s * (g * e) = g / s / (/ e / i).
Proof. intros. field. repeat split; lra. Qed.

(** The factor of the code. *)
Lemma noise_balances : forall E (eval : E -> (nat -> R) -> R) e_add e_mul e_div e_opp e_1 e_pi e_var e_sqrt e_exp e_subs e_num, sympy_values eval e_add e_mul e_div e_opp e_1 e_pi e_var e_sqrt e_exp e_subs ->
  (forall c env, eval (e_num c) env = c) -> forall Vy integral (V V1 : R -> R), (forall y, eval Vy (fun _ => y) = V y) -> (forall y, derivable_pt_lim V y (V1 y)) -> 0 < integral ->
  let W := fun y => eval (noise_factor fnum_R E e_mul e_div e_opp e_var e_sqrt e_exp e_num e_pi Vy integral) (fun _ => y) in
  (forall y, W y = sqrt (exp (- (y * y / (2 / 5))) / sqrt (2 * PI / 5) / (exp (- V y) / integral))) /\ balances 0 (1 / 5) V1 W.
Proof.
  intros E eval e_add e_mul e_div e_opp e_1 e_pi e_var e_sqrt e_exp e_subs e_num SV HN Vy I V V1 EV DV HI W.
  assert (P0 : 0 < 2 * PI / 5) by (pose proof PI_RGT_0; lra). assert (S0 : 0 < sqrt (2 * PI / 5)) by (apply sqrt_lt_R0; exact P0).
  assert (TW : forall env, eval (two fnum_R E e_num) env = 2) by (intros env; unfold two; rewrite HN; reflexivity).
  assert (SG : forall env, eval (e_num (sigma_y fnum_R)) env = 1 / 5) by (intros env; rewrite HN; reflexivity).
  assert (EW : forall y, W y = sqrt (exp (- (y * y / (2 / 5))) / sqrt (2 * PI / 5) / (exp (- V y) / I))).
  { intros y. unfold W, noise_factor, noise_gaussian, noise_density.
    assert (A : eval (e_mul (e_mul (two fnum_R E e_num) e_pi) (e_num (sigma_y fnum_R))) (fun _ => y) = 2 * PI / 5).
    { rewrite !(v_mul _ _ _ _ _ _ _ _ _ _ _ SV), TW, SG, (v_pi _ _ _ _ _ _ _ _ _ _ _ SV). field. }
    assert (B : eval (e_sqrt (e_mul (e_mul (two fnum_R E e_num) e_pi) (e_num (sigma_y fnum_R)))) (fun _ => y) = sqrt (2 * PI / 5)).
    { rewrite (v_sqrt _ _ _ _ _ _ _ _ _ _ _ SV); rewrite A; [reflexivity|lra]. }
    assert (C : eval (e_mul (two fnum_R E e_num) (e_num (sigma_y fnum_R))) (fun _ => y) = 2 / 5).
    { rewrite (v_mul _ _ _ _ _ _ _ _ _ _ _ SV), TW, SG. field. }
    assert (D : eval (e_exp (e_opp (e_div (e_mul (e_var 1%nat) (e_var 1%nat)) (e_mul (two fnum_R E e_num) (e_num (sigma_y fnum_R)))))) (fun _ => y) = exp (- (y * y / (2 / 5)))).
    { rewrite (v_exp _ _ _ _ _ _ _ _ _ _ _ SV), (v_opp _ _ _ _ _ _ _ _ _ _ _ SV), (v_div _ _ _ _ _ _ _ _ _ _ _ SV); rewrite C; [|lra]. rewrite (v_mul _ _ _ _ _ _ _ _ _ _ _ SV), (v_var _ _ _ _ _ _ _ _ _ _ _ SV). reflexivity. }
    assert (F : eval (e_div (e_exp (e_opp Vy)) (e_num I)) (fun _ => y) = exp (- V y) / I).
    { rewrite (v_div _ _ _ _ _ _ _ _ _ _ _ SV); rewrite HN; [|lra]. rewrite (v_exp _ _ _ _ _ _ _ _ _ _ _ SV), (v_opp _ _ _ _ _ _ _ _ _ _ _ SV), EV. reflexivity. }
    assert (F0 : 0 < exp (- V y) / I) by (apply Rdiv_lt_0_compat; [apply exp_pos|exact HI]).
    match goal with |- eval (e_sqrt ?a) _ = _ => assert (G : eval a (fun _ => y) = exp (- (y * y / (2 / 5))) / sqrt (2 * PI / 5) / (exp (- V y) / I)) end.
    { rewrite (v_div _ _ _ _ _ _ _ _ _ _ _ SV); rewrite F; [|lra]. rewrite (v_div _ _ _ _ _ _ _ _ _ _ _ SV); rewrite B; [|lra]. rewrite D. reflexivity. }
    rewrite (v_sqrt _ _ _ _ _ _ _ _ _ _ _ SV); rewrite G; [reflexivity|]. apply Rlt_le. apply Rdiv_lt_0_compat; [|exact F0]. apply Rdiv_lt_0_compat; [apply exp_pos|exact S0]. }
  split; [exact EW|].
  set (k := sqrt (I / sqrt (2 * PI / 5))).
  assert (K : 0 < k) by (apply sqrt_lt_R0; apply Rdiv_lt_0_compat; lra).
  assert (EK : forall y, W y = k * exp ((V y - 5 / 2 * (y * y)) / 2)).
  { intros y. rewrite EW. unfold k. apply sqrt_lem_1.
    - apply Rlt_le. apply Rdiv_lt_0_compat; [apply Rdiv_lt_0_compat; [apply exp_pos|exact S0]|apply Rdiv_lt_0_compat; [apply exp_pos|exact HI]].
    - apply Rmult_le_pos; [apply sqrt_pos|apply Rlt_le, exp_pos].
    - transitivity (sqrt (I / sqrt (2 * PI / 5)) * sqrt (I / sqrt (2 * PI / 5)) * (exp ((V y - 5 / 2 * (y * y)) / 2) * exp ((V y - 5 / 2 * (y * y)) / 2))); [ring|]. rewrite sqrt_sqrt by (apply Rlt_le, Rdiv_lt_0_compat; lra). rewrite <- exp_plus.
      replace ((V y - 5 / 2 * (y * y)) / 2 + (V y - 5 / 2 * (y * y)) / 2) with (- (y * y / (2 / 5)) + V y) by field. rewrite exp_plus, (exp_Ropp (V y)). apply gauss_quotient; [exact S0|apply exp_pos|exact HI]. }
  intros x. split; [rewrite EK; pose proof (exp_pos ((V x - 5 / 2 * (x * x)) / 2)); nra|].
  apply (derivable_pt_lim_ext (fun y => k * exp ((V y - 5 / 2 * (y * y)) / 2))); [intros y; symmetry; apply EK|]. rewrite EK.
  replace (k * exp ((V x - 5 / 2 * (x * x)) / 2) * ((V1 x - (x - 0) / (1 / 5)) / 2)) with (k * (exp ((V x - 5 / 2 * (x * x)) / 2) * ((V1 x - 5 / 2 * (1 * x + x * 1)) * / 2))) by field.
  apply derivable_pt_lim_scal. apply (derivable_pt_lim_comp (fun y => (V y - 5 / 2 * (y * y)) / 2) exp); [|apply derivable_pt_lim_exp].
  apply (derivable_pt_lim_ext (fun y => / 2 * (V y - 5 / 2 * (y * y)))); [intros y; unfold Rdiv; ring|]. rewrite Rmult_comm. apply derivable_pt_lim_scal. apply derivable_pt_lim_minus; [apply DV|]. apply derivable_pt_lim_scal. apply derivable_pt_lim_mult; apply derivable_pt_lim_id.
Qed.
