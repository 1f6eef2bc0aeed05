From Coq Require Import String List Bool Arith ZArith Reals Lia Lra.
From Verif Require Import Base IndexModel Num Fnum LinSpec LinModel CalcModel CalcSpec LinBase CalcReal CalcVarfd Facts2 Facts6 Facts7 Facts9 Facts10 PyBase PosModel PosSpec PosFacts SeriesModel SeriesSpec SeriesFacts SeriesFacts3 PartModel MulModel OpModel OpSpec OpFacts
  PyQuadModel PyQuadSpec PyQuadFacts PyQuadFacts2 OpQuadModel OpQuadSpec.
Import ListNotations.
Local Open Scope R_scope.

Lemma with_entry_length : forall A (m : list A) k v, (k < length m)%nat -> length (with_entry m k v) = length m.
Proof. intros A m k v H. unfold with_entry. rewrite app_length, firstn_length. cbn [length]. rewrite skipn_length. lia. Qed.
Lemma with_entry_same : forall (x : list R) k, (k < length x)%nat -> with_entry x k (nth k x 0) = x.
Proof. induction x as [|a x IH]; intros [|k] H; cbn [length] in *; try lia; [reflexivity|]. unfold with_entry in *. cbn [firstn skipn app nth]. f_equal. apply IH. lia. Qed.

Lemma standardised_length : forall m v x, length m = length v -> length x = length v -> length (standardised m v x) = length v.
Proof. intros m v x H1 H2. unfold standardised. rewrite map_length, !combine_length, H1, H2. lia. Qed.
Lemma standardised_entry : forall m v x k t, length m = length v -> length x = length v -> (k < length v)%nat ->
  standardised m v (with_entry x k t) = with_entry (standardised m v x) k ((t - nth k m 0) / sqrt (nth k v 0)).
Proof.
  induction m as [|a m IH]; intros [|b v] [|y x] k t H1 H2 Hk; cbn [length] in *; try lia. destruct k as [|k]; [reflexivity|].
  change (with_entry (y :: x) (S k) t) with (y :: with_entry x k t). unfold standardised in *. cbn [combine map nth]. change (with_entry ((y - a) / sqrt b :: ?l) (S k) ?u) with ((y - a) / sqrt b :: with_entry l k u). f_equal. apply IH; lia.
Qed.
Lemma standardised_nth : forall m v x k, length m = length v -> length x = length v -> (k < length v)%nat -> nth k (standardised m v x) 0 = (nth k x 0 - nth k m 0) / sqrt (nth k v 0).
Proof.
  induction m as [|a m IH]; intros [|b v] [|y x] k H1 H2 Hk; cbn [length] in *; try lia. destruct k as [|k]; [reflexivity|]. unfold standardised in *. cbn [combine map nth]. apply IH; lia.
Qed.

(** the partial derivative of a basis function is a multiple of a basis function *)
Definition pterm (vars : list R) (flags : list nat) (k : nat) (c : list nat) : R * list nat :=
  let d := dterm (nth k flags 0%nat) (nth k c 0%nat) in (fst d / sqrt (nth k vars 0), with_entry c k (snd d)).
Fixpoint dpsi (vars : list R) (flags ks c : list nat) : R * list nat :=
  match ks with
  | [] => (1, c)
  | k :: ks => let p := dpsi vars flags ks c in (fst p * fst (pterm vars flags k (snd p)), snd (pterm vars flags k (snd p)))
  end.

Section Deriv.
Variables (mean vars : list R) (flags : list nat).
Hypothesis Hm : length mean = length vars.
Hypothesis Hf : length flags = length vars.
Hypothesis Hv : Forall (fun v => 0 < v) vars.
Let dim := length vars.

Lemma var_pos : forall k, (k < dim)%nat -> 0 < sqrt (nth k vars 0).
Proof using Hv. intros k Hk. apply sqrt_lt_R0. rewrite Forall_forall in Hv. apply Hv, nth_In. exact Hk. Qed.

Lemma psi_partial : forall k c, (k < dim)%nat -> length c = dim -> partial dim k (psi mean vars flags c) (fun x => fst (pterm vars flags k c) * psi mean vars flags (snd (pterm vars flags k c)) x).
Proof using Hm Hf Hv.
  intros k c Hk Hc x Hx. unfold psi, pterm. cbn [fst snd]. set (d := dterm (nth k flags 0%nat) (nth k c 0%nat)). set (y := standardised mean vars x).
  assert (Ly : length y = dim) by (apply standardised_length; assumption).
  apply (derivable_pt_lim_ext (fun t => phi flags c (with_entry y k ((t - nth k mean 0) / sqrt (nth k vars 0))))); [intros t; unfold y; rewrite standardised_entry by assumption; reflexivity|].
  replace (fst d / sqrt (nth k vars 0) * phi flags (with_entry c k (snd d)) y) with ((fst d * phi flags (with_entry c k (snd d)) y) * (/ sqrt (nth k vars 0))) by (unfold Rdiv; ring).
  apply (derivable_pt_lim_comp (fun t => (t - nth k mean 0) / sqrt (nth k vars 0)) (fun u => phi flags c (with_entry y k u))).
  - apply (derivable_pt_lim_ext (fun t => / sqrt (nth k vars 0) * t + (- nth k mean 0 / sqrt (nth k vars 0)))); [intros; unfold Rdiv; ring|].
    pose proof (derivable_pt_lim_plus (fun t => / sqrt (nth k vars 0) * t) (fun _ => - nth k mean 0 / sqrt (nth k vars 0)) (nth k x 0) _ _ (lin_deriv _ _) (derivable_pt_lim_const _ _)) as G. rewrite Rplus_0_r in G. exact G.
  - rewrite <- (standardised_nth mean vars x k) by assumption. fold y. apply phi_deriv; [rewrite Hf; exact Hc|rewrite Hf; exact Ly|rewrite Hf; exact Hk].
Qed.

Lemma deriv_unique : forall ks f f' g g', Forall (fun k => k < dim)%nat ks -> (forall x, length x = dim -> f x = f' x) -> deriv_along dim ks f g -> deriv_along dim ks f' g' -> forall x, length x = dim -> g x = g' x.
Proof using.
  induction ks as [|k ks IH]; intros f f' g g' Hk He H H' x Hx; cbn [deriv_along] in *.
  - rewrite H, H' by exact Hx. apply He. exact Hx.
  - destruct H as (h & H1 & H2). destruct H' as (h' & H1' & H2'). inversion Hk as [|? ? K1 K2]; subst. specialize (IH f f' h h' K2 He H1 H1').
    specialize (H2 x Hx). specialize (H2' x Hx). eapply uniqueness_limite; [exact H2|]. eapply derivable_pt_lim_ext; [|exact H2']. intros t. symmetry. apply IH. rewrite with_entry_length; [exact Hx|rewrite Hx; exact K1].
Qed.

Lemma pterm_length : forall k c, (k < dim)%nat -> length c = dim -> length (snd (pterm vars flags k c)) = dim.
Proof using. intros k c Hk Hc. unfold pterm. cbn [snd]. rewrite with_entry_length; [exact Hc|rewrite Hc; exact Hk]. Qed.
Lemma dpsi_length : forall ks c, Forall (fun k => k < dim)%nat ks -> length c = dim -> length (snd (dpsi vars flags ks c)) = dim.
Proof using. induction ks as [|k ks IH]; intros c H Hc; cbn [dpsi snd]; [exact Hc|]. inversion H; subst. apply pterm_length; [assumption|]. apply IH; assumption. Qed.

Lemma deriv_psi : forall ks c, Forall (fun k => k < dim)%nat ks -> length c = dim -> deriv_along dim ks (psi mean vars flags c) (fun x => fst (dpsi vars flags ks c) * psi mean vars flags (snd (dpsi vars flags ks c)) x).
Proof using Hm Hf Hv.
  induction ks as [|k ks IH]; intros c H Hc; cbn [deriv_along dpsi fst snd]; [intros; apply Rmult_1_l|]. inversion H as [|? ? K1 K2]; subst.
  exists (fun x => fst (dpsi vars flags ks c) * psi mean vars flags (snd (dpsi vars flags ks c)) x). split; [apply IH; assumption|]. intros x Hx. rewrite Rmult_assoc.
  apply (derivable_pt_lim_scal (fun t => psi mean vars flags (snd (dpsi vars flags ks c)) (with_entry x k t))). exact (psi_partial k _ K1 (dpsi_length ks c K2 Hc) x Hx).
Qed.
End Deriv.

Lemma value_map_all : forall A B (f : A -> B) d l v m, value (f d) l (map f v) m = f (value d l v m).
Proof. intros A B f d l. induction l as [|x l IH]; intros [|c v] m; cbn [value map]; try reflexivity. destruct (mi_eqb x m); [reflexivity|apply IH]. Qed.
Lemma entry_map : forall s dim degree (f : R -> R) (A : list (list R)) r c, f 0 = 0 -> @entry num_R s dim degree (map (map f) A) r c = f (@entry num_R s dim degree A r c).
Proof.
  intros s dim degree f A r c H0. unfold entry, mvalue. rewrite (value_map_all _ _ (map f) [] _ A r : value [] _ (map (map f) A) r = map f (value [] _ A r)).
  change (@n0 num_R) with 0. rewrite <- H0 at 1. exact (value_map_all R R f 0 (points s dim degree) (value [] (points s dim degree) A r) c).
Qed.
Lemma mat_for_map : forall s dim degree (f : R -> R) (A : list (list R)), @mat_for num_R s dim degree A -> @mat_for num_R s dim degree (map (map f) A).
Proof.
  intros s dim degree f A [H1 H2]. split; [etransitivity; [apply map_length|exact H1]|]. apply Forall_forall. intros row Hr. apply in_map_iff in Hr as (row' & <- & Hr). rewrite Forall_forall in H2. etransitivity; [apply map_length|]. exact (H2 row' Hr).
Qed.

Section Quad.
Variable E : Type.
Variable free_vars : E -> fset.
Variable eval : E -> (nat -> R) -> R.
Variable cov_factor : list (list R) -> list (list R).
Variable la_inv : list (list R) -> res (list (list R)).
Variable far8 : list (list R) -> bool.
Variable junk : R.
Variable e_1 : E.
Variable la_eig : list (list R) -> list R.
Hypothesis NP : numpy_ok cov_factor la_inv far8.
Hypothesis RF : reads_free eval free_vars.
Hypothesis EI : eig_ok la_eig.
Notation quad := (quad fnum_R E).
Notation discretize' := (quad_discretize fnum_R E free_vars eval cov_factor junk).
Notation varf_fun := (quad_varf_fun fnum_R E e_1 free_vars eval cov_factor junk).
Notation quad_varfd := (quad_varfd fnum_R E e_1 free_vars eval cov_factor junk la_eig).

Lemma built : forall (q : quad) vars s degree A, quad_R q vars -> usable s (length vars) degree -> @mat_for num_R s (length vars) degree A ->
  exists v, varf_init fnum_R E e_1 A (q_pos q) (Some (q_factor q)) s = Ok v /\ varf_ok v (length vars) /\ v_mat v = A /\ v_pos v = q_pos q /\ v_set v = s /\ v_factor v = q_factor q /\ v_degree v = Degree.recovered s degree /\
    (forall m, varf_index v m <-> index_of s (length vars) degree m) /\ forall r c, varf_at v r c = @entry num_R s (length vars) degree A r c.
Proof.
  intros q vars s degree A ((P1 & P2 & P3 & P4 & P5 & P6) & Q1 & Q2 & Q3) Hu HA.
  assert (Hpd : pos_dim (q_pos q) s (length vars) degree) by (split; [exact P3|split; [exact P4|exact Hu]]).
  destruct (vrebuild fnum_R E e_1 A (q_pos q) (q_factor q) s (length vars) degree Hpd HA) as (h & E1 & H1 & H2 & H3 & H4 & H5 & H6 & H7).
  exists h. split; [exact E1|]. split; [exact H1|]. split; [|split; [exact H2|split; [exact H3|split; [exact H4|split; [exact H5|split; [exact H6|exact H7]]]]]].
  rewrite (varf_init_ok fnum_R E e_1 A (q_pos q) (Some (q_factor q)) s (length vars) degree Hpd (proj1 HA)) in E1 by (left; discriminate). injection E1 as <-. reflexivity.
Qed.

Lemma varf_built : forall (q : quad) vars s degree f, setting q vars s degree -> f_dirs f = p_dirs (q_pos q) -> incl (free_vars (f_sym f)) (f_dirs f) ->
  (forall values, grid_values q vars values (eval (f_sym f)) -> nothing_dropped s degree (q_nodes q) (q_weights q) (kinds (p_types (q_pos q))) values) ->
  exists values v, discretize' q f = Ok values /\ grid_values q vars values (eval (f_sym f)) /\ varf_fun q f degree s = Ok v /\ @mat_for num_R s (length vars) degree (v_mat v) /\
    (varf_init fnum_R E e_1 (v_mat v) (q_pos q) (Some (q_factor q)) s = Ok v) /\
    forall r c, index_of s (length vars) degree r -> index_of s (length vars) degree c -> @entry num_R s (length vars) degree (v_mat v) r c = galerkin (q_nodes q) (q_weights q) (kinds (p_types (q_pos q))) values r c.
Proof using NP RF.
  intros q vars s degree f (Hq & Hw & Hu & Hfit & Hfl & Hcl) Hfd Hfi Hnd. destruct (discretize_values E free_vars eval cov_factor la_inv far8 junk NP RF q vars f Hq Hfd Hfi) as (values & D1 & D2).
  pose proof Hq as ((P1 & P2 & P3 & P4 & P5 & P6) & Q1 & Q2 & Q3).
  destruct (varf_galerkin s degree (q_nodes q) (q_weights q) (kinds (p_types (q_pos q))) values) as (A & B & V1 & V2 & _ & _ & V3).
  { exact (eq_ind_r (fun n => usable s n degree) Hu Q1). } { exact (eq_ind_r (fun n => fits s n (2 * degree)) Hfit Q1). } { exact Q3. } { exact Hfl. } { unfold kinds. rewrite map_length. exact (eq_trans P5 (eq_sym Q1)). } { exact Hw. } { exact (proj1 D2). } { exact Hcl. } { apply Hnd. exact D2. }
  assert (Q1' : @length (list R) (q_nodes q) = length vars) by exact Q1. rewrite Q1' in V2, V3. destruct (built q vars s degree A Hq Hu V2) as (v & E1 & _ & E2 & _). exists values, v. split; [exact D1|]. split; [exact D2|].
  split; [|rewrite E2; split; [exact V2|split; [exact E1|]]].
  - unfold quad_varf_fun. rewrite D1. cbn [bind]. unfold quad_varf. change (do_fourier q) with (kinds (p_types (q_pos q))). rewrite V1. exact E1.
  - intros r c Hr Hc. exact (proj1 (V3 r c Hr Hc)).
Qed.

Lemma kinds_01 : forall types k, nth k (kinds types) 0%nat = 0%nat \/ nth k (kinds types) 0%nat = 1%nat.
Proof. induction types as [|t types IH]; intros [|k]; cbn [kinds map nth]; auto. destruct (String.eqb t "fourier"); auto. Qed.

(** one derivative *)
Lemma step_entry : forall (q : quad) vars s degree k d A, quad_R q vars -> usable s (length vars) degree -> nth_error (p_dirs (q_pos q)) k = Some d ->
  (nth k (kinds (p_types (q_pos q))) 0%nat = 1%nat -> paired s (length vars) degree k) -> @mat_for num_R s (length vars) degree A ->
  exists B, varfd_step fnum_R E q degree s (la_eig (p_cov (q_pos q))) d A = Ok B /\ @mat_for num_R s (length vars) degree B /\
    forall r c, index_of s (length vars) degree r -> index_of s (length vars) degree c ->
      @entry num_R s (length vars) degree B r c = fst (pterm vars (kinds (p_types (q_pos q))) k c) * @entry num_R s (length vars) degree A r (snd (pterm vars (kinds (p_types (q_pos q))) k c)) /\
      index_of s (length vars) degree (snd (pterm vars (kinds (p_types (q_pos q))) k c)).
Proof using EI.
  intros q vars s degree k d A ((P1 & P2 & P3 & P4 & P5 & P6) & _) Hu Hd Hp HA. assert (Hk : (k < length vars)%nat) by (rewrite <- P3; apply nth_error_Some; rewrite Hd; discriminate).
  unfold varfd_step. rewrite (py_index_nth _ _ _ P6 Hd). cbn [bind]. set (flag := nth k (kinds (p_types (q_pos q))) 0%nat) in *.
  assert (Hflag : nth_error (do_fourier q) k = Some flag) by (apply nth_error_nth'; change (do_fourier q) with (kinds (p_types (q_pos q))); unfold kinds; rewrite map_length, P5; exact Hk).
  rewrite (py_get_ok _ _ _ _ Hflag). cbn [bind]. assert (Hdim : p_dim (q_pos q) = length vars) by exact P4. rewrite Hdim.
  destruct (varfd_boost s (length vars) degree k flag Hu Hk (kinds_01 _ _) Hp A HA) as (B & B1 & B2 & B3). rewrite B1. cbn [bind].
  assert (He : @nth_error R (la_eig (p_cov (q_pos q))) k = Some (nth k vars 0)) by (rewrite P1; rewrite (EI vars); apply nth_error_nth'; exact Hk).
  change (@py_get (fn fnum_R)) with (@py_get R). rewrite (py_get_ok _ _ _ _ He). cbn [bind]. eexists. split; [reflexivity|]. split; [exact (mat_for_map s (length vars) degree (fun a => a / sqrt (nth k vars 0)) B B2)|].
  intros r c Hr Hc. split.
  - etransitivity; [exact (entry_map s (length vars) degree (fun a => a / sqrt (nth k vars 0)) B r c ltac:(unfold Rdiv; apply Rmult_0_l))|]. rewrite B3 by assumption. unfold pterm. cbn [fst snd]. fold flag. unfold Rdiv. match goal with |- @eq _ ?a ?b => change (@eq R a b) end. ring.
  - unfold pterm. cbn [snd]. rewrite with_entry_upd by (rewrite (proj1 Hc); exact Hk). exact (dterm_in s (length vars) degree k flag Hk (kinds_01 _ _) Hp c Hc).
Qed.

Lemma steps_entry : forall (q : quad) vars s degree, quad_R q vars -> usable s (length vars) degree -> (forall k, nth k (kinds (p_types (q_pos q))) 0%nat = 1%nat -> paired s (length vars) degree k) ->
  forall ks ds, map (nth_error (p_dirs (q_pos q))) ks = map Some ds -> forall A, @mat_for num_R s (length vars) degree A ->
  exists B, for_in (varfd_step fnum_R E q degree s (la_eig (p_cov (q_pos q)))) ds A = Ok B /\ @mat_for num_R s (length vars) degree B /\
    forall r c, index_of s (length vars) degree r -> index_of s (length vars) degree c ->
      @entry num_R s (length vars) degree B r c = fst (dpsi vars (kinds (p_types (q_pos q))) ks c) * @entry num_R s (length vars) degree A r (snd (dpsi vars (kinds (p_types (q_pos q))) ks c)) /\
      index_of s (length vars) degree (snd (dpsi vars (kinds (p_types (q_pos q))) ks c)).
Proof using EI.
  intros q vars s degree Hq Hu Hp. induction ks as [|k ks IH]; intros [|d ds] H A HA; cbn [map] in H; try discriminate H; cbn [for_in].
  - exists A. split; [reflexivity|]. split; [exact HA|]. intros r c Hr Hc. cbn [dpsi fst snd]. split; [symmetry; apply Rmult_1_l|exact Hc].
  - injection H as H0 H. destruct (step_entry q vars s degree k d A Hq Hu H0 (Hp k) HA) as (B & B1 & B2 & B3).
    destruct (IH ds H B B2) as (C & C1 & C2 & C3). exists C. split; [|split; [exact C2|]].
    + rewrite B1. cbn [bind]. exact C1.
    + intros r c Hr Hc. destruct (C3 r c Hr Hc) as (E1 & E2). destruct (B3 r _ Hr E2) as (E3 & E4). cbn [dpsi fst snd]. split; [|exact E4]. rewrite E1, E3. match goal with |- @eq _ ?a ?b => change (@eq R a b) end. ring.
Qed.

Lemma coordinates_bound : forall dirs directions ks, coordinates_of dirs directions ks -> Forall (fun k => k < length dirs)%nat ks.
Proof.
  intros dirs directions ks H. unfold coordinates_of in H. revert H. generalize (filter (fun d => existsb (Nat.eqb d) dirs) directions). induction ks as [|k ks IH]; intros [|d ds] H; cbn [map] in H; try discriminate H; constructor.
  - injection H as H _. apply nth_error_Some. rewrite H. discriminate.
  - injection H as _ H. exact (IH ds H).
Qed.

Theorem varfd_matrix : forall (q : quad) vars s degree f directions ks, setting q vars s degree -> (forall k, nth k (kinds (p_types (q_pos q))) 0%nat = 1%nat -> paired s (length vars) degree k) ->
  f_dirs f = p_dirs (q_pos q) -> incl (free_vars (f_sym f)) (f_dirs f) ->
  (forall values, grid_values q vars values (eval (f_sym f)) -> nothing_dropped s degree (q_nodes q) (q_weights q) (kinds (p_types (q_pos q))) values) ->
  coordinates_of (p_dirs (q_pos q)) directions ks ->
  exists values v, grid_values q vars values (eval (f_sym f)) /\ quad_varfd q f degree directions s = Ok v /\
    varf_ok v (length vars) /\ v_pos v = q_pos q /\ v_set v = s /\ v_factor v = q_factor q /\ v_degree v = Degree.recovered s degree /\
    (forall m, varf_index v m <-> index_of s (length vars) degree m) /\
    forall r c g, varf_index v r -> varf_index v c -> deriv_along (length vars) ks (psi (p_mean (q_pos q)) vars (kinds (p_types (q_pos q))) c) g ->
      varf_at v r c = quadrature (q_nodes q) (q_weights q) values (fun y => phi (kinds (p_types (q_pos q))) r y * g (located (p_mean (q_pos q)) vars y)).
Proof using NP RF EI.
  intros q vars s degree f directions ks Hs Hp Hfd Hfi Hnd Hks. pose proof Hs as (Hq & Hw & Hu & _). pose proof Hq as ((P1 & P2 & P3 & P4 & P5 & P6) & Q1 & Q2 & Q3).
  destruct (varf_built q vars s degree f Hs Hfd Hfi Hnd) as (values & v0 & D1 & D2 & D3 & D4 & D5 & D6).
  destruct (steps_entry q vars s degree Hq Hu Hp ks (filter (fun d => py_in d (p_dirs (q_pos q))) directions) Hks (v_mat v0) D4) as (B & B1 & B2 & B3).
  destruct (built q vars s degree B Hq Hu B2) as (v & E1 & E2 & E3 & E4 & E5 & E6 & E7 & E8 & E9). exists values, v. split; [exact D2|].
  split. { unfold OpQuadModel.quad_varfd. rewrite D3. cbn [bind]. rewrite B1. exact E1. }
  split; [exact E2|]. split; [exact E4|]. split; [exact E5|]. split; [exact E6|]. split; [exact E7|]. split; [exact E8|].
  intros r c g Hr Hc Hg. apply E8 in Hr. apply E8 in Hc. rewrite E9. destruct (B3 r c Hr Hc) as (G1 & G2). rewrite G1, (D6 r _ Hr G2). unfold galerkin. rewrite <- quadrature_scal. apply quadrature_ext. intros p Hpi.
  assert (Lp : length (at_pos (q_nodes q) p) = length vars). { rewrite at_pos_length; [exact Q1|apply grid_length_in; exact Hpi]. }
  assert (Ll : length (located (p_mean (q_pos q)) vars (at_pos (q_nodes q) p)) = length vars). { unfold located. rewrite map_length, !combine_length. assert (P4' : @length R (p_mean (q_pos q)) = length vars) by exact P4. assert (Lp' : @length R (at_pos (q_nodes q) p) = length vars) by exact Lp. etransitivity; [apply f_equal2; [exact P4'|apply f_equal2; [reflexivity|exact Lp']]|]. lia. }
  assert (Hkb : Forall (fun k => k < length vars)%nat ks) by (rewrite <- P3; exact (coordinates_bound _ _ _ Hks)).
  assert (Hfl : length (kinds (p_types (q_pos q))) = length vars) by (unfold kinds; rewrite map_length; exact P5).
  rewrite (deriv_unique vars ks _ _ _ _ Hkb (fun x _ => eq_refl) Hg (deriv_psi (p_mean (q_pos q)) vars (kinds (p_types (q_pos q))) P4 Hfl P2 ks c Hkb (proj1 Hc)) _ Ll).
  unfold psi. rewrite standard_located by assumption. ring.
Qed.

(** * discretize_op *)
Variable e_add e_mul : E -> E -> E.
Variable e_0 : E.
Variable e_mono : list nat -> E.
Variable simplify : E -> E.
Variable is0 : E -> bool.
Variable sym_eqb : E -> E -> bool.
Variable pos_eqb : position fnum_R -> position fnum_R -> bool.
Variable op_map : oper E -> func E -> oper E.
Notation op_split := (op_split E e_add e_mul e_0 e_mono simplify is0).
Notation discretize_op := (quad_discretize_op fnum_R E e_add e_mul e_0 e_1 e_mono simplify is0 free_vars eval sym_eqb pos_eqb cov_factor junk la_eig op_map).
Notation split_loop := (split_loop E e_add e_mul e_0 e_mono simplify is0).
Notation sweep := (sweep E e_add e_mul e_0 e_mono).

Section SplitVars.
Variable dirs : list nat.
Hypothesis SV : sympy_lin_vars e_add e_mul e_0 e_1 e_mono simplify free_vars dirs.
Let fine (e : E) := incl (free_vars e) dirs.
Lemma minus_all_length : forall m n : list nat, length m = length n -> length (minus_all m n) = length m.
Proof. induction m as [|a m IH]; intros [|b n] H; cbn [minus_all length] in *; try lia. f_equal. apply IH. lia. Qed.
Lemma sweep_vars : forall m rem, length m = length dirs -> (forall c n, In (c, n) rem -> length n = length dirs /\ fine c) -> fine (fst (sweep m rem)) /\ incl (snd (sweep m rem)) rem.
Proof using SV.
  intros m rem Hm. unfold OpModel.sweep. assert (G : forall l t r, (forall c n, In (c, n) l -> length n = length dirs /\ fine c) -> fine t ->
    let p := fold_left (fun '(term, rem) arg => match subs_test E e_mul e_mono m arg with None => (term, rem ++ [arg]) | Some termarg => (e_add term termarg, rem) end) l (t, r) in fine (fst p) /\ incl (snd p) (r ++ l)).
  { induction l as [|[c n] l IH]; intros t r Hl Ht; cbn [fold_left]; [cbn [fst snd]; rewrite app_nil_r; split; [exact Ht|apply incl_refl]|].
    destruct (Hl c n (or_introl eq_refl)) as (Hn & Hc). assert (Hl' : forall c n, In (c, n) l -> length n = length dirs /\ fine c) by (intros; apply Hl; right; assumption).
    unfold subs_test at 2 4. destruct (leb_all n m).
    - destruct (IH (e_add t (e_mul c (e_mono (minus_all m n)))) r Hl') as (G1 & G2).
      + intros x Hx. apply (lin_vars_add _ _ _ _ _ _ _ _ SV) in Hx. apply in_app_or in Hx as [Hx|Hx]; [exact (Ht x Hx)|]. apply (lin_vars_mul _ _ _ _ _ _ _ _ SV) in Hx. apply in_app_or in Hx as [Hx|Hx]; [exact (Hc x Hx)|].
        apply (lin_vars_mono _ _ _ _ _ _ _ _ SV) in Hx; [exact Hx|]. rewrite minus_all_length; [exact Hm|congruence].
      + split; [exact G1|]. intros x Hx. apply G2 in Hx. apply in_app_or in Hx as [Hx|Hx]; apply in_or_app; [left; exact Hx|right; right; exact Hx].
    - destruct (IH t (r ++ [(c, n)]) Hl' Ht) as (G1 & G2). split; [exact G1|]. intros x Hx. apply G2 in Hx. rewrite <- app_assoc in Hx. exact Hx. }
  intros Hl. apply (G rem e_0 []); [exact Hl|]. intros x Hx. rewrite (lin_vars_0 _ _ _ _ _ _ _ _ SV) in Hx. destruct Hx.
Qed.
Lemma split_loop_vars : forall ms rem result, (forall m, In m ms -> length m = length dirs) -> (forall c n, In (c, n) rem -> length n = length dirs /\ fine c) -> (forall m e, In (m, e) result -> fine e) ->
  forall m e, In (m, e) (fst (split_loop ms rem result)) -> fine e.
Proof using SV.
  induction ms as [|m0 ms IH]; intros rem result Hms Hrem Hres; cbn [OpModel.split_loop]; [exact Hres|]. destruct rem as [|a rem0] eqn:Er; [exact Hres|]. rewrite <- Er in *. clear Er a rem0.
  destruct (sweep_vars m0 rem (Hms m0 (or_introl eq_refl)) Hrem) as (H1 & H2). destruct (sweep m0 rem) as [term rem']. cbn [fst snd] in H1, H2. apply IH.
  - intros m Hm. apply Hms. right. exact Hm.
  - intros c n H. apply Hrem, H2, H.
  - destruct (is0 (simplify term)); [exact Hres|]. intros m e H. apply in_app_or in H as [H|[H|[]]]; [exact (Hres m e H)|]. injection H as _ <-. intros x Hx. apply H1. exact (lin_vars_simplify _ _ _ _ _ _ _ _ SV _ x Hx).
Qed.
Lemma op_split_vars : forall op r, (forall c n, In (c, n) op -> length n = length dirs /\ incl (free_vars c) dirs) -> op_split (length dirs) op = Ok r -> forall m e, In (m, e) r -> incl (free_vars e) dirs.
Proof using SV.
  intros op r Hop H m e Hin. unfold OpModel.op_split in H. pose proof (split_loop_vars (mults (length dirs)) op [] (fun m Hm => proj1 (proj1 (mults_In _ _) Hm)) Hop (fun _ _ F => match F with end) m e) as G.
  destruct (split_loop (mults (length dirs)) op []) as [res' rem]. destruct rem; [|discriminate H]. injection H as <-. apply G. exact Hin.
Qed.
End SplitVars.

Lemma d_vector_ok : forall dirs m, length m = length dirs -> exists ds, d_vector dirs m = Ok ds /\ coordinates_of dirs ds (coordinates m).
Proof using.
  intros dirs m Hl. unfold d_vector, coordinates_of, coordinates.
  assert (G : forall ds' ms k, length ms = length ds' -> (forall i, nth_error m (k + i) = nth_error ms i) -> (forall i, nth_error dirs (k + i) = nth_error ds' i) ->
    exists l, mapM (fun '(i, d) => a <- py_get m i ;; Ok (repeat d a)) (combine (seq k (length ds')) ds') = Ok l /\ map (nth_error dirs) (concat (map (fun '(k, a) => repeat k a) (combine (seq k (length ms)) ms))) = map Some (concat l)).
  { induction ds' as [|d ds' IH]; intros [|a ms] k H Hm Hd; cbn [length] in H; try lia; [exists []; split; reflexivity|]. cbn [length seq combine mapM].
    pose proof (Hm 0%nat) as Hm0. pose proof (Hd 0%nat) as Hd0. rewrite Nat.add_0_r in Hm0, Hd0. cbn [nth_error] in Hm0, Hd0. rewrite (py_get_ok _ _ _ _ Hm0). cbn [bind].
    destruct (IH ms (S k)) as (l & L1 & L2); [lia|intros i; rewrite Nat.add_succ_comm; apply (Hm (S i))|intros i; rewrite Nat.add_succ_comm; apply (Hd (S i))|].
    rewrite L1. cbn [bind]. exists (repeat d a :: l). split; [reflexivity|]. cbn [map concat]. rewrite !map_app, L2. f_equal. clear -Hd0. induction a as [|a IH]; [reflexivity|]. cbn [repeat map]. rewrite Hd0, IH. reflexivity. }
  destruct (G dirs m 0%nat Hl (fun _ => eq_refl) (fun _ => eq_refl)) as (l & L1 & L2). rewrite L1. cbn [bind]. exists (concat l). split; [reflexivity|]. rewrite L2. f_equal. symmetry.
  assert (A : forall d, In d (concat l) -> In d dirs). { intros d Hd. apply (in_map Some) in Hd. rewrite <- L2 in Hd. apply in_map_iff in Hd as (k & Hk & _). apply nth_error_In in Hk. exact Hk. }
  clear -A. induction (concat l) as [|d ds IH]; [reflexivity|]. cbn [filter]. replace (existsb (Nat.eqb d) dirs) with true; [f_equal; apply IH; intros; apply A; right; assumption|].
  symmetry. apply existsb_exists. exists d. split; [apply A; left; reflexivity|apply Nat.eqb_refl].
Qed.
Lemma coordinates_lt : forall m k, In k (coordinates m) -> (k < length m)%nat.
Proof using. intros m k H. unfold coordinates in H. apply in_concat in H as (l & Hl & Hk). apply in_map_iff in Hl as ([i a] & <- & Hi). apply repeat_spec in Hk as ->. apply in_combine_l in Hi. apply in_seq in Hi. lia. Qed.

Lemma nsum_rsum : forall l : list R, @nsum num_R l = rsum l.
Proof using. induction l as [|x l IH]; [reflexivity|]. rewrite rsum_cons, <- IH. exact (nsum_cons num_R num_R_laws x l). Qed.

Lemma nth_error_same : forall A (l l' : list A), (forall k, nth_error l k = nth_error l' k) -> l = l'.
Proof using.
  induction l as [|x l IH]; intros [|y l'] H; [reflexivity|discriminate (H 0%nat)|discriminate (H 0%nat)|]. f_equal; [injection (H 0%nat); auto|]. apply IH. intros k. exact (H (S k)).
Qed.
Lemma integral_values : forall (q : quad) vars values g h (env : list R -> nat -> R), quad_R q vars -> assigns (p_dirs (q_pos q)) env -> grid_values q vars values g ->
  quadrature (q_nodes q) (q_weights q) values h = integral (q_nodes q) (q_weights q) (fun y => g (env (located (p_mean (q_pos q)) vars y)) * h y).
Proof using.
  intros q vars values g h env ((P1 & P2 & P3 & P4 & P5 & P6) & Q1 & Q2 & Q3) Hen (V1 & V2). unfold integral, quadrature.
  assert (Ev : values = map (fun p => g (env (grid_point q vars p))) (grid (q_nodes q))).
  { apply nth_error_same. intros k. destruct (nth_error (grid (q_nodes q)) k) as [p|] eqn:Ek.
    - rewrite nth_error_map, Ek. cbn [option_map]. apply (V2 k p _ Ek). apply Hen. unfold grid_point, located. rewrite map_length, !combine_length.
      assert (P4' : @length R (p_mean (q_pos q)) = length vars) by exact P4. assert (Lp : @length R (at_pos (q_nodes q) p) = length vars) by (etransitivity; [apply at_pos_length, grid_length_in; eapply nth_error_In; exact Ek|exact Q1]).
      etransitivity; [apply f_equal2; [exact P4'|apply f_equal2; [reflexivity|exact Lp]]|]. rewrite P3. lia.
    - rewrite nth_error_map, Ek. cbn [option_map]. apply nth_error_None. rewrite V1. apply nth_error_None. exact Ek. }
  rewrite Ev. f_equal. generalize (grid (q_nodes q)). intros l. induction l as [|p l IH]; [reflexivity|]. cbn [map combine]. rewrite IH. f_equal. unfold grid_point. ring.
Qed.
Lemma integral_ext : forall nodes weights g g', (forall p, In p (grid nodes) -> g (at_pos nodes p) = g' (at_pos nodes p)) -> integral nodes weights g = integral nodes weights g'.
Proof using. intros. apply quadrature_ext. assumption. Qed.
Lemma integral_plus : forall nodes weights g h, integral nodes weights (fun y => g y + h y) = integral nodes weights g + integral nodes weights h.
Proof using.
  intros nodes weights g h. unfold integral, quadrature. generalize (combine (map (fun _ => 1) (grid nodes)) (grid nodes)). intros l. induction l as [|[y p] l IH]; cbn [map]; [unfold rsum; cbn; ring|]. rewrite !rsum_cons, IH. ring.
Qed.
Lemma integral_zero : forall nodes weights, integral nodes weights (fun _ => 0) = 0.
Proof using.
  intros nodes weights. unfold integral, quadrature. generalize (combine (map (fun _ => 1) (grid nodes)) (grid nodes)). intros l. induction l as [|[y p] l IH]; cbn [map]; [reflexivity|]. rewrite !rsum_cons, IH. ring.
Qed.

Lemma iset_eqb_refl : forall s, iset_eqb s s = true.
Proof using. clear. intros s. destruct s; reflexivity. Qed.

Section Operator.
Hypothesis SL : sympy_lin (N := num_R) eval e_add e_mul e_0 e_mono simplify is0.
Hypothesis PR : forall p, pos_eqb p p = true.
Hypothesis SR : forall e, sym_eqb e e = true.
Hypothesis SS : forall a b, sym_eqb a b = true -> forall env, eval a env = eval b env.
Variables (q : quad) (vars : list R) (s : iset) (degree : nat) (env : list R -> nat -> R).
Hypothesis Hs : setting q vars s degree.
Hypothesis Hp : forall k, nth k (kinds (p_types (q_pos q))) 0%nat = 1%nat -> paired s (length vars) degree k.
Hypothesis Hinc : increasing (p_dirs (q_pos q)).
Hypothesis Hen : assigns (p_dirs (q_pos q)) env.
Hypothesis SV : sympy_lin_vars e_add e_mul e_0 e_1 e_mono simplify free_vars (p_dirs (q_pos q)).
Let dim := length vars.
Let flags := kinds (p_types (q_pos q)).
Let mean := p_mean (q_pos q).
Let place y := located mean vars y.

Definition D0 (c n : list nat) (x : list R) : R := fst (dpsi vars flags (coordinates n) c) * psi mean vars flags (snd (dpsi vars flags (coordinates n) c)) x.
Lemma D0_derivatives : forall c, length c = dim -> derivatives dim (psi mean vars flags c) (D0 c).
Proof using Hs.
  intros c Hc n Hn _. destruct Hs as (((P1 & P2 & P3 & P4 & P5 & P6) & _) & _). apply deriv_psi; [exact P4|unfold flags, kinds; rewrite map_length; exact P5|exact P2| |exact Hc].
  apply Forall_forall. intros k Hk. apply coordinates_lt in Hk. rewrite Hn in Hk. exact Hk.
Qed.

(** a variational form with given entries *)
Definition is_varf (v : varf fnum_R E) (g : list nat -> list nat -> R) : Prop :=
  varf_ok v dim /\ v_pos v = q_pos q /\ v_set v = s /\ v_factor v = q_factor q /\ v_degree v = Degree.recovered s degree /\ (forall m, varf_index v m <-> index_of s dim degree m) /\
  forall r c, index_of s dim degree r -> index_of s dim degree c -> varf_at v r c = g r c.

Definition contribution (ne : list nat * E) (r c : list nat) : R :=
  integral (q_nodes q) (q_weights q) (fun y => phi flags r y * (eval (snd ne) (env (place y)) * D0 c (fst ne) (place y))).

Lemma part_is : forall n e, length n = dim -> (order n <= 5)%nat -> incl (free_vars e) (p_dirs (q_pos q)) ->
  (forall values, grid_values q vars values (eval e) -> nothing_dropped s degree (q_nodes q) (q_weights q) flags values) ->
  exists ds v, d_vector (p_dirs (q_pos q)) n = Ok ds /\ quad_varfd q (Fn e (p_dirs (q_pos q))) degree ds s = Ok v /\ is_varf v (contribution (n, e)).
Proof using NP RF EI Hs Hp Hen.
  intros n e Hn Ho He Hnd. pose proof Hs as (Hq & _). pose proof Hq as ((P1 & P2 & P3 & P4 & P5 & P6) & _).
  destruct (d_vector_ok (p_dirs (q_pos q)) n (eq_trans Hn (eq_sym P3))) as (ds & H1 & H2). exists ds.
  destruct (varfd_matrix q vars s degree (Fn e (p_dirs (q_pos q))) ds (coordinates n) Hs Hp eq_refl He Hnd H2) as (values & v & V1 & V2 & V3 & V4 & V5 & V6 & V7 & V8 & V9).
  exists v. split; [exact H1|]. split; [exact V2|]. split; [exact V3|]. split; [exact V4|]. split; [exact V5|]. split; [exact V6|]. split; [exact V7|]. split; [exact V8|].
  intros r c Hr Hc. rewrite (V9 r c (D0 c n) (proj2 (V8 r) Hr) (proj2 (V8 c) Hc) (D0_derivatives c (proj1 Hc) n Hn Ho)).
  rewrite (integral_values q vars values _ _ env Hq Hen V1). unfold contribution. cbn [fst snd]. apply integral_ext. intros p _. fold flags mean. unfold place. cbn [f_sym]. ring.
Qed.

Lemma recovered_idem : forall s d, Degree.recovered s (Degree.recovered s d) = Degree.recovered s d.
Proof using. clear. intros s d. unfold Degree.recovered. destruct s; try reflexivity; [lia|]. destruct (Nat.eqb_spec d 1); [reflexivity|]. destruct (Nat.eqb_spec d 1); [contradiction|reflexivity]. Qed.

Lemma is_varf_add : forall v w g h, is_varf v g -> is_varf w h -> exists u, varf_add fnum_R E sym_eqb e_1 pos_eqb v w = Ok u /\ is_varf u (fun r c => g r c + h r c).
Proof using PR SR.
  intros v w g h (V1 & V2 & V3 & V4 & V5 & V6 & V7) (W1 & W2 & W3 & W4 & W5 & W6 & W7).
  destruct (vadd_full fnum_R E sym_eqb e_1 pos_eqb v w dim V1 W1) as (u & U1 & U2 & U3 & U4 & U5 & U6 & U7 & U8).
  - unfold addable, func_eqb. rewrite V2, W2, V3, W3, V4, W4, PR, SR. rewrite (proj2 (nats_eqb_eq _ _) eq_refl). rewrite (iset_eqb_refl s). reflexivity.
  - rewrite V5, W5. reflexivity.
  - exists u. split; [exact U1|]. split; [exact U2|]. split; [rewrite U3; exact V2|]. split; [rewrite U4; exact V3|]. split; [rewrite U5; exact V4|]. split; [rewrite U6, V3, V5; apply recovered_idem|].
    split; [intros m; rewrite U7; apply V6|]. intros r c Hr Hc. rewrite U8 by (apply V6; assumption). rewrite V7, W7 by assumption. reflexivity.
Qed.
Lemma is_varf_num : forall v g, is_varf v g -> exists u, varf_add_num fnum_R E e_1 0 v = Ok u /\ is_varf u g.
Proof using.
  intros v g (V1 & V2 & V3 & V4 & V5 & V6 & V7). unfold varf_add_num. destruct V1 as (V0 & V1).
  destruct (vrebuild fnum_R E e_1 (mat_plus fnum_R (v_mat v) 0) (v_pos v) (v_factor v) (v_set v) dim (v_degree v) V0 (mat_for_map _ _ _ (fun a => a + 0) _ V1)) as (u & U1 & U2 & U3 & U4 & U5 & U6 & U7 & U8).
  exists u. split; [exact U1|]. split; [exact U2|]. split; [rewrite U3; exact V2|]. split; [rewrite U4; exact V3|]. split; [rewrite U5; exact V4|]. split; [rewrite U6, V3, V5; apply recovered_idem|].
  assert (E0 : length (p_dirs (v_pos v)) = dim) by apply V0.
  split; [intros m; rewrite U7; rewrite <- V6; unfold varf_index; rewrite E0; reflexivity|]. intros r c Hr Hc. rewrite U8. etransitivity; [exact (entry_map (v_set v) dim (v_degree v) (fun a => a + 0) (v_mat v) r c (Rplus_0_r 0))|].
  cbn beta. rewrite Rplus_0_r. rewrite <- V7 by assumption. unfold varf_at. rewrite E0. reflexivity.
Qed.

Lemma loop_is : forall l v g, is_varf v g ->
  (forall n e, In (n, e) l -> length n = dim /\ (order n <= 5)%nat /\ incl (free_vars e) (p_dirs (q_pos q)) /\ forall values, grid_values q vars values (eval e) -> nothing_dropped s degree (q_nodes q) (q_weights q) flags values) ->
  exists u, for_in (fun '(m, coeff) acc => ds <- d_vector (p_dirs (q_pos q)) m ;; part <- quad_varfd q coeff degree ds s ;;
      r <- match acc with None => varf_add_num fnum_R E e_1 n0 part | Some v => varf_add fnum_R E sym_eqb e_1 pos_eqb v part end ;; Ok (Some r)) (map (fun '(n, e) => (n, Fn e (p_dirs (q_pos q)))) l) (Some v) = Ok (Some u) /\
    is_varf u (fun r c => g r c + rsum (map (fun ne => contribution ne r c) l)).
Proof using NP RF EI Hs Hp Hen PR SR.
  induction l as [|[n e] l IH]; intros v g Hv Hl; cbn [map for_in].
  - exists v. split; [reflexivity|]. destruct Hv as (V1 & V2 & V3 & V4 & V5 & V6 & V7). repeat (split; [assumption|]). intros r c Hr Hc. rewrite V7 by assumption. unfold rsum. cbn. ring.
  - destruct (Hl n e (or_introl eq_refl)) as (H1 & H2 & H3 & H4). destruct (part_is n e H1 H2 H3 H4) as (ds & w & W1 & W2 & W3). rewrite W1. cbn [bind]. rewrite W2. cbn [bind].
    destruct (is_varf_add v w _ _ Hv W3) as (u & U1 & U2). rewrite U1. cbn [bind]. destruct (IH u _ U2 (fun n e H => Hl n e (or_intror H))) as (z & Z1 & Z2). exists z. split; [exact Z1|].
    destruct Z2 as (V1 & V2 & V3 & V4 & V5 & V6 & V7). repeat (split; [assumption|]). intros r c Hr Hc. rewrite V7 by assumption. cbn beta. rewrite rsum_cons. match goal with |- @eq _ ?a ?b => change (@eq R a b) end. ring.
Qed.

Lemma contributions : forall l r c, rsum (map (fun ne => contribution ne r c) l) =
  integral (q_nodes q) (q_weights q) (fun y => phi flags r y * op_value (N := num_R) eval (map (fun '(n, e) => (e, n)) l) (fun n => D0 c n (place y)) (env (place y))).
Proof using.
  induction l as [|[n e] l IH]; intros r c.
  - cbn [map rsum fold_right]. symmetry. etransitivity; [|apply integral_zero]. apply integral_ext. intros p _. unfold op_value. cbn. ring.
  - cbn [map]. rewrite rsum_cons, IH. unfold contribution. cbn [fst snd]. rewrite <- integral_plus. apply integral_ext. intros p _. unfold op_value. cbn [map]. rewrite !nsum_rsum, rsum_cons. cbn [nmul num_R]. ring.
Qed.

Theorem discretize_op_galerkin : forall (op : oper E) (D : list nat -> list nat -> list R -> R),
  f_dirs (q_factor q) = p_dirs (q_pos q) -> incl (free_vars (f_sym (q_factor q))) (p_dirs (q_pos q)) -> (forall x, eval e_1 x = 1) ->
  (forall c n, In (c, n) op -> length n = dim /\ (order n <= 5)%nat /\ incl (free_vars c) (p_dirs (q_pos q))) ->
  maps eval free_vars (p_dirs (q_pos q)) env op (q_factor q) (op_map op (q_factor q)) ->
  (forall p, In p (grid (q_nodes q)) -> eval (f_sym (q_factor q)) (env (grid_point q vars p)) <> 0) ->
  (forall op' n values, (sym_eqb (f_sym (q_factor q)) e_1 = true /\ op' = op) \/ (sym_eqb (f_sym (q_factor q)) e_1 = false /\ op' = op_map op (q_factor q)) -> length n = dim -> grid_values q vars values (coefficient (N := num_R) eval op' n) -> nothing_dropped s degree (q_nodes q) (q_weights q) flags values) ->
  (forall c, index_of s dim degree c -> derivatives dim (fun x => eval (f_sym (q_factor q)) (env x) * psi mean vars flags c x) (D c)) ->
  exists v, discretize_op q op degree s = Ok v /\ varf_ok v dim /\ v_pos v = q_pos q /\ v_set v = s /\ v_factor v = q_factor q /\ v_degree v = Degree.recovered s degree /\ (forall m, varf_index v m <-> index_of s dim degree m) /\
    forall r c, varf_index v r -> varf_index v c ->
      varf_at v r c = integral (q_nodes q) (q_weights q) (fun y => phi flags r y * (op_value (N := num_R) eval op (fun n => D c n (place y)) (env (place y)) / eval (f_sym (q_factor q)) (env (place y)))).
Proof using NP RF EI SL PR SR SS Hs Hp Hinc Hen SV.
  intros op D Hfd Hfi H1e Hop Hmap Hnz Hnd HD. pose proof Hs as (Hq & Hw & Hu & Hfit & Hfl & Hcl). pose proof Hq as ((P1 & P2 & P3 & P4 & P5 & P6) & Q1 & Q2 & Q3).
  set (dirs := p_dirs (q_pos q)) in *.
  assert (FI : forall e, incl (free_vars e) dirs -> function_init E free_vars e dirs = Ok (Fn e dirs)).
  { intros e He. unfold function_init. rewrite py_sorted_id by (apply increasing_sorted; exact Hinc). rewrite (proj2 (nats_eqb_eq dirs dirs) eq_refl). cbn [require bind].
    replace (SplitModel.subset (free_vars e) dirs) with true; [reflexivity|]. symmetry. apply forallb_forall. intros x Hx. apply py_in_iff, He, Hx. }
  assert (Lpt : forall p, In p (grid (q_nodes q)) -> length (place (at_pos (q_nodes q) p)) = dim).
  { intros p Hpi. unfold place, located. rewrite map_length, !combine_length. assert (P4' : @length R mean = dim) by exact P4. assert (Lp : @length R (at_pos (q_nodes q) p) = dim) by (etransitivity; [apply at_pos_length, grid_length_in; exact Hpi|exact Q1]).
    etransitivity; [apply f_equal2; [exact P4'|apply f_equal2; [reflexivity|exact Lp]]|]. unfold dim. lia. }
  unfold quad_discretize_op. fold dirs. rewrite FI by (rewrite (lin_vars_1 _ _ _ _ _ _ _ _ SV); intros x []). cbn [bind].
  set (op' := if func_eqb E sym_eqb (q_factor q) (Fn e_1 dirs) then op else op_map op (q_factor q)).
  assert (Hop' : forall c n, In (c, n) op' -> length n = dim /\ (order n <= 5)%nat /\ incl (free_vars c) dirs).
  { unfold op'. destruct (func_eqb E sym_eqb (q_factor q) (Fn e_1 dirs)); [exact Hop|]. intros c n H. destruct (proj1 Hmap c n H) as (M1 & M2 & M3). rewrite P3 in M1. auto. }
  assert (Hval : forall c p, index_of s dim degree c -> In p (grid (q_nodes q)) -> let x := place (at_pos (q_nodes q) p) in
    op_value (N := num_R) eval op' (fun n => D0 c n x) (env x) = op_value (N := num_R) eval op (fun n => D c n x) (env x) / eval (f_sym (q_factor q)) (env x)).
  { intros c p Hc Hpi x. pose proof (D0_derivatives c (proj1 Hc)) as HD0. pose proof (HD c Hc) as HDc. unfold op'. destruct (func_eqb E sym_eqb (q_factor q) (Fn e_1 dirs)) eqn:Ef.
    - unfold func_eqb in Ef. apply andb_true_iff in Ef as [_ Ef]. cbn [f_sym] in Ef. pose proof (SS _ _ Ef) as S1.
      assert (One : forall v, eval (f_sym (q_factor q)) v = 1) by (intros v; rewrite S1; apply H1e). rewrite One. unfold Rdiv. rewrite Rinv_1, Rmult_1_r. unfold op_value. f_equal. apply map_ext_in. intros [e n] Hn.
      destruct (Hop e n Hn) as (N1 & N2 & _). f_equal. refine (deriv_unique vars (coordinates n) _ _ _ _ _ _ (HD0 n N1 N2) (HDc n N1 N2) x (Lpt p Hpi)).
      + apply Forall_forall. intros k Hk. apply coordinates_lt in Hk. rewrite N1 in Hk. exact Hk.
      + intros z _. cbn beta. rewrite One. ring.
    - apply (proj2 Hmap (psi mean vars flags c)); [rewrite P3; exact HD0|rewrite P3; exact HDc|rewrite P3; exact (Lpt p Hpi)|exact (Hnz p Hpi)]. }
  assert (Hlen : length dirs = dim) by exact P3.
  destruct (op_split_ok num_R num_R_laws E eval e_add e_mul e_0 e_mono simplify is0 SL dim op') as (l & L1 & L2 & L3 & L4 & L5); [intros c n H; destruct (Hop' c n H) as (M1 & M2 & _); split; assumption|].
  assert (Hvars : forall n e, In (n, e) l -> incl (free_vars e) dirs).
  { apply (op_split_vars dirs SV op' l); [intros c n H; destruct (Hop' c n H) as (M1 & _ & M3); split; [rewrite Hlen; exact M1|exact M3]|rewrite Hlen; exact L1]. }
  rewrite Hlen, L1. cbn [bind].
  assert (Hm : mapM (fun '(m, e) => f <- function_init E free_vars e dirs ;; Ok (m, f)) l = Ok (map (fun '(n, e) => (n, Fn e dirs)) l)).
  { clear -FI Hvars. induction l as [|[n e] l IH]; [reflexivity|]. cbn [mapM map]. rewrite FI by (apply (Hvars n); left; reflexivity). cbn [bind]. rewrite IH by (intros n' e' H; apply (Hvars n'); right; exact H). reflexivity. }
  rewrite Hm. cbn [bind].
  assert (Hconds : forall n e, In (n, e) l -> length n = dim /\ (order n <= 5)%nat /\ incl (free_vars e) dirs /\ forall values, grid_values q vars values (eval e) -> nothing_dropped s degree (q_nodes q) (q_weights q) flags values).
  { intros n e H. destruct (L3 n e H) as (N1 & N2 & N3). split; [exact N1|]. split; [exact N2|]. split; [exact (Hvars n e H)|]. intros values [V1 V2]. apply (Hnd op' n values).
    - unfold op', func_eqb. cbn [f_sym f_dirs]. rewrite Hfd, (proj2 (nats_eqb_eq dirs dirs) eq_refl). destruct (sym_eqb (f_sym (q_factor q)) e_1); auto.
    - exact N1.
    - split; [exact V1|]. intros k p v Hk Hv. rewrite <- N3. exact (V2 k p v Hk Hv). }
  assert (Goal : forall v g, is_varf v g -> (forall r c, index_of s dim degree r -> index_of s dim degree c -> g r c = rsum (map (fun ne => contribution ne r c) l)) ->
    varf_ok v dim /\ v_pos v = q_pos q /\ v_set v = s /\ v_factor v = q_factor q /\ v_degree v = Degree.recovered s degree /\ (forall m, varf_index v m <-> index_of s dim degree m) /\
    forall r c, varf_index v r -> varf_index v c ->
      varf_at v r c = integral (q_nodes q) (q_weights q) (fun y => phi flags r y * (op_value (N := num_R) eval op (fun n => D c n (place y)) (env (place y)) / eval (f_sym (q_factor q)) (env (place y))))).
  { intros v g (V1 & V2 & V3 & V4 & V5 & V6 & V7) Hg. repeat (split; [assumption|]). intros r c Hr Hc. apply V6 in Hr. apply V6 in Hc. rewrite V7, Hg, contributions by assumption. apply integral_ext. intros p Hpi. f_equal.
    rewrite <- (Hval c p Hc Hpi). symmetry. apply (L5 (fun n => D0 c n (place (at_pos (q_nodes q) p)))). }
  destruct l as [|[n e] l]; cbn [map].
  - rewrite FI by (rewrite (lin_vars_0 _ _ _ _ _ _ _ _ SV); intros x []). cbn [bind].
    assert (Hz : forall values, grid_values q vars values (eval e_0) -> forall g, quadrature (q_nodes q) (q_weights q) values g = 0).
    { intros values V g. rewrite (integral_values q vars values _ g env Hq Hen V). etransitivity; [|apply integral_zero]. apply integral_ext. intros p _. rewrite (lin_0 _ _ _ _ _ _ _ _ _ SL). cbn [n0 num_R]. ring. }
    destruct (varf_built q vars s degree (Fn e_0 dirs) Hs eq_refl) as (values & v & D1 & D2 & D3 & D4 & D5 & D6).
    + cbn [f_sym f_dirs]. rewrite (lin_vars_0 _ _ _ _ _ _ _ _ SV). intros x [].
    + intros values V m _. left. apply Hz. exact V.
    + exists v. split; [exact D3|]. destruct (built q vars s degree (v_mat v) Hq Hu D4) as (v' & E1 & E2 & E3 & E4 & E5 & E6 & E7 & E8 & E9). rewrite D5 in E1. injection E1 as <-.
      apply (Goal v (fun _ _ => 0)); [|reflexivity]. repeat (split; [assumption|]). intros r c Hr Hc. rewrite E9, D6 by assumption. apply Hz. exact D2.
  - destruct (Hconds n e (or_introl eq_refl)) as (C1 & C2 & C3 & C4). destruct (part_is n e C1 C2 C3 C4) as (ds & w & W1 & W2 & W3). destruct (is_varf_num w _ W3) as (u & U1 & U2).
    destruct (loop_is l u _ U2 (fun n e H => Hconds n e (or_intror H))) as (z & Z1 & Z2). exists z. split.
    + cbn [for_in]. fold dirs in W1, W2, Z1. rewrite W1. cbn [bind]. rewrite W2. cbn [bind]. change (@n0 (fn fnum_R)) with 0. rewrite U1. cbn [bind]. exact (f_equal (fun o => bind o (fun r => match r with Some v => Ok v | None => Ub end)) Z1).
    + apply (Goal z _ Z2). intros r c _ _. cbn [map]. rewrite rsum_cons. reflexivity.
Qed.
End Operator.
End Quad.

(** a concrete example: f -> x f' with the factor x, in one direction with mean 3, variance 4 and the two-point rule *)
Lemma diag_eig : eig_ok r_la_eig.
Proof.
  intros l. unfold r_la_eig. assert (L : @length (list R) (diag_mat fnum_R l) = length l) by (unfold diag_mat; rewrite map_length, seq_length; reflexivity). rewrite L. apply nth_error_ext. intros i.
  destruct (Nat.lt_ge_cases i (length l)) as [Hi|Hi].
  - etransitivity; [exact (nth_error_map_seq _ (fun i => nth i (nth i (diag_mat fnum_R l) []) 0) (length l) i Hi)|]. etransitivity; [|symmetry; exact (nth_error_nth' l 0 Hi)]. apply (f_equal (@Some R)).
    pose proof (nth_error_map_seq _ (fun i => map (fun j => if (i =? j)%nat then nth i l 0 else 0) (seq 0 (length l))) (length l) i Hi) as G. cbn beta in G.
    assert (G' : nth i (diag_mat fnum_R l) [] = map (fun j => if (i =? j)%nat then nth i l 0 else 0) (seq 0 (length l))) by (apply nth_error_nth; exact G). etransitivity; [exact (f_equal (fun z => nth i z 0) G')|].
    pose proof (nth_error_map_seq _ (fun j => if (i =? j)%nat then nth i l 0 else 0) (length l) i Hi) as G2. cbn beta in G2. rewrite Nat.eqb_refl in G2. exact (nth_error_nth _ _ 0 G2).
  - etransitivity; [|symmetry; exact (proj2 (nth_error_None l i) Hi)]. apply nth_error_None. rewrite map_length, seq_length. exact Hi.
Qed.
Lemma r_eqb_refl : forall e, r_eqb e e = true.
Proof. induction e; cbn [r_eqb]; [destruct (Req_EM_T x x); [reflexivity|congruence]|apply Nat.eqb_refl|rewrite IHe1, IHe2; reflexivity|rewrite IHe1, IHe2; reflexivity]. Qed.
Lemma r_eqb_sound : forall a b, r_eqb a b = true -> forall env, r_eval a env = r_eval b env.
Proof.
  induction a; intros [] H env; cbn [r_eqb r_eval] in *; try discriminate H.
  - destruct (Req_EM_T x x0) as [->|]; [reflexivity|discriminate H].
  - apply Nat.eqb_eq in H. rewrite H. reflexivity.
  - apply andb_true_iff in H as [H1 H2]. rewrite (IHa1 _ H1), (IHa2 _ H2). reflexivity.
  - apply andb_true_iff in H as [H1 H2]. rewrite (IHa1 _ H1), (IHa2 _ H2). reflexivity.
Qed.
Lemma r_lin : forall dirs, sympy_lin (N := num_R) r_eval RAdd RMul (RNum 0) (r_mono dirs) (fun e => e) r_is0.
Proof.
  intros dirs. split; try reflexivity.
  - intros k env. unfold r_mono. assert (G : forall d, concat (map (fun '(d, a) => repeat (RVar d) a) (combine d (repeat 0%nat k))) = []) by (induction k as [|k IH]; intros [|a d]; cbn; auto). rewrite G. reflexivity.
  - intros e H env. destruct e; try discriminate H. cbn [r_is0] in H. destruct (Req_EM_T x 0) as [->|]; [reflexivity|discriminate H].
Qed.
Lemma r_lin_vars : forall dirs, sympy_lin_vars RAdd RMul (RNum 0) (RNum 1) (r_mono dirs) (fun e => e) r_free dirs.
Proof.
  intros dirs. split; intros; try reflexivity; try apply incl_refl. intros x Hx. unfold r_mono in Hx.
  assert (G : forall l, In x (r_free (fold_right RMul (RNum 1) l)) -> exists e, In e l /\ In x (r_free e)).
  { induction l as [|e l IH]; intros Hl; [destruct Hl|]. cbn [fold_right r_free] in Hl. apply in_app_or in Hl as [Hl|Hl]; [exists e; split; [left; reflexivity|exact Hl]|]. destruct (IH Hl) as (e' & E1 & E2). exists e'. split; [right; exact E1|exact E2]. }
  apply G in Hx as (e & E1 & E2). apply in_concat in E1 as (l & L1 & L2). apply in_map_iff in L1 as ([d a] & <- & L1). apply repeat_spec in L2. subst e. destruct E2 as [<-|[]]. exact (in_combine_l _ _ _ _ L1).
Qed.

(** the product rule *)
Lemma x_maps : maps r_eval r_free [0]%nat (fun x _ => nth 0 x 0) [(RVar 0, [1]%nat)] (Fn (RVar 0) [0]%nat) [(RNum 1, [0]%nat); (RVar 0, [1]%nat)].
Proof.
  split.
  - intros c n [H|[H|[]]]; injection H as <- <-; cbn; (split; [reflexivity|]); (split; [lia|]); intros x Hx; cbn in Hx |- *; tauto.
  - intros f D D' x HD HD' Hx Hnz. cbn [f_sym r_eval length] in *. unfold op_value, nsum. cbn -[Rdiv Rplus Rmult]. 
    assert (A0 : D [0]%nat x = f x) by (apply (HD [0]%nat); cbn; [reflexivity|lia|exact Hx]).
    destruct (HD [1]%nat eq_refl ltac:(cbn; lia)) as (h & H1 & H2). destruct (HD' [1]%nat eq_refl ltac:(cbn; lia)) as (h' & H1' & H2').
    destruct x as [|a [|b x]]; try discriminate Hx. specialize (H2 [a] eq_refl). specialize (H2' [a] eq_refl). cbn [nth with_entry firstn skipn app] in H2, H2', Hnz |- *.
    unfold with_entry in H2, H2'. cbn [firstn skipn app] in H2, H2'. cbn [deriv_along coordinates length] in H1, H1'.
    assert (B : D' [1]%nat [a] = 1 * f [a] + a * D [1]%nat [a]).
    { apply (uniqueness_limite (fun t => h' [t]) a); [exact H2'|]. apply (derivable_pt_lim_ext (fun t => t * h [t])); [intros t; rewrite H1' by reflexivity; cbn [nth]; rewrite H1 by reflexivity; reflexivity|].
      rewrite <- (H1 [a] eq_refl). apply (derivable_pt_lim_mult (fun t => t) (fun t => h [t])); [apply derivable_pt_lim_id|exact H2]. }
    cbn [nadd nmul num_R n0]. cbn [length] in *. rewrite B. match goal with |- context [D [0]%nat ?z] => rewrite A0 end. field. exact Hnz.
Qed.
Lemma dropped_const : forall s a, s = Triangle \/ s = Cube -> a = 0 \/ a = 1 -> nothing_dropped s 1 [[-1; 1]] [[1/2; 1/2]] [0]%nat [a; a].
Proof.
  intros s a Hs Ha. destruct (gauss2_1d a a) as [G0 [G1 G2]].
  assert (Hp : points s 1 2 = [[0]; [1]; [2]]%nat) by (destruct Hs as [-> | ->]; reflexivity).
  apply nothing_dropped_crit.
  - cbn [length]. change (2 * 1)%nat with 2%nat. rewrite Hp. intros m [<-|[<-|[<-|[]]]]; [rewrite G0; destruct Ha as [-> | ->]; [left; lra|right; lra]|left; rewrite G1; lra|left; exact G2].
  - cbn; lia.
  - destruct Hs as [-> | ->]; exact I.
  - cbn [length]. change (2 * 1)%nat with 2%nat. rewrite Hp. cbn [map]. rewrite G0, G1, G2. unfold rsum. cbn [fold_right]. destruct Ha as [-> | ->]; nra.
Qed.
Definition g1 (c : nat) (k : nat) (x : list R) : R := fst (dpsi [4] [0]%nat (repeat 0%nat k) [c]) * psi [3] [4] [0]%nat (snd (dpsi [4] [0]%nat (repeat 0%nat k) [c])) x.
Definition xg1 (c : list nat) (n : list nat) (x : list R) : R :=
  match n with k :: _ => nth 0 x 0 * g1 (nth 0 c 0%nat) k x + INR k * g1 (nth 0 c 0%nat) (k - 1) x | [] => 0 end.
Lemma g1_along : forall c k, deriv_along 1 (repeat 0%nat k) (psi [3] [4] [0]%nat [c]) (g1 c k) /\ partial 1 0 (g1 c k) (g1 c (S k)).
Proof.
  assert (Hv : Forall (fun v => 0 < v) [4]) by (repeat constructor; lra).
  intros c k. split.
  - apply (deriv_psi [3] [4] [0]%nat eq_refl eq_refl Hv (repeat 0%nat k) [c]); [|reflexivity]. apply Forall_forall. intros x Hx. apply repeat_spec in Hx. subst. cbn. lia.
  - assert (L : length (snd (dpsi [4] [0]%nat (repeat 0%nat k) [c])) = 1%nat). { induction k as [|k IH]; [reflexivity|]. cbn [repeat dpsi snd pterm]. rewrite with_entry_length; rewrite IH; lia. }
    pose proof (psi_partial [3] [4] [0]%nat eq_refl eq_refl Hv 0 _ ltac:(cbn; lia) L) as P. intros x Hx. specialize (P x Hx). unfold g1. cbn [repeat dpsi fst snd].
    rewrite Rmult_assoc. refine (derivable_pt_lim_ext _ _ _ _ _ (derivable_pt_lim_scal _ (fst (dpsi [4] [0]%nat (repeat 0%nat k) [c])) _ _ P)). reflexivity.
Qed.
Lemma xg1_derivatives : forall c, derivatives 1 (fun x => nth 0 x 0 * psi [3] [4] [0]%nat [c] x) (xg1 [c]).
Proof.
  intros c [|k [|? ?]] Hn _; try discriminate Hn. unfold coordinates. cbn [length seq combine map concat]. rewrite app_nil_r. clear Hn. induction k as [|k IH].
  - intros x Hx. unfold xg1. cbn [nth INR repeat]. rewrite (proj1 (g1_along c 0%nat) x Hx). ring.
  - cbn [repeat deriv_along]. exists (xg1 [c] [k]). split; [exact IH|]. intros x Hx. unfold xg1. cbn [nth]. destruct x as [|a [|b x]]; try discriminate Hx. cbn [nth]. unfold with_entry. cbn [firstn skipn app nth].
    pose proof (proj2 (g1_along c k) [a] eq_refl) as P1. pose proof (proj2 (g1_along c (k - 1)%nat) [a] eq_refl) as P2. unfold with_entry in P1, P2. cbn [firstn skipn app nth] in P1, P2.
    pose proof (derivable_pt_lim_mult (fun t => t) (fun t => g1 c k [t]) a 1 _ (derivable_pt_lim_id a) P1) as Q1. pose proof (derivable_pt_lim_scal (fun t => g1 c (k - 1)%nat [t]) (INR k) a _ P2) as Q2.
    pose proof (derivable_pt_lim_plus _ _ a _ _ Q1 Q2) as Q. eapply derivable_pt_lim_ext in Q; [|intros t; reflexivity].
    replace (a * g1 c (S k) [a] + INR (S k) * g1 c (S k - 1) [a]) with (1 * g1 c k [a] + a * g1 c (S k) [a] + INR k * g1 c (S (k - 1)) [a]); [exact Q|].
    replace (S k - 1)%nat with k by lia. rewrite S_INR. destruct k as [|k]; [cbn [INR]; ring|]. replace (S (S k - 1)) with (S k) by lia. ring.
Qed.
