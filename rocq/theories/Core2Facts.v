(** Proofs of C102. *)
From Coq Require Import String List Bool Arith ZArith Reals Lra Lia.
From Verif Require Import Base Lists IndexModel Spec Num Fnum LinModel LinSpec LinBase MatBase Sparse CalcModel CalcSpec CalcReal CalcQuad CalcInt CalcVarf2 CalcVarfd Facts2 Facts6 Facts7 Facts8 Facts10 NdModel NdSpec NdFacts PyBase CoreModel CoreSpec CoreFacts CoreFacts2 Core2Model Core2Spec FormSpec FormFacts OuSpec OuFacts.
Import ListNotations.
Local Open Scope string_scope. Local Open Scope list_scope. Local Open Scope nat_scope.

Lemma array_rows : forall (a : ndarray R) n p, nd_array a n n p 1 -> shown (@WArr fnum_R a) = table n n (nd_entry 0%R a p 1).
Proof. intros [mem st sh str] n p (H1 & H2 & _). cbn [nd_shape nd_strides] in H1, H2. subst sh str. unfold shown. cbn [nd_shape nd_strides]. rewrite !(Z.mul_comm 8), !Z.div_mul by discriminate. reflexivity. Qed.

Lemma new_rows : forall n (B : list (list R)), mat_wf n n B -> 1 <= n -> (8 * (Z.of_nat n * Z.of_nat n) < 2 ^ 31)%Z -> nd_array (nd_new R n n B) n n (Z.of_nat n) 1 /\ shown (@WArr fnum_R (nd_new R n n B)) = B.
Proof.
  intros n B [H1 H2] Hn Hs. assert (Ha : nd_array (nd_new R n n B) n n (Z.of_nat n) 1).
  { assert (Z.of_nat n * 1 <= Z.of_nat n * Z.of_nat n)%Z by (apply Z.mul_le_mono_nonneg_l; lia). apply nd_new_array; [exact H1|exact H2|rewrite Nat2Z.inj_mul; exact Hs|lia|lia]. }
  split; [exact Ha|]. rewrite (array_rows _ n (Z.of_nat n) Ha). apply (list_ext_nth _ _ _ []); [rewrite (proj1 (table_wf n n _)); symmetry; exact H1|].
  intros i Hi. rewrite (proj1 (table_wf n n _)) in Hi.
  assert (Li : length (nth i (table n n (nd_entry 0%R (nd_new R n n B) (Z.of_nat n) 1)) []) = n) by (pose proof (proj2 (table_wf n n (nd_entry 0%R (nd_new R n n B) (Z.of_nat n) 1))) as W; rewrite Forall_forall in W; apply W, nth_In; rewrite (proj1 (table_wf n n _)); exact Hi).
  assert (Lb : length (nth i B []) = n) by (rewrite Forall_forall in H2; apply H2, nth_In; rewrite H1; exact Hi).
  apply (list_ext_nth _ _ _ 0%R); [rewrite Li; symmetry; exact Lb|]. intros j Hj. rewrite Li in Hj. rewrite nth_table by assumption. apply nd_new_entry; assumption.
Qed.

Lemma csr_dense : forall s dim degree c, @matrix_for num_R s dim degree (PCsr c) -> @no_duplicates num_R (PCsr c) ->
  exists A, convert_to_cpp_sparse fnum_R c = Ok A /\ @sp_for num_R s dim degree A /\ @dense num_R A = @contents num_R (PCsr c).
Proof.
  intros s dim degree c (H1 & H2 & H3) Hd. destruct (csr_to_spmat_ok num_R (law_add_0 _ num_R_laws) _ _ _ _ _ H1 Hd) as (A & E1 & (W1 & W2 & W3) & E3).
  exists A. split; [exact E1|]. split; [split; [exact W1|split; [rewrite W2; exact H2|rewrite W3; exact H3]]|].
  pose proof (dense_wf num_R A W1) as [D1 D2]. rewrite W2, W3 in *. cbn [contents]. apply (list_ext_nth _ _ _ []); [rewrite map_length, seq_length; exact D1|].
  intros i Hi. assert (Hi' : i < c_rows c) by (rewrite <- D1; exact Hi). assert (Li : length (nth i (@dense num_R A) []) = c_cols c) by (rewrite Forall_forall in D2; apply D2, nth_In; exact Hi).
  rewrite (nth_map_lt _ _ _ _ _ _ 0) by (rewrite seq_length; exact Hi'). rewrite seq_nth by exact Hi'. apply (list_ext_nth _ _ _ 0%R); [rewrite map_length, seq_length; exact Li|].
  intros j Hj. assert (Hj' : j < c_cols c) by (rewrite <- Li; exact Hj). rewrite (nth_map_lt _ _ _ _ _ _ 0) by (rewrite seq_length; exact Hj'). rewrite seq_nth by exact Hj'. exact (E3 i j Hi' Hj').
Qed.

(** ** varfd *)
Lemma varfd_python : forall s dim degree k flag w, usable s dim degree -> small s dim degree -> k < dim -> flag = 0 \/ flag = 1 -> (flag = 1 -> paired s dim degree k) -> pymat_for s dim degree w ->
  exists w', core_varfd fnum_R dim degree k w flag (set_name s) = Ok w' /\ sparse_kind w' = sparse_kind w /\ pymat_for s dim degree w' /\ varfd_gives s dim degree k flag (shown w) (shown w') /\
    forall r c, index_of s dim degree r -> index_of s dim degree c ->
      @entry num_R s dim degree (shown w') r c = (fst (dterm flag (nth k c 0%nat)) * @entry num_R s dim degree (shown w) r (with_entry c k (snd (dterm flag (nth k c 0%nat)))))%R.
Proof.
  intros s dim degree k flag w Hu Hs Hk Hf Hp Hw. pose proof (points_pos s dim degree Hu) as Hn. set (n := length (points s dim degree)) in *.
  assert (G : exists w', core_varfd fnum_R dim degree k w flag (set_name s) = Ok w' /\ sparse_kind w' = sparse_kind w /\ pymat_for s dim degree w' /\ varfd_gives s dim degree k flag (shown w) (shown w')).
  - destruct w as [a|c|]; [| |destruct Hw].
    + cbn [pymat_for] in Hw. cbv zeta in Hw. fold n in Hw. destruct (converters_contiguous R 0%R a n n Hw Hn Hn) as (_ & _ & C). specialize (C eq_refl).
      pose proof (array_rows a n _ Hw) as Sh. set (A := table n n (nd_entry 0%R a (Z.of_nat n) 1)) in *. assert (HA : @mat_for num_R s dim degree A) by (apply table_wf).
      destruct (varfd_boost s dim degree k flag Hu Hk Hf Hp A HA) as (B & E1 & E2 & _). destruct (new_rows n B E2 Hn Hs) as [N1 N2].
      exists (@WArr fnum_R (nd_new R n n B)). split; [|split; [reflexivity|split; [exact N1|left; rewrite Sh, N2; split; assumption]]].
      unfold core_varfd. change (to_boost_mat (A := fnum_R) a) with (to_boost_mat (A := R) a). rewrite C. cbn [bind]. rewrite named_name. cbn [bind]. rewrite E1. cbn [bind]. 
      assert (L1 : @length (list R) A = n) by apply HA. assert (L2 : @length (list R) B = n) by apply E2.
      transitivity (Ok (@WArr fnum_R (nd_new R (@length (list R) B) (@length (list R) A) B))); [reflexivity|rewrite L1, L2; reflexivity].
    + destruct Hw as [Hw Hd]. destruct (csr_dense s dim degree c Hw Hd) as (A & C1 & C2 & C3). destruct (varfd_sparse s dim degree k flag Hu Hk Hf Hp A C2) as (B & E1 & E2 & _).
      destruct (to_csr_ok num_R num_R_laws B (proj1 E2)) as (A1 & A2 & A3 & A4 & A5).
      exists (@WCsr fnum_R (to_csr num_R B)). split; [|split; [reflexivity|split; [|right; exists A, B; split; [exact C2|split; [symmetry; exact C3|split; [exact E1|exact A5]]]]]].
      * unfold core_varfd. rewrite C1. cbn [bind]. rewrite named_name. cbn [bind]. rewrite E1. reflexivity.
      * cbn [pymat_for]. cbv zeta. split; [|exact A2]. destruct E2 as (_ & S1 & S2). cbn [matrix_for]. split; [exact A1|]. rewrite A3, A4. split; assumption.
  - destruct G as (w' & G1 & G2 & G3 & G4). exists w'. split; [exact G1|]. split; [exact G2|]. split; [exact G3|]. split; [exact G4|]. intros r c Hr Hc. apply (given_entry s dim degree k flag (shown w) (shown w')); assumption.
Qed.

(** ** varf *)
Lemma arrays_cpp : forall l, l <> [] -> Forall (fun v => v <> []) l -> seq_to_cpp fnum_R (arrays l) = Ok (CMat fnum_R l).
Proof.
  intros [|v l] Hn Hl; [contradiction|]. inversion Hl as [|? ? Hv _]; subst. unfold seq_to_cpp, arrays. cbn [map list_to_cpp]. destruct v as [|x v]; [contradiction|].
  assert (M : forall l : list (list R), mapM (as_vec fnum_R) (map (fun v => @PVec num_R v) l) = Ok l) by (induction l0 as [|u l0 IH]; [reflexivity|cbn [map mapM as_vec bind]; rewrite IH; reflexivity]).
  exact (f_equal (fun r => l <- r ;; Ok (CMat fnum_R l)) (M ((x :: v) :: l))).
Qed.
Lemma grid_pos : forall nodes : list (list R), Forall (fun v => v <> []) nodes -> 1 <= length (grid nodes).
Proof.
  intros nodes H. unfold grid. induction H as [|v l Hv H IH]; [cbn; lia|]. cbn [map row_major]. destruct v as [|x v]; [contradiction|]. cbn [length seq flat_map]. rewrite app_length, map_length. lia.
Qed.

Section Grid.
Variables (nodes weights : list (list R)) (input : list R).
Hypothesis Hn0 : nodes <> [].
Hypothesis Hne : Forall (fun v => v <> []) nodes.
Hypothesis Hmatch : rules_match nodes weights.

Lemma args_ok0 : input <> [] -> grid_args fnum_R (@PVec num_R input) (arrays nodes) (arrays weights) = Ok (input, nodes, weights).
Proof using Hn0 Hne Hmatch.
  intros Hi. unfold grid_args. destruct input as [|x l]; [contradiction|]. cbn [to_cpp_array bind].
  rewrite (arrays_cpp nodes Hn0 Hne). cbn [bind]. rewrite arrays_cpp; [reflexivity| |].
  - intros ->. inversion Hmatch. subst. contradiction.
  - clear - Hmatch Hne. unfold rules_match in Hmatch. induction Hmatch as [|xs ws nodes weights E H IH]; constructor; inversion Hne; subst; [intros ->; destruct xs; [contradiction|discriminate E]|apply IH; assumption].
Qed.

Lemma flags_default : forall f, flags_of fnum_R f (arrays nodes) = match f with Some l => l | None => repeat 0 (length nodes) end.
Proof using. intros [l|]; [reflexivity|]. unfold flags_of, arrays. rewrite map_length. reflexivity. Qed.

Lemma transform_python0 : input <> [] -> forall s degree forward f, core_transform fnum_R degree (@PVec num_R input) (arrays nodes) (arrays weights) forward f (set_name s) =
  (c <- transform fnum_R s degree input nodes weights (match f with Some l => l | None => repeat 0 (length nodes) end) forward ;; Ok (@PVec num_R c)).
Proof using Hn0 Hne Hmatch. intros Hi s degree forward f. unfold core_transform. rewrite args_ok0 by exact Hi. rewrite flags_default. cbn [bind]. rewrite named_name. reflexivity. Qed.

Hypothesis Hin : length input = length (grid nodes).

Lemma input_some : input <> [].
Proof using Hne Hin. pose proof (grid_pos nodes Hne) as G. intros E. rewrite E in Hin. cbn [length] in Hin. clear - G Hin. lia. Qed.
Lemma args_ok : grid_args fnum_R (@PVec num_R input) (arrays nodes) (arrays weights) = Ok (input, nodes, weights).
Proof using Hn0 Hne Hmatch Hin. apply args_ok0, input_some. Qed.

Lemma integrate_python : forall f, core_integrate fnum_R (@PVec num_R input) (arrays nodes) (arrays weights) f = integrate fnum_R input nodes weights (match f with Some l => l | None => repeat 0 (length nodes) end).
Proof using Hn0 Hne Hmatch Hin. intros f. unfold core_integrate. rewrite args_ok, flags_default. reflexivity. Qed.
Lemma transform_python : forall s degree forward f, core_transform fnum_R degree (@PVec num_R input) (arrays nodes) (arrays weights) forward f (set_name s) =
  (c <- transform fnum_R s degree input nodes weights (match f with Some l => l | None => repeat 0 (length nodes) end) forward ;; Ok (@PVec num_R c)).
Proof using Hn0 Hne Hmatch Hin. exact (transform_python0 input_some). Qed.
Lemma unknown_python : forall name, named name = None -> forall degree forward sparse f,
  core_transform fnum_R degree (@PVec num_R input) (arrays nodes) (arrays weights) forward f name = Exit 1 /\ core_varf fnum_R degree (@PVec num_R input) (arrays nodes) (arrays weights) sparse f name = Exit 1.
Proof using Hn0 Hne Hmatch Hin. intros name Hname degree forward sparse f. unfold core_transform, core_varf, cpp_set. rewrite args_ok, Hname. split; reflexivity. Qed.

Variables (s : iset) (degree : nat) (do_fourier : option (list nat)).
Let flags := match do_fourier with Some l => l | None => repeat 0 (length nodes) end.
Hypothesis Hu : usable s (length nodes) degree.
Hypothesis Hsm : small s (length nodes) degree.
Hypothesis Hf : fits s (length nodes) (2 * degree).
Hypothesis Hg : grid_fits nodes.
Hypothesis Hflags : flags_ok s degree flags.
Hypothesis Hlen : length flags = length nodes.

Lemma varf_python : exists a c,
  core_varf fnum_R degree (@PVec num_R input) (arrays nodes) (arrays weights) false do_fourier (set_name s) = Ok (@WArr fnum_R a) /\ core_varf fnum_R degree (@PVec num_R input) (arrays nodes) (arrays weights) true do_fourier (set_name s) = Ok (@WCsr fnum_R c) /\
  pymat_for s (length nodes) degree (@WArr fnum_R a) /\ pymat_for s (length nodes) degree (@WCsr fnum_R c) /\
  varf_gives s degree nodes weights flags input (shown (@WArr fnum_R a)) /\ varf_gives s degree nodes weights flags input (shown (@WCsr fnum_R c)) /\
  forall r k, index_of s (length nodes) degree r -> index_of s (length nodes) degree k -> @entry num_R s (length nodes) degree (shown (@WArr fnum_R a)) r k = @entry num_R s (length nodes) degree (shown (@WCsr fnum_R c)) r k.
Proof using Hn0 Hne Hmatch Hin Hu Hsm Hf Hg Hflags Hlen.
  destruct (tables_exist s degree flags Hflags) as (TH & TF & T1 & T2).
  destruct (varf_formula s degree nodes weights flags input Hu Hf Hg Hflags Hlen Hmatch Hin TH TF T1 T2) as (A & B & V1 & V2 & V3 & V4 & V). cbv zeta in V.
  pose proof (points_pos s (length nodes) degree Hu) as Hp. destruct (new_rows _ A V2 Hp Hsm) as [N1 N2]. destruct (to_csr_ok num_R num_R_laws B (proj1 V4)) as (A1 & A2 & A3 & A4 & A5).
  exists (nd_new R (length (points s (length nodes) degree)) (length (points s (length nodes) degree)) A), (to_csr num_R B).
  split; [|split; [|split; [exact N1|split; [|split; [|split]]]]].
  - unfold core_varf. rewrite args_ok, flags_default. cbn [bind]. rewrite named_name. cbn [bind]. fold flags. rewrite V1. cbn [bind].
    transitivity (Ok (@WArr fnum_R (nd_new R (@length (list R) A) (@length (list R) A) A))); [reflexivity|assert (L2 : @length (list R) A = length (points s (length nodes) degree)) by apply V2; rewrite L2; reflexivity].
  - unfold core_varf. rewrite args_ok, flags_default. cbn [bind]. rewrite named_name. cbn [bind]. fold flags. rewrite V3. reflexivity.
  - cbn [pymat_for]. cbv zeta. split; [|exact A2]. destruct V4 as (_ & S1 & S2). cbn [matrix_for]. split; [exact A1|]. rewrite A3, A4. split; assumption.
  - rewrite N2. left. exact V1.
  - right. exists B. split; [exact V3|exact A5].
  - intros r k Hr Hk. rewrite N2. assert (A6 : shown (@WCsr fnum_R (to_csr num_R B)) = @dense num_R B) by exact A5. rewrite A6. symmetry. apply V; assumption.
Qed.
Lemma galerkin_python : forall sparse w, closed_products s degree flags -> nothing_dropped s degree nodes weights flags input ->
  core_varf fnum_R degree (@PVec num_R input) (arrays nodes) (arrays weights) sparse do_fourier (set_name s) = Ok w ->
  forall r c, index_of s (length nodes) degree r -> index_of s (length nodes) degree c -> @entry num_R s (length nodes) degree (shown w) r c = galerkin nodes weights flags input r c.
Proof using Hn0 Hne Hmatch Hin Hu Hsm Hf Hg Hflags Hlen.
  intros sparse w Hcl Hk E. destruct varf_python as (a & c & E1 & E2 & _ & _ & G1 & G2 & _).
  assert (G : varf_gives s degree nodes weights flags input (shown w)). { destruct sparse; [rewrite E2 in E; injection E as <-; exact G2|rewrite E1 in E; injection E as <-; exact G1]. }
  exact (gives_galerkin s degree nodes weights flags input Hu Hf Hg Hflags Hlen Hmatch Hin Hcl Hk (shown w) G).
Qed.
End Grid.

Lemma unknown_varfd : forall name, named name = None -> forall s dim degree k flag w, usable s dim degree -> pymat_for s dim degree w -> core_varfd fnum_R dim degree k w flag name = Exit 1.
Proof.
  intros name Hname s dim degree k flag w Hu Hw. pose proof (points_pos s dim degree Hu) as Hn. destruct w as [a|c|]; [| |destruct Hw].
  - cbn [pymat_for] in Hw. cbv zeta in Hw. destruct (converters_contiguous R 0%R a _ _ Hw Hn Hn) as (_ & _ & C). specialize (C eq_refl). unfold core_varfd, cpp_set. change (to_boost_mat (A := fnum_R) a) with (to_boost_mat (A := R) a). rewrite C, Hname. reflexivity.
  - destruct Hw as [Hw Hd]. destruct (csr_dense s dim degree c Hw Hd) as (A & C1 & _). unfold core_varfd, cpp_set. rewrite C1, Hname. reflexivity.
Qed.

(** The columns of an array are adjacent and its rows are not: the first two columns of the 2 x 3 array 1 2 3 / 4 5 6. *)
Definition view : ndarray R := Nd [1; 2; 3; 4; 5; 6]%R 0 [2; 2] [24; 8]%Z.
Lemma view_array : nd_array view 2 2 3 1.
Proof. unfold nd_array, view. cbn [nd_shape nd_strides nd_mem nd_start length]. repeat split; try lia. Qed.
Lemma view_refuted : ~ forall s dim degree k (a : ndarray R) p w', usable s dim degree -> small s dim degree -> k < dim -> nd_array a (length (points s dim degree)) (length (points s dim degree)) p 1 -> (Z.of_nat (length (points s dim degree)) <= p)%Z ->
  core_varfd fnum_R dim degree k (@WArr fnum_R a) 0 (set_name s) = Ok w' -> forall r c, index_of s dim degree r -> index_of s dim degree c ->
  @entry num_R s dim degree (shown w') r c = (sqrt (INR (nth k c 0%nat)) * @entry num_R s dim degree (shown (@WArr fnum_R a)) r (lowered c k))%R.
Proof.
  intros H. assert (Hu : usable Triangle 1 1) by (apply usable_dim4; lia). assert (P : points Triangle 1 1 = [[0]; [1]]) by reflexivity.
  assert (Hs : small Triangle 1 1) by (unfold small; rewrite P; cbn; lia).
  set (A := [[1; 2]; [3; 4]]%R). assert (HA : @mat_for num_R Triangle 1 1 A) by (split; [reflexivity|repeat constructor]).
  destruct (varfd_boost Triangle 1 1 0 0 Hu ltac:(lia) (or_introl eq_refl) ltac:(discriminate) A HA) as (B & E1 & E2 & E3).
  assert (E : core_varfd fnum_R 1 1 0 (@WArr fnum_R view) 0 (set_name Triangle) = Ok (@WArr fnum_R (nd_new R 2 2 B))).
  { unfold core_varfd. change (to_boost_mat (A := fnum_R) view) with (@Ok (list (list R)) A). cbn [bind]. rewrite named_name. cbn [bind]. rewrite E1. cbn [bind].
    assert (L2 : @length (list R) B = 2) by apply E2. transitivity (Ok (@WArr fnum_R (nd_new R (@length (list R) B) 2 B))); [reflexivity|rewrite L2; reflexivity]. }
  destruct (new_rows 2 B E2 ltac:(lia) ltac:(lia)) as [_ N2].
  assert (I : forall i, i <= 1 -> index_of Triangle 1 1 [i]) by (intros i Hi; split; [reflexivity|cbn; lia]).
  specialize (H Triangle 1 1 0 view 3%Z _ Hu Hs ltac:(lia) view_array ltac:(rewrite P; cbn; lia) E [1] [1] (I 1 ltac:(lia)) (I 1 ltac:(lia))).
  rewrite N2 in H. rewrite (E3 [1] [1] (I 1 ltac:(lia)) (I 1 ltac:(lia))) in H. unfold A, entry, mvalue, lowered, with_entry in H. rewrite P in H.
  assert (X : (sqrt 1 * 3 = sqrt 1 * 4)%R) by exact H. rewrite sqrt_1 in X. lra.
Qed.

(** ** The functions on exact rules *)
Lemma inverts_python : forall s degree nodes weights do_fourier (c : list R), nodes <> [] -> Forall (fun v => v <> []) nodes -> let flags := match do_fourier with Some l => l | None => repeat 0 (length nodes) end in
  usable s (length nodes) degree -> grid_fits nodes -> flags_ok s degree flags -> exact_rules degree flags nodes weights -> @vec_for num_R s (length nodes) degree c ->
  exists values, core_transform fnum_R degree (@PVec num_R c) (arrays nodes) (arrays weights) false do_fourier (set_name s) = Ok (@PVec num_R values) /\
    values = map (fun p => CalcSpec.series s degree flags c (at_pos nodes p)) (grid nodes) /\
    core_transform fnum_R degree (@PVec num_R values) (arrays nodes) (arrays weights) true do_fourier (set_name s) = Ok (@PVec num_R c).
Proof.
  intros s degree nodes weights f c H1 H2 flags Hu Hg Hfl He Hc. pose proof (exact_match degree flags nodes weights He) as Hm. pose proof (proj1 (conj (CoreFacts2.points_pos s (length nodes) degree Hu) I)) as Hp.
  assert (Hf : fits s (length nodes) degree) by (apply usable_fits; exact Hu).
  destruct (transform_eval s degree nodes weights flags Hf Hg Hfl He c Hc) as (values & V1 & V2). pose proof (backward_values s degree nodes weights flags c Hf Hg Hfl (proj1 He) Hc) as Bv.
  assert (Ev : values = map (fun p => CalcSpec.series s degree flags c (at_pos nodes p)) (grid nodes)) by congruence.
  assert (Hc0 : c <> []) by (intros ->; assert (X : length (@nil R) = length (points s (length nodes) degree)) by exact Hc; cbn [length] in X; clear - X Hp; lia).
  exists values. split; [|split; [exact Ev|]].
  - rewrite (transform_python0 nodes weights c H1 H2 Hm Hc0). fold flags. rewrite V1. reflexivity.
  - rewrite (transform_python nodes weights values H1 H2 Hm). { fold flags. rewrite V2. reflexivity. } rewrite Ev. apply map_length.
Qed.
Lemma forward_python : forall s degree nodes weights do_fourier input, nodes <> [] -> Forall (fun v => v <> []) nodes -> let flags := match do_fourier with Some l => l | None => repeat 0 (length nodes) end in
  usable s (length nodes) degree -> grid_fits nodes -> flags_ok s degree flags -> length flags = length nodes -> rules_match nodes weights -> length input = length (grid nodes) ->
  exists out, core_transform fnum_R degree (@PVec num_R input) (arrays nodes) (arrays weights) true do_fourier (set_name s) = Ok (@PVec num_R out) /\ @vec_for num_R s (length nodes) degree out /\
    forall m, index_of s (length nodes) degree m -> @coef num_R s (length nodes) degree out m = quadrature nodes weights input (phi flags m).
Proof.
  intros s degree nodes weights f input H1 H2 flags Hu Hg Hfl Hl Hm Hi. destruct (forward_coef s degree nodes weights flags input (usable_fits _ _ _ Hu) Hg Hfl Hl Hm Hi) as (out & E & V).
  exists out. split; [|exact V]. rewrite (transform_python nodes weights input H1 H2 Hm Hi). fold flags. rewrite E. reflexivity.
Qed.
(** Without do_fourier, core.integrate always goes out of bounds. *)
Lemma integrate_default_ub : forall nodes weights (input : list R), nodes <> [] -> Forall (fun v => v <> []) nodes -> rules_match nodes weights -> length input = length (grid nodes) ->
  core_integrate fnum_R (@PVec num_R input) (arrays nodes) (arrays weights) None = Ub.
Proof.
  intros nodes weights input H1 H2 Hm Hi. rewrite (integrate_python nodes weights input H1 H2 Hm Hi). destruct nodes as [|xs nodes]; [contradiction|]. apply (integrate_ub fnum_R _ _ _ _ 0 xs); [reflexivity|inversion H2; assumption|reflexivity].
Qed.
Lemma integrate_fourier_python : forall nodes weights (input : list R), nodes <> [] -> Forall (fun v => v <> []) nodes -> grid_fits nodes -> rules_match nodes weights -> length input = length (grid nodes) ->
  core_integrate fnum_R (@PVec num_R input) (arrays nodes) (arrays weights) (Some (repeat 1 (length nodes))) = Ok (quadrature nodes weights input (fun _ => 1%R)).
Proof.
  intros nodes weights input H1 H2 Hg Hm Hi. rewrite (integrate_python nodes weights input H1 H2 Hm Hi). apply integrate_fourier; try assumption; [destruct nodes; [contradiction|cbn [length]; lia]|reflexivity].
Qed.
Lemma ou_python : forall s degree nodes weights do_fourier k sparse, nodes <> [] -> Forall (fun v => v <> []) nodes -> let flags := match do_fourier with Some l => l | None => repeat 0 (length nodes) end in
  usable s (length nodes) degree -> small s (length nodes) degree -> fits s (length nodes) (2 * degree) -> grid_fits nodes -> flags_ok s degree flags -> exact_rules degree flags nodes weights -> closed_products s degree flags ->
  k < length nodes -> nothing_dropped s degree nodes weights flags (ones nodes) -> nth k flags 0 = 0 -> nothing_dropped s degree nodes weights flags (coordinate nodes k) ->
  let varf_of values := core_varf fnum_R degree (@PVec num_R values) (arrays nodes) (arrays weights) sparse do_fourier (set_name s) in let d w := core_varfd fnum_R (length nodes) degree k w 0 (set_name s) in
  exists one x d1 d2 dx, varf_of (ones nodes) = Ok one /\ varf_of (coordinate nodes k) = Ok x /\ d one = Ok d1 /\ d d1 = Ok d2 /\ d x = Ok dx /\ sparse_kind d2 = sparse /\ sparse_kind dx = sparse /\
  forall r c, index_of s (length nodes) degree r -> index_of s (length nodes) degree c ->
    (@entry num_R s (length nodes) degree (shown d2) r c - @entry num_R s (length nodes) degree (shown dx) r c)%R = if mi_eqb r c then (- INR (nth k c 0%nat))%R else 0%R.
Proof.
  intros s degree nodes weights f k sparse H1 H2 flags Hu Hsm Hf Hg Hfl He Hcl Hk K1 Hz Kx varf_of d. pose proof (exact_match degree flags nodes weights He) as Hm.
  assert (V : forall values, length values = length (grid nodes) -> exists w, varf_of values = Ok w /\ sparse_kind w = sparse /\ pymat_for s (length nodes) degree w /\ varf_gives s degree nodes weights flags values (shown w)).
  { intros values Hv. destruct (varf_python nodes weights values H1 H2 Hm Hv s degree f Hu Hsm Hf Hg Hfl (proj1 He)) as (a & c & E1 & E2 & E3 & E4 & E5 & E6 & _). unfold varf_of.
    destruct sparse; [exists (@WCsr fnum_R c)|exists (@WArr fnum_R a)]; (split; [assumption|split; [reflexivity|split; assumption]]). }
  assert (D : forall w, pymat_for s (length nodes) degree w -> exists w', d w = Ok w' /\ sparse_kind w' = sparse_kind w /\ pymat_for s (length nodes) degree w' /\ varfd_gives s (length nodes) degree k 0 (shown w) (shown w')).
  { intros w Hw. destruct (varfd_python s (length nodes) degree k 0 w Hu Hsm Hk (or_introl eq_refl) ltac:(intros X; discriminate X) Hw) as (w' & E1 & E2 & E3 & E4 & _). exists w'. repeat (split; [assumption|]). assumption. }
  destruct (V (ones nodes) (map_length _ _)) as (one & O1 & O2 & O3 & O4). destruct (V (coordinate nodes k) (map_length _ _)) as (x & X1 & X2 & X3 & X4).
  destruct (D one O3) as (d1 & P1 & P2 & P3 & P4). destruct (D d1 P3) as (d2 & Q1 & Q2 & Q3 & Q4). destruct (D x X3) as (dx & R1 & R2 & R3 & R4).
  exists one, x, d1, d2, dx. repeat (split; [assumption|]). split; [congruence|]. split; [congruence|].
  exact (ou_entry s degree nodes weights flags k Hu Hf Hg Hfl He Hcl Hk K1 Hz Kx (shown one) (shown x) (shown d1) (shown d2) (shown dx) O4 X4 P4 Q4 R4).
Qed.
