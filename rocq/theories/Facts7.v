(** Statements about varf in the vocabulary of CalcSpec. *)
From Coq Require Import List Bool Arith ZArith Reals Lra Lia.
From Verif Require Import Base Lists IndexModel Spec IndexSet Degree Num Fnum LinModel LinSpec LinBase MatBase Sparse Facts1 Facts2 CalcModel CalcSpec CalcBase CalcHermite CalcTransform CalcReal CalcTriple CalcFourier CalcQuad CalcOps CalcVarf CalcVarf2 Facts6.
Import ListNotations.
Local Open Scope R_scope.

Lemma tables_exist : forall s degree flags, flags_ok s degree flags -> exists TH TF, triple_products_1d fnum_R degree = Ok TH /\
  (In 1%nat flags -> triple_products_fourier fnum_R degree = Ok TF).
Proof.
  intros s degree flags [H _]. destruct (triple_hermite degree) as [TH [E _]]. exists TH. destruct (in_dec Nat.eq_dec 1%nat flags) as [H1|H1].
  - rewrite Forall_forall in H. destruct (H _ H1) as [[? ?]|[_ He]]; [lia|]. destruct (triple_fourier degree He) as [TF [E2 _]]. exists TF. auto.
  - exists []. split; [assumption|]. intros. contradiction.
Qed.

Section Statements.
Variables (s : iset) (degree : nat) (nodes weights : list (list R)) (flags : list nat) (input : list R).
Let dim := length nodes.
Let h := fun m => quadrature nodes weights input (phi flags m).
Let pts := points s dim (2 * degree).
Hypothesis Hu : usable s dim degree.
Hypothesis Hfit : fits s dim (2 * degree).
Hypothesis Hgrid : grid_fits nodes.
Hypothesis Hflags : flags_ok s degree flags.
Hypothesis Hlen : length flags = dim.
Hypothesis Hmatch : rules_match nodes weights.
Hypothesis Hin : length input = length (grid nodes).

Lemma varf_formula : forall TH TF, triple_products_1d fnum_R degree = Ok TH -> (In 1%nat flags -> triple_products_fourier fnum_R degree = Ok TF) ->
  exists A B, varf fnum_R (calc_mat fnum_R) s degree input nodes weights flags = Ok A /\ @mat_for num_R s dim degree A /\
    varf fnum_R (calc_spmat fnum_R) s degree input nodes weights flags = Ok B /\ @sp_for num_R s dim degree B /\
    forall r c, index_of s dim degree r -> index_of s dim degree c ->
      @entry num_R s dim degree A r c = rsum (map (fun m => (if Rlt_dec (Rabs (h m)) (threshold h pts) then 0 else h m) * table_product TH TF flags m r c) pts) /\
      @entry num_R s dim degree (dense B) r c = @entry num_R s dim degree A r c.
Proof.
  intros TH TF E1 E2. pose proof (num_R_laws : num_laws fnum_R) as L.
  destruct (varf_sum _ _ _ (calc_mat_ok fnum_R) s degree nodes weights flags input TH TF Hu Hfit Hgrid Hflags Hlen Hmatch Hin E1 E2) as [A [A1 [A2 A3]]].
  destruct (varf_sum _ _ _ (calc_spmat_ok fnum_R L) s degree nodes weights flags input TH TF Hu Hfit Hgrid Hflags Hlen Hmatch Hin E1 E2) as [B [B1 [B2 B3]]].
  exists A, B. split; [exact A1|]. split; [exact A2|]. split; [exact B1|]. split; [exact B2|]. intros r c Hr Hc. split; [exact (A3 r c Hr Hc)|]. refine (eq_trans (B3 r c Hr Hc) (eq_sym (A3 r c Hr Hc))).
Qed.

Lemma varf_bound : closed_products s degree flags -> forall TH TF, triple_products_1d fnum_R degree = Ok TH -> (In 1%nat flags -> triple_products_fourier fnum_R degree = Ok TF) ->
  exists A B, varf fnum_R (calc_mat fnum_R) s degree input nodes weights flags = Ok A /\ @mat_for num_R s dim degree A /\
    varf fnum_R (calc_spmat fnum_R) s degree input nodes weights flags = Ok B /\ @sp_for num_R s dim degree B /\
    forall r c, index_of s dim degree r -> index_of s dim degree c ->
      let bound := threshold h pts * rsum (map (fun m => Rabs (table_product TH TF flags m r c)) pts) in
      Rabs (@entry num_R s dim degree A r c - galerkin nodes weights flags input r c) <= bound /\
      Rabs (@entry num_R s dim degree (dense B) r c - galerkin nodes weights flags input r c) <= bound.
Proof.
  intros Hcl TH TF E1 E2. pose proof (num_R_laws : num_laws fnum_R) as L.
  destruct (varf_error _ _ _ (calc_mat_ok fnum_R) s degree nodes weights flags input TH TF Hu Hfit Hgrid Hflags Hlen Hmatch Hin E1 E2 Hcl) as [A [A1 [A2 [A3 _]]]].
  destruct (varf_error _ _ _ (calc_spmat_ok fnum_R L) s degree nodes weights flags input TH TF Hu Hfit Hgrid Hflags Hlen Hmatch Hin E1 E2 Hcl) as [B [B1 [B2 [B3 _]]]].
  exists A, B. split; [exact A1|]. split; [exact A2|]. split; [exact B1|]. split; [exact B2|]. intros r c Hr Hc. split; [exact (A3 r c Hr Hc)|exact (B3 r c Hr Hc)].
Qed.

Lemma varf_galerkin : closed_products s degree flags -> nothing_dropped s degree nodes weights flags input ->
  exists A B, varf fnum_R (calc_mat fnum_R) s degree input nodes weights flags = Ok A /\ @mat_for num_R s dim degree A /\
    varf fnum_R (calc_spmat fnum_R) s degree input nodes weights flags = Ok B /\ @sp_for num_R s dim degree B /\
    forall r c, index_of s dim degree r -> index_of s dim degree c ->
      @entry num_R s dim degree A r c = galerkin nodes weights flags input r c /\ @entry num_R s dim degree (dense B) r c = galerkin nodes weights flags input r c.
Proof.
  intros Hcl Hk. pose proof (num_R_laws : num_laws fnum_R) as L. destruct (tables_exist s degree flags Hflags) as [TH [TF [E1 E2]]].
  assert (Hk' : forall m, In m pts -> h m = 0 \/ threshold h pts <= Rabs (h m)) by (intros m Hm; apply (Hk m); apply points_In_ok in Hm; [exact Hm|apply Hfit|apply Hfit]).
  destruct (varf_error _ _ _ (calc_mat_ok fnum_R) s degree nodes weights flags input TH TF Hu Hfit Hgrid Hflags Hlen Hmatch Hin E1 E2 Hcl) as [A [A1 [A2 [_ A3]]]].
  destruct (varf_error _ _ _ (calc_spmat_ok fnum_R L) s degree nodes weights flags input TH TF Hu Hfit Hgrid Hflags Hlen Hmatch Hin E1 E2 Hcl) as [B [B1 [B2 [_ B3]]]].
  exists A, B. split; [exact A1|]. split; [exact A2|]. split; [exact B1|]. split; [exact B2|]. intros r c Hr Hc. split; [exact (A3 Hk' r c Hr Hc)|exact (B3 Hk' r c Hr Hc)].
Qed.
End Statements.

Lemma usable_fits : forall s dim degree, usable s dim degree -> fits s dim degree.
Proof.
  intros s dim degree Hu. destruct (dim_S dim) as [d ->]; [apply Hu|]. pose proof (usable_set_ok _ _ _ Hu) as H. split; [lia|]. split; [assumption|].
  rewrite points_spec_ok by assumption. apply usable_length. assumption.
Qed.

(** Degree 1, both multi-indices (1,1), one node at the origin. *)
Lemma hermite_2_0 : hermite 2 0 = - / sqrt 2.
Proof. unfold hermite. cbn [He fact Nat.mul Nat.add]. replace (INR 2) with 2 by (cbn; lra). assert (0 < sqrt 2) by (apply sqrt_lt_R0; lra). match goal with |- ?n / _ = _ => replace n with (-1) by (cbn; lra) end. field. lra. Qed.

Lemma table_1 : forall D TH, (D = 1 \/ D = 2)%nat -> triple_products_1d fnum_R D = Ok TH ->
  cell TH 0 1 1 = 1 /\ cell TH 1 1 1 = 0 /\ cell TH 2 1 1 = sqrt 2 /\ forall k, (2 < k)%nat -> cell TH k 1 1 = 0.
Proof.
  intros D TH HD E. destruct (triple_hermite D) as [c [E' [_ [_ [Z H]]]]]. rewrite E in E'. injection E' as <-.
  assert (Hs : 0 < sqrt 2) by (apply sqrt_lt_R0; lra). assert (Hs2 : sqrt 2 * sqrt 2 = 2) by (apply sqrt_sqrt; lra).
  assert (Z2 : forall k, (2 < k)%nat -> cell TH k 1 1 = 0) by (intros; apply Z; lia).
  assert (H2 : forall x, x * x = cell TH 0 1 1 + (cell TH 1 1 1 * x + cell TH 2 1 1 * ((x * x - 1) / sqrt 2))).
  { intros x. specialize (H 1%nat 1%nat x ltac:(lia) ltac:(lia)). rewrite hermite_1 in H. refine (eq_trans H _).
    assert (X2 : hermite 2 x = (x * x - 1) / sqrt 2) by (unfold hermite; cbn [He fact Nat.mul Nat.add]; replace (INR 2) with 2 by (cbn; lra); change (INR 1) with 1; f_equal; ring).
    destruct HD as [-> | ->]; cbn [seq Nat.mul Nat.add map]; rewrite !rsum_cons; unfold rsum; cbn [fold_right]; rewrite ?(Z2 3%nat), ?(Z2 4%nat) by lia; rewrite hermite_0, hermite_1, X2; ring. }
  pose proof (H2 0) as A0. pose proof (H2 1) as A1. pose proof (H2 (-1)) as A2.
  replace ((1 * 1 - 1) / sqrt 2) with 0 in A1 by (field; lra). replace ((-1 * -1 - 1) / sqrt 2) with 0 in A2 by (field; lra).
  assert (cell TH 1 1 1 = 0) by lra. assert (cell TH 0 1 1 = 1) by lra. split; [assumption|]. split; [assumption|]. split; [|assumption].
  replace ((0 * 0 - 1) / sqrt 2) with (- / sqrt 2) in A0 by (field; lra). assert (B : cell TH 2 1 1 * / sqrt 2 = 1) by lra.
  apply (Rmult_eq_reg_r (/ sqrt 2)); [|apply Rinv_neq_0_compat; lra]. rewrite B. field. lra.
Qed.

Lemma varf_cross : exists A, varf fnum_R (calc_mat fnum_R) Cross 1 [1] [[0]; [0]] [[1]; [1]] [0; 0]%nat = Ok A /\
  @entry num_R Cross 2 1 A [1; 1]%nat [1; 1]%nat = -1 /\ galerkin [[0]; [0]] [[1]; [1]] [0; 0]%nat [1] [1; 1]%nat [1; 1]%nat = 0.
Proof.
  destruct (tables_exist Cross 1 [0; 0]%nat) as [TH [TF [E1 E2]]]; [split; [repeat constructor; left; lia|lia]|].
  destruct (varf_formula Cross 1 [[0]; [0]] [[1]; [1]] [0; 0]%nat [1]) with (TH := TH) (TF := TF) as [A [B [H1 [H3 [H4 [H5 H2]]]]]]; try assumption; try reflexivity.
  - apply usable_dim4; cbn [length]; lia.
  - apply usable_fits. apply usable_dim4; cbn [length]; lia.
  - split; [repeat constructor; left; lia|lia].
  - repeat constructor.
  - exists A. split; [exact H1|]. assert (Hr : index_of Cross 2 1 [1; 1]%nat) by (split; [reflexivity|cbn; lia]).
    destruct (H2 _ _ Hr Hr) as [V _]. split.
    + refine (eq_trans V _). clear V H2. set (h := fun m => quadrature [[0]; [0]] [[1]; [1]] [1] (phi [0; 0]%nat m)).
      assert (P : points Cross (length [[0]; [0]]) (2 * 1) = [[0; 0]; [1; 0]; [0; 1]; [1; 1]; [0; 2]; [1; 2]; [2; 0]; [2; 1]]%nat) by (vm_compute; reflexivity).
      rewrite P. destruct (table_1 1 TH (or_introl eq_refl) E1) as [T0 [T1 [T2 _]]]. assert (Hs : 0 < sqrt 2) by (apply sqrt_lt_R0; lra). assert (Hs2 : sqrt 2 * sqrt 2 = 2) by (apply sqrt_sqrt; lra).
      assert (Hq : forall a b, quadrature [[0]; [0]] [[1]; [1]] [1] (phi [0; 0]%nat [a; b]) = hermite a 0 * hermite b 0) by (intros; unfold quadrature, phi, rsum, rprod; cbn [grid map length row_major seq flat_map app combine fold_right at_pos nth basis Nat.eqb]; ring).
      assert (Hh : forall a b, h [a; b] = hermite a 0 * hermite b 0) by (intros; apply Hq).
      assert (Ht : forall a b, table_product TH TF [0; 0]%nat [a; b] [1; 1]%nat [1; 1]%nat = cell TH a 1 1 * cell TH b 1 1) by (intros; unfold table_product, rprod; cbn [length seq map nth Nat.eqb fold_right]; ring).
      assert (Hsmall : threshold h [[0; 0]; [1; 0]; [0; 1]; [1; 1]; [0; 2]; [1; 2]; [2; 0]; [2; 1]]%nat < / 2).
      { unfold threshold. cbn [map]. rewrite !rsum_cons. unfold rsum at 1. cbn [fold_right]. rewrite !Hh, hermite_0, hermite_1, hermite_2_0.
        assert (Hi : / sqrt 2 * / sqrt 2 = / 2) by (rewrite <- Rinv_mult, Hs2; reflexivity).
        match goal with |- _ * Rmax 1 (sqrt ?x) < _ => replace x with 2 by (ring_simplify; replace ((/ sqrt 2) ^ 2) with (/ 2) by (rewrite <- Hi; ring); lra) end.
        rewrite Rmax_right by nra. assert (sqrt 2 < 2) by nra. lra. }
      assert (Hl : / 2 < / sqrt 2) by (apply Rinv_lt_contravar; nra).
      cbn [map]. rewrite !rsum_cons. unfold rsum. cbn [fold_right]. rewrite !Ht, T0, T1, T2, !Hq, hermite_0, hermite_1, hermite_2_0.
      destruct (Rlt_dec (Rabs (1 * 1)) _) as [K|_]; [rewrite Rmult_1_l, Rabs_R1 in K; lra|].
      destruct (Rlt_dec (Rabs (1 * - / sqrt 2)) _) as [K|_]; [rewrite Rmult_1_l, Rabs_Ropp, Rabs_pos_eq in K; lra|].
      destruct (Rlt_dec (Rabs (- / sqrt 2 * 1)) _) as [K|_]; [rewrite Rmult_1_r, Rabs_Ropp, Rabs_pos_eq in K; lra|].
      assert (Hi : / sqrt 2 * sqrt 2 = 1) by (apply Rinv_l; lra).
      repeat match goal with |- context [Rlt_dec ?a ?b] => destruct (Rlt_dec a b) end; ring_simplify; nra.
    + unfold galerkin, quadrature, phi, rsum, rprod. cbn [grid map length row_major seq flat_map app combine fold_right at_pos nth basis Nat.eqb]. rewrite hermite_1. ring.
Qed.

(** The same function of the degree-2 triangle with a Fourier and a Hermite direction. *)
Lemma fourier_table : forall TF, triple_products_fourier fnum_R 2 = Ok TF ->
  cell TF 0 1 1 = 1 / sqrt (2 * PI) /\ cell TF 1 1 1 = 0 /\ cell TF 2 1 1 = 0 /\ cell TF 3 1 1 = 0 /\ cell TF 4 1 1 = - (1 / (2 * sqrt PI)).
Proof.
  intros TF E. destruct (triple_products_fourier_ok 2 eq_refl) as [c [E' [_ [_ [_ H]]]]]. rewrite E in E'. injection E' as <-.
  assert (V : forall k, cell TF k 1 1 = tf k 1 1) by (intros k; exact (H k 1%nat 1%nat ltac:(lia) ltac:(lia))).
  rewrite !V. repeat split.
Qed.

Lemma hermite_at_0 : hermite 1 0 = 0 /\ hermite 3 0 = 0 /\ hermite 4 0 * hermite 4 0 <= 1.
Proof.
  assert (H1 : hermite 1 0 = 0) by apply hermite_1. split; [assumption|].
  assert (S2 : 0 < sqrt 2) by (apply sqrt_lt_R0; lra).
  assert (S3 : 0 < sqrt (INR 3)) by (apply sqrt_lt_R0; cbn; lra). assert (Q3 : sqrt (INR 3) * sqrt (INR 3) = 3) by (rewrite sqrt_sqrt; cbn; lra).
  assert (S4 : 0 < sqrt (INR 4)) by (apply sqrt_lt_R0; cbn; lra). assert (Q4 : sqrt (INR 4) * sqrt (INR 4) = 4) by (rewrite sqrt_sqrt; cbn; lra).
  assert (H3 : hermite 3 0 = 0) by (rewrite hermite_SS, H1; field; lra). split; [assumption|].
  rewrite hermite_SS, H3, hermite_2_0.
  replace ((0 * 0 - sqrt (INR 3) * - / sqrt 2) / sqrt (INR 4) * ((0 * 0 - sqrt (INR 3) * - / sqrt 2) / sqrt (INR 4))) with (sqrt (INR 3) * sqrt (INR 3) * / (sqrt 2 * sqrt 2) * / (sqrt (INR 4) * sqrt (INR 4))) by (field; lra).
  rewrite Q3, Q4, sqrt_sqrt by lra. lra.
Qed.

Lemma varf_triangle_fourier : exists A, varf fnum_R (calc_mat fnum_R) Triangle 2 [1] [[0]; [0]] [[1]; [1]] [1; 0]%nat = Ok A /\
  @entry num_R Triangle 2 2 A [1; 1]%nat [1; 1]%nat = - / (2 * PI) /\ galerkin [[0]; [0]] [[1]; [1]] [1; 0]%nat [1] [1; 1]%nat [1; 1]%nat = 0.
Proof.
  assert (Hfl : flags_ok Triangle 2 [1; 0]%nat) by (split; [constructor; [right; split; reflexivity|constructor; [left; lia|constructor]]|intros [|]; discriminate]).
  destruct (tables_exist Triangle 2 [1; 0]%nat Hfl) as [TH [TF [E1 E2]]].
  destruct (varf_formula Triangle 2 [[0]; [0]] [[1]; [1]] [1; 0]%nat [1]) with (TH := TH) (TF := TF) as [A [B [H1 [H3 [H4 [H5 H2]]]]]]; try assumption; try reflexivity.
  - apply usable_dim4; cbn [length]; lia.
  - apply usable_fits. apply usable_dim4; cbn [length]; lia.
  - repeat constructor.
  - exists A. split; [exact H1|]. assert (Hr : index_of Triangle 2 2 [1; 1]%nat) by (split; [reflexivity|cbn; lia]).
    destruct (H2 _ _ Hr Hr) as [V _]. split.
    + refine (eq_trans V _). clear V H2. set (h := fun m => quadrature [[0]; [0]] [[1]; [1]] [1] (phi [1; 0]%nat m)).
      assert (P : points Triangle (length [[0]; [0]]) (2 * 2) = [[0; 0]; [0; 1]; [1; 0]; [0; 2]; [1; 1]; [2; 0]; [0; 3]; [1; 2]; [2; 1]; [3; 0]; [0; 4]; [1; 3]; [2; 2]; [3; 1]; [4; 0]]%nat) by (vm_compute; reflexivity).
      rewrite P. destruct (table_1 2 TH (or_intror eq_refl) E1) as [T0 [T1 [T2 T3]]]. destruct (fourier_table TF (E2 (or_introl eq_refl))) as [F0 [F1 [F2 [F3 F4]]]].
      assert (Hs : 0 < sqrt 2) by (apply sqrt_lt_R0; lra). assert (Hs2 : sqrt 2 * sqrt 2 = 2) by (apply sqrt_sqrt; lra).
      pose proof PI_RGT_0 as HPI. pose proof PI_4 as HPI4. assert (HP3 : 3 < PI) by (pose proof PI2_3_2; lra).
      assert (Hp : 0 < sqrt PI) by (apply sqrt_lt_R0; lra). assert (Hp2 : sqrt PI * sqrt PI = PI) by (apply sqrt_sqrt; lra).
      assert (Hm : sqrt (2 * PI) = sqrt 2 * sqrt PI) by (apply sqrt_mult; lra).
      destruct hermite_at_0 as [Z1 [Z3 Z4]].
      assert (Y0 : fourier 0 0 = / (sqrt 2 * sqrt PI)) by (unfold fourier; cbn [Nat.eqb]; rewrite Hm; field; lra).
      assert (Y1 : fourier 1 0 = 0) by (unfold fourier; cbn [Nat.eqb Nat.even]; rewrite Rmult_0_r, sin_0; field; lra).
      assert (Y2 : fourier 2 0 = / sqrt PI) by (unfold fourier; cbn [Nat.eqb Nat.even]; rewrite Rmult_0_r, cos_0; field; lra).
      assert (Y3 : fourier 3 0 = 0) by (unfold fourier; cbn [Nat.eqb Nat.even]; rewrite Rmult_0_r, sin_0; field; lra).
      assert (Y4 : fourier 4 0 = / sqrt PI) by (unfold fourier; cbn [Nat.eqb Nat.even]; rewrite Rmult_0_r, cos_0; field; lra).
      assert (Hq : forall a b, quadrature [[0]; [0]] [[1]; [1]] [1] (phi [1; 0]%nat [a; b]) = fourier a 0 * hermite b 0) by (intros; unfold quadrature, phi, rsum, rprod; cbn [grid map length row_major seq flat_map app combine fold_right at_pos nth basis Nat.eqb]; ring).
      assert (Hh : forall a b, h [a; b] = fourier a 0 * hermite b 0) by (intros; apply Hq).
      assert (Ht : forall a b, table_product TH TF [1; 0]%nat [a; b] [1; 1]%nat [1; 1]%nat = cell TF a 1 1 * cell TH b 1 1) by (intros; unfold table_product, rprod; cbn [length seq map nth Nat.eqb fold_right]; ring).
      set (u := / sqrt PI) in *. set (v := / sqrt 2) in *.
      assert (Hu : u * u = / PI) by (unfold u; rewrite <- Rinv_mult, Hp2; reflexivity). assert (Hv : v * v = / 2) by (unfold v; rewrite <- Rinv_mult, Hs2; reflexivity).
      assert (Hu0 : 0 < u) by (apply Rinv_0_lt_compat; assumption). assert (Hv0 : 0 < v) by (apply Rinv_0_lt_compat; assumption).
      assert (Y0' : fourier 0 0 = v * u) by (rewrite Y0; unfold u, v; rewrite Rinv_mult; reflexivity).
      assert (HPI' : / 4 <= / PI <= / 3) by (split; apply Rinv_le_contravar; lra).
      assert (Hul : / 2 <= u) by nra. assert (Hvl : / 2 <= v) by nra. assert (Huu : u <= 1) by nra. assert (Hvu : v <= 1) by nra.
      assert (Hsmall : threshold h [[0; 0]; [0; 1]; [1; 0]; [0; 2]; [1; 1]; [2; 0]; [0; 3]; [1; 2]; [2; 1]; [3; 0]; [0; 4]; [1; 3]; [2; 2]; [3; 1]; [4; 0]]%nat < / 8).
      { unfold threshold. assert (Hle : rsum (map (fun m => h m * h m) [[0; 0]; [0; 1]; [1; 0]; [0; 2]; [1; 1]; [2; 0]; [0; 3]; [1; 2]; [2; 1]; [3; 0]; [0; 4]; [1; 3]; [2; 2]; [3; 1]; [4; 0]]%nat) <= 16).
        { cbn [map]. rewrite !rsum_cons. unfold rsum at 1. cbn [fold_right]. rewrite !Hh, Y0', Y1, Y2, Y3, Y4, hermite_0, Z1, hermite_2_0, Z3. fold v.
          assert (v * u * (v * u) <= 1) by nra. assert (u * u <= 1) by nra. assert (v * v <= 1) by nra.
          assert (v * u * hermite 4 0 * (v * u * hermite 4 0) <= 1) by nra. assert (u * - v * (u * - v) <= 1) by nra. assert (v * u * - v * (v * u * - v) <= 1) by nra.
          nra. }
        assert (sqrt (rsum (map (fun m => h m * h m) [[0; 0]; [0; 1]; [1; 0]; [0; 2]; [1; 1]; [2; 0]; [0; 3]; [1; 2]; [2; 1]; [3; 0]; [0; 4]; [1; 3]; [2; 2]; [3; 1]; [4; 0]]%nat)) <= 4) by (replace 4 with (sqrt 16) by (replace 16 with (4 * 4) by lra; apply sqrt_square; lra); apply sqrt_le_1_alt; assumption).
        assert (Rmax 1 (sqrt (rsum (map (fun m => h m * h m) [[0; 0]; [0; 1]; [1; 0]; [0; 2]; [1; 1]; [2; 0]; [0; 3]; [1; 2]; [2; 1]; [3; 0]; [0; 4]; [1; 3]; [2; 2]; [3; 1]; [4; 0]]%nat))) <= 4) by (apply Rmax_lub; lra). lra. }
      cbn [map]. rewrite !rsum_cons. unfold rsum. cbn [fold_right]. rewrite !Ht, F0, F1, F2, F3, F4, T0, T1, T2, ?(T3 3%nat), ?(T3 4%nat) by lia. rewrite !Hq, Y0', Y1, Y2, Y3, Y4, hermite_0, Z1, hermite_2_0, Z3. fold v.
      destruct (Rlt_dec (Rabs (v * u * 1)) _) as [K|_]; [rewrite Rabs_pos_eq in K; nra|].
      destruct (Rlt_dec (Rabs (u * 1)) _) as [K|_]; [rewrite Rabs_pos_eq in K; nra|].
      destruct (Rlt_dec (Rabs (v * u * - v)) _) as [K|_]; [rewrite <- Ropp_mult_distr_r, Rabs_Ropp, Rabs_pos_eq in K; nra|].
      repeat match goal with |- context [if ?d then 0 else ?e] => generalize (if d then 0 else e); intro end.
      replace (1 / sqrt (2 * PI)) with (v * u) by (rewrite Hm; unfold u, v; field; lra). replace (1 / (2 * sqrt PI)) with (u / 2) by (unfold u; field; lra).
      replace (/ (2 * PI)) with (u * u / 2) by (rewrite Hu; field; lra).
      assert (W : v * sqrt 2 = 1) by (unfold v; apply Rinv_l; lra).
      match goal with |- @eq _ ?x ?y => change (@eq R x y) end. match goal with |- ?x = _ => replace x with (v * v * (u * u) - v * v * (u * u) * (v * sqrt 2) - u * u / 2) by field end. rewrite W. field.
    + unfold galerkin, quadrature, phi, rsum, rprod. cbn [grid map length row_major seq flat_map app combine fold_right at_pos nth basis Nat.eqb]. rewrite hermite_1. ring.
Qed.
