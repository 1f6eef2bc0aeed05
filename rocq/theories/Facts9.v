(** Concrete grid functions used by the examples of Properties4. *)
From Coq Require Import List Bool Arith ZArith Reals Lra Lia.
From Verif Require Import Base Lists IndexModel Spec IndexSet Num Fnum LinModel LinSpec LinBase CalcModel CalcSpec CalcHermite CalcReal Facts1 Facts2 Facts7.
Import ListNotations.
Local Open Scope R_scope.

Lemma nothing_dropped_crit : forall s degree nodes weights flags input,
  let h := fun m => quadrature nodes weights input (phi flags m) in
  (forall m, In m (points s (length nodes) (2 * degree)) -> h m = 0 \/ / 100 <= h m * h m) ->
  (1 <= length nodes)%nat -> set_ok s (length nodes) (2 * degree) ->
  rsum (map (fun m => h m * h m) (points s (length nodes) (2 * degree))) <= 100 ->
  nothing_dropped s degree nodes weights flags input.
Proof.
  intros s degree nodes weights flags input h H1 Hd Hs H2 m Hm. fold h. destruct (H1 m) as [H|H]; [apply points_In_ok; assumption|left; exact H|right].
  fold h in H. unfold threshold. assert (sqrt (rsum (map (fun m => h m * h m) (points s (length nodes) (2 * degree)))) <= 10).
  { replace 10 with (sqrt (10 * 10)) by (apply sqrt_square; lra). apply sqrt_le_1_alt. lra. }
  assert (Rmax 1 (sqrt (rsum (map (fun m => h m * h m) (points s (length nodes) (2 * degree))))) <= 10) by (apply Rmax_lub; lra).
  assert (0 < / 10 ^ 12 <= / 10). { split; [apply Rinv_0_lt_compat; lra|]. apply Rinv_le_contravar; lra. }
  assert (H' : / 10 <= Rabs (h m)) by (assert (Ha : Rabs (h m) * Rabs (h m) = h m * h m) by (rewrite <- Rabs_mult; apply Rabs_pos_eq, Rle_0_sqr); pose proof (Rabs_pos (h m)); nra). apply Rle_trans with (2 := H'). apply Rle_trans with (/ 10 ^ 12 * 10); [apply Rmult_le_compat_l; lra|]. lra.
Qed.

Lemma hermite_small : forall x, hermite 0 x = 1 /\ hermite 1 x = x /\ hermite 2 x = (x * x - 1) / sqrt 2.
Proof.
  intros x. unfold hermite. cbn [He fact Nat.mul Nat.add]. change (INR 1) with 1. rewrite sqrt_1. replace (INR 2) with 2 by (cbn; lra). split; [lra|]. split; [lra|]. f_equal. ring.
Qed.

(** A function with values a, b at -1, 1 in one direction; the product of two such functions. *)
Lemma gauss2_1d : forall a b, quadrature [[-1; 1]] [[1/2; 1/2]] [a; b] (phi [0]%nat [0]%nat) = (a + b) / 2 /\
  quadrature [[-1; 1]] [[1/2; 1/2]] [a; b] (phi [0]%nat [1]%nat) = (b - a) / 2 /\ quadrature [[-1; 1]] [[1/2; 1/2]] [a; b] (phi [0]%nat [2]%nat) = 0.
Proof.
  intros a b. unfold quadrature, grid, at_pos, phi, basis, rsum, rprod. cbn -[hermite]. rewrite !(proj1 (hermite_small _)), !(proj1 (proj2 (hermite_small _))), !(proj2 (proj2 (hermite_small _))).
  assert (0 < sqrt 2) by (apply sqrt_lt_R0; lra). repeat split; field; lra.
Qed.

Lemma dropped_1d : forall s a b, s = Triangle \/ s = Cube -> 1 <= (a + b) / 2 <= 5 -> 1 <= (b - a) / 2 <= 5 -> nothing_dropped s 1 [[-1; 1]] [[1/2; 1/2]] [0]%nat [a; b].
Proof.
  intros s a b Hs H1 H2. destruct (gauss2_1d a b) as [G0 [G1 G2]].
  assert (Hp : points s 1 2 = [[0]; [1]; [2]]%nat) by (destruct Hs as [-> | ->]; reflexivity).
  apply nothing_dropped_crit.
  - cbn [length]. change (2 * 1)%nat with 2%nat. rewrite Hp. intros m [<-|[<-|[<-|[]]]]; [right; rewrite G0; nra|right; rewrite G1; nra|left; exact G2].
  - cbn; lia.
  - destruct Hs as [-> | ->]; exact I.
  - cbn [length]. change (2 * 1)%nat with 2%nat. rewrite Hp. cbn [map]. rewrite G0, G1, G2. unfold rsum. cbn [fold_right]. nra.
Qed.

Lemma product_2d : forall a b c d, product_values [[-1; 1]; [-1; 1]] [[0]; [1]]%nat [[a; b]; [c; d]] = [a * c; a * d; b * c; b * d].
Proof. intros. unfold product_values, grid, pick, value, rprod. cbn. repeat f_equal; ring. Qed.

Lemma dropped_2d : nothing_dropped Triangle 1 [[-1; 1]; [-1; 1]] [[1/2; 1/2]; [1/2; 1/2]] [0; 0]%nat [2; 4; 6; 12].
Proof.
  assert (G : forall m, quadrature [[-1; 1]; [-1; 1]] [[1/2; 1/2]; [1/2; 1/2]] [2; 4; 6; 12] (phi [0; 0]%nat m) =
    (2 * phi [0; 0]%nat m [-1; -1] + 4 * phi [0; 0]%nat m [-1; 1] + 6 * phi [0; 0]%nat m [1; -1] + 12 * phi [0; 0]%nat m [1; 1]) / 4).
  { intros m. unfold quadrature, grid, at_pos, rsum, rprod. cbn -[phi]. field. }
  assert (P : forall a b x y, phi [0; 0]%nat [a; b] [x; y] = hermite a x * hermite b y) by (intros; unfold phi, basis, rprod; cbn -[hermite]; ring).
  assert (0 < sqrt 2) by (apply sqrt_lt_R0; lra).
  set (h := fun m => quadrature [[-1; 1]; [-1; 1]] [[1/2; 1/2]; [1/2; 1/2]] [2; 4; 6; 12] (phi [0; 0]%nat m)).
  assert (V : h [0; 0]%nat = 6 /\ h [1; 0]%nat = 3 /\ h [0; 1]%nat = 2 /\ h [1; 1]%nat = 1 /\ h [2; 0]%nat = 0 /\ h [0; 2]%nat = 0).
  { unfold h. rewrite !G, !P. rewrite !(proj1 (hermite_small _)), !(proj1 (proj2 (hermite_small _))), !(proj2 (proj2 (hermite_small _))). repeat split; field; lra. }
  destruct V as [V1 [V2 [V3 [V4 [V5 V6]]]]].
  assert (Hp : points Triangle 2 2 = [[0;0]; [0;1]; [1;0]; [0;2]; [1;1]; [2;0]]%nat) by reflexivity.
  apply nothing_dropped_crit; fold h.
  - cbn [length]. change (2 * 1)%nat with 2%nat. rewrite Hp. intros m Hm. change (h m = 0 \/ / 100 <= h m * h m).
    repeat (destruct Hm as [<-|Hm]; [rewrite ?V1, ?V2, ?V3, ?V4, ?V5, ?V6; first [left; lra|right; lra]|]). destruct Hm.
  - cbn; lia.
  - exact I.
  - cbn [length]. change (2 * 1)%nat with 2%nat. rewrite Hp. change (rsum (map (fun m => h m * h m) [[0;0]; [0;1]; [1;0]; [0;2]; [1;1]; [2;0]]%nat) <= 100). cbn [map]. rewrite V1, V2, V3, V4, V5, V6. unfold rsum. cbn [fold_right]. lra.
Qed.

Lemma dropped_cross : nothing_dropped Cross 1 [[0]; [0]] [[1]; [1]] [0; 0]%nat [1].
Proof.
  set (h := fun m => quadrature [[0]; [0]] [[1]; [1]] [1] (phi [0; 0]%nat m)).
  assert (Hh : forall a b, h [a; b] = hermite a 0 * hermite b 0) by (intros; unfold h, quadrature, phi, rsum, rprod; cbn [grid map length row_major seq flat_map app combine fold_right at_pos nth basis Nat.eqb]; ring).
  assert (Hs : 0 < sqrt 2) by (apply sqrt_lt_R0; lra). assert (Hs2 : sqrt 2 * sqrt 2 = 2) by (apply sqrt_sqrt; lra).
  set (v := / sqrt 2). assert (Hv : v * v = / 2) by (unfold v; rewrite <- Rinv_mult, Hs2; reflexivity).
  assert (P : points Cross (length [[0]; [0]]) (2 * 1) = [[0; 0]; [1; 0]; [0; 1]; [1; 1]; [0; 2]; [1; 2]; [2; 0]; [2; 1]]%nat) by (vm_compute; reflexivity).
  apply nothing_dropped_crit.
  - rewrite P. intros m Hm. change (h m = 0 \/ / 100 <= h m * h m).
    repeat (destruct Hm as [<-|Hm]; [rewrite Hh, ?hermite_0, ?hermite_1, ?hermite_2_0; fold v; first [left; lra|right; nra]|]). destruct Hm.
  - cbn; lia.
  - exact I.
  - rewrite P. match goal with |- rsum (map _ ?l) <= _ => change (rsum (map (fun m => h m * h m) l) <= 100) end. cbn [map]. rewrite !rsum_cons. unfold rsum. cbn [fold_right].
    rewrite !Hh, hermite_0, hermite_1, hermite_2_0. fold v. nra.
Qed.

Lemma hermite_4_0 : hermite 4 0 * hermite 4 0 = 3 / 8.
Proof.
  unfold hermite. cbn [He]. replace (INR (fact 4)) with 24 by (cbn; lra). assert (0 < sqrt 24) by (apply sqrt_lt_R0; lra). assert (sqrt 24 * sqrt 24 = 24) by (apply sqrt_sqrt; lra).
  replace (INR 3) with 3 by (cbn; lra). replace (INR 2) with 2 by (cbn; lra). change (INR 1) with 1.
  match goal with |- ?a / _ * _ = _ => transitivity (a * a / (sqrt 24 * sqrt 24)); [field; lra|] end. rewrite H0. lra.
Qed.

Lemma dropped_triangle_fourier : nothing_dropped Triangle 2 [[0]; [0]] [[1]; [1]] [1; 0]%nat [1].
Proof.
  set (h := fun m => quadrature [[0]; [0]] [[1]; [1]] [1] (phi [1; 0]%nat m)).
  assert (Hh : forall a b, h [a; b] = fourier a 0 * hermite b 0) by (intros; unfold h, quadrature, phi, rsum, rprod; cbn [grid map length row_major seq flat_map app combine fold_right at_pos nth basis Nat.eqb]; ring).
  assert (Hs : 0 < sqrt 2) by (apply sqrt_lt_R0; lra). assert (Hs2 : sqrt 2 * sqrt 2 = 2) by (apply sqrt_sqrt; lra).
  pose proof PI_RGT_0 as HPI. pose proof PI_4 as HPI4. assert (HP3 : 3 < PI) by (pose proof PI2_3_2; lra).
  assert (Hp : 0 < sqrt PI) by (apply sqrt_lt_R0; lra). assert (Hp2 : sqrt PI * sqrt PI = PI) by (apply sqrt_sqrt; lra).
  assert (Hm : sqrt (2 * PI) = sqrt 2 * sqrt PI) by (apply sqrt_mult; lra).
  destruct hermite_at_0 as [Z1 [Z3 _]]. pose proof hermite_4_0 as Z4.
  assert (Y1 : fourier 1 0 = 0) by (unfold fourier; cbn [Nat.eqb Nat.even]; rewrite Rmult_0_r, sin_0; field; lra).
  assert (Y2 : fourier 2 0 = / sqrt PI) by (unfold fourier; cbn [Nat.eqb Nat.even]; rewrite Rmult_0_r, cos_0; field; lra).
  assert (Y3 : fourier 3 0 = 0) by (unfold fourier; cbn [Nat.eqb Nat.even]; rewrite Rmult_0_r, sin_0; field; lra).
  assert (Y4 : fourier 4 0 = / sqrt PI) by (unfold fourier; cbn [Nat.eqb Nat.even]; rewrite Rmult_0_r, cos_0; field; lra).
  set (u := / sqrt PI) in *. set (v := / sqrt 2) in *.
  assert (Hu : u * u = / PI) by (unfold u; rewrite <- Rinv_mult, Hp2; reflexivity). assert (Hv : v * v = / 2) by (unfold v; rewrite <- Rinv_mult, Hs2; reflexivity).
  assert (Y0 : fourier 0 0 = v * u) by (unfold fourier; cbn [Nat.eqb]; rewrite Hm; unfold u, v; field; lra).
  assert (HPI' : / 4 <= / PI <= / 3) by (split; apply Rinv_le_contravar; lra).
  assert (H20 : hermite 2 0 = - v) by apply hermite_2_0.
  assert (Sq : forall a b c d : R, a * b * (c * d) = (a * c) * (b * d)) by (intros; ring).
  set (w := hermite 4 0) in *.
  assert (P : points Triangle (length [[0]; [0]]) (2 * 2) = [[0; 0]; [0; 1]; [1; 0]; [0; 2]; [1; 1]; [2; 0]; [0; 3]; [1; 2]; [2; 1]; [3; 0]; [0; 4]; [1; 3]; [2; 2]; [3; 1]; [4; 0]]%nat) by (vm_compute; reflexivity).
  assert (S00 : v * u * (v * u) = / 2 * / PI) by (rewrite Sq, Hv, Hu; reflexivity).
  assert (N : - v * - v = / 2) by (rewrite <- Hv; ring).
  apply nothing_dropped_crit.
  - rewrite P. intros m Hi. change (h m = 0 \/ / 100 <= h m * h m).
    repeat (destruct Hi as [<-|Hi]; [rewrite Hh, ?Y0, ?Y1, ?Y2, ?Y3, ?Y4, ?hermite_0, ?Z1, ?Z3, ?H20; fold w; first [left; lra|right; rewrite Sq, ?S00, ?Hu, ?N, ?Z4; lra]|]). destruct Hi.
  - cbn; lia.
  - exact I.
  - rewrite P. match goal with |- rsum (map _ ?l) <= _ => change (rsum (map (fun m => h m * h m) l) <= 100) end. cbn [map]. rewrite !rsum_cons. unfold rsum. cbn [fold_right].
    rewrite !Hh, Y0, Y1, Y2, Y3, Y4, hermite_0, Z1, Z3, H20. fold w.
    rewrite (Sq (v * u) 1 (v * u) 1), (Sq (v * u) (- v) (v * u) (- v)), (Sq (v * u) w (v * u) w), (Sq u 1 u 1), (Sq u (- v) u (- v)), S00, Hu, N, Z4. lra.
Qed.

Lemma varf_cross_refuted : ~ (forall degree nodes weights flags input, usable Cross (length nodes) degree -> fits Cross (length nodes) (2 * degree) -> grid_fits nodes ->
  flags_ok Cross degree flags -> length flags = length nodes -> rules_match nodes weights -> length input = length (grid nodes) -> nothing_dropped Cross degree nodes weights flags input ->
  exists A, varf fnum_R (calc_mat fnum_R) Cross degree input nodes weights flags = Ok A /\
    forall r c, index_of Cross (length nodes) degree r -> index_of Cross (length nodes) degree c -> @entry num_R Cross (length nodes) degree A r c = galerkin nodes weights flags input r c).
Proof.
  intros H. destruct (H 1%nat [[0]; [0]] [[1]; [1]] [0; 0]%nat [1]) as [A [E V]]; try reflexivity.
  - apply usable_dim4; cbn; lia.
  - apply usable_fits, usable_dim4; cbn; lia.
  - split; [repeat constructor|intros; lia].
  - repeat constructor.
  - exact dropped_cross.
  - destruct varf_cross as [A' [E' [W1 W2]]]. rewrite E in E'. injection E' as <-. specialize (V [1; 1]%nat [1; 1]%nat). rewrite W2 in V.
    assert (X : @entry num_R Cross (length [[0]; [0]]) 1 A [1; 1]%nat [1; 1]%nat = 0) by (apply V; (split; [reflexivity|cbn; lia])).
    assert (Y : -1 = 0) by exact (eq_trans (eq_sym W1) X). lra.
Qed.

Lemma varf_triangle_refuted : ~ (forall degree nodes weights flags input, usable Triangle (length nodes) degree -> fits Triangle (length nodes) (2 * degree) -> grid_fits nodes ->
  flags_ok Triangle degree flags -> length flags = length nodes -> rules_match nodes weights -> length input = length (grid nodes) -> nothing_dropped Triangle degree nodes weights flags input ->
  exists A, varf fnum_R (calc_mat fnum_R) Triangle degree input nodes weights flags = Ok A /\
    forall r c, index_of Triangle (length nodes) degree r -> index_of Triangle (length nodes) degree c -> @entry num_R Triangle (length nodes) degree A r c = galerkin nodes weights flags input r c).
Proof.
  intros H. destruct (H 2%nat [[0]; [0]] [[1]; [1]] [1; 0]%nat [1]) as [A [E V]]; try reflexivity.
  - apply usable_dim4; cbn; lia.
  - apply usable_fits, usable_dim4; cbn; lia.
  - split; [constructor; [right; split; reflexivity|constructor; [left; lia|constructor]]|intros [|]; discriminate].
  - repeat constructor.
  - exact dropped_triangle_fourier.
  - destruct varf_triangle_fourier as [A' [E' [W1 W2]]]. rewrite E in E'. injection E' as <-. specialize (V [1; 1]%nat [1; 1]%nat). rewrite W2 in V.
    assert (X : @entry num_R Triangle (length [[0]; [0]]) 2 A [1; 1]%nat [1; 1]%nat = 0) by (apply V; (split; [reflexivity|cbn; lia])).
    assert (Y : - / (2 * PI) = 0) by exact (eq_trans (eq_sym W1) X). pose proof PI_RGT_0. assert (0 < / (2 * PI)) by (apply Rinv_0_lt_compat; lra). lra.
Qed.
