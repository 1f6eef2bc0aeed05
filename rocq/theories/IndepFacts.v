(** The products of Hermite polynomials and Fourier functions are linearly independent. *)
From Coq Require Import List Bool Arith ZArith Reals Lia Lra.
From Verif Require Import Base IndexModel Spec Num Fnum LinModel LinSpec CalcModel CalcSpec CalcHermite CalcReal CalcTriple CalcFourierQuad CalcQuad CalcInt LinBase Facts2 Facts6 TripleFacts TripleFacts2.
Import ListNotations.
Local Open Scope R_scope.

Lemma sumn_extend : forall N M (f : nat -> R), (N <= M)%nat -> sumn M (fun k => if (k <? N)%nat then f k else 0) = sumn N f.
Proof.
  intros N M f. induction M as [|M IH]; intros H; [replace N with 0%nat by lia; reflexivity|]. destruct (Nat.eq_dec N (S M)) as [->|Ne].
  - apply sumn_ext. intros k Hk. destruct (Nat.ltb_spec k (S M)); [reflexivity|lia].
  - rewrite sumn_S, IH by lia. destruct (Nat.ltb_spec M N); [lia|ring].
Qed.

Lemma basis_independent : forall flag N (a : nat -> R), (forall x, sumn N (fun k => a k * basis flag k x) = 0) -> forall k, (k < N)%nat -> a k = 0.
Proof.
  intros flag N a H k Hk. unfold basis in H. destruct (flag =? 1)%nat; [|exact (hermite_independent N a H k Hk)].
  pose proof (fourier_coefficient (2 * N + 1) N (fun k => if (k <? N)%nat then a k else 0) (fun _ => 0) k ltac:(lia)) as P. cbn beta in P.
  rewrite (sumn_0 (2 * N + 1) (fun q => 2 * PI / INR (2 * N + 1) * (0 * fourier k (fnode (2 * N + 1) q)))) in P by (intros; ring). destruct (Nat.ltb_spec k N); [|lia]. apply P; [|lia].
  intros x. refine (eq_trans (eq_sym (H x)) _). rewrite <- (sumn_extend N (2 * N + 1)) by lia. apply sumn_ext. intros j _. cbn beta. destruct (Nat.ltb_spec j N); [reflexivity|symmetry; apply Rmult_0_l].
Qed.

Lemma NoDup_tails : forall k (L : list (list nat)), NoDup L -> Forall (fun m => m <> []) L -> NoDup (map (@tl nat) (filter (fun m => hd 0%nat m =? k)%nat L)).
Proof.
  intros k L ND NE. induction ND as [|m L Hm ND IH]; cbn [filter]; [constructor|]. inversion NE as [|? ? N0 NE']; subst. destruct (Nat.eqb_spec (hd 0%nat m) k) as [E|_]; [|exact (IH NE')].
  cbn [map]. constructor; [|exact (IH NE')]. intros H. apply in_map_iff in H as (m' & T & I). apply filter_In in I as (I & E'). apply Nat.eqb_eq in E'. rewrite Forall_forall in NE'. specialize (NE' m' I).
  destruct m as [|a m]; [congruence|]. destruct m' as [|a' m']; [congruence|]. cbn in *. subst. contradiction.
Qed.

Lemma rsum_filter : forall A (p : A -> bool) (f : A -> R) l, rsum (map (fun x => if p x then f x else 0) l) = rsum (map f (filter p l)).
Proof. intros A p f l. induction l as [|x l IH]; [reflexivity|]. cbn [map filter]. rewrite rsum_cons, IH. destruct (p x); cbn [map]; rewrite ?rsum_cons; ring. Qed.

Lemma phi_independent : forall flags L (a : list nat -> R), NoDup L -> Forall (fun m => length m = length flags) L ->
  (forall x, length x = length flags -> rsum (map (fun m => a m * phi flags m x) L) = 0) -> forall m, In m L -> a m = 0.
Proof.
  induction flags as [|f flags IH]; intros L a ND LN H m Hm.
  - pose proof (H [] eq_refl) as P. rewrite (rsum_single _ _ L m ND Hm) in P.
    + unfold phi, rprod in P. cbn [combine map fold_right] in P. lra.
    + intros x Hx Nx. exfalso. apply Nx. rewrite Forall_forall in LN. pose proof (LN x Hx) as A. pose proof (LN m Hm) as B. destruct x, m; try discriminate; reflexivity.
  - assert (NE : Forall (fun m => m <> []) L) by (eapply Forall_impl; [|exact LN]; cbn beta; intros z Hz ->; discriminate Hz).
    pose proof (proj1 (Forall_forall _ _) LN m Hm) as Lm. cbn beta in Lm. destruct m as [|k0 m0]; [discriminate Lm|].
    set (N := S (list_max (map (hd 0%nat) L))).
    assert (HN : forall m, In m L -> (hd 0%nat m < N)%nat).
    { intros z Hz. pose proof (proj1 (list_max_le (map (hd 0%nat) L) (list_max (map (hd 0%nat) L))) (le_n _)) as Q. rewrite Forall_forall in Q. specialize (Q (hd 0%nat z) (in_map _ _ _ Hz)). unfold N. lia. }
    apply (IH (map (@tl nat) (filter (fun m => hd 0%nat m =? k0)%nat L)) (fun m' => a (k0 :: m'))).
    + apply NoDup_tails; assumption.
    + apply Forall_forall. intros z Hz. apply in_map_iff in Hz as (y & <- & I). apply filter_In in I as (I & _). rewrite Forall_forall in LN. specialize (LN y I). destruct y; [discriminate LN|]. cbn in LN |- *. lia.
    + intros x' Hx'.
      pose proof (basis_independent f N (fun k => rsum (map (fun m => if (hd 0%nat m =? k)%nat then a m * phi flags (tl m) x' else 0) L))) as B. cbn beta in B.
      rewrite map_map. transitivity (rsum (map (fun m => if (hd 0%nat m =? k0)%nat then a m * phi flags (tl m) x' else 0) L)).
      * rewrite rsum_filter. apply rsum_map_ext. intros y Hy. apply filter_In in Hy as (I & E). apply Nat.eqb_eq in E. rewrite Forall_forall in NE. specialize (NE y I). destruct y as [|b y]; [congruence|]. cbn in E |- *. subst b. reflexivity.
      * apply B; [|exact (HN _ Hm)]. intros x. refine (eq_trans _ (H (x :: x') ltac:(cbn; lia))).
        transitivity (rsum (map (fun k => rsum (map (fun m => (if (hd 0%nat m =? k)%nat then a m * phi flags (tl m) x' else 0) * basis f k x) L)) (seq 0 N))).
        { apply rsum_map_ext. intros k _. rewrite rsum_map_mult_r. reflexivity. }
        rewrite rsum_swap. apply rsum_map_ext. intros y Hy. rewrite (rsum_single _ _ (seq 0 N) (hd 0%nat y) (seq_NoDup _ _)).
        { rewrite Nat.eqb_refl. rewrite Forall_forall in NE. specialize (NE y Hy). destruct y as [|b y]; [congruence|]. cbn [hd tl]. unfold phi, rprod. cbn [combine map fold_right]. ring. }
        { apply in_seq. pose proof (HN y Hy). lia. }
        { intros k _ Hk. destruct (Nat.eqb_spec (hd 0%nat y) k); [congruence|ring]. }
    + apply in_map_iff. exists (k0 :: m0). split; [reflexivity|]. apply filter_In. split; [exact Hm|apply Nat.eqb_refl].
Qed.

Lemma series_unique : forall s degree flags (c c' : list R), fits s (length flags) degree -> @vec_for num_R s (length flags) degree c -> @vec_for num_R s (length flags) degree c' ->
  (forall x, length x = length flags -> series s degree flags c x = series s degree flags c' x) -> c = c'.
Proof.
  intros s degree flags c c' (H1 & H2 & _) V V' H. assert (LN : forall m, In m (points s (length flags) degree) -> length m = length flags) by (intros m Hm; apply (points_In_ok s (length flags) degree m H1 H2) in Hm as [Hl _]; exact Hl). pose proof (points_NoDup_ok s (length flags) degree H1 H2) as ND.
  apply (value_ext R 0 (points s (length flags) degree) c c' ND V V'). intros m Hm.
  pose proof (phi_independent flags (points s (length flags) degree) (fun m => @coef num_R s (length flags) degree c m - @coef num_R s (length flags) degree c' m) ND) as P.
  assert (Q : @coef num_R s (length flags) degree c m - @coef num_R s (length flags) degree c' m = 0).
  { apply P; [apply Forall_forall; exact LN| |exact Hm]. intros x Hx. specialize (H x Hx). unfold series in H.
    transitivity (rsum (map (fun m => @coef num_R s (length flags) degree c m * phi flags m x) (points s (length flags) degree)) + (-1) * rsum (map (fun m => @coef num_R s (length flags) degree c' m * phi flags m x) (points s (length flags) degree))); [|rewrite H; ring].
    rewrite <- rsum_map_mult, <- rsum_map_plus. apply rsum_map_ext. intros z _. ring. }
  unfold coef in Q. apply Rminus_diag_uniq. exact Q.
Qed.

(** The grid of one point. *)
Lemma grid_one : forall x : list R, grid (map (fun t => [t]) x) = [repeat 0%nat (length x)].
Proof. intros x. unfold grid. induction x as [|t x IH]; [reflexivity|]. cbn [map length row_major repeat seq flat_map]. cbn [map length] in IH. rewrite IH. reflexivity. Qed.
Lemma at_one : forall x : list R, at_pos (map (fun t => [t]) x) (repeat 0%nat (length x)) = x.
Proof. intros x. unfold at_pos. induction x as [|t x IH]; [reflexivity|]. cbn [map length repeat combine nth]. f_equal. exact IH. Qed.

(** Two vectors of coefficients with the same values on every grid of one point are the same. *)
Lemma backward_injective : forall s degree flags (c c' : list R), fits s (length flags) degree -> flags_ok s degree flags -> @vec_for num_R s (length flags) degree c -> @vec_for num_R s (length flags) degree c' ->
  (forall x weights, length x = length flags -> transform fnum_R s degree c (map (fun t => [t]) x) weights flags false = transform fnum_R s degree c' (map (fun t => [t]) x) weights flags false) -> c = c'.
Proof.
  intros s degree flags c c' F FO V V' H.
  pose proof grid_one as G. pose proof at_one as A.
  apply (series_unique s degree flags c c' F V V').
  intros x Hx. pose proof (H x [] Hx) as E. pose proof (map_length (fun t : R => [t]) x) as L. rewrite Hx in L.
    assert (GF : grid_fits (map (fun t => [t]) x)) by (unfold grid_fits; rewrite G; cbn; lia).
    rewrite !(backward_values s degree (map (fun t => [t]) x) [] flags) in E by (rewrite ?L; (assumption || reflexivity)).
    rewrite G in E. cbn [map] in E. rewrite A in E. injection E as E. exact E.
Qed.
