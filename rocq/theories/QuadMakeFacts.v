(** The constructors of Quad. *)
From Coq Require Import String List Bool Arith ZArith Lia Permutation Reals Lra.
From Verif Require Import Base Lists IndexModel Spec Grid Num LinModel LinSpec LinBase MatBase PyBase PosModel PosSpec PosFacts SeriesModel SeriesSpec PartModel PartSpec
  SplitModel SplitSpec MulModel MulSpec Fnum CalcModel CalcSpec CalcReal CalcHermite CalcQuad CalcVarf2 CalcTensor QuadModel CalcFourierQuad Facts6 Facts7 PyQuadModel PyQuadSpec PyQuadFacts PyQuadFacts2 TensQuadFacts3 QuadIntModel QuadIntSpec QuadIntFacts QuadMakeModel QuadMakeSpec GaussFacts TensQuadFacts.
Import ListNotations.
Local Open Scope string_scope. Local Open Scope list_scope. Local Open Scope nat_scope.

Lemma mapM_repeat : forall A B (f : A -> res B) x y n, f x = Ok y -> mapM f (repeat x n) = Ok (repeat y n).
Proof. intros A B f x y n H. induction n as [|n IH]; [reflexivity|]. cbn [repeat mapM]. rewrite H. cbn [bind]. rewrite IH. reflexivity. Qed.
Lemma map_repeat' : forall A B (f : A -> B) x n, map f (repeat x n) = repeat (f x) n.
Proof. intros. induction n; cbn [repeat map]; congruence. Qed.
Lemma same_lengths_repeat : forall (F : fnum) (row : list F) n, same_lengths F (repeat row n) = true.
Proof. intros F row n. unfold same_lengths. apply forallb_forall. intros r H. apply repeat_spec in H as H'. subst r. destruct n; [destruct H|]. cbn [repeat hd]. apply Nat.eqb_refl. Qed.

Lemma row_major_repeat : forall n dim p, In p (row_major (repeat n dim)) <-> length p = dim /\ Forall (fun k => k < n) p.
Proof.
  intros n dim p. rewrite row_major_glist, in_glist. revert p. induction dim as [|dim IH]; intros p; cbn [repeat].
  - split; [intros H; inversion H; split; [reflexivity|constructor]|]. intros [H _]. destruct p; [constructor|discriminate H].
  - split.
    + intros H. inversion H as [|k ? p' ? Hk Hp]; subst. apply IH in Hp as [L1 L2]. split; [cbn; lia|constructor; [lia|exact L2]].
    + intros [L1 L2]. destruct p as [|k p]; [discriminate L1|]. inversion L2; subst. constructor; [lia|]. apply IH. split; [cbn in L1; lia|assumption].
Qed.

Lemma fourier_unfold : forall (F : fnum) far E free_vars n_points bounds dirs n (B : list (F * F)) D (factor : E), fourier_arguments n_points bounds dirs n B D -> n <> 0 ->
  quad_fourier F far E free_vars n_points bounds None factor dirs =
    (position <- position_init F far (Some (length D)) (Some (map (fun '(lo, hi) => nadd (fdiv lo (fofZ 2)) (fdiv hi (fofZ 2))) B))
       (Some (diag_mat F (map (fun '(lo, hi) => let r := fdiv (nsub hi lo) (two_pi F) in nmul r r) B))) (Some D) (Some (repeat "fourier" (length D))) ;;
     quad_new F far E free_vars (repeat (fourier_nodes F n) (length D)) (repeat (fourier_weights F n) (length D)) (Some position) factor None None None None).
Proof.
  intros F far E free_vars n_points bounds dirs n B D factor (A1 & A2 & A3 & A4) Hn. set (dim := length D) in *.
  assert (Hdim : match dirs, bounds, n_points with Some d, _, _ => length d | None, Some b, _ => length b | None, None, Each ns => length ns | None, None, One _ => 1 end = dim).
  { destruct A2 as [->|[-> E2]]; [reflexivity|]. destruct A1 as [->|[-> E1]]; [exact A3|]. destruct A4 as [->|[-> [C|[C|C]]]]; [apply repeat_length|contradiction|contradiction|symmetry; exact C]. }
  assert (HB' : match bounds with Some b => b | None => repeat (nopp fpi, fpi) dim end = B) by (destruct A1 as [->|[-> ->]]; reflexivity).
  assert (HD' : match dirs with Some d => d | None => seq 0 dim end = D) by (destruct A2 as [->|[-> E2]]; [reflexivity|]; rewrite <- A3; symmetry; exact E2).
  assert (Hns : match n_points with One n => repeat n dim | Each ns => ns end = repeat n dim) by (destruct A4 as [->|[-> _]]; reflexivity).
  unfold quad_fourier. rewrite Hdim, HB', HD', Hns. rewrite A3. fold dim. rewrite Nat.eqb_refl. cbn [andb require bind].
  match goal with |- bind ?x _ = _ => destruct x as [pos| | | |] end; try reflexivity. cbn [bind]. rewrite repeat_length, Nat.eqb_refl. cbn [require bind].
  match goal with |- bind (mapM ?f _) _ = _ => rewrite (mapM_repeat _ _ f n (fourier_nodes F n, fourier_weights F n) dim) end.
  2:{ destruct (Nat.eqb_spec n 0); [contradiction|reflexivity]. }
  cbn [bind]. rewrite !map_repeat'. reflexivity.
Qed.

Section Make.
Variable far : list (list R) -> bool.
Hypothesis far_ok : forall l, far (diag_mat fnum_R l) = false.
Variable E : Type.
Variable free_vars : E -> list nat.
Variable hermegauss : nat -> list R * list R.
Notation quad := (quad fnum_R E).
Notation new := (quad_new fnum_R far E free_vars).

(** A quadrature with the same rule in each direction. *)
Lemma new_ok : forall D ms vs ts xs ws n factor, increasing D -> D <> [] -> length ms = length D -> length vs = length D -> length ts = length D -> length xs = n -> length ws = n ->
  Forall (fun v => 0 < v)%R vs -> (Z.of_nat (n ^ length D) < 2 ^ 32)%Z -> incl (free_vars factor) D ->
  let pos := Pos (N := fnum_R) D ms (diag_mat fnum_R vs) ts true in
  let q := Qd (F := fnum_R) (repeat xs (length D)) (repeat ws (length D)) pos (Fn factor D) in
  function_init E free_vars factor D = Ok (Fn factor D) /\ new (repeat xs (length D)) (repeat ws (length D)) (Some pos) factor None None None None = Ok q /\ quad_ok q /\ quad_R q vs /\ rules_match (q_nodes q) (q_weights q) /\
  (forall p, In p (grid (q_nodes q)) <-> length p = length D /\ Forall (fun k => k < n) p).
Proof.
  intros D ms vs ts xs ws n factor HD H0 L1 L2 L3 L4 L5 Hv Hn Hf pos q.
  assert (HF : function_init E free_vars factor D = Ok (Fn factor D)).
  { unfold function_init. rewrite py_sorted_id by (apply increasing_sorted; exact HD). rewrite (proj2 (nats_eqb_eq _ _) eq_refl). cbn [require bind].
    assert (S : subset (free_vars factor) D = true) by (apply forallb_forall; intros d Hd; apply py_in_iff; apply Hf; exact Hd). rewrite S. reflexivity. }
  assert (HND : NoDup D) by (apply increasing_NoDup; exact HD).
  assert (Hrep : forall row : list R, Forall (fun r => length r = length row) (repeat row (length D))) by (intros row; apply Forall_forall; intros r Hr; apply repeat_spec in Hr; subst; reflexivity).
  split; [exact HF|]. split; [unfold quad_new; rewrite !same_lengths_repeat; cbn [require andb bind p_dirs pos]; rewrite HF; reflexivity|].
  split; [|split; [|split]].
  - split; [apply (Pos_ok fnum_R); assumption|]. split; [exact HD|]. cbn [q_nodes q_weights q_pos q_factor p_dirs q pos]. split; [apply repeat_length|]. split; [apply repeat_length|]. split; [exists (length xs); apply Hrep|]. split; [exists (length ws); apply Hrep|reflexivity].
  - split; [|cbn [q_nodes q_weights q_pos q_factor p_dirs q pos]; split; [rewrite repeat_length; symmetry; exact L2|split]].
    + unfold gaussian. cbn [q_pos p_cov p_dirs p_mean p_types q pos]. split; [reflexivity|]. split; [exact Hv|]. repeat split; congruence.
    + destruct D; [contradiction|discriminate].
    + unfold grid_fits. rewrite (grid_count (length xs)) by apply Hrep. rewrite repeat_length, L4. exact Hn.
  - cbn [q_nodes q_weights q]. unfold rules_match. generalize (length D). intros d. induction d as [|d IH]; cbn [repeat]; [exact (Forall2_nil _)|refine (Forall2_cons _ _ _ IH); exact (eq_trans L4 (eq_sym L5))].
  - intros p. cbn [q_nodes q]. unfold grid. rewrite map_repeat'. match goal with |- In _ (row_major (repeat ?x _)) <-> _ => change x with (@length (carrier fnum_R) xs) end. rewrite L4. apply row_major_repeat.
Qed.

(** * Quad.fourier *)
Notation fourier := (quad_fourier fnum_R far E free_vars).

Definition half_sum (b : R * R) : R := (fst b / 2 + snd b / 2)%R.
Definition scale2 (b : R * R) : R := ((snd b - fst b) / (2 * PI) * ((snd b - fst b) / (2 * PI)))%R.

Lemma sqrt_scale2 : forall b, (fst b < snd b)%R -> sqrt (scale2 b) = ((snd b - fst b) / (2 * PI))%R.
Proof.
  intros b H. unfold scale2. apply sqrt_square. apply Rlt_le, Rdiv_lt_0_compat; [lra|]. pose proof PI_RGT_0. lra.
Qed.

Lemma at_pos_repeat : forall (xs : list R) dim p, length p = dim -> at_pos (repeat xs dim) p = map (fun k => nth k xs 0%R) p.
Proof.
  intros xs dim p <-. unfold at_pos. induction p as [|k p IH]; [reflexivity|]. cbn [length repeat combine map]. f_equal. exact IH.
Qed.

Lemma fnode_located : forall b n k, (fst b < snd b)%R -> k < n -> (half_sum b + sqrt (scale2 b) * nth k (fourier_nodes fnum_R n) 0 = fst b + (snd b - fst b) * INR k / INR n)%R.
Proof.
  intros b n k H Hk. rewrite sqrt_scale2 by exact H. rewrite fourier_nodes_R. assert (G : nth k (map (fnode n) (seq 0 n)) 0%R = fnode n k).
  { rewrite (nth_indep _ _ (fnode n 0)) by (rewrite map_length, seq_length; exact Hk). rewrite map_nth, seq_nth by exact Hk. reflexivity. }
  match goal with |- (_ + _ * ?z = _)%R => replace z with (fnode n k) by (symmetry; exact G) end. unfold half_sum, fnode. pose proof PI_RGT_0. assert (INR n <> 0)%R by (apply not_0_INR; lia). field. split; lra.
Qed.

Theorem fourier_made : forall n_points bounds dirs n B D factor, fourier_arguments (F := fnum_R) n_points bounds dirs n B D -> D <> [] -> increasing D -> Forall (fun b => fst b < snd b)%R B -> 0 < n -> (Z.of_nat (n ^ length D) < 2 ^ 32)%Z -> incl (free_vars factor) D ->
  exists q vars, fourier n_points bounds None factor dirs = Ok q /\ quad_ok q /\ quad_R q vars /\ all_fourier q /\ rules_match (q_nodes q) (q_weights q) /\ p_dirs (q_pos q) = D /\ q_factor q = Fn factor D /\
    (forall p, In p (grid (q_nodes q)) <-> length p = length D /\ Forall (fun k => k < n) p) /\
    (forall p, In p (grid (q_nodes q)) -> grid_point q vars p = box_point n B p /\ rprod (at_pos (q_weights q) p) = ((2 * PI / INR n) ^ length D)%R) /\
    (forall degree, Nat.even degree = true -> degree < n -> exact_rules degree (kinds (p_types (q_pos q))) (q_nodes q) (q_weights q)).
Proof using far_ok.
  intros n_points bounds dirs n B D factor HA H0 HD HB Hn Hfit Hf. pose proof HA as (_ & _ & A3 & _). assert (Hn0 : n <> 0) by lia. set (dim := length D) in *.
  set (vs := map scale2 B). set (ms := map half_sum B).
  assert (Lx : length (fourier_nodes fnum_R n) = n) by (rewrite fourier_nodes_R, map_length, seq_length; reflexivity).
  assert (Lw : length (fourier_weights fnum_R n) = n) by (rewrite fourier_weights_R, map_length, seq_length; reflexivity).
  assert (Hv : Forall (fun v => 0 < v)%R vs).
  { apply Forall_forall. intros v Hv. apply in_map_iff in Hv as (b & <- & Hb). rewrite Forall_forall in HB. specialize (HB b Hb). unfold scale2. pose proof PI_RGT_0. apply Rmult_lt_0_compat; apply Rdiv_lt_0_compat; lra. }
  destruct (new_ok D ms vs (repeat "fourier" dim) (fourier_nodes fnum_R n) (fourier_weights fnum_R n) n factor HD H0) as (N1 & N2 & N3 & N4 & N5 & N6); try assumption.
  { unfold ms. rewrite map_length. exact A3. } { unfold vs. rewrite map_length. exact A3. } { apply repeat_length. }
  eexists; exists vs. split; [|split; [exact N3|split; [exact N4|]]].
  { rewrite (fourier_unfold fnum_R far E free_vars _ _ _ _ _ _ factor HA Hn0). fold dim.
    assert (M1 : map (fun '(lo, hi) => nadd (fdiv lo (fofZ 2)) (fdiv hi (fofZ 2))) B = ms :> list fnum_R) by (apply map_ext; intros (lo, hi); reflexivity).
    assert (M2 : map (fun '(lo, hi) => let r := fdiv (nsub hi lo) (two_pi fnum_R) in nmul r r) B = vs :> list fnum_R) by (apply map_ext; intros (lo, hi); reflexivity).
    match goal with |- bind (position_init _ _ _ (Some ?a) (Some (diag_mat _ ?b)) _ _) _ = _ => replace a with ms by (symmetry; exact M1); replace b with vs by (symmetry; exact M2) end.
    match goal with |- bind ?x _ = _ => assert (G : x = Ok (Pos (N := fnum_R) D ms (diag_mat fnum_R vs) (repeat "fourier" dim) true)) end.
    { apply (position_init_full fnum_R far far_ok (Some dim) ms vs (repeat "fourier" dim) D); [unfold ms; rewrite map_length; exact A3|unfold vs; rewrite map_length; exact A3|apply repeat_length|right; reflexivity]. }
    rewrite G. cbn [bind]. exact N2. }
  cbn [q_nodes q_weights q_pos q_factor p_dirs p_types]. split; [|split; [exact N5|split; [reflexivity|split; [reflexivity|split; [exact N6|split]]]]].
  - unfold all_fourier. cbn [q_pos p_types]. apply Forall_forall. intros t Ht. apply repeat_spec in Ht. exact Ht.
  - intros p Hp. apply N6 in Hp as [P1 P2]. unfold grid_point. cbn [q_pos p_mean q_nodes]. rewrite !at_pos_repeat by exact P1. split.
    + unfold located, box_point, ms, vs. assert (LB : length B = length p) by exact (eq_trans A3 (eq_sym P1)). clear - LB P2 HB. revert p LB P2. induction HB as [|(lo, hi) B Hb HB IH]; intros [|k p] LB P2; try discriminate LB; [reflexivity|]. inversion P2; subst.
      cbn [map combine]. f_equal; [exact (fnode_located (lo, hi) n k Hb H1)|]. apply IH; [injection LB as LB; exact LB|assumption].
    + unfold dim. rewrite <- P1. clear - P2. induction P2 as [|k p Hk P2 IH]; [reflexivity|]. cbn [map length pow]. rewrite <- IH. change (rprod (?a :: ?l)) with (a * rprod l)%R. f_equal.
      rewrite fourier_weights_R. etransitivity; [apply (nth_indep _ 0%R (2 * PI / INR n)%R); rewrite map_length, seq_length; exact Hk|]. exact (map_nth (fun _ => (2 * PI / INR n)%R) (seq 0 n) 0 k).
  - intros degree He Hd. split; [unfold kinds; rewrite map_length, !repeat_length; reflexivity|]. split; [rewrite !repeat_length; reflexivity|]. intros k Hk. rewrite repeat_length in Hk.
    assert (K : nth k (kinds (repeat "fourier" dim)) 0 = 1).
    { unfold kinds. rewrite map_repeat'. cbn [String.eqb Ascii.eqb Bool.eqb]. apply nth_error_nth, nth_error_repeat. exact Hk. }
    rewrite K. rewrite !(nth_error_nth _ _ _ (nth_error_repeat _ Hk)). apply fourier_exact; assumption.
Qed.

(** With a position, and an int as number of points: one list of nodes, whatever the position. *)
Theorem fourier_position : forall n p factor, 0 < n -> increasing (p_dirs p) -> incl (free_vars factor) (p_dirs p) ->
  exists q, fourier (One n) None (Some p) factor None = Ok q /\ q_pos q = p /\ length (q_nodes q) = 1.
Proof.
  intros n p factor Hn HD Hf. assert (HF : function_init E free_vars factor (p_dirs p) = Ok (Fn factor (p_dirs p))).
  { unfold function_init. rewrite py_sorted_id by (apply increasing_sorted; exact HD). rewrite (proj2 (nats_eqb_eq _ _) eq_refl). cbn [require bind].
    assert (S : subset (free_vars factor) (p_dirs p) = true) by (apply forallb_forall; intros d Hd; apply py_in_iff; apply Hf; exact Hd). rewrite S. reflexivity. }
  unfold quad_fourier. cbn [bind length repeat Nat.eqb require mapM]. destruct (Nat.eqb_spec n 0) as [C|C]; [lia|]. cbn [negb require bind map fst snd]. unfold quad_new, same_lengths. cbn [forallb hd]. rewrite !Nat.eqb_refl. cbn [andb require bind]. rewrite HF. cbn [bind].
  eexists. split; [reflexivity|]. split; reflexivity.
Qed.
(** With a list of numbers of points, one list of nodes for each. *)
Lemma same_lengths_map : forall A (g : A -> list R) l, (exists a b, In a l /\ In b l /\ length (g a) <> length (g b)) -> same_lengths fnum_R (map g l) = false.
Proof.
  intros A g l (a & b & Ha & Hb & Hab). apply not_true_iff_false. intros H. unfold same_lengths in H. rewrite forallb_forall in H. apply Hab.
  pose proof (H _ (in_map g _ _ Ha)) as G1. pose proof (H _ (in_map g _ _ Hb)) as G2. apply Nat.eqb_eq in G1, G2. exact (eq_trans G1 (eq_sym G2)).
Qed.

Theorem fourier_ragged : forall ns factor a b, Forall (fun n => 0 < n) ns -> In a ns -> In b ns -> a <> b -> fourier (Each ns) None None factor None = Throw "ValueError".
Proof using far_ok.
  intros ns factor a b Hp Ha Hb Hab. unfold quad_fourier. rewrite repeat_length, seq_length, !Nat.eqb_refl. cbn [andb require bind].
  rewrite map_repeat'. rewrite (map_repeat' _ _ (fun '(lo, hi) => let r := fdiv (nsub hi lo) (two_pi fnum_R) in nmul r r)).
  match goal with |- bind (position_init _ _ _ (Some ?m) (Some (diag_mat _ ?v)) _ _) _ = _ => rewrite (position_init_full fnum_R far far_ok (Some (length ns)) m v) end;
    [|rewrite repeat_length, seq_length; reflexivity|rewrite repeat_length, seq_length; reflexivity|rewrite repeat_length, seq_length; reflexivity|rewrite seq_length; right; reflexivity].
  cbn [bind].
  assert (M : mapM (fun n => _ <- require (negb (n =? 0)) "ZeroDivisionError" ;; Ok (fourier_nodes fnum_R n, fourier_weights fnum_R n)) ns = Ok (map (fun n => (fourier_nodes fnum_R n, fourier_weights fnum_R n)) ns)).
  { clear - Hp. induction Hp as [|n ns Hn Hp IH]; [reflexivity|]. cbn [mapM]. destruct (Nat.eqb_spec n 0); [lia|]. cbn [negb require bind]. rewrite IH. reflexivity. }
  rewrite M. cbn [bind]. rewrite map_map. cbn [fst]. unfold quad_new. rewrite (same_lengths_map nat (fun n => fourier_nodes fnum_R n)); [reflexivity|].
  exists a, b. rewrite !fourier_nodes_R, !map_length, !seq_length. auto.
Qed.

Theorem fourier_lengths : forall n_points B D factor, length B <> length D -> fourier n_points (Some B) None factor (Some D) = Throw "ValueError".
Proof.
  intros n_points B D factor H. unfold quad_fourier. destruct (Nat.eqb_spec (length D) (length B)) as [C|C]; [exfalso; apply H; symmetry; exact C|]. reflexivity.
Qed.
Theorem fourier_counts : forall ns p factor D, length ns <> length D -> fourier (Each ns) None (Some p) factor (Some D) = Throw "AssertionError".
Proof.
  intros ns p factor D H. unfold quad_fourier. cbn [bind]. destruct (Nat.eqb_spec (length D) (length ns)) as [C|C]; [exfalso; apply H; symmetry; exact C|]. reflexivity.
Qed.

(** * Quad.gauss_hermite *)
Notation gauss := (gauss_hermite fnum_R far E free_vars hermegauss).

Lemma position_init_default : forall D (mean : option (list R)) cov ms vs dirs, gauss_position (F := fnum_R) mean cov ms vs (length D) -> dirs = Some D \/ dirs = None /\ D = seq 0 (length D) ->
  position_init fnum_R far (Some (length D)) mean cov dirs None = Ok (Pos (N := fnum_R) D ms (diag_mat fnum_R vs) (repeat "hermite" (length D)) true) /\ length ms = length D /\ length vs = length D.
Proof using far_ok.
  intros D mean cov ms vs dirs (Hm & Hc) Hd.
  assert (L1 : length ms = length D) by (destruct Hm as [[_ Hm]|[_ ->]]; [exact Hm|apply repeat_length]). assert (L2 : length vs = length D) by (destruct Hc as [[_ Hc]|[_ ->]]; [exact Hc|apply repeat_length]).
  split; [|split; assumption]. rewrite <- (position_init_full fnum_R far far_ok (Some (length D)) ms vs (repeat "hermite" (length D)) D L1 L2 (repeat_length _ _) (or_intror eq_refl)).
  pose proof (diag_mat_wf fnum_R vs) as [L3 _]. pose proof (eq_trans L3 L2) as L4.
  destruct Hm as [[-> _]|[-> ->]], Hc as [[-> _]|[-> ->]], Hd as [->|[-> Hd]]; unfold position_init; cbn [option_map agrees bind]; rewrite ?L1, ?L4, ?L2, ?repeat_length, ?Nat.eqb_refl; cbn [andb require bind]; rewrite <- ?Hd; reflexivity.
Qed.
Definition normalised (ws : list R) : list R := map (fun w => w / sqrt (2 * PI))%R ws.
Lemma rules_nd : forall n dim, 0 < n -> hermegauss_nd fnum_R hermegauss (repeat n dim) = Ok (repeat (fst (hermegauss n)) dim, repeat (normalised (snd (hermegauss n))) dim).
Proof.
  intros n dim Hn. unfold hermegauss_nd. match goal with |- bind (mapM ?f _) _ = _ => rewrite (mapM_repeat _ _ f n (fst (hermegauss n), normalised (snd (hermegauss n))) dim) end; [cbn [bind]; rewrite !map_repeat'; reflexivity|].
  destruct (Nat.ltb_spec 0 n); [|lia]. cbn [require bind]. destruct (hermegauss n) as (xs, ws). reflexivity.
Qed.
Lemma np_full_same : forall n dim n_points, n_points = One n \/ n_points = Each (repeat n dim) -> np_full dim n_points = Ok (repeat n dim).
Proof.
  intros n dim n_points [->| ->]; [reflexivity|]. unfold np_full. destruct dim as [|[|dim]]; [reflexivity|reflexivity|]. cbn [repeat]. change (n :: n :: repeat n dim) with (repeat n (S (S dim))). rewrite repeat_length, Nat.eqb_refl. reflexivity.
Qed.

Theorem gauss_made : forall n_points dim dirs mean cov n D (ms vs : list R) factor, gauss_arguments n_points dim dirs n D -> gauss_position (F := fnum_R) mean cov ms vs (length D) -> D <> [] -> increasing D ->
  Forall (fun v => 0 < v)%R vs -> 0 < n -> gauss_rule n (hermegauss n) -> (Z.of_nat (n ^ length D) < 2 ^ 32)%Z -> incl (free_vars factor) D ->
  exists q, gauss n_points dim dirs None factor mean cov None = Ok q /\ quad_ok q /\ quad_R q vs /\ Forall (fun t => t = "hermite") (p_types (q_pos q)) /\ rules_match (q_nodes q) (q_weights q) /\ p_dirs (q_pos q) = D /\ p_mean (q_pos q) = ms /\ q_factor q = Fn factor D /\
    (forall degree, degree < n -> exact_rules degree (kinds (p_types (q_pos q))) (q_nodes q) (q_weights q)).
Proof using far_ok.
  intros n_points dim dirs mean cov n D ms vs factor (A1 & A2) HP H0 HD Hv Hn Hg Hfit Hf.
  assert (Hd : dirs = Some D \/ dirs = None /\ D = seq 0 (length D)) by (destruct A2 as [A2|(A2 & A3 & _)]; auto).
  destruct (position_init_default D mean cov ms vs dirs HP Hd) as (P1 & P2 & P3). pose proof Hg as (G1 & G2 & _).
  destruct (new_ok D ms vs (repeat "hermite" (length D)) (fst (hermegauss n)) (normalised (snd (hermegauss n))) n factor HD H0 P2 P3) as (N1 & N2 & N3 & N4 & N5 & N6); try assumption.
  { apply repeat_length. } { unfold normalised. rewrite map_length. exact G2. }
  eexists. split; [|split; [exact N3|split; [exact N4|]]].
  - unfold gauss_hermite.
    assert (Hns : match match dirs with Some d => Some (length d) | None => dim end, n_points with Some dim, _ => np_full dim n_points | None, One n => Ok [n] | None, Each ns => Ok ns end = Ok (repeat n (length D))).
    { destruct A2 as [->|(-> & A2 & [->|(-> & A3)])]; [apply np_full_same; exact A1|apply np_full_same; exact A1|]. destruct A3 as [->|A3]; [reflexivity|]. destruct A1 as [->| ->]; [rewrite A3|]; reflexivity. }
    rewrite Hns. cbn [bind]. rewrite rules_nd by exact Hn. cbn [bind]. unfold quad_new in N2 |- *. rewrite !same_lengths_repeat in *. cbn [require andb bind] in *. rewrite repeat_length.
    match goal with |- bind ?x _ = _ => replace x with (Ok (Pos (N := fnum_R) D ms (diag_mat fnum_R vs) (repeat "hermite" (length D)) true)) by (symmetry; exact P1) end. exact N2.
  - cbn [q_nodes q_weights q_pos q_factor p_dirs p_types p_mean]. split; [apply Forall_forall; intros t Ht; apply repeat_spec in Ht; exact Ht|]. split; [exact N5|]. split; [reflexivity|]. split; [reflexivity|]. split; [reflexivity|].
    intros degree Hdeg. split; [unfold kinds; rewrite map_length, !repeat_length; reflexivity|]. split; [rewrite !repeat_length; reflexivity|]. intros k Hk. rewrite repeat_length in Hk.
    assert (K : nth k (kinds (repeat "hermite" (length D))) 0 = 0) by (unfold kinds; rewrite map_repeat'; cbn [String.eqb Ascii.eqb Bool.eqb]; apply nth_error_nth, nth_error_repeat; exact Hk).
    rewrite K. rewrite !(nth_error_nth _ _ _ (nth_error_repeat _ Hk)). exact (gauss_exact n (hermegauss n) Hg degree Hdeg).
Qed.

Theorem gauss_ragged : forall ns factor mean cov dirs types a b, Forall (fun n => 0 < n /\ length (fst (hermegauss n)) = n) ns -> In a ns -> In b ns -> a <> b -> match dirs with Some d => length d = length ns | None => True end ->
  gauss (Each ns) None dirs None factor mean cov types = Throw "ValueError".
Proof.
  intros ns factor mean cov dirs types a b Hp Ha Hb Hab Hd. unfold gauss_hermite.
  assert (Hns : match match dirs with Some d => Some (length d) | None => None end with Some dim => np_full dim (Each ns) | None => Ok ns end = Ok ns).
  { destruct dirs as [d|]; [|reflexivity]. unfold np_full. rewrite <- Hd. destruct ns as [|n [|n' ns]]; [destruct Ha| |rewrite Nat.eqb_refl; reflexivity]. rewrite Hd. reflexivity. }
  rewrite Hns. cbn [bind]. unfold hermegauss_nd.
  match goal with |- bind (bind (mapM ?f _) _) _ = _ => assert (M : mapM f ns = Ok (map (fun n => (fst (hermegauss n), normalised (snd (hermegauss n)))) ns)) end.
  { clear - Hp. induction Hp as [|n ns [Hn _] Hp IH]; [reflexivity|]. cbn [mapM]. destruct (Nat.ltb_spec 0 n); [|lia]. cbn [require bind]. rewrite IH. cbn [bind map]. destruct (hermegauss n). reflexivity. }
  rewrite M. cbn [bind]. rewrite map_map. cbn [fst]. unfold quad_new. rewrite (same_lengths_map nat (fun n => fst (hermegauss n))); [reflexivity|].
  exists a, b. rewrite Forall_forall in Hp. destruct (Hp a Ha) as [_ ->]. destruct (Hp b Hb) as [_ ->]. auto.
Qed.
Theorem gauss_zero : forall dim dirs factor mean cov types, match dirs with Some d => length d <> 0 | None => match dim with Some n => n <> 0 | None => True end end -> gauss (One 0) dim dirs None factor mean cov types = Throw "ValueError".
Proof.
  intros dim dirs factor mean cov types H. unfold gauss_hermite. destruct dirs as [d|]; [|destruct dim as [n|]]; try reflexivity; cbn [np_full bind].
  - destruct (length d); [contradiction|reflexivity].
  - destruct n; [contradiction|reflexivity].
Qed.
End Make.

(** Quad.integrate of a quadrature made by Quad.fourier. *)
Section Integral.
Variable far : list (list R) -> bool.
Hypothesis far_ok : forall l, far (diag_mat fnum_R l) = false.
Variable E : Type.
Variable eval : E -> (nat -> R) -> R.
Variable e_mul : E -> E -> E.
Variable e_1 : E.
Variable add_args mul_args : E -> list E.
Variable free_vars : E -> list nat.
Hypothesis OK : sympy_ok (N := fnum_R) eval e_mul e_1 add_args mul_args free_vars.
Hypothesis V : sympy_vars e_mul e_1 add_args mul_args free_vars.
Variable cov_factor : list (list R) -> list (list R).
Variable la_inv : list (list R) -> res (list (list R)).
Variable far8 : list (list R) -> bool.
Variable junk tiny : R.
Hypothesis NP : numpy_ok cov_factor la_inv far8.
Variable density : position fnum_R -> E.
Notation integrate_fun := (quad_integrate_fun fnum_R E e_1 free_vars eval cov_factor junk tiny density).

Theorem fourier_integral : forall n_points bounds dirs n B D factor (f : func E) g flat, fourier_arguments (F := fnum_R) n_points bounds dirs n B D -> D <> [] -> increasing D -> Forall (fun b => fst b < snd b)%R B -> 0 < n -> (Z.of_nat (n ^ length D) < 2 ^ 32)%Z -> incl (free_vars factor) D ->
  f_dirs f = D -> incl (free_vars (f_sym f)) D -> (forall x env, at_point D x env -> eval (f_sym f) env = g x) ->
  exists q, quad_fourier fnum_R far E free_vars n_points bounds None factor dirs = Ok q /\
    integrate_fun q f flat = Ok ((2 * PI / INR n) ^ length D * rsum (map (fun p => g (box_point n B p)) (row_major (repeat n (length D)))))%R.
Proof using far_ok OK V NP.
  intros n_points bounds dirs n B D factor f g flat HA H0 HD HB Hn Hfit Hf Hfd Hff Hg.
  destruct (fourier_made far far_ok E free_vars n_points bounds dirs n B D factor HA H0 HD HB Hn Hfit Hf) as (q & vars & Q1 & Q2 & Q3 & Q4 & Q5 & Q6 & Q7 & Q8 & Q9 & _). exists q. split; [exact Q1|].
  assert (Hg' : grid (q_nodes q) = row_major (repeat n (length D))).
  { unfold grid. f_equal. pose proof Q1 as U. rewrite (fourier_unfold fnum_R far E free_vars _ _ _ _ _ _ factor HA) in U by lia. apply bind_ok in U as (pos & _ & U). unfold quad_new in U. apply bind_ok in U as (? & _ & U). apply bind_ok in U as (? & _ & U). apply bind_ok in U as (? & _ & U). injection U as <-.
    cbn [q_nodes]. rewrite map_repeat'. f_equal. match goal with |- ?x = n => change x with (length (map (fnode n) (seq 0 n))) || idtac end. rewrite fourier_nodes_R, map_length, seq_length. reflexivity. }
  destruct (integrate_function E eval e_mul e_1 add_args mul_args free_vars OK V cov_factor la_inv far8 junk tiny NP density q vars f flat Q3 (proj1 (proj2 Q2)) Q4 Q5) as (values & W1 & W2); [rewrite Q6; exact Hfd|rewrite Q6; exact Hff|].
  rewrite W2. apply f_equal. rewrite (term_sum_values E eval q vars (f_sym f) values Q3 W1). unfold term_sum. rewrite Hg', <- rsum_map_mult. apply rsum_map_ext. intros p Hp. rewrite <- Hg' in Hp. destruct (Q9 p Hp) as [P1 P2]. rewrite P2. f_equal. apply Hg.
  rewrite <- P1, <- Q6. apply env_at_point; [exact Q3|exact Hp].
Qed.
End Integral.
