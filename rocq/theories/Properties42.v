(** Property C108: products of positions and of quadratures. *)
From Coq Require Import String List Bool Arith ZArith Lia.
From Verif Require Import Base Num Fnum LinSpec PyBase PosModel PosSpec PosFacts CalcModel SeriesModel PartModel PartSpec SplitModel SplitSpec SplitFacts MulModel PyQuadModel PyQuadSpec PyQuadFacts Facts6 Facts2 Facts7 AlgModel AlgSpec AlgFacts AlgFacts2.
Import ListNotations.
Local Open Scope string_scope. Local Open Scope list_scope. Local Open Scope nat_scope.

(** Samples: positions and quadratures over the integers. *)
Definition at_z (d : nat) (m v : Z) (t : string) : position num_Z := Pos (N := num_Z) [d] [m] (diag_mat num_Z [v]) [t] true.
Definition pq_z : position num_Z := Pos (N := num_Z) [0; 2] [3; 4]%Z (diag_mat num_Z [1; 2]%Z) ["hermite"; "fourier"] true.
Definition qr_z : position num_Z := Pos (N := num_Z) [2; 5] [4; 6]%Z (diag_mat num_Z [2; 7]%Z) ["fourier"; "hermite"] true.
Definition rule_z (d : nat) (xs ws : list Z) (e : expr) : quad fnum_Z expr := Qd (F := fnum_Z) [xs] [ws] (Pos (N := fnum_Z) [d] [0]%Z (diag_mat fnum_Z [1]%Z) ["hermite"] true) (Fn e [d]).
Notation mul_z := (pos_mul num_Z (fun _ => false)).
Notation quad_mul_z := (quad_mul fnum_Z (fun _ => false) expr EMul (EInt 1) x_free).
Lemma at_z_normal : forall d m v t, normal (at_z d m v t).
Proof. intros d m v t. split; [apply (Pos_ok num_Z); try reflexivity; repeat constructor; intros []|]. split; [repeat constructor|]. exists [v]. reflexivity. Qed.
Lemma pq_z_normal : normal pq_z.
Proof. split; [apply (Pos_ok num_Z); try reflexivity; repeat constructor; cbn; intuition discriminate|]. split; [repeat constructor|]. eexists. reflexivity. Qed.
Lemma qr_z_normal : normal qr_z.
Proof. split; [apply (Pos_ok num_Z); try reflexivity; repeat constructor; cbn; intuition discriminate|]. split; [repeat constructor|]. eexists. reflexivity. Qed.
Lemma rule_z_fine : forall d xs ws e, incl (x_free e) [d] -> quad_fine x_free (rule_z d xs ws e).
Proof.
  intros d xs ws e H. split; [|exact H]. split; [apply (Pos_ok fnum_Z); try reflexivity; repeat constructor; intros []|]. split; [repeat constructor|]. split; [reflexivity|]. split; [reflexivity|]. split; [eexists; repeat constructor|]. split; [eexists; repeat constructor|]. reflexivity.
Qed.

(** C108: the product of two positions that agree where they meet has the directions that belong to one of them only, with their means, variances and types. *)
Theorem C108_product : forall (N : num), num_laws N -> forall far, (forall l, far (diag_mat N l) = false) -> forall p q, pos_ok p -> pos_ok q -> consistent p q -> exists r, pos_mul N far p q = Ok r /\ normal r /\
  (forall d, In d (p_dirs r) <-> (In d (p_dirs p) /\ ~ In d (p_dirs q)) \/ (In d (p_dirs q) /\ ~ In d (p_dirs p))) /\ (forall d m v t, In d (p_dirs r) -> records p d m v t \/ records q d m v t -> records r d m v t).
Proof. exact mul_ok. Qed.
Print Assumptions C108_product.
Example C108_product_example : consistent pq_z qr_z /\ mul_z pq_z qr_z = Ok (Pos (N := num_Z) [0; 5] [3; 6]%Z (diag_mat num_Z [1; 7]%Z) ["hermite"; "hermite"] true).
Proof.
  split; [|vm_compute; reflexivity]. intros d m v t m' v' t' (i & row & A1 & A2 & A3 & A4 & A5) (j & row' & B1 & B2 & B3 & B4 & B5). destruct i as [|[|[|i]]]; try discriminate A1; destruct j as [|[|[|j]]]; try discriminate B1; cbn in *; try congruence.
  injection A3 as <-. injection B3 as <-. cbn in *. split; [congruence|]. split; congruence.
Qed.

(** C108: it does not depend on the order, even when it raises. *)
Theorem C108_commutes : forall (N : num), num_laws N -> forall far, (forall l, far (diag_mat N l) = false) -> forall p q, pos_ok p -> pos_ok q -> pos_mul N far p q = pos_mul N far q p.
Proof. exact mul_comm. Qed.
Print Assumptions C108_commutes.
Example C108_commutes_example : mul_z pq_z (at_z 1 8 9 "hermite") = mul_z (at_z 1 8 9 "hermite") pq_z /\ exists r, mul_z pq_z (at_z 1 8 9 "hermite") = Ok r /\ p_dirs r = [0; 1; 2].
Proof. split; [apply C108_commutes; [exact num_Z_laws|reflexivity|apply pq_z_normal|apply at_z_normal]|]. eexists. split; [vm_compute; reflexivity|reflexivity]. Qed.

(** C108: positions that disagree on the mean or the variance in a common direction raise. *)
Theorem C108_raises : forall (N : num), num_laws N -> forall far, (forall l, far (diag_mat N l) = false) -> forall p q, pos_ok p -> pos_ok q ->
  (exists d m v t m' v' t', records p d m v t /\ records q d m' v' t' /\ (m <> m' \/ v <> v')) -> pos_mul N far p q = Throw "ValueError".
Proof. exact mul_raises. Qed.
Print Assumptions C108_raises.
Example C108_raises_example : mul_z pq_z (at_z 2 4 3 "fourier") = Throw "ValueError".
Proof.
  apply C108_raises; [exact num_Z_laws|reflexivity|apply pq_z_normal|apply at_z_normal|]. exists 2, 4%Z, 2%Z, "fourier", 4%Z, 3%Z, "fourier". split; [exists 1; eexists; repeat split|]. split; [exists 0; eexists; repeat split|]. right. discriminate.
Qed.

(** C108: the position without directions is neutral, and every position is its own inverse: the directions of a square cancel. *)
Theorem C108_neutral : forall (N : num), num_laws N -> forall far, (forall l, far (diag_mat N l) = false) -> forall p, normal p -> pos_mul N far p (nowhere N) = Ok p.
Proof. exact mul_unit. Qed.
Print Assumptions C108_neutral.
Theorem C108_square : forall (N : num), num_laws N -> forall far, (forall l, far (diag_mat N l) = false) -> forall p, pos_ok p -> pos_mul N far p p = Ok (nowhere N).
Proof. exact mul_self. Qed.
Print Assumptions C108_square.
Example C108_square_example : mul_z pq_z pq_z = Ok (nowhere num_Z) /\ mul_z pq_z (nowhere num_Z) = Ok pq_z.
Proof. split; [apply C108_square; [exact num_Z_laws|reflexivity|apply pq_z_normal]|apply C108_neutral; [exact num_Z_laws|reflexivity|apply pq_z_normal]]. Qed.

(** C108: it associates when the positions agree wherever two of them meet. *)
Theorem C108_associates : forall (N : num), num_laws N -> forall far, (forall l, far (diag_mat N l) = false) -> forall p q r, pos_ok p -> pos_ok q -> pos_ok r -> consistent p q -> consistent p r -> consistent q r ->
  exists u, bind (pos_mul N far p q) (fun pq => pos_mul N far pq r) = Ok u /\ bind (pos_mul N far q r) (fun qr => pos_mul N far p qr) = Ok u.
Proof. exact mul_assoc. Qed.
Print Assumptions C108_associates.
Example C108_associates_example : exists u, bind (mul_z pq_z qr_z) (fun pq => mul_z pq pq_z) = Ok u /\ bind (mul_z qr_z pq_z) (fun qr => mul_z pq_z qr) = Ok u /\ p_dirs u = [2; 5].
Proof.
  pose proof (proj1 C108_product_example) as C. destruct (C108_associates num_Z num_Z_laws (fun _ => false) (fun _ => eq_refl) pq_z qr_z pq_z) as (u & U1 & U2); try apply pq_z_normal; try apply qr_z_normal; [exact C| |intros d m v t m' v' t' A B; destruct (C _ _ _ _ _ _ _ B A) as (-> & -> & ->); auto|].
  - intros d m v t m' v' t' A B. apply (records_unique num_Z pq_z d); [apply pq_z_normal|exact A|exact B].
  - exists u. split; [exact U1|]. split; [exact U2|]. assert (X : bind (mul_z pq_z qr_z) (fun pq => mul_z pq pq_z) = Ok qr_z) by (vm_compute; reflexivity). rewrite X in U1. injection U1 as <-. reflexivity.
Qed.
(** Without that it does not: types are not compared, so p (p r) and (p p) r can differ in a type, with p in direction 0 of type hermite and r of type fourier ... *)
Theorem C108_associates_refuted : ~ forall p q r u u' : position num_Z, normal p -> normal q -> normal r -> bind (mul_z p q) (fun pq => mul_z pq r) = Ok u -> bind (mul_z q r) (fun qr => mul_z p qr) = Ok u' -> u = u'.
Proof.
  intros H. specialize (H (at_z 0 1 2 "hermite") (at_z 0 1 2 "hermite") (at_z 0 1 2 "fourier") (at_z 0 1 2 "fourier") (at_z 0 1 2 "hermite") (at_z_normal _ _ _ _) (at_z_normal _ _ _ _) (at_z_normal _ _ _ _) eq_refl eq_refl). discriminate H.
Qed.
Print Assumptions C108_associates_refuted.
(** ... and one order can raise where the other does not. *)
Theorem C108_associates_raises_refuted : ~ forall p q r u : position num_Z, normal p -> normal q -> normal r -> bind (mul_z p q) (fun pq => mul_z pq r) = Ok u -> exists u', bind (mul_z q r) (fun qr => mul_z p qr) = Ok u'.
Proof.
  intros H. destruct (H (at_z 0 1 2 "hermite") (at_z 0 1 2 "hermite") (at_z 0 3 2 "hermite") (at_z 0 3 2 "hermite") (at_z_normal _ _ _ _) (at_z_normal _ _ _ _) (at_z_normal _ _ _ _) eq_refl) as (u' & U). discriminate U.
Qed.
Print Assumptions C108_associates_raises_refuted.

(** C108: p * q * r is the product of the list of the three, if no direction is in all three. *)
Theorem C108_list : forall (N : num), num_laws N -> forall far, (forall l, far (diag_mat N l) = false) -> forall p q r : position N, pos_ok p -> pos_ok q -> pos_ok r ->
  (forall d, ~ (In d (p_dirs p) /\ In d (p_dirs q) /\ In d (p_dirs r))) -> bind (pos_mul N far p q) (fun pq => pos_mul N far pq r) = pos_tensorize N far [p; q; r].
Proof. exact mul_chain. Qed.
Print Assumptions C108_list.
Example C108_list_example : bind (mul_z pq_z qr_z) (fun pq => mul_z pq (at_z 5 6 7 "hermite")) = pos_tensorize num_Z (fun _ => false) [pq_z; qr_z; at_z 5 6 7 "hermite"] /\ pos_tensorize num_Z (fun _ => false) [pq_z; qr_z; at_z 5 6 7 "hermite"] = Ok (at_z 0 3 1 "hermite").
Proof.
  split; [|vm_compute; reflexivity]. apply C108_list; [exact num_Z_laws|reflexivity|apply pq_z_normal|apply qr_z_normal|apply at_z_normal|]. intros d (A & B & C). cbn in A, B, C. lia.
Qed.
(** Otherwise the list raises and the chain of products does not. *)
Theorem C108_list_refuted : ~ forall p q r : position num_Z, normal p -> normal q -> normal r -> bind (mul_z p q) (fun pq => mul_z pq r) = pos_tensorize num_Z (fun _ => false) [p; q; r].
Proof. intros H. specialize (H (at_z 0 1 2 "hermite") (at_z 0 1 2 "hermite") (at_z 0 1 2 "hermite") (at_z_normal _ _ _ _) (at_z_normal _ _ _ _) (at_z_normal _ _ _ _)). discriminate H. Qed.
Print Assumptions C108_list_refuted.

(** C108: the product of quadratures in different directions with the same numbers of nodes and weights has in each direction the rule of the one that has the direction, the position with all their records,
    and the product of their factors. *)
Theorem C108_quads : forall (F : fnum), num_laws F -> forall far, (forall l, far (diag_mat F l) = false) -> forall E (eval : E -> (nat -> F) -> F) e_mul e_1 add_args mul_args free_vars,
  sympy_ok eval e_mul e_1 add_args mul_args free_vars -> sympy_vars e_mul e_1 add_args mul_args free_vars ->
  forall (args : list (quad F E)) n k, args <> [] -> Forall (quad_fine free_vars) args -> Forall (points_each n k) args -> (forall d, owners (map q_pos args) d <= 1) ->
  exists r, quad_tensorize F far E e_mul e_1 free_vars args = Ok r /\ quad_fine free_vars r /\ points_each n k r /\ pos_tensorize F far (map q_pos args) = Ok (q_pos r) /\
    (forall d, In d (p_dirs (q_pos r)) <-> exists a, In a args /\ In d (p_dirs (q_pos a))) /\
    (forall d xs ws, rule_of r d xs ws <-> exists a, In a args /\ rule_of a d xs ws) /\ (forall a d m v t, In a args -> records (q_pos a) d m v t -> records (q_pos r) d m v t) /\
    forall env, eval (f_sym (q_factor r)) env = nprod (map (fun a => eval (f_sym (q_factor a)) env) args).
Proof. exact quad_tens. Qed.
Print Assumptions C108_quads.
Definition three_z := [rule_z 5 [7; 8] [1; 2] (EVar 5); rule_z 1 [3; 4] [5; 6] (EInt 3); rule_z 2 [0; 9] [4; 4] (EVar 2)]%Z.
Lemma three_z_fine : Forall (quad_fine x_free) three_z.
Proof. repeat (constructor; [apply rule_z_fine; intros x Hx; cbn in *; tauto|]). constructor. Qed.
Lemma three_z_points : Forall (points_each 2 2) three_z.
Proof. repeat (constructor; [split; repeat constructor|]). constructor. Qed.
Lemma three_z_owners : forall d, owners (map q_pos three_z) d <= 1.
Proof. intros d. apply (proj1 (NoDup_count_occ Nat.eq_dec _)). cbn. repeat constructor; cbn; intuition discriminate. Qed.
Example C108_quads_example : exists r, quad_tensorize fnum_Z (fun _ => false) expr EMul (EInt 1) x_free three_z = Ok r /\ q_nodes r = [[3; 4]; [0; 9]; [7; 8]]%Z /\ x_eval (f_sym (q_factor r)) (fun d => Z.of_nat d) = 30%Z.
Proof.
  destruct (C108_quads fnum_Z num_Z_laws (fun _ => false) (fun _ => eq_refl) expr x_eval EMul (EInt 1) x_add_args x_mul_args x_free x_ok x_vars three_z 2 2) as (r & H & _ & _ & _ & _ & _ & _ & He); [discriminate|apply three_z_fine|apply three_z_points|apply three_z_owners|].
  exists r. split; [exact H|]. split; [|rewrite He; reflexivity].
  assert (X : match quad_tensorize fnum_Z (fun _ => false) expr EMul (EInt 1) x_free three_z with Ok q => q_nodes q = [[3; 4]; [0; 9]; [7; 8]]%Z | _ => False end) by (vm_compute; reflexivity). rewrite H in X. exact X.
Qed.

(** C108: of two, it does not depend on the order; of three, it associates; up to the way the factor is written. *)
Theorem C108_quads_commute : forall (F : fnum), num_laws F -> forall far, (forall l, far (diag_mat F l) = false) -> forall E (eval : E -> (nat -> F) -> F) e_mul e_1 add_args mul_args free_vars,
  sympy_ok eval e_mul e_1 add_args mul_args free_vars -> sympy_vars e_mul e_1 add_args mul_args free_vars ->
  forall (a b : quad F E) n k, quad_fine free_vars a -> quad_fine free_vars b -> points_each n k a -> points_each n k b -> apart a b ->
  exists r r', quad_mul F far E e_mul e_1 free_vars a b = Ok r /\ quad_mul F far E e_mul e_1 free_vars b a = Ok r' /\ same_quad eval r r'.
Proof. exact quad_mul_comm. Qed.
Print Assumptions C108_quads_commute.
Theorem C108_quads_associate : forall (F : fnum), num_laws F -> forall far, (forall l, far (diag_mat F l) = false) -> forall E (eval : E -> (nat -> F) -> F) e_mul e_1 add_args mul_args free_vars,
  sympy_ok eval e_mul e_1 add_args mul_args free_vars -> sympy_vars e_mul e_1 add_args mul_args free_vars ->
  forall (a b c : quad F E) n k, quad_fine free_vars a -> quad_fine free_vars b -> quad_fine free_vars c -> points_each n k a -> points_each n k b -> points_each n k c -> apart a b -> apart a c -> apart b c ->
  exists r r', bind (quad_mul F far E e_mul e_1 free_vars a b) (fun ab => quad_mul F far E e_mul e_1 free_vars ab c) = Ok r /\
    bind (quad_mul F far E e_mul e_1 free_vars b c) (fun bc => quad_mul F far E e_mul e_1 free_vars a bc) = Ok r' /\ same_quad eval r r'.
Proof. exact quad_mul_assoc. Qed.
Print Assumptions C108_quads_associate.
Example C108_quads_associate_example : exists a b c r r', three_z = [a; b; c] /\ bind (quad_mul_z a b) (fun ab => quad_mul_z ab c) = Ok r /\ bind (quad_mul_z b c) (fun bc => quad_mul_z a bc) = Ok r' /\ same_quad (F := fnum_Z) x_eval r r' /\
  exists s s', quad_mul_z a b = Ok s /\ quad_mul_z b a = Ok s' /\ same_quad (F := fnum_Z) x_eval s s'.
Proof.
  pose proof three_z_fine as H1. pose proof three_z_points as H2. unfold three_z in *. set (a := rule_z 5 _ _ _) in *. set (b := rule_z 1 _ _ _) in *. set (c := rule_z 2 _ _ _) in *.
  inversion H1 as [|? ? Fa H1']; subst. inversion H1' as [|? ? Fb H1'']; subst. inversion H1'' as [|? ? Fc _]; subst. inversion H2 as [|? ? Pa H2']; subst. inversion H2' as [|? ? Pb H2'']; subst. inversion H2'' as [|? ? Pc _]; subst.
  assert (Aab : apart a b) by (intros d [<-|[]] [X|[]]; discriminate X). assert (Aac : apart a c) by (intros d [<-|[]] [X|[]]; discriminate X). assert (Abc : apart b c) by (intros d [<-|[]] [X|[]]; discriminate X).
  destruct (C108_quads_associate fnum_Z num_Z_laws (fun _ => false) (fun _ => eq_refl) expr x_eval EMul (EInt 1) x_add_args x_mul_args x_free x_ok x_vars a b c 2 2 Fa Fb Fc Pa Pb Pc Aab Aac Abc) as (r & r' & R1 & R2 & R3).
  exists a, b, c, r, r'. split; [reflexivity|]. split; [exact R1|]. split; [exact R2|]. split; [exact R3|]. apply (C108_quads_commute fnum_Z num_Z_laws (fun _ => false) (fun _ => eq_refl) expr x_eval EMul (EInt 1) x_add_args x_mul_args x_free x_ok x_vars a b 2 2 Fa Fb Pa Pb Aab).
Qed.

(** C108: quadratures with different numbers of points in different directions raise ... *)
Theorem C108_quads_points : forall (F : fnum), num_laws F -> forall far, (forall l, far (diag_mat F l) = false) -> forall E (eval : E -> (nat -> F) -> F) e_mul e_1 add_args mul_args free_vars,
  sympy_ok eval e_mul e_1 add_args mul_args free_vars -> sympy_vars e_mul e_1 add_args mul_args free_vars ->
  forall (args : list (quad F E)) a b d d' xs ws xs' ws', Forall (quad_fine free_vars) args -> (forall d, owners (map q_pos args) d <= 1) -> In a args -> In b args -> rule_of a d xs ws -> rule_of b d' xs' ws' ->
  (length xs <> length xs' \/ length ws <> length ws') -> quad_tensorize F far E e_mul e_1 free_vars args = Throw "ValueError".
Proof. exact quad_ragged. Qed.
Print Assumptions C108_quads_points.
Example C108_quads_points_example : quad_mul_z (rule_z 0 [1; 2] [3; 4] (EInt 1))%Z (rule_z 1 [1; 2; 3] [3; 4; 5] (EInt 1))%Z = Throw "ValueError".
Proof.
  apply (C108_quads_points fnum_Z num_Z_laws (fun _ => false) (fun _ => eq_refl) expr x_eval EMul (EInt 1) x_add_args x_mul_args x_free x_ok x_vars _ (rule_z 0 [1; 2] [3; 4] (EInt 1))%Z (rule_z 1 [1; 2; 3] [3; 4; 5] (EInt 1))%Z 0 1 [1; 2]%Z [3; 4]%Z [1; 2; 3]%Z [3; 4; 5]%Z).
  - repeat (constructor; [apply rule_z_fine; intros x []|]). constructor.
  - intros d. apply (proj1 (NoDup_count_occ Nat.eq_dec _)). cbn. repeat constructor; cbn; intuition discriminate.
  - left. reflexivity.
  - right. left. reflexivity.
  - exists 0. repeat split.
  - exists 0. repeat split.
  - left. discriminate.
Qed.
(** C108: ... and so do quadratures with a common direction, whatever their positions record there: a quadrature, unlike a position, cannot be multiplied by itself. *)
Theorem C108_quads_shared : forall (F : fnum) far, (forall l, far (diag_mat F l) = false) -> forall E e_mul e_1 free_vars (args : list (quad F E)) a b i j d, Forall (quad_fine free_vars) args -> i < j -> nth_error args i = Some a -> nth_error args j = Some b ->
  In d (p_dirs (q_pos a)) -> In d (p_dirs (q_pos b)) -> quad_tensorize F far E e_mul e_1 free_vars args = Throw "ValueError".
Proof. exact quad_shared. Qed.
Print Assumptions C108_quads_shared.
Example C108_quads_shared_example : quad_mul_z (rule_z 0 [1; 2] [3; 4] (EInt 1))%Z (rule_z 0 [1; 2] [3; 4] (EInt 1))%Z = Throw "ValueError".
Proof. eapply (C108_quads_shared fnum_Z (fun _ => false) (fun _ => eq_refl) expr EMul (EInt 1) x_free _ _ _ 0 1 0); [|lia|reflexivity|reflexivity|left; reflexivity|left; reflexivity]. repeat (constructor; [apply rule_z_fine; intros x []|]). constructor. Qed.
