(** Eigenvectors of variational forms, and gmres. *)
From Coq Require Import String List Bool Arith Reals Lia Lra.
From Verif Require Import Base Lists PyBase IndexModel Spec Num LinModel LinSpec LinBase Facts2 PosModel PosSpec SeriesModel SeriesSpec SeriesFacts SeriesFacts3 MulModel SolveModel SolveSpec SolveFacts EigSpec EigModel.
Import ListNotations.
Local Open Scope R_scope.

Lemma num_C_laws : num_laws num_C.
Proof.
  constructor; cbn; intros; repeat match goal with x : _ * _ |- _ => destruct x end; cbn [fst snd]; try (f_equal; ring).
  destruct (Req_EM_T _ _) as [E1|E1]; [destruct (Req_EM_T _ _) as [E2|E2]; subst; split; intros; congruence|split; intros; congruence].
Qed.

Lemma fold_add_C : forall (l : list num_C) (a : num_C), fold_left (@nadd num_C) l a = (fst a + fst (fold_left (@nadd num_C) l (0, 0)), snd a + snd (fold_left (@nadd num_C) l (0, 0))).
Proof.
  induction l as [|x l IH]; intros a; cbn [fold_left]; [destruct a; cbn; f_equal; ring|]. rewrite IH, (IH (nadd _ _)). cbn. f_equal; ring.
Qed.
Lemma dot_cons : forall (a b : num_C) (r x : list num_C), dot (a :: r) (b :: x) = @nadd num_C (@nmul num_C a b) (dot r x).
Proof. intros. unfold dot, nsum. cbn [combine map fold_left]. rewrite fold_add_C. cbn. f_equal; ring. Qed.
Lemma dot_real : forall (row x : list num_C), (forall y, In y row -> snd y = 0) -> dot row (real_part x) = (fst (dot row x), 0).
Proof.
  induction row as [|a row IH]; intros x H; [reflexivity|]. destruct x as [|b x]; [reflexivity|]. cbn [real_part map]. rewrite !dot_cons. change (map (fun x0 => (fst x0, 0)) x) with (real_part x).
  rewrite IH by (intros y Hy; apply H; right; exact Hy). pose proof (H a (or_introl eq_refl)) as Ha. cbn. rewrite Ha. f_equal; ring.
Qed.
Lemma matvec_real : forall A x, real_matrix A -> matvec A (real_part x) = map (fun y => (fst y, 0)) (matvec A x).
Proof. intros A x H. unfold matvec. rewrite map_map. apply map_ext_in. intros row Hr. apply dot_real. intros y Hy. apply (H row y Hr Hy). Qed.

Lemma sum_sq_nonneg : forall v : list R, 0 <= fold_right Rplus 0 (map (fun x => x * x) v).
Proof. induction v as [|a v IH]; cbn; [lra|]. nra. Qed.
Lemma norm2_bound : forall v x, In x v -> Rabs x <= norm2 v.
Proof.
  intros v x H. unfold norm2. rewrite <- sqrt_Rsqr_abs. apply sqrt_le_1_alt. unfold Rsqr. induction v as [|a v IH]; [destruct H|]. cbn. pose proof (sum_sq_nonneg v). destruct H as [->|H]; [lra|]. specialize (IH H). nra.
Qed.
Lemma norm2_nonneg : forall v, 0 <= norm2 v.
Proof. intros. apply sqrt_pos. Qed.
Lemma norm2_zero : forall v, (forall x, In x v -> x = 0) -> norm2 v = 0.
Proof. intros v H. unfold norm2. replace (fold_right Rplus 0 (map (fun x => x * x) v)) with 0; [apply sqrt_0|]. symmetry. induction v as [|a v IH]; [reflexivity|]. cbn. rewrite IH, (H a (or_introl eq_refl)); [ring|]. intros x Hx. apply H. right. exact Hx. Qed.
Lemma real_part_id : forall v, real_vector v -> real_part v = v.
Proof. induction v as [|[a b] v IH]; intros H; [reflexivity|]. change (real_part ((a, b) :: v)) with ((a, 0) :: real_part v). rewrite IH by (intros x Hx; apply H; right; exact Hx). pose proof (H (a, b) (or_introl eq_refl)) as Hb. cbn in Hb. rewrite Hb. reflexivity. Qed.

(** the residual of the real part *)
Lemma part_residual : forall A lam x, real_matrix A -> eigenpair A lam x -> norm2 (map snd x) <= / 10 ^ 15 -> residual A (fst lam, 0) (real_part x) (Rabs (snd lam) / 10 ^ 15).
Proof.
  intros A [a b] x HA [Hl He] Hn k y z Hy Hz. rewrite matvec_real, He in Hy by exact HA. rewrite map_map in Hy. unfold real_part in Hz.
  destruct (nth_error x k) as [t|] eqn:Et; [|rewrite (proj2 (nth_error_None _ _)) in Hz by (rewrite map_length; apply nth_error_None; exact Et); discriminate Hz].
  rewrite (map_nth_error _ _ _ Et) in Hy. rewrite (map_nth_error _ _ _ Et) in Hz. injection Hy as <-. injection Hz as <-. destruct t as [p q]. cbn [nadd nopp nmul num_C fst snd].
  match goal with |- sqrt ?e <= _ => replace e with (Rsqr (b * q)) by (unfold Rsqr; ring) end. rewrite sqrt_Rsqr_abs, Rabs_mult. unfold Rdiv. apply Rmult_le_compat_l; [apply Rabs_pos|].
  eapply Rle_trans; [|exact Hn]. apply norm2_bound. apply in_map_iff. exists (p, q). split; [reflexivity|]. eapply nth_error_In. exact Et.
Qed.
Lemma real_eigenvalue : forall A lam x z, real_matrix A -> eigenpair A lam x -> real_vector x -> In z x -> z <> (0, 0) -> snd lam = 0.
Proof.
  intros A [a b] x [p q] HA [Hl He] Hx Hz Hn. pose proof (Hx _ Hz) as Hq. cbn in Hq. subst q. pose proof (matvec_real A x HA) as Hm. rewrite real_part_id, He, map_map in Hm by exact Hx.
  apply In_nth_error in Hz as [k Hk]. pose proof (f_equal (fun l => nth_error l k) Hm) as Hm'. cbn beta in Hm'. do 2 rewrite (map_nth_error _ _ _ Hk) in Hm'. cbn in Hm'. injection Hm' as H1. cbn.
  assert (p <> 0) by congruence. apply (Rmult_eq_reg_r p); [lra|assumption].
Qed.

Section Eig.
Variable E : Type.
Variable e_1 : E.
Variable pos_eqb : position num_C -> position num_C -> bool.
Hypothesis pos_refl : forall p, pos_eqb p p = true.
Variable la_eigs : list (list num_C) -> res (list num_C * list (list num_C)).
Notation varf_eigs := (varf_eigs E e_1 la_eigs).

Lemma keep_length : forall v, length (keep_imag v) = length v.
Proof using. intros v. unfold keep_imag, real_part. destruct (Rlt_dec _ _); [reflexivity|apply map_length]. Qed.

Lemma dot_ok : forall (A : list (list num_C)) n x, mat_wf n n A -> length x = n -> np_dot num_C A x = Ok (matvec A x).
Proof using.
  intros A n x [_ H] Hx. unfold np_dot, matvec. induction A as [|row A IH]; [reflexivity|]. inversion H as [|? ? H1 H2]; subst. cbn [mapM map]. rewrite H1, Nat.eqb_refl. cbn [require bind]. rewrite (IH H2). reflexivity.
Qed.
Lemma call_matvec : forall (a : varf num_C E) dim (s : series num_C E), varf_ok a dim -> length (s_coeffs s) = length (v_mat a) -> s_pos s = v_pos a -> s_set s = v_set a ->
  exists g, varf_call num_C E e_1 pos_eqb a s = Ok g /\ s_coeffs g = matvec (v_mat a) (s_coeffs s).
Proof using pos_refl.
  intros a dim s [Hp Hm] Hl H1 H2. unfold varf_call. rewrite H1, H2, pos_refl, iset_eqb_refl. cbn [andb require bind]. pose proof (proj1 Hm) as Hm1. rewrite (dot_ok _ _ _ Hm) by (rewrite Hl; exact Hm1). cbn [bind].
  destruct (rebuild num_C E e_1 (matvec (v_mat a) (s_coeffs s)) (v_pos a) (v_factor a) (v_set a) dim (v_degree a) Hp) as (g & G1 & _ & _ & _ & _ & G6 & _); [unfold matvec; rewrite map_length; exact Hm1|].
  exists g. split; assumption.
Qed.

Theorem eigs_ok : forall (a : varf num_C E) dim vals vecs, varf_ok a dim -> real_matrix (v_mat a) -> la_eigs (v_mat a) = Ok (vals, vecs) -> Forall2 (eigenpair (v_mat a)) vals vecs ->
  exists result, varf_eigs a = Ok (vals, result) /\ length result = length vals /\
    forall k lam x s, nth_error vals k = Some lam -> nth_error vecs k = Some x -> nth_error result k = Some s ->
      series_ok s dim /\ s_pos s = v_pos a /\ s_set s = v_set a /\ s_factor s = v_factor a /\
      exists g, varf_call num_C E e_1 pos_eqb a s = Ok g /\
        (s_coeffs s = x /\ s_coeffs g = map (nmul lam) (s_coeffs s) \/
         norm2 (map snd x) <= / 10 ^ 15 /\ s_coeffs s = map (fun z => (fst z, 0)) x /\ residual (v_mat a) (fst lam, 0) (s_coeffs s) (Rabs (snd lam) / 10 ^ 15)) /\
        (real_vector x -> (exists z, In z x /\ z <> (0, 0)) -> s_coeffs s = x /\ s_coeffs g = map (nmul lam) (s_coeffs s)).
Proof using pos_refl.
  intros a dim vals vecs Ha HA He Hv. unfold EigModel.varf_eigs. rewrite He. cbn [bind].
  assert (G : exists result, mapM (fun v => series_init num_C E e_1 (keep_imag v) (v_pos a) (Some (v_factor a)) (v_set a)) vecs = Ok result /\
    Forall2 (fun x s => series_ok s dim /\ s_pos s = v_pos a /\ s_set s = v_set a /\ s_factor s = v_factor a /\ s_coeffs s = keep_imag x) vecs result).
  { clear He. destruct Ha as [Hp Hm]. induction Hv as [|lam x vals vecs H1 H2 IH]; [exists []; split; [reflexivity|constructor]|]. destruct IH as (result & R1 & R2).
    destruct (rebuild num_C E e_1 (keep_imag x) (v_pos a) (v_factor a) (v_set a) dim (v_degree a) Hp) as (s & S1 & S2 & S3 & S4 & S5 & S6 & _); [rewrite keep_length; destruct H1 as [-> _]; apply Hm|].
    exists (s :: result). cbn [mapM]. rewrite S1. cbn [bind]. rewrite R1. split; [reflexivity|]. constructor; [repeat (split; [assumption|]); assumption|exact R2]. }
  destruct G as (result & R1 & R2). rewrite R1. cbn [bind]. exists result. split; [reflexivity|]. split; [rewrite <- (Forall2_length _ _ _ _ _ R2); symmetry; apply (Forall2_length _ _ _ _ _ Hv)|].
  intros k lam x s Hk1 Hk2 Hk3.
  assert (Hpair : eigenpair (v_mat a) lam x). { clear -Hv Hk1 Hk2. revert k Hk1 Hk2. induction Hv as [|? ? ? ? H1 H2 IH]; intros [|k] Hk1 Hk2; try discriminate Hk1; cbn in Hk1, Hk2; [injection Hk1 as <-; injection Hk2 as <-; exact H1|eapply IH; eassumption]. }
  assert (Hs : series_ok s dim /\ s_pos s = v_pos a /\ s_set s = v_set a /\ s_factor s = v_factor a /\ s_coeffs s = keep_imag x).
  { clear -R2 Hk2 Hk3. revert k Hk2 Hk3. induction R2 as [|? ? ? ? H1 H2 IH]; intros [|k] Hk2 Hk3; try discriminate Hk2; cbn in Hk2, Hk3; [injection Hk2 as <-; injection Hk3 as <-; exact H1|eapply IH; eassumption]. }
  destruct Hs as (S1 & S2 & S3 & S4 & S5). split; [exact S1|]. split; [exact S2|]. split; [exact S3|]. split; [exact S4|].
  destruct (call_matvec a dim s Ha) as (g & G1 & G2); [rewrite S5, keep_length; apply Hpair|exact S2|exact S3|].
  exists g. split; [exact G1|]. rewrite S5 in *. unfold keep_imag in *. split.
  - destruct (Rlt_dec (/ 10 ^ 15) (norm2 (map snd x))) as [Hlt|Hge].
    + left. split; [reflexivity|]. rewrite G2. apply Hpair.
    + right. apply Rnot_lt_le in Hge. split; [exact Hge|]. split; [reflexivity|]. apply part_residual; assumption.
  - intros Hx (z & Hz & Hn). assert (Hk : (if Rlt_dec (/ 10 ^ 15) (norm2 (map snd x)) then x else real_part x) = x) by (destruct (Rlt_dec _ _); [reflexivity|apply real_part_id; exact Hx]).
    rewrite Hk in *. split; [reflexivity|]. rewrite G2. apply Hpair.
Qed.

Theorem smallest_one : forall (a : varf num_C E) dim lam x, varf_ok a dim -> la_eigs (v_mat a) = Ok ([lam], [x]) -> length x = length (v_mat a) ->
  smallest E e_1 la_eigs a = Ok (if Rlt_dec (/ 10 ^ 15) (norm2 (map snd x)) then x else map (fun z => (fst z, 0)) x).
Proof using.
  intros a dim lam x [Hp Hm] He Hx. unfold smallest, EigModel.varf_eigs. rewrite He. cbn [bind mapM].
  destruct (rebuild num_C E e_1 (keep_imag x) (v_pos a) (v_factor a) (v_set a) dim (v_degree a) Hp) as (s & S1 & S2 & S3 & S4 & S5 & S6 & _); [rewrite keep_length, Hx; apply Hm|].
  rewrite S1. cbn [bind]. rewrite S6. reflexivity.
Qed.
Theorem smallest_raises : forall (a : varf num_C E) vals vecs r, la_eigs (v_mat a) = Ok (vals, vecs) -> length vals <> 1%nat -> smallest E e_1 la_eigs a <> Ok r.
Proof using.
  intros a vals vecs r He Hl. unfold smallest, EigModel.varf_eigs. rewrite He. cbn [bind]. destruct (mapM _ _) as [result| | | |]; try discriminate. cbn [bind]. destruct vals as [|? [|? ?]]; try discriminate. cbn in Hl. lia.
Qed.
End Eig.

Section Remove0.
Variable far : list (list num_C) -> bool.
Variable E : Type.
Variable e_mul e_div : E -> E -> E.
Variable e_1 : E.
Variable add_args mul_args : E -> list E.
Variable free_vars : E -> list nat.
Variable sym_eqb : E -> E -> bool.
Variable pos_eqb : position num_C -> position num_C -> bool.
Variable ndiv : num_C -> num_C -> num_C.
Variable nsqrt : num_C -> num_C.
Variable lin_solve : list (list num_C) -> list num_C -> res (list num_C).
Variable la_eigs : list (list num_C) -> res (list num_C * list (list num_C)).
Notation solve a := (varf_solve num_C far E e_mul e_div e_1 add_args mul_args free_vars sym_eqb pos_eqb ndiv nsqrt lin_solve (fun _ => smallest E e_1 la_eigs a) a).
Theorem solve_smallest : solves lin_solve -> forall (a : varf num_C E) (b : series num_C E) d lam x sol, on_same a b d -> pos_eqb (v_pos a) (s_pos b) = true -> la_eigs (v_mat a) = Ok ([lam], [x]) -> length x = length (v_mat a) ->
  let v := if Rlt_dec (/ 10 ^ 15) (norm2 (map snd x)) then x else map (fun z => (fst z, 0)) x in
  lin_solve (bordered_matrix (v_mat a) v) (s_coeffs b ++ [n0]) = Ok sol ->
  exists f mu, solve a b Remove0 = Ok f /\ series_ok f (length d) /\ s_pos f = v_pos a /\ s_set f = v_set a /\ s_factor f = v_factor a /\ sol = s_coeffs f ++ [mu] /\
    lincomb n1 mu (matvec (v_mat a) (s_coeffs f)) v = s_coeffs b /\ dot v (s_coeffs f) = n0.
Proof using.
  intros Hs a b d lam x sol Ho Hp He Hl v Hv. apply (solve_remove0 num_C num_C_laws far E e_mul e_div e_1 add_args mul_args free_vars sym_eqb pos_eqb ndiv nsqrt lin_solve (fun _ => smallest E e_1 la_eigs a) Hs a b d v sol Ho Hp); [|unfold v; destruct (Rlt_dec _ _); [exact Hl|rewrite map_length; exact Hl]|exact Hv].
  apply (smallest_one E e_1 la_eigs a (length d) lam x); [apply Ho|exact He|exact Hl].
Qed.
Theorem solve_smallest_raises : forall (a : varf num_C E) (b f : series num_C E) vals vecs, la_eigs (v_mat a) = Ok (vals, vecs) -> length vals <> 1%nat -> solve a b Remove0 <> Ok f.
Proof using.
  intros a b f vals vecs He Hl H. unfold varf_solve in H. destruct (require _ _); try discriminate H. cbn [bind] in H. destruct (smallest E e_1 la_eigs a) as [r| | | |] eqn:Er; try discriminate H. exact (smallest_raises E e_1 la_eigs a vals vecs r He Hl Er).
Qed.
End Remove0.

Section Gmres.
Variable N : num.
Variable far : list (list N) -> bool.
Variable E : Type.
Variable e_mul e_div : E -> E -> E.
Variable e_1 : E.
Variable add_args mul_args : E -> list E.
Variable free_vars : E -> list nat.
Variable sym_eqb : E -> E -> bool.
Variable pos_eqb : position N -> position N -> bool.
Variable ndiv : N -> N -> N.
Variable nsqrt : N -> N.
Variable small_eig : list (list N) -> res (list N).
Variable gmres : list (list N) -> list N -> res (list N * nat).
Notation solve ilu := (varf_solve N far E e_mul e_div e_1 add_args mul_args free_vars sym_eqb pos_eqb ndiv nsqrt (gmres_solver N ilu gmres) small_eig).

Theorem gmres_iterate : forall (a : varf N E) (b : series N E) d x info, on_same a b d -> pos_eqb (v_pos a) (s_pos b) = true -> gmres (v_mat a) (s_coeffs b) = Ok (x, info) -> length x = length (v_mat a) ->
  exists f, solve true a b Keep = Ok f /\ series_ok f (length d) /\ s_pos f = v_pos a /\ s_set f = v_set a /\ s_factor f = v_factor a /\ s_coeffs f = x.
Proof using.
  intros a b d x info (Ha & Hb & Hd & Hd2 & _ & _ & _ & _ & Hs & _) Hp Hg Hl. unfold varf_solve. rewrite Hp, Hs, iset_eqb_refl. cbn [andb require bind]. unfold gmres_solver. rewrite Hg. cbn [bind].
  destruct Ha as [Ha1 Ha2]. rewrite <- Hs. destruct (rebuild N E e_1 x (v_pos a) (v_factor a) (v_set a) (length d) (v_degree a) Ha1) as (f & F1 & F2 & F3 & F4 & F5 & F6 & _); [rewrite Hl; apply Ha2|].
  exists f. repeat (split; [assumption|]). assumption.
Qed.
Theorem gmres_unbound : forall (a : varf N E) (b : series N E), pos_eqb (v_pos a) (s_pos b) = true -> v_set a = s_set b -> solve false a b Keep = Throw "UnboundLocalError"%string.
Proof using. intros a b Hp Hs. unfold varf_solve. rewrite Hp, Hs, iset_eqb_refl. reflexivity. Qed.
Theorem gmres_never : forall (a : varf N E) (b : series N E) rem f, solve false a b rem <> Ok f.
Proof using.
  intros a b rem f H. unfold varf_solve, gmres_solver in H. destruct (require _ _); try discriminate H. cbn [bind] in H. match type of H with bind ?o _ = _ => destruct o as [[v|]| | | |] end; try discriminate H. cbn [bind] in H.
  destruct (border _ _ _); discriminate H.
Qed.
End Gmres.
