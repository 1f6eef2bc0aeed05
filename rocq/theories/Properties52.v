(** Property C117: the coefficient of the noise computed from a potential. *)
From Coq Require Import String List Bool Arith ZArith Lia Reals Lra.
From Verif Require Import Base Num Fnum PyBase PosModel SplitModel MulModel PyQuadModel PyQuadSpec PyQuadFacts2 SolveSpec OpModel OpArithModel QuadMakeModel EqnModel ParamModel ParamSpec ParamFacts FnSpec FnSample FnFacts2 NoiseModel NoiseSpec NoiseFacts.
Import ListNotations.
Local Open Scope string_scope. Local Open Scope list_scope. Local Open Scope nat_scope.

(** C117: McKean_Vlasov.equation is expected to compute the coefficient of the noise from any potential Vy(y) without undefined functions.  It never does: the first integral, with a
    Gauss-Hermite quadrature, is undefined behaviour. *)
Theorem C117_undefined : forall far, (forall l, far (diag_mat fnum_R l) = false) ->
  forall E e_add e_mul e_div e_opp e_0 e_1 e_var e_sqrt e_exp e_diff e_num e_pi e_mono simplify is0 free_vars (eval : E -> (nat -> R) -> R) sym_eqb pos_eqb cov_factor la_inv far8 junk tiny la_eig op_map density hermegauss la_solve limit,
  reads_free eval free_vars -> numpy_ok cov_factor la_inv far8 -> incl (free_vars e_1) [1] -> (forall p, p_dirs p = [1] -> incl (free_vars (density p)) [1]) ->
  length (fst (hermegauss 201)) = 201 -> length (snd (hermegauss 201)) = 201 ->
  forall Vy, incl (free_vars (e_exp (e_opp Vy))) [1] ->
  noise_number fnum_R far E e_add e_mul e_div e_opp e_0 e_1 e_var e_sqrt e_exp e_diff e_num e_pi e_mono simplify is0 free_vars eval sym_eqb pos_eqb cov_factor junk tiny la_eig op_map density hermegauss la_solve limit Vy = Ub.
Proof.
  intros far Hf E e_add e_mul e_div e_opp e_0 e_1 e_var e_sqrt e_exp e_diff e_num e_pi e_mono simplify is0 free_vars eval sym_eqb pos_eqb cov_factor la_inv far8 junk tiny la_eig op_map density hermegauss la_solve limit RF NP H1 Hd Hx Hw Vy HV.
  exact (noise_undefined far Hf E e_add e_mul e_div e_opp e_0 e_1 e_var e_sqrt e_exp e_diff e_num e_pi e_mono simplify is0 free_vars eval RF sym_eqb pos_eqb cov_factor la_inv far8 junk tiny NP la_eig op_map density hermegauss la_solve limit Vy Hx Hw H1 Hd HV).
Qed.
Print Assumptions C117_undefined.

(** For the example: functions of y as expressions. *)
Definition f_eval (e : R -> R) (env : nat -> R) : R := e (env 1).
Lemma f_reads : reads_free f_eval (fun _ => [1]).
Proof. intros e env env' H. unfold f_eval. rewrite (H 1); [reflexivity|left; reflexivity]. Qed.
Definition quartic : R -> R := fun y => (y * y * y * y / 4 - y * y / 2)%R.
Notation f_number e_diff e_mono simplify is0 sym_eqb pos_eqb la_eig op_map la_solve limit := (noise_number fnum_R r_far (R -> R) (fun a b y => a y + b y)%R (fun a b y => a y * b y)%R (fun a b y => a y / b y)%R (fun a y => - a y)%R (fun _ => 0%R) (fun _ => 1%R) (fun _ y => y)
  (fun a y => sqrt (a y)) (fun a y => exp (a y)) e_diff (fun c _ => c) (fun _ => PI) e_mono simplify is0 (fun _ => [1]) f_eval sym_eqb pos_eqb r_cov_factor 0%R (1 / 10)%R la_eig op_map (fun _ y => exp (- (y * y) / 2) / sqrt (2 * PI))%R (fun n => (map INR (seq 0 n), repeat 1%R n)) la_solve limit).

Example C117_undefined_example : forall e_diff e_mono simplify is0 sym_eqb pos_eqb la_eig op_map la_solve limit, f_number e_diff e_mono simplify is0 sym_eqb pos_eqb la_eig op_map la_solve limit quartic = Ub.
Proof.
  intros. apply (C117_undefined r_far (fun _ => eq_refl)) with (la_inv := r_la_inv) (far8 := r_far); [exact f_reads|exact numpy_sample|intros x H; exact H|intros p _ x H; exact H|cbn [fst]; rewrite map_length; apply seq_length|cbn [snd]; apply repeat_length|intros x H; exact H].
Qed.

(** C117: so McKean_Vlasov.equation is undefined behaviour for every dictionary whose Vy has no undefined functions. *)
Theorem C117_equation : forall far, (forall l, far (diag_mat fnum_R l) = false) ->
  forall E e_add e_mul e_div e_opp e_0 e_1 e_var e_sqrt e_exp e_diff e_num e_pi e_mono simplify is0 free_vars (eval : E -> (nat -> R) -> R) sym_eqb pos_eqb cov_factor la_inv far8 junk tiny la_eig op_map density hermegauss la_solve limit has_undefined,
  reads_free eval free_vars -> numpy_ok cov_factor la_inv far8 -> incl (free_vars e_1) [1] -> (forall p, p_dirs p = [1] -> incl (free_vars (density p)) [1]) ->
  length (fst (hermegauss 201)) = 201 -> length (snd (hermegauss 201)) = 201 ->
  forall (p : list (string * E)) b g e t m Vp Vy, is_dict p -> given p [("β", b); ("γ", g); ("ε", e); ("θ", t); ("m", m); ("Vp", Vp); ("Vy", Vy)] -> has_undefined Vy = false -> incl (free_vars (e_exp (e_opp Vy))) [1] ->
  mckean_eq E e_add e_mul e_div e_opp e_1 e_var e_sqrt e_diff has_undefined
    (noise_number fnum_R far E e_add e_mul e_div e_opp e_0 e_1 e_var e_sqrt e_exp e_diff e_num e_pi e_mono simplify is0 free_vars eval sym_eqb pos_eqb cov_factor junk tiny la_eig op_map density hermegauss la_solve limit) p = Ub.
Proof.
  intros far Hf E e_add e_mul e_div e_opp e_0 e_1 e_var e_sqrt e_exp e_diff e_num e_pi e_mono simplify is0 free_vars eval sym_eqb pos_eqb cov_factor la_inv far8 junk tiny la_eig op_map density hermegauss la_solve limit has_undefined RF NP H1 Hd Hx Hw p b g e t m Vp Vy N H HU HV.
  unfold mckean_eq, coeff_noise. use_given N H. rewrite HU. rewrite (C117_undefined far Hf E e_add e_mul e_div e_opp e_0 e_1 e_var e_sqrt e_exp e_diff e_num e_pi e_mono simplify is0 free_vars eval sym_eqb pos_eqb cov_factor la_inv far8 junk tiny la_eig op_map density hermegauss la_solve limit RF NP H1 Hd Hx Hw Vy HV). reflexivity.
Qed.
Print Assumptions C117_equation.

Notation f_mckean e_diff e_mono simplify is0 sym_eqb pos_eqb la_eig op_map la_solve limit := (mckean_eq (R -> R) (fun a b y => a y + b y)%R (fun a b y => a y * b y)%R (fun a b y => a y / b y)%R (fun a y => - a y)%R (fun _ => 1%R) (fun _ y => y) (fun a y => sqrt (a y)) e_diff (fun _ => false)
  (f_number e_diff e_mono simplify is0 sym_eqb pos_eqb la_eig op_map la_solve limit)).
Definition f_params : list (string * (R -> R)) := [("Vy", quartic); ("β", fun _ => 2%R); ("γ", fun _ => 0%R); ("θ", fun _ => 1%R); ("ε", fun _ => (1 / 10)%R); ("Vp", quartic); ("m", fun _ => 0%R)].
Example C117_equation_example : forall e_diff e_mono simplify is0 sym_eqb pos_eqb la_eig op_map la_solve limit, f_mckean e_diff e_mono simplify is0 sym_eqb pos_eqb la_eig op_map la_solve limit f_params = Ub.
Proof.
  intros. apply (C117_equation r_far (fun _ => eq_refl)) with (la_inv := r_la_inv) (far8 := r_far) (b := fun _ => 2%R) (g := fun _ => 0%R) (e := fun _ => (1 / 10)%R) (t := fun _ => 1%R) (m := fun _ => 0%R) (Vp := quartic) (Vy := quartic);
    [exact f_reads|exact numpy_sample|intros x H; exact H|intros p _ x H; exact H|cbn [fst]; rewrite map_length; apply seq_length|cbn [snd]; apply repeat_length| | |reflexivity|intros x H; exact H].
  - unfold is_dict, f_params. cbn. repeat (apply NoDup_cons; [cbn; intuition discriminate|]). apply NoDup_nil.
  - unfold given, f_params. repeat (apply Forall_cons; [cbn; tauto|]). apply Forall_nil.
Qed.

(** C117: the number np.dot(la.solve(A, b), b) does not depend on which solution la.solve returns if the matrix A is symmetric, and is the largest value of 2 v.b - v.Av if A has no negative directions. *)
Theorem C117_product : forall la_solve A b c, solves (N := num_R) la_solve -> symmetric A -> noise_product fnum_R la_solve A b = Ok c ->
  (forall x, length x = length A -> matvec (N := num_R) A x = b -> dot (N := num_R) x b = c) /\
  (nonnegative A -> (forall v, length v = length A -> (quadratic A b v <= c)%R) /\ exists v, length v = length A /\ quadratic A b v = c).
Proof. exact product_symmetric. Qed.
Print Assumptions C117_product.

(** The matrix (0 0; 0 5) of the generator for the potential 5 y^2/2 in degree 1 is singular: all vectors (t, s/5) solve the system with the right-hand side (0, s). *)
Definition some_solution (t : R) (A : list (list R)) (b : list R) : res (list R) :=
  match A, b with
  | [[a0; a1]; [a2; a3]], [b0; b1] => if Req_EM_T a0 0 then if Req_EM_T a1 0 then if Req_EM_T a2 0 then if Req_EM_T b0 0 then if Req_EM_T a3 0 then Throw "LinAlgError" else Ok [t; (b1 / a3)%R] else Throw "LinAlgError" else Throw "LinAlgError" else Throw "LinAlgError" else Throw "LinAlgError"
  | _, _ => Throw "LinAlgError"
  end.
Lemma some_solves : forall t, solves (N := num_R) (some_solution t).
Proof.
  intros t A b x H. unfold some_solution in H. destruct A as [|[|a0 [|a1 [|]]] [|[|a2 [|a3 [|]]] [|]]], b as [|b0 [|b1 [|]]]; try discriminate H.
  destruct (Req_EM_T a0 0) as [->|]; [|discriminate H]. destruct (Req_EM_T a1 0) as [->|]; [|discriminate H]. destruct (Req_EM_T a2 0) as [->|]; [|discriminate H]. destruct (Req_EM_T b0 0) as [->|]; [|discriminate H]. destruct (Req_EM_T a3 0) as [|Ha]; [discriminate H|].
  injection H as <-. split; [reflexivity|]. unfold matvec, dot. cbn. f_equal; [ring|]. f_equal. field. exact Ha.
Qed.
Example C117_product_example : forall t s : R, exists c, noise_product fnum_R (some_solution t) [[0; 0]; [0; 5]]%R [0; s]%R = Ok c /\ symmetric [[0; 0]; [0; 5]]%R /\ nonnegative [[0; 0]; [0; 5]]%R /\ c = (s * s / 5)%R.
Proof.
  intros t s. assert (HS : symmetric [[0; 0]; [0; 5]]%R).
  { split; [repeat constructor|]. intros [|[|[|i]]] [|[|[|j]]]; cbn; try reflexivity; destruct i; try destruct j; reflexivity. }
  exists (dot (N := num_R) [t; (s / 5)%R] [0%R; s]). split; [|split; [exact HS|split]].
  - assert (HU : some_solution t [[0; 0]; [0; 5]]%R [0; s]%R = Ok [t; (s / 5)%R]).
    { unfold some_solution. destruct (Req_EM_T 0 0) as [_|n]; [|destruct (n eq_refl)]. destruct (Req_EM_T 5 0) as [h|_]; [lra|]. reflexivity. }
    exact (proj1 (product_value _ _ _ _ (some_solves t) HU)).
  - intros [|x [|y [|]]] H; try discriminate H. unfold matvec, dot. cbn. nra.
  - unfold dot. cbn. field.
Qed.

(** C117: the fraction that replaces this number is within 1/(2 10^8) of it, and is 0 if the number is smaller than that: then the coefficient of the noise is the root of a division by 0. *)
Theorem C117_rational : forall E (eval : E -> (nat -> R) -> R) e_num limit, (forall x env, eval (e_num x) env = x) -> (forall x, closest 100000000 x (limit x)) ->
  forall c env, (Rabs (c - eval (noise_rational fnum_R E e_num limit c) env) <= / (2 * 100000000))%R /\
    ((Rabs c < / (2 * 100000000))%R -> eval (noise_rational fnum_R E e_num limit c) env = 0%R) /\ ((exists p q, (1 <= q <= 100000000)%Z /\ c = (IZR p / IZR q)%R) -> eval (noise_rational fnum_R E e_num limit c) env = c).
Proof.
  intros E eval e_num limit HE HL c env. unfold noise_rational. rewrite HE. split; [|split].
  - exact (closest_half 100000000 c (limit c) ltac:(lia) (HL c)).
  - intros H. exact (closest_small 100000000 c (limit c) ltac:(lia) H (HL c)).
  - intros (p & q & Hq & Hc). exact (closest_exact 100000000 c (limit c) p q (HL c) Hq Hc).
Qed.
Print Assumptions C117_rational.

(** The number is 1/K^2 for the potential K y^2/2: with K = 20000 the fraction is 0, with K = 2 it is exact. *)
Example C117_rational_example : forall env, f_eval (noise_rational fnum_R (R -> R) (fun x _ => x) (sample_limit 100000000) (/ (20000 * 20000))%R) env = 0%R /\ f_eval (noise_rational fnum_R (R -> R) (fun x _ => x) (sample_limit 100000000) (/ (2 * 2))%R) env = (/ 4)%R.
Proof.
  intros env. pose proof (C117_rational (R -> R) f_eval (fun x _ => x) (sample_limit 100000000) (fun x env => eq_refl) (fun x => sample_closest 100000000 x ltac:(lia))) as H. split.
  - apply (proj1 (proj2 (H _ env))). rewrite Rabs_pos_eq; [|apply Rlt_le, Rinv_0_lt_compat; lra]. apply Rinv_lt_contravar; lra.
  - rewrite (proj2 (proj2 (H _ env))); [field|]. exists 1%Z, 4%Z. split; [lia|]. field.
Qed.
