(** Properties C58 and C64: products of series and linear systems. *)
From Coq Require Import String List Bool Arith ZArith Reals Lia Lra.
From Verif Require Import Base IndexModel Spec Num LinSpec LinBase Facts2 PosModel PosSpec SeriesModel SeriesSpec PartModel SplitModel SplitSpec MulModel MulSpec MulFacts SolveModel SolveSpec SolveFacts.
Import ListNotations.
Local Open Scope string_scope. Local Open Scope list_scope. Local Open Scope nat_scope.

(** C64: f * g, for series on the directions d1 and d2, has the directions that only one of them has; its coefficients are the sums, over the multi-indices on the
    shared directions, of the products of the coefficients; its factor is the product of the factors, each divided by its projection p, q on the shared directions. *)
Theorem C64_mul : forall (N : num), num_laws N -> forall far, (forall l, far (diag_mat N l) = false) ->
  forall (E : Type) (e_mul e_div : E -> E -> E) (e_1 : E) add_args mul_args (free_vars : E -> list nat) sym_eqb,
  forall (f g : series N E) d1 d2 dres dinn p q, multipliable f g d1 d2 -> inner_dirs d1 d2 dres dinn -> (dres <> [] -> usable (s_set f) (length dres) (s_degree f)) ->
  fun_project E e_mul e_1 add_args mul_args free_vars (s_factor f) dinn = Ok p -> fun_project E e_mul e_1 add_args mul_args free_vars (s_factor g) dinn = Ok q -> func_eqb E sym_eqb p q = true ->
  let factor := e_mul (e_div (f_sym (s_factor f)) (f_sym p)) (e_div (f_sym (s_factor g)) (f_sym q)) in
  incl (free_vars factor) dres ->
  exists h, series_mul N far E e_mul e_div e_1 add_args mul_args free_vars sym_eqb f g = Ok h /\ s_set h = s_set f /\ p_dirs (s_pos h) = dres /\ s_factor h = Fn factor dres /\ pos_ok (s_pos h) /\
    (dres <> [] -> series_ok h (length dres)) /\
    (forall a d m v t, In a [s_pos f; s_pos g] -> In d dres -> records a d m v t -> records (s_pos h) d m v t) /\
    forall r, index_of (s_set f) (length dres) (s_degree f) r -> series_at h r = contraction (s_set f) (s_degree f) d1 d2 dres dinn (s_coeffs f) (s_coeffs g) r.
Proof. exact mul_ok. Qed.
Print Assumptions C64_mul.
(** On the same directions, float(f * g) is the sum of the products of the coefficients. *)
Theorem C64_float : forall (N : num), num_laws N -> forall far, (forall l, far (diag_mat N l) = false) ->
  forall (E : Type) (e_mul e_div : E -> E -> E) (e_1 : E) add_args mul_args (free_vars : E -> list nat) sym_eqb,
  forall (f g : series N E) d p q, multipliable f g d d ->
  fun_project E e_mul e_1 add_args mul_args free_vars (s_factor f) d = Ok p -> fun_project E e_mul e_1 add_args mul_args free_vars (s_factor g) d = Ok q -> func_eqb E sym_eqb p q = true ->
  free_vars (e_mul (e_div (f_sym (s_factor f)) (f_sym p)) (e_div (f_sym (s_factor g)) (f_sym q))) = [] ->
  exists h, series_mul N far E e_mul e_div e_1 add_args mul_args free_vars sym_eqb f g = Ok h /\
    series_float N E h = Ok (nsum (map (fun '(x, y) => nmul x y) (combine (s_coeffs f) (s_coeffs g)))).
Proof. exact mul_float. Qed.
Print Assumptions C64_float.
(** A series without directions is a number. *)
Theorem C64_scalar : forall (N : num), num_laws N -> forall far (E : Type) (e_mul e_div : E -> E -> E) (e_1 : E) add_args mul_args (free_vars : E -> list nat) sym_eqb,
  forall (f g : series N E) c rest dim, p_mean (s_pos f) = [] -> s_coeffs f = c :: rest -> s_set f = s_set g -> series_ok g dim ->
  exists h, series_mul N far E e_mul e_div e_1 add_args mul_args free_vars sym_eqb f g = Ok h /\ s_pos h = s_pos g /\ s_factor h = s_factor g /\ s_set h = s_set g /\ series_ok h dim /\
    forall m, series_at h m = nmul c (series_at g m).
Proof. exact mul_scalar. Qed.
Print Assumptions C64_scalar.
(** The coefficients of g * f are those of f * g. *)
Theorem C64_commutes : forall (N : num), num_laws N -> forall far, (forall l, far (diag_mat N l) = false) ->
  forall (E : Type) (e_mul e_div : E -> E -> E) (e_1 : E) add_args mul_args (free_vars : E -> list nat) sym_eqb,
  forall (f g : series N E) d1 d2 dres dinn p q, multipliable f g d1 d2 -> inner_dirs d1 d2 dres dinn -> (dres <> [] -> usable (s_set f) (length dres) (s_degree f)) ->
  fun_project E e_mul e_1 add_args mul_args free_vars (s_factor f) dinn = Ok p -> fun_project E e_mul e_1 add_args mul_args free_vars (s_factor g) dinn = Ok q ->
  func_eqb E sym_eqb p q = true -> func_eqb E sym_eqb q p = true ->
  incl (free_vars (e_mul (e_div (f_sym (s_factor f)) (f_sym p)) (e_div (f_sym (s_factor g)) (f_sym q)))) dres ->
  incl (free_vars (e_mul (e_div (f_sym (s_factor g)) (f_sym q)) (e_div (f_sym (s_factor f)) (f_sym p)))) dres ->
  exists h h', series_mul N far E e_mul e_div e_1 add_args mul_args free_vars sym_eqb f g = Ok h /\ series_mul N far E e_mul e_div e_1 add_args mul_args free_vars sym_eqb g f = Ok h' /\
    p_dirs (s_pos h) = p_dirs (s_pos h') /\ forall r, index_of (s_set f) (length dres) (s_degree f) r -> series_at h r = series_at h' r.
Proof. exact mul_comm. Qed.
Print Assumptions C64_commutes.
(** Different index sets, a factor that is a sum (even if no direction is shared), different projections of the factors, different degrees: ValueError. *)
Theorem C64_raises : forall (N : num) far (E : Type) (e_mul e_div : E -> E -> E) (e_1 : E) add_args mul_args (free_vars : E -> list nat) sym_eqb,
  forall (f g : series N E), (s_set f <> s_set g -> series_mul N far E e_mul e_div e_1 add_args mul_args free_vars sym_eqb f g = Throw "ValueError") /\
  (p_mean (s_pos f) <> [] -> p_mean (s_pos g) <> [] -> length (add_args (f_sym (s_factor f))) <> 1 -> series_mul N far E e_mul e_div e_1 add_args mul_args free_vars sym_eqb f g = Throw "ValueError") /\
  forall d1 d2 dres dinn p q, p_dirs (s_pos f) = d1 -> p_dirs (s_pos g) = d2 -> d1 <> [] -> d2 <> [] -> length (p_mean (s_pos f)) = length d1 -> length (p_mean (s_pos g)) = length d2 ->
  increasing d1 -> inner_dirs d1 d2 dres dinn ->
  fun_project E e_mul e_1 add_args mul_args free_vars (s_factor f) dinn = Ok p -> fun_project E e_mul e_1 add_args mul_args free_vars (s_factor g) dinn = Ok q ->
  func_eqb E sym_eqb p q = false \/ s_degree f <> s_degree g -> series_mul N far E e_mul e_div e_1 add_args mul_args free_vars sym_eqb f g = Throw "ValueError".
Proof. exact mul_all_raises. Qed.
Print Assumptions C64_raises.

Notation mul_x := (series_mul num_Z (fun _ => false) expr EMul x_div (EInt 1) x_add_args x_mul_args x_free x_eqb).
(** x0 x1 (1 + 2 H(x1) + 3 H(x0)) * x1 x2 (4 + 5 H(x2) + 6 H(x1)), contracted over x1. *)
Example C64_mul_example : exists h, mul_x (ser_x (N := num_Z) [0; 1] (EMul (EVar 0) (EVar 1)) [1; 2; 3]%Z) (ser_x (N := num_Z) [1; 2] (EMul (EVar 1) (EVar 2)) [4; 5; 6]%Z) = Ok h /\
  p_dirs (s_pos h) = [0; 2] /\ series_at h [0; 0] = (1 * 4 + 2 * 6)%Z /\ series_at h [1; 0] = (3 * 4)%Z /\ series_at h [0; 1] = (1 * 5)%Z.
Proof.
  destruct (C64_mul num_Z num_Z_laws (fun _ => false) (fun _ => eq_refl) expr EMul x_div (EInt 1) x_add_args x_mul_args x_free x_eqb
    (ser_x (N := num_Z) [0; 1] (EMul (EVar 0) (EVar 1)) [1; 2; 3]%Z) (ser_x (N := num_Z) [1; 2] (EMul (EVar 1) (EVar 2)) [4; 5; 6]%Z) [0; 1] [1; 2] [0; 2] [1]
    (Fn (EMul (EInt 1) (EMul (EInt 1) (EVar 1))) [1]) (Fn (EMul (EInt 1) (EMul (EInt 1) (EVar 1))) [1])) as (h & E1 & _ & E2 & _ & _ & _ & _ & R).
  - apply (ser_x_multipliable num_Z num_Z_laws); try (cbn; lia); try reflexivity; repeat constructor.
  - split; [repeat constructor|]. split; [repeat constructor|]. split; intros x; cbn; lia.
  - intros _. apply (usable_dim4 Triangle 2 1); cbn; lia.
  - vm_compute. reflexivity.
  - vm_compute. reflexivity.
  - vm_compute. reflexivity.
  - intros x. cbn. lia.
  - exists h. split; [exact E1|]. split; [exact E2|]. rewrite !R by (split; [reflexivity|cbn; lia]). split; [vm_compute; reflexivity|]. split; vm_compute; reflexivity.
Qed.
(** The float of the product of x0 (1 + 2 H(x0)) with itself. *)
Example C64_float_example : exists h, mul_x (ser_x (N := num_Z) [0] (EVar 0) [1; 2]%Z) (ser_x (N := num_Z) [0] (EVar 0) [1; 2]%Z) = Ok h /\ series_float num_Z expr h = Ok 5%Z.
Proof.
  destruct (C64_float num_Z num_Z_laws (fun _ => false) (fun _ => eq_refl) expr EMul x_div (EInt 1) x_add_args x_mul_args x_free x_eqb
    (ser_x (N := num_Z) [0] (EVar 0) [1; 2]%Z) (ser_x (N := num_Z) [0] (EVar 0) [1; 2]%Z) [0] (Fn (EMul (EInt 1) (EMul (EInt 1) (EVar 0))) [0]) (Fn (EMul (EInt 1) (EMul (EInt 1) (EVar 0))) [0])) as (h & E1 & E2).
  - apply (ser_x_multipliable num_Z num_Z_laws); try (cbn; lia); try reflexivity; repeat constructor.
  - vm_compute. reflexivity.
  - vm_compute. reflexivity.
  - vm_compute. reflexivity.
  - vm_compute. reflexivity.
  - exists h. split; [exact E1|exact E2].
Qed.
Example C64_raises_example : mul_x (ser_x (N := num_Z) [0] (EAdd (EVar 0) (EInt 1)) [1; 2]%Z) (ser_x (N := num_Z) [1] (EVar 1) [3; 4]%Z) = Throw "ValueError".
Proof. apply C64_raises; vm_compute; discriminate. Qed.

(** C58: without removal, A x = b ... *)
Theorem C58_keep : forall (N : num) far (E : Type) (e_mul e_div : E -> E -> E) (e_1 : E) add_args mul_args (free_vars : E -> list nat) sym_eqb pos_eqb ndiv nsqrt lin_solve small_eig, solves lin_solve ->
  forall (a : varf N E) (b : series N E) d x, on_same a b d -> pos_eqb (v_pos a) (s_pos b) = true -> lin_solve (v_mat a) (s_coeffs b) = Ok x ->
  exists f, varf_solve N far E e_mul e_div e_1 add_args mul_args free_vars sym_eqb pos_eqb ndiv nsqrt lin_solve small_eig a b Keep = Ok f /\
    series_ok f (length d) /\ s_pos f = v_pos a /\ s_set f = v_set a /\ s_factor f = v_factor a /\ s_coeffs f = x /\ matvec (v_mat a) (s_coeffs f) = s_coeffs b.
Proof. exact solve_keep. Qed.
Print Assumptions C58_keep.
(** ... with remove_vec, A x + lam v = b and <v, x> = 0, where v is remove_vec divided by its norm ... *)
Theorem C58_bordered : forall (N : num), num_laws N -> forall far, (forall l, far (diag_mat N l) = false) ->
  forall (E : Type) (e_mul e_div : E -> E -> E) (e_1 : E) add_args mul_args (free_vars : E -> list nat) sym_eqb pos_eqb ndiv nsqrt lin_solve small_eig, solves lin_solve ->
  forall (a : varf N E) (b vec : series N E) d sol, on_same a b d -> on_same a vec d -> pos_eqb (v_pos a) (s_pos b) = true -> pos_eqb (v_pos a) (s_pos vec) = true ->
  factors_match e_mul e_div e_1 add_args mul_args free_vars sym_eqb vec a d ->
  let v := map (fun c => ndiv c (nsqrt (dot (s_coeffs vec) (s_coeffs vec)))) (s_coeffs vec) in
  lin_solve (bordered_matrix (v_mat a) v) (s_coeffs b ++ [n0]) = Ok sol ->
  exists f lam, varf_solve N far E e_mul e_div e_1 add_args mul_args free_vars sym_eqb pos_eqb ndiv nsqrt lin_solve small_eig a b (RemoveVec vec) = Ok f /\
    series_ok f (length d) /\ s_pos f = v_pos a /\ s_set f = v_set a /\ s_factor f = v_factor a /\ sol = s_coeffs f ++ [lam] /\
    lincomb n1 lam (matvec (v_mat a) (s_coeffs f)) v = s_coeffs b /\ dot v (s_coeffs f) = n0.
Proof. exact solve_remove. Qed.
Print Assumptions C58_bordered.
(** ... and the same with remove0, where v is the computed eigenvector. *)
Theorem C58_remove0 : forall (N : num), num_laws N -> forall far (E : Type) (e_mul e_div : E -> E -> E) (e_1 : E) add_args mul_args (free_vars : E -> list nat) sym_eqb pos_eqb ndiv nsqrt lin_solve small_eig, solves lin_solve ->
  forall (a : varf N E) (b : series N E) d v sol, on_same a b d -> pos_eqb (v_pos a) (s_pos b) = true -> small_eig (v_mat a) = Ok v -> length v = length (v_mat a) ->
  lin_solve (bordered_matrix (v_mat a) v) (s_coeffs b ++ [n0]) = Ok sol ->
  exists f lam, varf_solve N far E e_mul e_div e_1 add_args mul_args free_vars sym_eqb pos_eqb ndiv nsqrt lin_solve small_eig a b Remove0 = Ok f /\
    series_ok f (length d) /\ s_pos f = v_pos a /\ s_set f = v_set a /\ s_factor f = v_factor a /\ sol = s_coeffs f ++ [lam] /\
    lincomb n1 lam (matvec (v_mat a) (s_coeffs f)) v = s_coeffs b /\ dot v (s_coeffs f) = n0.
Proof. exact solve_remove0. Qed.
Print Assumptions C58_remove0.
Theorem C58_raises : forall (N : num) far (E : Type) (e_mul e_div : E -> E -> E) (e_1 : E) add_args mul_args (free_vars : E -> list nat) sym_eqb pos_eqb ndiv nsqrt lin_solve small_eig,
  forall (a : varf N E) (b : series N E) rem, pos_eqb (v_pos a) (s_pos b) = false \/ v_set a <> s_set b ->
  varf_solve N far E e_mul e_div e_1 add_args mul_args free_vars sym_eqb pos_eqb ndiv nsqrt lin_solve small_eig a b rem = Throw "ValueError".
Proof. exact solve_raises. Qed.
Print Assumptions C58_raises.
(** Over the reals: if remove_vec is in the left kernel of A, A x is the projection b - <v, b> v of b. *)
Theorem C58_left_kernel : forall far, (forall l, far (diag_mat num_R l) = false) ->
  forall (E : Type) (e_mul e_div : E -> E -> E) (e_1 : E) add_args mul_args (free_vars : E -> list nat) sym_eqb pos_eqb lin_solve small_eig, solves lin_solve ->
  forall (a : varf num_R E) (b vec : series num_R E) d sol, on_same a b d -> on_same a vec d -> pos_eqb (v_pos a) (s_pos b) = true -> pos_eqb (v_pos a) (s_pos vec) = true ->
  factors_match e_mul e_div e_1 add_args mul_args free_vars sym_eqb vec a d -> dot (s_coeffs vec) (s_coeffs vec) <> 0%R ->
  (forall y, length y = length (v_mat a) -> dot (s_coeffs vec) (matvec (v_mat a) y) = 0%R) ->
  let v : list num_R := map (fun c : num_R => (c / sqrt (dot (s_coeffs vec) (s_coeffs vec)))%R) (s_coeffs vec) in
  lin_solve (bordered_matrix (N := num_R) (v_mat a) v) (s_coeffs b ++ [0%R]) = Ok sol ->
  exists f, varf_solve num_R far E e_mul e_div e_1 add_args mul_args free_vars sym_eqb pos_eqb Rdiv sqrt lin_solve small_eig a b (RemoveVec vec) = Ok f /\
    matvec (v_mat a) (s_coeffs f) = lincomb (N := num_R) 1%R (- dot v (s_coeffs b))%R (s_coeffs b) v /\ dot v (s_coeffs f) = 0%R.
Proof. exact solve_left_kernel. Qed.
Print Assumptions C58_left_kernel.
(** If remove_vec is in the kernel of A, the system A y = b has a solution, and the bordered system has only one, then A x = b. *)
Theorem C58_kernel : forall far, (forall l, far (diag_mat num_R l) = false) ->
  forall (E : Type) (e_mul e_div : E -> E -> E) (e_1 : E) add_args mul_args (free_vars : E -> list nat) sym_eqb pos_eqb lin_solve small_eig, solves lin_solve ->
  forall (a : varf num_R E) (b vec : series num_R E) d sol y, on_same a b d -> on_same a vec d -> pos_eqb (v_pos a) (s_pos b) = true -> pos_eqb (v_pos a) (s_pos vec) = true ->
  factors_match e_mul e_div e_1 add_args mul_args free_vars sym_eqb vec a d -> dot (s_coeffs vec) (s_coeffs vec) <> 0%R ->
  matvec (v_mat a) (s_coeffs vec) = repeat 0%R (length (v_mat a)) -> length y = length (v_mat a) -> matvec (v_mat a) y = s_coeffs b ->
  let v : list num_R := map (fun c : num_R => (c / sqrt (dot (s_coeffs vec) (s_coeffs vec)))%R) (s_coeffs vec) in
  lin_solve (bordered_matrix (N := num_R) (v_mat a) v) (s_coeffs b ++ [0%R]) = Ok sol ->
  (forall z, length z = length sol -> matvec (bordered_matrix (N := num_R) (v_mat a) v) z = s_coeffs b ++ [0%R] -> z = sol) ->
  exists f, varf_solve num_R far E e_mul e_div e_1 add_args mul_args free_vars sym_eqb pos_eqb Rdiv sqrt lin_solve small_eig a b (RemoveVec vec) = Ok f /\
    matvec (v_mat a) (s_coeffs f) = s_coeffs b /\ dot v (s_coeffs f) = 0%R.
Proof. exact solve_right_kernel. Qed.
Print Assumptions C58_kernel.
Notation solve_Z := (fun A b x => varf_solve num_Z (fun _ => false) expr EMul x_div (EInt 1) x_add_args x_mul_args x_free x_eqb (fun _ _ => true) Z.div Z.sqrt (knows (N := num_Z) Z.eq_dec A b x) (fun _ => Ok [1; 0; 0]%Z)).
(** The matrix diag(0, 2, 3), the right-hand side (5, 4, 9) and the vector (2, 0, 0): the solution is (0, 2, 3), and lam = 5. *)
Notation A3 := [[0; 0; 0]; [0; 2; 0]; [0; 0; 3]]%Z.
Notation B3 := [[0; 0; 0; 1]; [0; 2; 0; 0]; [0; 0; 3; 0]; [1; 0; 0; 0]]%Z.
Example C58_bordered_example : exists f, solve_Z B3 [5; 4; 9; 0]%Z [0; 2; 3; 5]%Z (varf_x (N := num_Z) [0; 1] (EVar 0) A3) (ser_x (N := num_Z) [0; 1] (EVar 0) [5; 4; 9]%Z) (RemoveVec (ser_x (N := num_Z) [0; 1] (EVar 0) [2; 0; 0]%Z)) = Ok f /\
  dot (N := num_Z) [1; 0; 0]%Z (s_coeffs f) = 0%Z.
Proof.
  destruct (C58_bordered num_Z num_Z_laws (fun _ => false) (fun _ => eq_refl) expr EMul x_div (EInt 1) x_add_args x_mul_args x_free x_eqb (fun _ _ => true) Z.div Z.sqrt
    (knows (N := num_Z) Z.eq_dec B3 [5; 4; 9; 0]%Z [0; 2; 3; 5]%Z) (fun _ => Ok [1; 0; 0]%Z)) with (a := varf_x (N := num_Z) [0; 1] (EVar 0) A3) (b := ser_x (N := num_Z) [0; 1] (EVar 0) [5; 4; 9]%Z)
    (vec := ser_x (N := num_Z) [0; 1] (EVar 0) [2; 0; 0]%Z) (d := [0; 1]) (sol := [0; 2; 3; 5]%Z) as (f & lam & H1 & _ & _ & _ & _ & _ & _ & H2).
  - apply knows_solves; reflexivity.
  - apply (x_on_same num_Z num_Z_laws); try (cbn; lia); try reflexivity; repeat constructor.
  - apply (x_on_same num_Z num_Z_laws); try (cbn; lia); try reflexivity; repeat constructor.
  - reflexivity.
  - reflexivity.
  - exists (Fn (EMul (EMul (EInt 1) (EMul (EInt 1) (EVar 0))) (EInt 1)) [0; 1]), (Fn (EMul (EMul (EInt 1) (EMul (EInt 1) (EVar 0))) (EInt 1)) [0; 1]). repeat split; vm_compute; reflexivity.
  - apply knows_self.
  - exists f. split; [exact H1|exact H2].
Qed.
Example C58_remove0_example : exists f, solve_Z B3 [5; 4; 9; 0]%Z [0; 2; 3; 5]%Z (varf_x (N := num_Z) [0; 1] (EVar 0) A3) (ser_x (N := num_Z) [0; 1] (EVar 0) [5; 4; 9]%Z) Remove0 = Ok f /\
  dot (N := num_Z) [1; 0; 0]%Z (s_coeffs f) = 0%Z.
Proof.
  destruct (C58_remove0 num_Z num_Z_laws (fun _ => false) expr EMul x_div (EInt 1) x_add_args x_mul_args x_free x_eqb (fun _ _ => true) Z.div Z.sqrt
    (knows (N := num_Z) Z.eq_dec B3 [5; 4; 9; 0]%Z [0; 2; 3; 5]%Z) (fun _ => Ok [1; 0; 0]%Z)) with (a := varf_x (N := num_Z) [0; 1] (EVar 0) A3) (b := ser_x (N := num_Z) [0; 1] (EVar 0) [5; 4; 9]%Z)
    (d := [0; 1]) (v := [1; 0; 0]%Z) (sol := [0; 2; 3; 5]%Z) as (f & lam & H1 & _ & _ & _ & _ & _ & _ & H2).
  - apply knows_solves; reflexivity.
  - apply (x_on_same num_Z num_Z_laws); try (cbn; lia); try reflexivity; repeat constructor.
  - reflexivity.
  - reflexivity.
  - reflexivity.
  - apply knows_self.
  - exists f. split; [exact H1|exact H2].
Qed.
Example C58_keep_example : exists f, solve_Z [[2; 1]; [1; 1]]%Z [4; 3]%Z [1; 2]%Z (varf_x (N := num_Z) [0] (EVar 0) [[2; 1]; [1; 1]]%Z) (ser_x (N := num_Z) [0] (EVar 0) [4; 3]%Z) Keep = Ok f /\ s_coeffs f = [1; 2]%Z.
Proof.
  destruct (C58_keep num_Z (fun _ => false) expr EMul x_div (EInt 1) x_add_args x_mul_args x_free x_eqb (fun _ _ => true) Z.div Z.sqrt
    (knows (N := num_Z) Z.eq_dec [[2; 1]; [1; 1]]%Z [4; 3]%Z [1; 2]%Z) (fun _ => Ok [1; 0; 0]%Z)) with (a := varf_x (N := num_Z) [0] (EVar 0) [[2; 1]; [1; 1]]%Z) (b := ser_x (N := num_Z) [0] (EVar 0) [4; 3]%Z)
    (d := [0]) (x := [1; 2]%Z) as (f & H1 & _ & _ & _ & _ & H2 & _).
  - apply knows_solves; reflexivity.
  - apply (x_on_same num_Z num_Z_laws); try (cbn; lia); try reflexivity; repeat constructor.
  - reflexivity.
  - apply knows_self.
  - exists f. split; [exact H1|exact H2].
Qed.
(** Over the reals: A = diag(0, 2), remove_vec = (2, 0), which is in both kernels, b = (0, 4). *)
Notation A2 := [[0; 0]; [0; 2]]%R.
Notation B2 := [[0; 0; 1]; [0; 2; 0]; [1; 0; 0]]%R.
Example C58_kernel_example : exists f, varf_solve num_R (fun _ => false) expr EMul x_div (EInt 1) x_add_args x_mul_args x_free x_eqb (fun _ _ => true) Rdiv sqrt (knows (N := num_R) Req_EM_T B2 [0; 4; 0]%R [0; 2; 0]%R) (fun _ => Throw "")
    (varf_x (N := num_R) [0] (EVar 0) A2) (ser_x (N := num_R) [0] (EVar 0) [0; 4]%R) (RemoveVec (ser_x (N := num_R) [0] (EVar 0) [2; 0]%R)) = Ok f /\ matvec (N := num_R) A2 (s_coeffs f) = [0; 4]%R.
Proof.
  assert (S4 : sqrt (dot (N := num_R) [2; 0] [2; 0])%R = 2%R). { replace (dot (N := num_R) [2; 0] [2; 0])%R with (2 * 2)%R by (unfold dot; cbn; match goal with |- ?a = ?b => change (@eq R a b) end; ring). apply sqrt_square. lra. }
  assert (Ev : map (fun c : num_R => (c / sqrt (dot (N := num_R) [2; 0] [2; 0]))%R) [2; 0]%R = [1; 0]%R). { rewrite S4. cbn [map]. apply (f_equal2 (@cons R)); [field|]. apply (f_equal2 (@cons R)); [field|reflexivity]. }
  assert (Bx : forall x y z : R, matvec (N := num_R) B2 [x; y; z]%R = [z; 2 * y; x]%R). { intros x y z. unfold matvec, dot. rlist. }
  assert (Ax : forall x y : R, matvec (N := num_R) A2 [x; y]%R = [0; 2 * y]%R). { intros x y. unfold matvec, dot. rlist. }
  destruct (C58_kernel (fun _ => false) (fun _ => eq_refl) expr EMul x_div (EInt 1) x_add_args x_mul_args x_free x_eqb (fun _ _ => true)
    (knows (N := num_R) Req_EM_T B2 [0; 4; 0]%R [0; 2; 0]%R) (fun _ => Throw "")) with (a := varf_x (N := num_R) [0] (EVar 0) A2) (b := ser_x (N := num_R) [0] (EVar 0) [0; 4]%R)
    (vec := ser_x (N := num_R) [0] (EVar 0) [2; 0]%R) (d := [0]) (sol := [0; 2; 0]%R) (y := [0; 2]%R) as (f & H1 & H2 & _).
  - apply knows_solves; [reflexivity|]. etransitivity; [apply Bx|]. rlist.
  - apply (x_on_same num_R num_R_laws); try (cbn; lia); try reflexivity; repeat constructor.
  - apply (x_on_same num_R num_R_laws); try (cbn; lia); try reflexivity; repeat constructor.
  - reflexivity.
  - reflexivity.
  - exists (Fn (EMul (EInt 1) (EMul (EInt 1) (EVar 0))) [0]), (Fn (EMul (EInt 1) (EMul (EInt 1) (EVar 0))) [0]). repeat split; reflexivity.
  - cbn [ser_x s_coeffs]. intros G. rewrite G, sqrt_0 in S4. lra.
  - cbn [ser_x varf_x s_coeffs v_mat]. etransitivity; [apply Ax|]. rlist.
  - reflexivity.
  - cbn [ser_x varf_x s_coeffs v_mat]. etransitivity; [apply Ax|]. rlist.
  - cbn [ser_x varf_x s_coeffs v_mat]. rewrite Ev. apply knows_self.
  - cbn [ser_x varf_x s_coeffs v_mat]. rewrite Ev. intros [|x [|y [|z [|? ?]]]] Hz Hb; try discriminate Hz. change (matvec (N := num_R) B2 [x; y; z] = [0; 4; 0]%R) in Hb. rewrite Bx in Hb. injection Hb as E1 E2 E3. subst. repeat f_equal. lra.
  - exists f. split; [exact H1|exact H2].
Qed.
