(** Property C90: eigenvectors of variational forms, and gmres. *)
From Coq Require Import String List Bool Arith ZArith Reals Lia Lra.
From Verif Require Import Base PyBase IndexModel Num LinModel LinSpec LinBase Facts2 PosModel PosSpec SeriesModel SeriesSpec SplitModel SplitSpec SplitFacts MulSpec MulFacts SolveModel SolveSpec SolveFacts EigSpec EigModel EigFacts.
Import ListNotations.
Local Open Scope R_scope.

(** C90: if SciPy's eigs returns eigenpairs of the matrix (which is real), Varf.eigs returns the same eigenvalues and, for each, a series with the position, the index set and the
    factor of the form, that the form maps to the eigenvalue times the series.  If the imaginary part of the eigenvector has norm 1e-15 at most it is dropped, and the
    series is an eigenvector for the real part of the eigenvalue up to |Im lam| 1e-15 in each coefficient; nothing is lost if the eigenvector is real. *)
Theorem C90_eigs : forall E (e_1 : E) pos_eqb, (forall p, pos_eqb p p = true) -> forall la_eigs (a : varf num_C E) dim vals vecs,
  varf_ok a dim -> real_matrix (v_mat a) -> la_eigs (v_mat a) = Ok (vals, vecs) -> Forall2 (eigenpair (v_mat a)) vals vecs ->
  exists result, varf_eigs E e_1 la_eigs a = Ok (vals, result) /\ length result = length vals /\
    forall k lam x s, nth_error vals k = Some lam -> nth_error vecs k = Some x -> nth_error result k = Some s ->
      series_ok s dim /\ s_pos s = v_pos a /\ s_set s = v_set a /\ s_factor s = v_factor a /\
      exists g, varf_call num_C E e_1 pos_eqb a s = Ok g /\
        (s_coeffs s = x /\ s_coeffs g = map (nmul lam) (s_coeffs s) \/
         norm2 (map snd x) <= / 10 ^ 15 /\ s_coeffs s = map (fun z => (fst z, 0)) x /\ residual (v_mat a) (fst lam, 0) (s_coeffs s) (Rabs (snd lam) / 10 ^ 15)) /\
        (real_vector x -> (exists z, In z x /\ z <> (0, 0)) -> s_coeffs s = x /\ s_coeffs g = map (nmul lam) (s_coeffs s)).
Proof. exact eigs_ok. Qed.
Print Assumptions C90_eigs.

(** Hypotheses met: the rotation by 90 degrees, with the eigenvalues i and -i. *)
Definition rot : list (list num_C) := [[(0, 0); (-1, 0)]; [(1, 0); (0, 0)]].
Definition rot_eigs (_ : list (list num_C)) : res (list num_C * list (list num_C)) := Ok ([(0, 1); (0, -1)], [[(1, 0); (0, -1)]; [(1, 0); (0, 1)]]).
Ltac clist := cbn; repeat (apply (f_equal2 (@cons (R * R)))); try reflexivity; apply (f_equal2 pair); match goal with |- ?a = ?b => change (@eq R a b) end; ring.
Lemma rot_ok : varf_ok (varf_x (N := num_C) [0]%nat (EInt 1) rot) 1 /\ real_matrix rot /\ Forall2 (eigenpair rot) [(0, 1); (0, -1)] [[(1, 0); (0, -1)]; [(1, 0); (0, 1)]].
Proof.
  split; [|split].
  - split; [split; [reflexivity|split; [reflexivity|apply (usable_dim4 Triangle 1 1); lia]]|]. split; [reflexivity|repeat constructor].
  - intros row x Hr Hx. cbn in Hr. destruct Hr as [<-|[<-|[]]]; cbn in Hx; destruct Hx as [<-|[<-|[]]]; reflexivity.
  - constructor; [split; [reflexivity|clist]|]. constructor; [split; [reflexivity|clist]|]. constructor.
Qed.
Example C90_eigs_example : exists result, varf_eigs expr (EInt 1) rot_eigs (varf_x (N := num_C) [0]%nat (EInt 1) rot) = Ok ([(0, 1); (0, -1)], result) /\ length result = 2%nat.
Proof.
  destruct rot_ok as (R1 & R2 & R3). destruct (C90_eigs expr (EInt 1) (fun _ _ => true) (fun _ => eq_refl) rot_eigs (varf_x (N := num_C) [0]%nat (EInt 1) rot) 1 _ _ R1 R2 eq_refl R3) as (result & H1 & H2 & _).
  exists result. split; [exact H1|exact H2].
Qed.

(** Varf.solve(remove0=True) removes the eigenvector that eigs returns: A x + mu v = b and <v, x> = 0.  It never returns if eigs does not return exactly one. *)
Theorem C90_remove0 : forall far (E : Type) (e_mul e_div : E -> E -> E) (e_1 : E) add_args mul_args (free_vars : E -> list nat) sym_eqb pos_eqb ndiv nsqrt lin_solve (la_eigs : list (list num_C) -> res (list num_C * list (list num_C))), solves lin_solve ->
  forall (a : varf num_C E) (b : series num_C E) d lam (x sol : list num_C), on_same a b d -> pos_eqb (v_pos a) (s_pos b) = true -> la_eigs (v_mat a) = Ok ([lam], [x]) -> length x = length (v_mat a) ->
  let v : list num_C := if Rlt_dec (/ 10 ^ 15) (norm2 (map snd x)) then x else map (fun z => (fst z, 0)) x in
  lin_solve (bordered_matrix (v_mat a) v) (s_coeffs b ++ [n0]) = Ok sol ->
  exists f mu, varf_solve num_C far E e_mul e_div e_1 add_args mul_args free_vars sym_eqb pos_eqb ndiv nsqrt lin_solve (fun _ => smallest E e_1 la_eigs a) a b Remove0 = Ok f /\
    series_ok f (length d) /\ s_pos f = v_pos a /\ s_set f = v_set a /\ s_factor f = v_factor a /\ sol = s_coeffs f ++ [mu] /\
    lincomb n1 mu (matvec (v_mat a) (s_coeffs f)) v = s_coeffs b /\ dot v (s_coeffs f) = n0.
Proof. exact solve_smallest. Qed.
Print Assumptions C90_remove0.
Theorem C90_remove0_raises : forall far (E : Type) (e_mul e_div : E -> E -> E) (e_1 : E) add_args mul_args (free_vars : E -> list nat) sym_eqb pos_eqb ndiv nsqrt lin_solve la_eigs
  (a : varf num_C E) (b f : series num_C E) vals vecs, la_eigs (v_mat a) = Ok (vals, vecs) -> length vals <> 1%nat ->
  varf_solve num_C far E e_mul e_div e_1 add_args mul_args free_vars sym_eqb pos_eqb ndiv nsqrt lin_solve (fun _ => smallest E e_1 la_eigs a) a b Remove0 <> Ok f.
Proof. exact solve_smallest_raises. Qed.
Print Assumptions C90_remove0_raises.
(** Hypotheses met: diag(0, 2), with the eigenvector (1, 0) and the right-hand side (5, 4); the solution is (0, 2), and mu = 5. *)
Definition diag02 : list (list num_C) := [[(0, 0); (0, 0)]; [(0, 0); (2, 0)]].
Definition C_eq_dec : forall x y : num_C, {x = y} + {x <> y}.
Proof. intros [a b] [c d]. destruct (Req_EM_T a c) as [H1|H1]; [|right; congruence]. destruct (Req_EM_T b d) as [H2|H2]; [left; congruence|right; congruence]. Defined.
Definition know02 := knows (N := num_C) C_eq_dec (bordered_matrix (N := num_C) diag02 [(1, 0); (0, 0)]) [(5, 0); (4, 0); (0, 0)] [(0, 0); (2, 0); (5, 0)].
Example C90_remove0_example : exists f, varf_solve num_C (fun _ => false) expr EMul x_div (EInt 1) x_add_args x_mul_args x_free x_eqb (fun _ _ => true) (fun x _ => x) (fun x => x) know02
    (fun _ => smallest expr (EInt 1) (fun _ => Ok ([(0, 0)], [[(1, 0); (0, 0)]])) (varf_x (N := num_C) [0]%nat (EInt 1) diag02)) (varf_x (N := num_C) [0]%nat (EInt 1) diag02) (ser_x (N := num_C) [0]%nat (EInt 1) [(5, 0); (4, 0)]) Remove0 = Ok f /\
  dot (N := num_C) [(1, 0); (0, 0)] (s_coeffs f) = (0, 0).
Proof.
  destruct (C90_remove0 (fun _ => false) expr EMul x_div (EInt 1) x_add_args x_mul_args x_free x_eqb (fun _ _ => true) (fun x _ => x) (fun x => x) know02 (fun _ => Ok ([(0, 0)], [[(1, 0); (0, 0)]])))
    with (a := varf_x (N := num_C) [0]%nat (EInt 1) diag02) (b := ser_x (N := num_C) [0]%nat (EInt 1) [(5, 0); (4, 0)]) (d := [0]%nat) (lam := (0, 0)) (x := [(1, 0); (0, 0)]) (sol := [(0, 0); (2, 0); (5, 0)]) as (f & mu & H1 & _ & _ & _ & _ & _ & _ & H2).
  - apply knows_solves; [reflexivity|clist].
  - apply (x_on_same num_C num_C_laws); try (cbn; lia); try reflexivity; repeat constructor.
  - reflexivity.
  - reflexivity.
  - reflexivity.
  - destruct (Rlt_dec _ _); cbn [map fst]; apply knows_self.
  - exists f. split; [exact H1|]. destruct (Rlt_dec _ _) in H2; exact H2.
Qed.
Example C90_remove0_raises_example : length [(0, 1); (0, -1)] <> 1%nat.
Proof. discriminate. Qed.

(** Varf.solve(use_gmres=True, preconditioner='ilu') returns the vector that gmres returns ... *)
Theorem C90_gmres : forall (N : num) far (E : Type) (e_mul e_div : E -> E -> E) (e_1 : E) add_args mul_args (free_vars : E -> list nat) sym_eqb pos_eqb ndiv nsqrt small_eig gmres
  (a : varf N E) (b : series N E) d x info, on_same a b d -> pos_eqb (v_pos a) (s_pos b) = true -> gmres (v_mat a) (s_coeffs b) = Ok (x, info) -> length x = length (v_mat a) ->
  exists f, varf_solve N far E e_mul e_div e_1 add_args mul_args free_vars sym_eqb pos_eqb ndiv nsqrt (gmres_solver N true gmres) small_eig a b Keep = Ok f /\
    series_ok f (length d) /\ s_pos f = v_pos a /\ s_set f = v_set a /\ s_factor f = v_factor a /\ s_coeffs f = x.
Proof. exact gmres_iterate. Qed.
Print Assumptions C90_gmres.
(** ... but this need not be a solution, as an iteration that has not converged ([info] other than 0) is not reported. *)
Theorem C90_gmres_refuted : ~ forall gmres, converged_solves gmres -> forall (a : varf num_Z expr) (b f : series num_Z expr) d, on_same a b d ->
  varf_solve num_Z (fun _ => false) expr EMul x_div (EInt 1) x_add_args x_mul_args x_free x_eqb (fun _ _ => true) Z.div Z.sqrt (gmres_solver num_Z true gmres) (fun _ => Ok []) a b Keep = Ok f ->
  matvec (v_mat a) (s_coeffs f) = s_coeffs b.
Proof.
  intros H. set (gm := fun (_ : list (list num_Z)) (_ : list num_Z) => Ok ([0%Z; 0%Z], 1%nat)).
  assert (S : on_same (varf_x (N := num_Z) [0]%nat (EInt 1) [[1; 0]; [0; 1]]%Z) (ser_x (N := num_Z) [0]%nat (EInt 1) [5; 4]%Z) [0]%nat) by (apply (x_on_same num_Z num_Z_laws); try (cbn; lia); try reflexivity; repeat constructor).
  destruct (C90_gmres num_Z (fun _ => false) expr EMul x_div (EInt 1) x_add_args x_mul_args x_free x_eqb (fun _ _ => true) Z.div Z.sqrt (fun _ => Ok []) gm _ _ _ [0; 0]%Z 1%nat S eq_refl eq_refl eq_refl) as (f & F1 & _ & _ & _ & _ & F2).
  specialize (H gm ltac:(intros A b x G; discriminate G) _ _ f _ S F1). rewrite F2 in H. discriminate H.
Qed.
Print Assumptions C90_gmres_refuted.
Example C90_gmres_example : on_same (varf_x (N := num_Z) [0]%nat (EInt 1) [[1; 0]; [0; 1]]%Z) (ser_x (N := num_Z) [0]%nat (EInt 1) [5; 4]%Z) [0]%nat.
Proof. apply (x_on_same num_Z num_Z_laws); try (cbn; lia); try reflexivity; repeat constructor. Qed.

(** With another preconditioner, or none, the call never returns: it raises UnboundLocalError. *)
Theorem C90_gmres_unbound : forall (N : num) far (E : Type) (e_mul e_div : E -> E -> E) (e_1 : E) add_args mul_args (free_vars : E -> list nat) sym_eqb pos_eqb ndiv nsqrt small_eig gmres
  (a : varf N E) (b : series N E), pos_eqb (v_pos a) (s_pos b) = true -> v_set a = s_set b ->
  varf_solve N far E e_mul e_div e_1 add_args mul_args free_vars sym_eqb pos_eqb ndiv nsqrt (gmres_solver N false gmres) small_eig a b Keep = Throw "UnboundLocalError"%string.
Proof. exact gmres_unbound. Qed.
Print Assumptions C90_gmres_unbound.
Theorem C90_gmres_never : forall (N : num) far (E : Type) (e_mul e_div : E -> E -> E) (e_1 : E) add_args mul_args (free_vars : E -> list nat) sym_eqb pos_eqb ndiv nsqrt small_eig gmres
  (a : varf N E) (b : series N E) rem f,
  varf_solve N far E e_mul e_div e_1 add_args mul_args free_vars sym_eqb pos_eqb ndiv nsqrt (gmres_solver N false gmres) small_eig a b rem <> Ok f.
Proof. exact gmres_never. Qed.
Print Assumptions C90_gmres_never.
Example C90_gmres_unbound_example : varf_solve num_Z (fun _ => false) expr EMul x_div (EInt 1) x_add_args x_mul_args x_free x_eqb (fun _ _ => true) Z.div Z.sqrt (gmres_solver num_Z false (fun _ b => Ok (b, 0%nat))) (fun _ => Ok [])
    (varf_x (N := num_Z) [0]%nat (EInt 1) [[1; 0]; [0; 1]]%Z) (ser_x (N := num_Z) [0]%nat (EInt 1) [5; 4]%Z) Keep = Throw "UnboundLocalError"%string.
Proof. apply C90_gmres_unbound; reflexivity. Qed.
