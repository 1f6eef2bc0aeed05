(** Property C99: restrictions of series compose. *)
From Coq Require Import String List Bool Arith ZArith Lia Sorted.
From Verif Require Import Base PyBase IndexModel Num LinModel LinSpec LinBase Facts2 PosModel PosSpec SeriesModel SeriesSpec SplitModel SplitSpec MulSpec MulFacts ProjModel RestrictSpec RestrictFacts RestrictFacts2.
Import ListNotations.
Local Open Scope list_scope. Local Open Scope nat_scope.

(** C99: changing the degree twice gives the multi-indices of the second degree, with the coefficients of the series at those that are also of the first degree and 0 at the others. *)
Theorem C99_degree_twice : forall (N : num) E (e_1 : E) (f g h : series N E) dim d1 d2, series_ok f dim -> d1 <= 250 -> d2 <= 250 -> series_subdegree N E e_1 f d1 = Ok g -> series_subdegree N E e_1 g d2 = Ok h ->
  s_pos h = s_pos f /\ s_set h = s_set f /\ s_factor h = s_factor f /\ (forall m, series_index h m <-> index_of (s_set f) dim d2 m) /\
  forall m, series_index h m -> (index_of (s_set f) dim d1 m -> series_at h m = series_at f m) /\ (~ index_of (s_set f) dim d1 m -> series_at h m = n0).
Proof. exact subdegree_twice. Qed.
Print Assumptions C99_degree_twice.

(** Lowering the degree in two steps is lowering it once. *)
Theorem C99_degree_lower : forall (N : num) E (e_1 : E) (f g h k : series N E) dim d1 d2, series_ok f dim -> d2 <= d1 -> d1 <= 250 ->
  series_subdegree N E e_1 f d1 = Ok g -> series_subdegree N E e_1 g d2 = Ok h -> series_subdegree N E e_1 f d2 = Ok k -> same_series h k.
Proof. exact lower_same. Qed.
Print Assumptions C99_degree_lower.

(** Raising the degree and lowering it again gives the series back. *)
Theorem C99_degree_back : forall (N : num) E (e_1 : E) (f g h : series N E) dim d, series_ok f dim -> s_degree f <= d -> d <= 250 ->
  series_subdegree N E e_1 f d = Ok g -> series_subdegree N E e_1 g (s_degree f) = Ok h -> same_series h f /\ s_pos h = s_pos f /\ s_factor h = s_factor f.
Proof. exact back_same. Qed.
Print Assumptions C99_degree_back.

(** Projecting on the directions D1, then on D2 among them, is projecting on D2. *)
Theorem C99_project_twice : forall (N : num) E (e_1 : E) far, (forall l, far (diag_mat N l) = false) -> forall e_mul add_args mul_args free_vars (f g h k : series N E) D1 D2,
  projectable f D1 -> increasing D2 -> D2 <> [] -> incl D2 D1 ->
  series_project N far E e_mul e_1 add_args mul_args free_vars f D1 = Ok g -> series_project N far E e_mul e_1 add_args mul_args free_vars g D2 = Ok h ->
  series_project N far E e_mul e_1 add_args mul_args free_vars f D2 = Ok k -> same_series h k.
Proof. exact twice_same. Qed.
Print Assumptions C99_project_twice.

(** Projecting commutes with changing the degree, unless the index set is a rectangle and its first direction, which is treated apart, is projected out. *)
Theorem C99_project_degree : forall (N : num) E (e_1 : E) far, (forall l, far (diag_mat N l) = false) -> forall e_mul add_args mul_args free_vars (f g a b c : series N E) D degree,
  projectable f D -> degree <= 250 -> (s_set f = Rectangle -> forall x, In x (tl (p_dirs (s_pos f))) -> hd_error D <> Some x) ->
  series_project N far E e_mul e_1 add_args mul_args free_vars f D = Ok g -> series_subdegree N E e_1 g degree = Ok a ->
  series_subdegree N E e_1 f degree = Ok b -> series_project N far E e_mul e_1 add_args mul_args free_vars b D = Ok c -> same_series a c.
Proof. exact degree_same. Qed.
Print Assumptions C99_project_degree.

(** Both are linear: the degree of a sum, of a multiple; the projection of a sum, of a multiple. *)
Theorem C99_degree_sum : forall (N : num) E (e_1 : E), num_laws N -> forall e_eqb pos_eqb (f g s a b c : series N E) dim degree, series_ok f dim -> series_ok g dim ->
  compatible pos_eqb e_eqb (s_pos f) (s_pos g) (s_set f) (s_set g) (s_factor f) (s_factor g) -> s_degree f = s_degree g -> degree <= 250 ->
  series_add N E e_eqb e_1 pos_eqb f g = Ok s -> series_subdegree N E e_1 s degree = Ok c -> series_subdegree N E e_1 f degree = Ok a -> series_subdegree N E e_1 g degree = Ok b ->
  (forall m, series_index c m <-> series_index a m) /\ forall m, series_index c m -> series_at c m = nadd (series_at a m) (series_at b m).
Proof. exact subdegree_add. Qed.
Print Assumptions C99_degree_sum.
Theorem C99_degree_multiple : forall (N : num) E (e_1 : E), num_laws N -> forall x (f s a c : series N E) dim degree, series_ok f dim -> degree <= 250 ->
  series_scale N E e_1 x f = Ok s -> series_subdegree N E e_1 s degree = Ok c -> series_subdegree N E e_1 f degree = Ok a ->
  (forall m, series_index c m <-> series_index a m) /\ forall m, series_index c m -> series_at c m = nmul (series_at a m) x.
Proof. exact subdegree_scale. Qed.
Print Assumptions C99_degree_multiple.
Theorem C99_project_sum : forall (N : num) E (e_1 : E) far, (forall l, far (diag_mat N l) = false) -> forall e_mul add_args mul_args free_vars, num_laws N -> forall e_eqb pos_eqb (f g s a b c : series N E) D,
  projectable f D -> projectable g D -> p_dirs (s_pos g) = p_dirs (s_pos f) ->
  compatible pos_eqb e_eqb (s_pos f) (s_pos g) (s_set f) (s_set g) (s_factor f) (s_factor g) -> s_degree f = s_degree g ->
  series_add N E e_eqb e_1 pos_eqb f g = Ok s -> series_project N far E e_mul e_1 add_args mul_args free_vars s D = Ok c ->
  series_project N far E e_mul e_1 add_args mul_args free_vars f D = Ok a -> series_project N far E e_mul e_1 add_args mul_args free_vars g D = Ok b ->
  (forall m, series_index c m <-> series_index a m) /\ (forall m, series_index c m <-> series_index b m) /\ forall m, length m = length D -> series_at c m = nadd (series_at a m) (series_at b m).
Proof. exact project_add. Qed.
Print Assumptions C99_project_sum.
Theorem C99_project_multiple : forall (N : num) E (e_1 : E) far, (forall l, far (diag_mat N l) = false) -> forall e_mul add_args mul_args free_vars, num_laws N -> forall x (f s a c : series N E) D,
  projectable f D -> series_scale N E e_1 x f = Ok s -> series_project N far E e_mul e_1 add_args mul_args free_vars s D = Ok c ->
  series_project N far E e_mul e_1 add_args mul_args free_vars f D = Ok a ->
  (forall m, series_index c m <-> series_index a m) /\ forall m, length m = length D -> series_at c m = nmul (series_at a m) x.
Proof. exact project_scale. Qed.
Print Assumptions C99_project_multiple.

Notation f012 := (count_series Triangle 2 10 [0; 1; 2]).
Example C99_degree_twice_example : exists g h, sub f012 1 = Ok g /\ sub g 3 = Ok h /\ series_at h [0; 0; 1] = 2%Z /\ series_at h [2; 0; 0] = 0%Z /\ series_at f012 [2; 0; 0] <> 0%Z.
Proof.
  destruct (sub_there f012 3 1 (proj1 count_projectable) ltac:(discriminate) ltac:(lia)) as (g & G & G1 & G2 & G3 & _). destruct (sub_there g 3 3 G1 ltac:(rewrite G3; discriminate) ltac:(lia)) as (h & H & _).
  destruct (C99_degree_twice num_Z expr (EInt 1) f012 g h 3 1 3 (proj1 count_projectable) ltac:(lia) ltac:(lia) G H) as (_ & _ & _ & I & V). exists g, h. split; [exact G|]. split; [exact H|].
  split; [|split; [|vm_compute; discriminate]].
  - etransitivity; [apply (proj1 (V [0; 0; 1] ltac:(apply I; split; cbn; lia)))|reflexivity]. split; cbn; lia.
  - apply (proj2 (V [2; 0; 0] ltac:(apply I; split; cbn; lia))). intros [_ K]. cbn in K. lia.
Qed.
Example C99_degree_lower_example : exists g h k, sub f012 1 = Ok g /\ sub g 0 = Ok h /\ sub f012 0 = Ok k /\ same_series h k.
Proof.
  destruct (sub_there f012 3 1 (proj1 count_projectable) ltac:(discriminate) ltac:(lia)) as (g & G & G1 & G2 & G3 & _). destruct (sub_there g 3 0 G1 ltac:(rewrite G3; discriminate) ltac:(lia)) as (h & H & _). destruct (sub_there f012 3 0 (proj1 count_projectable) ltac:(discriminate) ltac:(lia)) as (k & K & _).
  exists g, h, k. repeat (split; [assumption|]). exact (C99_degree_lower num_Z expr (EInt 1) _ g h k 3 1 0 (proj1 count_projectable) ltac:(lia) ltac:(lia) G H K).
Qed.
Example C99_degree_back_example : exists g h, sub f012 4 = Ok g /\ sub g 2 = Ok h /\ same_series h f012.
Proof.
  destruct (sub_there f012 3 4 (proj1 count_projectable) ltac:(discriminate) ltac:(lia)) as (g & G & G1 & G2 & G3 & _). destruct (sub_there g 3 2 G1 ltac:(rewrite G3; discriminate) ltac:(lia)) as (h & H & _).
  exists g, h. repeat (split; [assumption|]). exact (proj1 (C99_degree_back num_Z expr (EInt 1) _ g h 3 4 (proj1 count_projectable) ltac:(cbn; lia) ltac:(lia) G H)).
Qed.
Example C99_project_twice_example : exists g h k, project f012 [0; 2] = Ok g /\ project g [2] = Ok h /\ project f012 [2] = Ok k /\ same_series h k /\ series_at h [2] = 5%Z.
Proof.
  destruct (project_there f012 [0; 2] (Fn (EMul (EMul (EMul (EInt 1) (EInt 1)) (EInt 1)) (EInt 1)) [0; 2]) count_projectable ltac:(vm_compute; reflexivity)) as (g & G & G2 & G3 & G4 & G5 & G6 & G7). pose proof count_projectable as (F1 & F2 & F3 & F4 & F5 & F6).
  assert (Hg : projectable g [2]) by (unfold projectable; rewrite G5; split; [exact G3|]; split; [exact G4|]; split; [exact F4|]; split; [repeat constructor|]; split; [discriminate|intros x [<-|[]]; cbn; tauto]).
  assert (Hk : projectable f012 [2]) by (split; [exact F1|]; split; [exact F2|]; split; [exact F3|]; split; [repeat constructor|]; split; [discriminate|intros x [<-|[]]; cbn; tauto]).
  destruct (project_there g [2] (Fn (EMul (EInt 1) (EInt 1)) [2]) Hg ltac:(rewrite G2; vm_compute; reflexivity)) as (h & H & H2 & H3 & H4 & H5 & H6 & H7). destruct (project_there f012 [2] (Fn (EMul (EInt 1) (EInt 1)) [2]) Hk ltac:(vm_compute; reflexivity)) as (k & K & _).
  exists g, h, k. repeat (split; [assumption|]). split.
  - apply (C99_project_twice num_Z expr (EInt 1) no_far (fun _ => eq_refl) EMul x_add_args x_mul_args x_free f012 g h k [0; 2] [2] count_projectable); [repeat constructor|discriminate|intros x [<-|[]]; cbn; tauto|exact G|exact H|exact K].
  - rewrite H7 by reflexivity. rewrite G5. rewrite G7 by reflexivity. vm_compute. reflexivity.
Qed.
Example C99_project_degree_example : exists g a b c, project f012 [0; 2] = Ok g /\ sub g 1 = Ok a /\ sub f012 1 = Ok b /\ project b [0; 2] = Ok c /\ same_series a c.
Proof.
  destruct (project_there f012 [0; 2] (Fn (EMul (EMul (EMul (EInt 1) (EInt 1)) (EInt 1)) (EInt 1)) [0; 2]) count_projectable ltac:(vm_compute; reflexivity)) as (g & G & G2 & G3 & G4 & G5 & G6 & G7). destruct (sub_there g 2 1 G3 ltac:(rewrite G6; discriminate) ltac:(lia)) as (a & A & _).
  destruct (sub_there f012 3 1 (proj1 count_projectable) ltac:(discriminate) ltac:(lia)) as (b & B & B1 & B2 & B3 & B4). assert (Hb : projectable b [0; 2]) by (unfold projectable; rewrite B2; split; [exact B1|exact (proj2 count_projectable)]).
  destruct (project_there b [0; 2] (Fn (EMul (EMul (EMul (EInt 1) (EInt 1)) (EInt 1)) (EInt 1)) [0; 2]) Hb ltac:(rewrite B4; vm_compute; reflexivity)) as (c & C & _).
  exists g, a, b, c. repeat (split; [assumption|]).
  apply (C99_project_degree num_Z expr (EInt 1) no_far (fun _ => eq_refl) EMul x_add_args x_mul_args x_free _ g a b c [0; 2] 1 count_projectable); [lia|discriminate|exact G|exact A|exact B|exact C].
Qed.
(** The premises of the linearity theorems, with [f] and [g] the same series. *)
Example C99_linear_example : projectable f012 [0; 2] /\ compatible (fun _ _ => true) x_eqb (s_pos f012) (s_pos f012) (s_set f012) (s_set f012) (s_factor f012) (s_factor f012) /\
  exists s t, series_add num_Z expr x_eqb (EInt 1) (fun _ _ => true) f012 f012 = Ok s /\ series_scale num_Z expr (EInt 1) 3%Z f012 = Ok t /\ (exists a, project s [0; 2] = Ok a) /\ (exists a, project t [0; 2] = Ok a) /\ (exists a, sub s 1 = Ok a) /\ exists a, sub t 1 = Ok a.
Proof.
  split; [exact count_projectable|]. assert (Hc : compatible (fun _ _ : position num_Z => true) x_eqb (s_pos f012) (s_pos f012) (s_set f012) (s_set f012) (s_factor f012) (s_factor f012)) by (repeat split). split; [exact Hc|].
  destruct (SeriesFacts4.add_ok num_Z expr x_eqb (EInt 1) (fun _ _ => true) f012 f012 3 (proj1 count_projectable) (proj1 count_projectable) Hc eq_refl) as (s & S1 & S2 & S3 & S4 & S5 & _).
  destruct (SeriesFacts3.scale_spec num_Z expr (EInt 1) 3%Z f012 3 (proj1 count_projectable)) as (t & T1 & T2 & T3 & T4 & T5 & _). exists s, t. split; [exact S1|]. split; [exact T1|].
  assert (Ps : projectable s [0; 2]) by (unfold projectable; rewrite S3; split; [exact S2|exact (proj2 count_projectable)]). assert (Pt : projectable t [0; 2]) by (unfold projectable; rewrite T3; split; [exact T2|exact (proj2 count_projectable)]).
  split; [destruct (project_there s [0; 2] (Fn (EMul (EMul (EMul (EInt 1) (EInt 1)) (EInt 1)) (EInt 1)) [0; 2]) Ps ltac:(rewrite S5; vm_compute; reflexivity)) as (a & A & _); exists a; exact A|].
  split; [destruct (project_there t [0; 2] (Fn (EMul (EMul (EMul (EInt 1) (EInt 1)) (EInt 1)) (EInt 1)) [0; 2]) Pt ltac:(rewrite T5; vm_compute; reflexivity)) as (a & A & _); exists a; exact A|].
  split; [destruct (sub_there s 3 1 S2 ltac:(rewrite S4; discriminate) ltac:(lia)) as (a & A & _); exists a; exact A|destruct (sub_there t 3 1 T2 ltac:(rewrite T4; discriminate) ltac:(lia)) as (a & A & _); exists a; exact A].
Qed.

(** On a rectangle, a projection that drops the first direction and a change of degree do not commute. *)
Theorem C99_rectangle_refuted : ~ forall (f g a b c : series num_Z expr) D degree, projectable f D -> degree <= 250 ->
  project f D = Ok g -> sub g degree = Ok a -> sub f degree = Ok b -> project b D = Ok c -> same_series a c.
Proof. exact rectangle_order. Qed.
Print Assumptions C99_rectangle_refuted.
