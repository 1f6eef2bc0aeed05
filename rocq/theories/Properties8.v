(** Properties C46-C50 and C60: Series and Varf objects. *)
From Coq Require Import String List Bool Arith ZArith Sorted Lia.
From Verif Require Import Base IndexModel Num LinSpec LinBase Facts2 PosModel PosSpec SeriesModel SeriesSpec SeriesFacts SeriesFacts2 SeriesFacts3 SeriesFacts4.
Import ListNotations.
Local Open Scope string_scope. Local Open Scope list_scope. Local Open Scope nat_scope.

(** In the examples symbolic expressions are natural numbers and positions always compare equal. *)

(** C46: subdegree(d) has the multi-indices of degree d, and at each the coefficient of the series (0 if it has none). *)
Theorem C46_subdegree : forall (N : num) Sym (sym_1 : Sym) (f : series N Sym) dim degree, series_ok f dim -> s_set f <> CrossNc -> degree <= 250 ->
  exists g, series_subdegree N Sym sym_1 f degree = Ok g /\ series_ok g dim /\ s_pos g = s_pos f /\ s_set g = s_set f /\ s_factor g = s_factor f /\
    (forall m, series_index g m <-> index_of (s_set f) dim degree m) /\ (forall m, series_index g m -> series_at g m = series_at f m).
Proof. exact subdegree_spec. Qed.
Print Assumptions C46_subdegree.
Theorem C46_cross_nc_raises : forall (N : num) Sym (sym_1 : Sym) (f : series N Sym) degree, s_set f = CrossNc -> series_subdegree N Sym sym_1 f degree = Throw "ValueError".
Proof. exact subdegree_nc. Qed.
Print Assumptions C46_cross_nc_raises.
Example C46_example : exists g, series_subdegree num_Z nat 1 (ser_n Triangle 2 2) 4 = Ok g /\ series_at g [1; 1] = 5%Z /\ series_at g [2; 2] = 0%Z /\ series_index g [2; 2].
Proof.
  destruct (C46_subdegree num_Z nat 1 (ser_n Triangle 2 2) 2 4) as (g & E & _ & _ & _ & _ & I & R); [apply ser_n_ok; apply usable_dim4; lia|discriminate|lia|].
  exists g. split; [exact E|]. rewrite !R by (apply I; split; [reflexivity|cbn; lia]). split; [vm_compute; reflexivity|]. split; [vm_compute; reflexivity|]. apply I. split; [reflexivity|cbn; lia].
Qed.

(** C47: Varf.subdegree(d) keeps the entries at the multi-indices of degree d ... *)
Theorem C47_subdegree : forall (N : num) Sym (sym_1 : Sym) (v : varf N Sym) dim degree, varf_ok v dim -> v_set v <> CrossNc -> degree <= v_degree v ->
  exists w, varf_subdegree N Sym sym_1 v degree = Ok w /\ varf_ok w dim /\ v_pos w = v_pos v /\ v_set w = v_set v /\ v_factor w = v_factor v /\
    (forall m, varf_index w m <-> index_of (v_set v) dim degree m) /\ (forall r c, varf_index w r -> varf_index w c -> varf_at w r c = varf_at v r c).
Proof. exact varf_subdegree_spec. Qed.
Print Assumptions C47_subdegree.
Theorem C47_high_raises : forall (N : num) Sym (sym_1 : Sym) (v : varf N Sym) degree, v_degree v < degree -> varf_subdegree N Sym sym_1 v degree = Throw "ValueError".
Proof. exact varf_subdegree_high. Qed.
Print Assumptions C47_high_raises.
(** ... except for cross_nc, which it accepts. *)
Theorem C47_cross_nc_refuted : ~ forall (v : varf num_Z nat) dim degree w, varf_ok v dim -> degree <= v_degree v -> varf_subdegree num_Z nat 1 v degree = Ok w ->
  forall r c, varf_index w r -> varf_index w c -> varf_at w r c = varf_at v r c.
Proof. exact varf_subdegree_nc_refuted. Qed.
Print Assumptions C47_cross_nc_refuted.
Example C47_example : exists w, varf_subdegree num_Z nat 1 (varf_n Triangle 2 2) 1 = Ok w /\ varf_at w [1; 0] [0; 1] = 201%Z.
Proof.
  destruct (C47_subdegree num_Z nat 1 (varf_n Triangle 2 2) 2 1) as (w & E & _ & _ & _ & _ & I & R); [apply varf_n_ok; apply usable_dim4; lia|discriminate|cbn; lia|].
  exists w. split; [exact E|]. rewrite R by (apply I; split; [reflexivity|cbn; lia]). vm_compute. reflexivity.
Qed.

(** C48: to_cross(d) keeps the coefficients at the multi-indices of the cross. *)
Theorem C48_series : forall (N : num) Sym (sym_1 : Sym) (f : series N Sym) dim degree, series_ok f dim -> s_set f = Triangle -> degree + dim <= s_degree f + 1 -> (1 <= degree \/ dim <= s_degree f) -> StronglySorted le (p_dirs (s_pos f)) ->
  exists g, series_to_cross N Sym sym_1 f degree = Ok g /\ series_ok g dim /\ s_pos g = s_pos f /\ s_set g = Cross /\ s_degree g = Nat.max 1 degree /\ s_factor g = Fn sym_1 (p_dirs (s_pos f)) /\
    (forall m, series_index g m -> series_index f m /\ series_at g m = series_at f m).
Proof. exact to_cross_spec. Qed.
Print Assumptions C48_series.
Theorem C48_series_raises : forall (N : num) Sym (sym_1 : Sym) (f : series N Sym) degree, s_set f <> Triangle \/ s_degree f + 1 < degree + length (p_mean (s_pos f)) -> series_to_cross N Sym sym_1 f degree = Throw "ValueError".
Proof. exact to_cross_throws. Qed.
Print Assumptions C48_series_raises.
Theorem C48_varf : forall (N : num) Sym (sym_1 : Sym) (v : varf N Sym) dim degree, varf_ok v dim -> v_set v = Triangle -> degree + dim <= v_degree v + 1 -> (1 <= degree \/ dim <= v_degree v) ->
  exists w, varf_to_cross N Sym sym_1 v degree = Ok w /\ varf_ok w dim /\ v_pos w = v_pos v /\ v_set w = Cross /\ v_degree w = Nat.max 1 degree /\ v_factor w = v_factor v /\
    (forall m, varf_index w m -> varf_index v m) /\ (forall r c, varf_index w r -> varf_index w c -> varf_at w r c = varf_at v r c).
Proof. exact varf_to_cross_spec. Qed.
Print Assumptions C48_varf.
(** The guard does not guarantee that the indices are in range: the cross of degree 0 is that of degree 1. *)
Theorem C48_degree0_raises : forall (N : num) Sym (sym_1 : Sym) (f : series N Sym) dim, series_ok f dim -> s_set f = Triangle -> s_degree f + 1 = dim -> series_to_cross N Sym sym_1 f 0 = Throw "IndexError".
Proof. exact to_cross_degree0. Qed.
Print Assumptions C48_degree0_raises.
Theorem C48_varf_degree0_raises : forall (N : num) Sym (sym_1 : Sym) (v : varf N Sym) dim, varf_ok v dim -> v_set v = Triangle -> v_degree v + 1 = dim -> varf_to_cross N Sym sym_1 v 0 = Throw "IndexError".
Proof. exact varf_to_cross_degree0. Qed.
Print Assumptions C48_varf_degree0_raises.
Theorem C48_guard_refuted : ~ forall (f : series num_Z nat) dim degree, series_ok f dim -> s_set f = Triangle -> degree + dim <= s_degree f + 1 -> exists g, series_to_cross num_Z nat 1 f degree = Ok g.
Proof. exact to_cross_guard_refuted. Qed.
Print Assumptions C48_guard_refuted.
Example C48_example : exists g, series_to_cross num_Z nat 1 (ser_n Triangle 2 3) 2 = Ok g /\ series_at g [2; 0] = series_at (ser_n Triangle 2 3) [2; 0].
Proof.
  destruct (C48_series num_Z nat 1 (ser_n Triangle 2 3) 2 2) as (g & E & _ & P & S & D & _ & R); [apply ser_n_ok; apply usable_dim4; lia|reflexivity|cbn; lia|lia|repeat constructor|].
  exists g. split; [exact E|]. apply R. unfold series_index. rewrite P, S, D. split; [reflexivity|cbn; lia].
Qed.
Example C48_degree0_example : series_to_cross num_Z nat 1 (ser_n Triangle 3 2) 0 = Throw "IndexError".
Proof. apply (C48_degree0_raises num_Z nat 1 _ 3); [apply ser_n_ok; apply usable_dim4; lia|reflexivity|reflexivity]. Qed.

(** C49: C48_varf says that Varf.to_cross keeps the factor and C48_series that Series.to_cross resets it to 1. *)
Theorem C49_factor_refuted : ~ forall (f g : series num_Z nat) dim degree, series_ok f dim -> series_to_cross num_Z nat 1 f degree = Ok g -> s_factor g = s_factor f.
Proof. exact to_cross_factor_refuted. Qed.
Print Assumptions C49_factor_refuted.

(** C50: the constructor of Series accepts exactly the numbers of coefficients that are the number of multi-indices of some degree up to 250. *)
Theorem C50_accepts : forall (N : num) Sym (sym_1 : Sym) coeffs (pos : position N) (factor : option (func Sym)) s dim, pos_dim pos s dim 0 -> factor_ok factor (p_dirs pos) ->
  (exists f, series_init N Sym sym_1 coeffs pos factor s = Ok f) <-> exists degree, degree <= 250 /\ length coeffs = length (points s dim degree).
Proof. exact series_accepts. Qed.
Print Assumptions C50_accepts.
Theorem C50_fields : forall (N : num) Sym (sym_1 : Sym) coeffs (pos : position N) (factor : option (func Sym)) s dim f, pos_dim pos s dim 0 -> factor_ok factor (p_dirs pos) -> series_init N Sym sym_1 coeffs pos factor s = Ok f ->
  series_ok f dim /\ s_coeffs f = coeffs /\ s_pos f = pos /\ s_set f = s /\ s_factor f = given factor (Fn sym_1 (p_dirs pos)).
Proof. exact series_init_result. Qed.
Print Assumptions C50_fields.
(** Another number of coefficients ends the process, raises, or (cross) reads outside a list. *)
Theorem C50_rejects_exit : forall (N : num) Sym (sym_1 : Sym) coeffs (pos : position N) (factor : option (func Sym)) s dim, pos_dim pos s dim 0 -> s <> Cross -> (Z.of_nat (length coeffs) < 2 ^ 32)%Z ->
  (forall degree, degree <= 250 -> length coeffs <> length (points s dim degree)) -> series_init N Sym sym_1 coeffs pos factor s = Exit 0 \/ series_init N Sym sym_1 coeffs pos factor s = Exit 1.
Proof. exact series_rejects_exit. Qed.
Print Assumptions C50_rejects_exit.
Theorem C50_rejects_cross : forall (N : num) Sym (sym_1 : Sym) coeffs (pos : position N) (factor : option (func Sym)) dim, pos_dim pos Cross dim 0 -> (Z.of_nat (length coeffs) < 2 ^ 32)%Z -> (forall degree, degree <= 250 -> length coeffs <> length (points Cross dim degree)) ->
  series_init N Sym sym_1 coeffs pos factor Cross = if (1 <=? length coeffs) && (length coeffs <=? length (points Cross dim 250)) then Throw "ValueError" else Ub.
Proof. exact series_rejects_cross. Qed.
Print Assumptions C50_rejects_cross.
(** Without directions any number of coefficients is accepted. *)
Theorem C50_dim0 : forall (N : num) Sym (sym_1 : Sym) coeffs (pos : position N) (factor : option (func Sym)) s, p_dirs pos = [] -> exists f, series_init N Sym sym_1 coeffs pos factor s = Ok f /\ s_coeffs f = coeffs /\ s_degree f = 0.
Proof. exact series_dim0. Qed.
Print Assumptions C50_dim0.
Theorem C50_dim0_refuted : ~ forall (coeffs : list num_Z) pos (factor : option (func nat)) s f, series_init num_Z nat 1 coeffs pos factor s = Ok f -> p_dirs pos = [] -> length coeffs = 1.
Proof. exact series_dim0_refuted. Qed.
Print Assumptions C50_dim0_refuted.
Example C50_example : exists f, series_init num_Z nat 1 [1%Z; 2%Z; 3%Z; 4%Z; 5%Z; 6%Z] (pos_n 2) None Triangle = Ok f /\ series_at f [1; 1] = 5%Z.
Proof.
  assert (Hp : pos_dim (pos_n 2) Triangle 2 0) by (apply pos_n_ok; apply usable_dim4; lia).
  destruct (proj2 (C50_accepts num_Z nat 1 [1%Z; 2%Z; 3%Z; 4%Z; 5%Z; 6%Z] (pos_n 2) None Triangle 2 Hp ltac:(right; repeat constructor))) as [f E]; [exists 2; split; [lia|reflexivity]|].
  exists f. split; [exact E|]. vm_compute in E. injection E as <-. vm_compute. reflexivity.
Qed.
Example C50_rejects_example : series_init num_Z nat 1 [1%Z; 2%Z] (pos_n 2) None Triangle = Exit 0 \/ series_init num_Z nat 1 [1%Z; 2%Z] (pos_n 2) None Triangle = Exit 1.
Proof.
  apply (C50_rejects_exit num_Z nat 1 [1%Z; 2%Z] (pos_n 2) None Triangle 2); [apply pos_n_ok; apply usable_dim4; lia|discriminate|reflexivity|].
  intros degree Hd. assert (U : usable Triangle 2 degree) by (apply usable_dim4; lia). destruct degree as [|degree]; [vm_compute; discriminate|].
  assert (H : length [[0; 0]; [0; 1]; [1; 0]] <= length (points Triangle 2 (S degree))).
  { apply NoDup_incl_length; [repeat constructor; cbn; intuition discriminate|]. intros m Hm. apply points_In; [exact U|]. destruct Hm as [<-|[<-|[<-|[]]]]; (split; [reflexivity|cbn; lia]). }
  cbn [length] in *. lia.
Qed.

(** C60: addition, scaling and subtraction act on the coefficients ... *)
Theorem C60_add : forall (N : num) Sym sym_eqb (sym_1 : Sym) pos_eqb (f g : series N Sym) dim, series_ok f dim -> series_ok g dim -> compatible pos_eqb sym_eqb (s_pos f) (s_pos g) (s_set f) (s_set g) (s_factor f) (s_factor g) -> s_degree f = s_degree g ->
  exists h, series_add N Sym sym_eqb sym_1 pos_eqb f g = Ok h /\ series_ok h dim /\ s_pos h = s_pos f /\ s_set h = s_set f /\ s_factor h = s_factor f /\
    (forall m, series_index h m <-> series_index f m) /\ (forall m, series_index f m -> series_at h m = nadd (series_at f m) (series_at g m)).
Proof. exact add_ok. Qed.
Print Assumptions C60_add.
Theorem C60_scale : forall (N : num) Sym (sym_1 : Sym) a (f : series N Sym) dim, series_ok f dim ->
  exists h, series_scale N Sym sym_1 a f = Ok h /\ series_ok h dim /\ s_pos h = s_pos f /\ s_set h = s_set f /\ s_factor h = s_factor f /\ length (s_coeffs h) = length (s_coeffs f) /\
    (forall m, series_index h m <-> series_index f m) /\ (forall m, series_index f m -> series_at h m = nmul (series_at f m) a).
Proof. exact scale_spec. Qed.
Print Assumptions C60_scale.
Theorem C60_sub : forall (N : num) Sym sym_eqb (sym_1 : Sym) pos_eqb, num_laws N -> forall (f g : series N Sym) dim, series_ok f dim -> series_ok g dim -> compatible pos_eqb sym_eqb (s_pos f) (s_pos g) (s_set f) (s_set g) (s_factor f) (s_factor g) -> s_degree f = s_degree g ->
  exists h, series_sub N Sym sym_eqb sym_1 pos_eqb f g = Ok h /\ series_ok h dim /\ s_pos h = s_pos f /\ s_set h = s_set f /\ s_factor h = s_factor f /\
    (forall m, series_index h m <-> series_index f m) /\ (forall m, series_index f m -> series_at h m = nadd (series_at f m) (nopp (series_at g m))).
Proof. exact sub_ok. Qed.
Print Assumptions C60_sub.
(** ... series that do not belong to the same space, or have different numbers of coefficients, neither of them one, cannot be added ... *)
Theorem C60_add_raises : forall (N : num) Sym sym_eqb (sym_1 : Sym) pos_eqb (f g : series N Sym), ~ compatible pos_eqb sym_eqb (s_pos f) (s_pos g) (s_set f) (s_set g) (s_factor f) (s_factor g) \/
  length (s_coeffs f) <> length (s_coeffs g) /\ length (s_coeffs f) <> 1 /\ length (s_coeffs g) <> 1 -> series_add N Sym sym_eqb sym_1 pos_eqb f g = Throw "ValueError".
Proof. exact add_throws. Qed.
Print Assumptions C60_add_raises.
(** ... but a series with one coefficient is silently added to every coefficient. *)
Theorem C60_broadcast : forall (N : num) Sym sym_eqb (sym_1 : Sym) pos_eqb (f g : series N Sym) dim, series_ok f dim -> series_ok g dim -> compatible pos_eqb sym_eqb (s_pos g) (s_pos f) (s_set g) (s_set f) (s_factor g) (s_factor f) -> length (s_coeffs f) = 1 -> length (s_coeffs g) <> 1 ->
  exists h, series_add N Sym sym_eqb sym_1 pos_eqb g f = Ok h /\ (forall m, series_index h m <-> series_index g m) /\ forall m, series_index g m -> series_at h m = nadd (series_at g m) (nth 0 (s_coeffs f) n0).
Proof. exact broadcast_ok. Qed.
Print Assumptions C60_broadcast.
Theorem C60_degrees_refuted : ~ forall (f g h : series num_Z nat) dim, series_ok f dim -> series_ok g dim -> series_add num_Z nat Nat.eqb 1 (fun _ _ => true) f g = Ok h -> s_degree f = s_degree g.
Proof. exact broadcast_refuted. Qed.
Print Assumptions C60_degrees_refuted.
(** Variational forms. *)
Theorem C60_varf_add : forall (N : num) Sym sym_eqb (sym_1 : Sym) pos_eqb (v w : varf N Sym) dim, varf_ok v dim -> varf_ok w dim -> compatible pos_eqb sym_eqb (v_pos v) (v_pos w) (v_set v) (v_set w) (v_factor v) (v_factor w) -> v_degree v = v_degree w ->
  exists h, varf_add N Sym sym_eqb sym_1 pos_eqb v w = Ok h /\ varf_ok h dim /\ v_pos h = v_pos v /\ v_set h = v_set v /\ v_factor h = v_factor v /\
    (forall m, varf_index h m <-> varf_index v m) /\ (forall r c, varf_index v r -> varf_index v c -> varf_at h r c = nadd (varf_at v r c) (varf_at w r c)).
Proof. exact vadd_ok. Qed.
Print Assumptions C60_varf_add.
Theorem C60_varf_add_raises : forall (N : num) Sym sym_eqb (sym_1 : Sym) pos_eqb (v w : varf N Sym), ~ compatible pos_eqb sym_eqb (v_pos v) (v_pos w) (v_set v) (v_set w) (v_factor v) (v_factor w) -> varf_add N Sym sym_eqb sym_1 pos_eqb v w = Throw "ValueError".
Proof. exact vadd_throws. Qed.
Print Assumptions C60_varf_add_raises.
Theorem C60_varf_scale : forall (N : num) Sym (sym_1 : Sym) a (v : varf N Sym) dim, varf_ok v dim ->
  exists h, varf_scale N Sym sym_1 a v = Ok h /\ varf_ok h dim /\ v_pos h = v_pos v /\ v_set h = v_set v /\ v_factor h = v_factor v /\
    (forall m, varf_index h m <-> varf_index v m) /\ (forall r c, varf_index v r -> varf_index v c -> varf_at h r c = nmul (varf_at v r c) a).
Proof. exact vscale_ok. Qed.
Print Assumptions C60_varf_scale.
(** Applying a variational form is the matrix-vector product, and linear. *)
Theorem C60_call : forall (N : num) Sym (sym_1 : Sym) pos_eqb (v : varf N Sym) (f : series N Sym) dim, varf_ok v dim -> series_ok f dim -> pos_eqb (v_pos v) (s_pos f) = true -> v_set v = s_set f -> v_degree v = s_degree f ->
  exists h, varf_call N Sym sym_1 pos_eqb v f = Ok h /\ series_ok h dim /\ s_pos h = v_pos v /\ s_set h = v_set v /\ s_factor h = v_factor v /\ (forall m, series_index h m <-> series_index f m) /\
    (forall r, series_index f r -> series_at h r = nsum (map (fun c => nmul (varf_at v r c) (series_at f c)) (points (s_set f) dim (s_degree f)))).
Proof. exact call_spec. Qed.
Print Assumptions C60_call.
Theorem C60_call_raises : forall (N : num) Sym (sym_1 : Sym) pos_eqb (v : varf N Sym) (f : series N Sym) dim, varf_ok v dim -> pos_eqb (v_pos v) (s_pos f) = false \/ v_set v <> s_set f \/ length (points (v_set v) dim (v_degree v)) <> length (s_coeffs f) ->
  varf_call N Sym sym_1 pos_eqb v f = Throw "ValueError".
Proof. exact call_raises. Qed.
Print Assumptions C60_call_raises.
Theorem C60_call_add : forall (N : num) Sym sym_eqb (sym_1 : Sym) pos_eqb, num_laws N -> forall (v : varf N Sym) (f g h vf vg vh : series N Sym) dim, varf_ok v dim -> series_ok f dim -> series_ok g dim ->
  pos_eqb (v_pos v) (s_pos f) = true -> pos_eqb (v_pos v) (s_pos g) = true -> v_set v = s_set f -> v_degree v = s_degree f -> s_degree f = s_degree g -> compatible pos_eqb sym_eqb (s_pos f) (s_pos g) (s_set f) (s_set g) (s_factor f) (s_factor g) ->
  series_add N Sym sym_eqb sym_1 pos_eqb f g = Ok h -> varf_call N Sym sym_1 pos_eqb v f = Ok vf -> varf_call N Sym sym_1 pos_eqb v g = Ok vg -> varf_call N Sym sym_1 pos_eqb v h = Ok vh ->
  forall m, series_index f m -> series_at vh m = nadd (series_at vf m) (series_at vg m).
Proof. exact call_adds. Qed.
Print Assumptions C60_call_add.
Theorem C60_call_scale : forall (N : num) Sym (sym_1 : Sym) pos_eqb, num_laws N -> forall a (v : varf N Sym) (f h vf vh : series N Sym) dim, varf_ok v dim -> series_ok f dim -> pos_eqb (v_pos v) (s_pos f) = true -> v_set v = s_set f -> v_degree v = s_degree f ->
  series_scale N Sym sym_1 a f = Ok h -> varf_call N Sym sym_1 pos_eqb v f = Ok vf -> varf_call N Sym sym_1 pos_eqb v h = Ok vh -> forall m, series_index f m -> series_at vh m = nmul (series_at vf m) a.
Proof. exact call_scale. Qed.
Print Assumptions C60_call_scale.
(** The factor of the series is ignored. *)
Theorem C60_call_factor_refuted : ~ forall (v : varf num_Z nat) (f g : series num_Z nat) dim, varf_ok v dim -> series_ok f dim -> varf_call num_Z nat 1 (fun _ _ => true) v f = Ok g -> s_factor f = v_factor v.
Proof. exact call_factor_refuted. Qed.
Print Assumptions C60_call_factor_refuted.
Example C60_add_example : exists h, series_add num_Z nat Nat.eqb 1 any_pos (ser_n Cube 2 1) (ser_n Cube 2 1) = Ok h /\ series_at h [1; 0] = Z.add (series_at (ser_n Cube 2 1) [1; 0]) (series_at (ser_n Cube 2 1) [1; 0]).
Proof.
  destruct (C60_add num_Z nat Nat.eqb 1 any_pos (ser_n Cube 2 1) (ser_n Cube 2 1) 2) as (h & E & _ & _ & _ & _ & _ & R); try (apply ser_n_ok; apply usable_dim4; lia); [repeat split|reflexivity|].
  exists h. split; [exact E|]. apply R. split; [reflexivity|repeat constructor].
Qed.
Example C60_call_example : exists h, varf_call num_Z nat 1 any_pos (varf_n Triangle 2 1) (ser_n Triangle 2 1) = Ok h /\ series_at h [1; 0] = (200 * 1 + 201 * 2 + 202 * 3)%Z.
Proof.
  destruct (C60_call num_Z nat 1 any_pos (varf_n Triangle 2 1) (ser_n Triangle 2 1) 2) as (h & E & _ & _ & _ & _ & _ & R); [apply varf_n_ok; apply usable_dim4; lia|apply ser_n_ok; apply usable_dim4; lia|reflexivity|reflexivity|reflexivity|].
  exists h. split; [exact E|]. rewrite R by (split; [reflexivity|cbn; lia]). vm_compute. reflexivity.
Qed.
