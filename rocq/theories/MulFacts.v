(** Products of series: proofs. *)
From Coq Require Import String List Bool Arith ZArith Lia Sorted Permutation.
From Verif Require Import Base IndexModel Spec Num LinModel LinSpec LinBase Dirs Facts2 Facts4 PyBase PosModel PosSpec PosFacts SeriesModel SeriesSpec SeriesFacts SeriesFacts3 PartModel SplitModel SplitSpec SplitFacts MulModel MulSpec.
Import ListNotations.
Local Open Scope string_scope. Local Open Scope list_scope. Local Open Scope nat_scope.

Section Mul.
Variable N : num.
Hypothesis L : num_laws N.
Variable far : list (list N) -> bool.
Hypothesis far_diag : forall l, far (diag_mat N l) = false.
Variable E : Type.
Variable e_mul e_div : E -> E -> E.
Variable e_1 : E.
Variable add_args mul_args : E -> list E.
Variable free_vars : E -> fset.
Variable sym_eqb : E -> E -> bool.
Notation series := (series N E).
Notation series_mul := (series_mul N far E e_mul e_div e_1 add_args mul_args free_vars sym_eqb).
Notation project := (fun_project E e_mul e_1 add_args mul_args free_vars).

Lemma common_inn : forall d1 d2 dres dinn, increasing d1 -> inner_dirs d1 d2 dres dinn -> py_sorted (filter (fun d => py_in d d2) d1) = dinn.
Proof.
  intros d1 d2 dres dinn H1 (_ & I2 & _ & I4). apply inc_unique; [apply py_sorted_increasing, NoDup_filter, increasing_NoDup, H1|exact I2|].
  intros x. rewrite I4. transitivity (In x (filter (fun d => py_in d d2) d1)); [|rewrite filter_In, py_in_iff; tauto].
  split; apply Permutation_in; [apply Permutation_sym|]; apply py_sorted_perm.
Qed.

Lemma subset_incl : forall a b, subset a b = true <-> incl a b.
Proof. intros a b. unfold subset. rewrite forallb_forall. split; intros H x Hx; [apply py_in_iff, H, Hx|apply py_in_iff, H, Hx]. Qed.

Lemma owners_two : forall p q : position N, pos_ok p -> pos_ok q -> forall d, owners [p; q] d <= 2.
Proof.
  intros p q Hp Hq d. unfold owners. cbn [map concat]. rewrite app_nil_r, count_occ_app.
  assert (G : forall l, NoDup l -> count_occ Nat.eq_dec l d <= 1) by (intros l Hl; apply (proj1 (NoDup_count_occ Nat.eq_dec l)); exact Hl).
  pose proof (G _ (proj1 Hp)). pose proof (G _ (proj1 Hq)). lia.
Qed.
Lemma owners_one : forall (p q : position N) dres dinn, pos_ok p -> pos_ok q -> inner_dirs (p_dirs p) (p_dirs q) dres dinn -> forall d, owners [p; q] d = 1 <-> In d dres.
Proof.
  intros p q dres dinn Hp Hq (_ & _ & I & _) d. rewrite I. unfold owners. cbn [map concat]. rewrite app_nil_r, count_occ_app.
  assert (G : forall l, NoDup l -> count_occ Nat.eq_dec l d <= 1) by (intros l Hl; apply (proj1 (NoDup_count_occ Nat.eq_dec l)); exact Hl).
  pose proof (G _ (proj1 Hp)). pose proof (G _ (proj1 Hq)).
  rewrite (count_occ_In Nat.eq_dec (p_dirs p) d), (count_occ_In Nat.eq_dec (p_dirs q) d). lia.
Qed.

Theorem mul_ok : forall f g d1 d2 dres dinn p q, multipliable f g d1 d2 -> inner_dirs d1 d2 dres dinn -> (dres <> [] -> usable (s_set f) (length dres) (s_degree f)) ->
  project (s_factor f) dinn = Ok p -> project (s_factor g) dinn = Ok q -> func_eqb E sym_eqb p q = true ->
  let factor := e_mul (e_div (f_sym (s_factor f)) (f_sym p)) (e_div (f_sym (s_factor g)) (f_sym q)) in
  incl (free_vars factor) dres ->
  exists h, series_mul f g = Ok h /\ s_set h = s_set f /\ p_dirs (s_pos h) = dres /\ s_factor h = Fn factor dres /\ pos_ok (s_pos h) /\
    (dres <> [] -> series_ok h (length dres)) /\
    (forall a d m v t, In a [s_pos f; s_pos g] -> In d dres -> records a d m v t -> records (s_pos h) d m v t) /\
    forall r, index_of (s_set f) (length dres) (s_degree f) r -> series_at h r = contraction (s_set f) (s_degree f) d1 d2 dres dinn (s_coeffs f) (s_coeffs g) r.
Proof.
  intros f g d1 d2 dres dinn p q (Hf & Hg & E1 & E2 & I1 & I2 & P1 & P2 & Hc & Hs & Hd) Hi Hu Ep Eq Hpq factor Hv.
  destruct Hf as [(F1 & F2 & F3) F4]. destruct Hg as [(G1 & G2 & G3) G4]. rewrite <- Hs, <- Hd in *.
  assert (N1 : d1 <> []) by (intros ->; destruct F3; cbn in *; lia). assert (N2 : d2 <> []) by (intros ->; destruct G3; cbn in *; lia).
  unfold MulModel.series_mul. rewrite <- Hs, iset_eqb_refl. cbn [require bind]. unfold series_tensorize. cbn [for_in]. unfold series_tensorize2, p_dim.
  rewrite F2, G2. rewrite (proj2 (Nat.eqb_neq (length d1) 0)), (proj2 (Nat.eqb_neq (length d2) 0)) by (destruct d1, d2; cbn; congruence || lia).
  rewrite E1, E2, (common_inn d1 d2 dres dinn I1 Hi), Ep. cbn [bind]. rewrite Eq. cbn [bind]. rewrite Hpq. cbn [require bind]. rewrite <- Hd, Nat.eqb_refl. cbn [require bind].
  rewrite <- Hs, iset_eqb_refl. cbn [require bind].
  destruct (inner_coef N L (s_set f) (s_degree f) d1 d2 dres dinn (s_coeffs f) (s_coeffs g)) as (out & Ei & Vo & Co); try assumption. rewrite Ei. cbn [bind].
  destruct (tensorize_ok N far [s_pos f; s_pos g]) as (pos & Et & Po & Inc & Own & Rec); [exact far_diag|cbn; lia|constructor; [exact P1|constructor; [exact P2|constructor]]|apply owners_two; assumption|exact Hc|].
  rewrite Et. cbn [bind].
  assert (Edr : p_dirs pos = dres). { apply inc_unique; [exact Inc|apply Hi|]. intros x. rewrite Own. apply owners_one with (dinn := dinn); [assumption|assumption|]. rewrite E1, E2. exact Hi. }
  unfold function_init. rewrite Edr, py_sorted_id by (apply increasing_sorted; apply Hi). rewrite (proj2 (nats_eqb_eq dres dres) eq_refl). cbn [require bind].
  fold factor. rewrite (proj2 (subset_incl _ _) Hv). cbn [require bind]. destruct dres as [|x l] eqn:Ex.
  - unfold series_init. rewrite Edr. cbn [bind factor_init]. eexists. split; [reflexivity|]. cbn [s_set s_pos s_factor]. split; [reflexivity|]. split; [exact Edr|]. split; [reflexivity|]. split; [exact Po|]. split; [intros G; contradiction|].
    split; [intros a d m v t Ha Hx; destruct Hx|]. intros r Hr. rewrite <- (Co r Hr). unfold series_at. cbn [s_set s_pos s_degree s_coeffs]. rewrite Edr. reflexivity.
  - rewrite <- Ex in *. assert (Hu' : usable (s_set f) (length dres) (s_degree f)) by (apply Hu; rewrite Ex; discriminate).
    assert (Pd : pos_dim pos (s_set f) (length dres) (s_degree f)) by (split; [rewrite Edr; reflexivity|]; split; [destruct Po as (_ & Po & _); rewrite Po, Edr; reflexivity|exact Hu']).
    rewrite (series_init_ok N E e_1 out pos (Some (Fn factor dres)) (s_set f) (length dres) (s_degree f)); [|exact Pd|exact Vo|left; discriminate].
    eexists. split; [reflexivity|]. cbn [s_set s_pos s_factor]. split; [reflexivity|]. split; [exact Edr|]. split; [reflexivity|]. split; [exact Po|].
    split; [intros _; split; cbn [s_set s_pos s_degree s_coeffs]; [destruct Pd as (D1 & D2 & D3); split; [exact D1|split; [exact D2|apply usable_recovered, Hu']]|unfold vec_for; rewrite points_recovered by exact Hu'; exact Vo]|].
    split; [intros a d m v t Ha Hx; apply Rec; [exact Ha|rewrite Edr; exact Hx]|].
    intros r Hr. rewrite <- (Co r Hr). unfold series_at, coef. cbn [s_set s_pos s_degree s_coeffs]. rewrite Edr, points_recovered by exact Hu'. reflexivity.
Qed.

(** the same directions: the dot product *)
Theorem mul_float : forall f g d p q, multipliable f g d d -> project (s_factor f) d = Ok p -> project (s_factor g) d = Ok q -> func_eqb E sym_eqb p q = true ->
  free_vars (e_mul (e_div (f_sym (s_factor f)) (f_sym p)) (e_div (f_sym (s_factor g)) (f_sym q))) = [] ->
  exists h, series_mul f g = Ok h /\ series_float N E h = Ok (nsum (map (fun '(x, y) => nmul x y) (combine (s_coeffs f) (s_coeffs g)))).
Proof.
  intros f g d p q H Ep Eq Hpq Hv. assert (Hi : inner_dirs d d [] d). { destruct H as (_ & _ & _ & _ & I & _). split; [constructor|]. split; [exact I|]. split; intros x; cbn [In]; tauto. }
  destruct H as (Hf & Hg & E1 & E2 & I1 & I2 & P1 & P2 & Hc & Hs & Hd). destruct Hf as [(F1 & F2 & F3) F4]. destruct Hg as [(G1 & G2 & G3) G4]. rewrite <- Hs, <- Hd in *.
  assert (N1 : d <> []) by (intros ->; destruct F3; cbn in *; lia).
  unfold MulModel.series_mul. rewrite <- Hs, iset_eqb_refl. cbn [require bind]. unfold series_tensorize. cbn [for_in]. unfold series_tensorize2, p_dim.
  rewrite F2, G2. rewrite (proj2 (Nat.eqb_neq (length d) 0)) by (destruct d; cbn; congruence || lia).
  rewrite E1, E2, (common_inn d d [] d I1 Hi), Ep. cbn [bind]. rewrite Eq. cbn [bind]. rewrite Hpq. cbn [require bind]. rewrite <- Hd, Nat.eqb_refl. cbn [require bind].
  rewrite <- Hs, iset_eqb_refl. cbn [require bind]. rewrite (inner_dot N L (s_set f) (s_degree f) d (s_coeffs f) (s_coeffs g)) by assumption. cbn [bind].
  destruct (tensorize_ok N far [s_pos f; s_pos g]) as (pos & Et & Po & Inc & Own & Rec); [exact far_diag|cbn; lia|constructor; [exact P1|constructor; [exact P2|constructor]]|apply owners_two; assumption|exact Hc|].
  rewrite Et. cbn [bind].
  assert (Edr : p_dirs pos = []). { apply inc_unique; [exact Inc|constructor|]. intros x. rewrite Own. apply owners_one with (dinn := d); [assumption|assumption|]. rewrite E1, E2. exact Hi. }
  unfold function_init. rewrite Edr, Hv. cbn [nats_eqb py_sorted fold_right require bind subset forallb]. unfold series_init. rewrite Edr. cbn [bind factor_init]. eexists. split; [reflexivity|].
  unfold series_float, p_dim. cbn [s_pos s_coeffs]. destruct Po as (_ & Po & _). rewrite Po, Edr. reflexivity.
Qed.

(** a number (a series without directions) times a series *)
Theorem mul_scalar : forall f g c rest dim, p_mean (s_pos f) = [] -> s_coeffs f = c :: rest -> s_set f = s_set g -> series_ok g dim ->
  exists h, series_mul f g = Ok h /\ s_pos h = s_pos g /\ s_factor h = s_factor g /\ s_set h = s_set g /\ series_ok h dim /\ forall m, series_at h m = nmul c (series_at g m).
Proof.
  intros f g c rest dim Hf Hc Hs Hg. destruct Hg as [(G1 & G2 & G3) G4]. unfold MulModel.series_mul. rewrite Hs, iset_eqb_refl. cbn [require bind]. unfold series_tensorize. cbn [for_in]. unfold series_tensorize2, p_dim. rewrite Hf, Hc. cbn [length Nat.eqb py_get nth_error bind].
  rewrite (series_init_ok N E e_1 _ (s_pos g) (Some (s_factor g)) (s_set g) dim (s_degree g)); [|repeat (split; try assumption)|rewrite map_length; exact G4|left; discriminate].
  cbn [bind]. eexists. split; [reflexivity|]. cbn [s_pos s_factor s_set]. split; [reflexivity|]. split; [reflexivity|]. split; [reflexivity|]. split.
  - split; cbn [s_set s_pos s_degree s_coeffs]; [split; [exact G1|split; [exact G2|apply usable_recovered, G3]]|unfold vec_for; rewrite map_length, points_recovered by exact G3; exact G4].
  - intros m. unfold series_at, coef. cbn [s_set s_pos s_degree s_coeffs]. rewrite G1, points_recovered by exact G3. generalize (s_coeffs g). induction (points (s_set g) dim (s_degree g)) as [|x l IH]; intros [|y v]; cbn [value map]; rewrite ?(mul0r N L); try reflexivity.
    destruct (mi_eqb x m); [reflexivity|apply IH].
Qed.

(** what is refused *)
Theorem mul_raises : forall f g, p_mean (s_pos f) <> [] -> p_mean (s_pos g) <> [] ->
  (s_set f <> s_set g \/ length (add_args (f_sym (s_factor f))) <> 1 \/ (s_degree f <> s_degree g /\ exists p q, project (s_factor f) (py_sorted (filter (fun d => py_in d (p_dirs (s_pos g))) (p_dirs (s_pos f)))) = Ok p /\ project (s_factor g) (py_sorted (filter (fun d => py_in d (p_dirs (s_pos g))) (p_dirs (s_pos f)))) = Ok q)) -> series_mul f g = Throw "ValueError".
Proof.
  intros f g Hf Hg H. unfold MulModel.series_mul. destruct (iset_eqb (s_set f) (s_set g)) eqn:Es; cbn [require bind]; [|reflexivity]. apply iset_eqb_eq in Es. destruct H as [H|H]; [contradiction|].
  unfold series_tensorize. cbn [for_in]. unfold series_tensorize2, p_dim. rewrite (proj2 (Nat.eqb_neq (length (p_mean (s_pos f))) 0)), (proj2 (Nat.eqb_neq (length (p_mean (s_pos g))) 0)) by (destruct (p_mean (s_pos f)), (p_mean (s_pos g)); cbn; congruence || lia).
  destruct H as [H|(H & p & q & Ep & Eq)].
  - rewrite project_terms by exact H. reflexivity.
  - rewrite Ep. cbn [bind]. rewrite Eq. cbn [bind]. destruct (func_eqb E sym_eqb p q); cbn [require bind]; [|reflexivity]. rewrite (proj2 (Nat.eqb_neq _ _) H). reflexivity.
Qed.

Theorem mul_refuses : forall f g d1 d2 dres dinn p q, p_dirs (s_pos f) = d1 -> p_dirs (s_pos g) = d2 -> d1 <> [] -> d2 <> [] -> length (p_mean (s_pos f)) = length d1 -> length (p_mean (s_pos g)) = length d2 ->
  increasing d1 -> inner_dirs d1 d2 dres dinn -> project (s_factor f) dinn = Ok p -> project (s_factor g) dinn = Ok q ->
  func_eqb E sym_eqb p q = false \/ s_degree f <> s_degree g -> series_mul f g = Throw "ValueError".
Proof.
  intros f g d1 d2 dres dinn p q E1 E2 N1 N2 M1 M2 I1 Hi Ep Eq H. unfold MulModel.series_mul. destruct (iset_eqb (s_set f) (s_set g)) eqn:Es; cbn [require bind]; [|reflexivity].
  unfold series_tensorize. cbn [for_in]. unfold series_tensorize2, p_dim. rewrite M1, M2. rewrite (proj2 (Nat.eqb_neq (length d1) 0)), (proj2 (Nat.eqb_neq (length d2) 0)) by (destruct d1, d2; cbn; congruence || lia).
  rewrite E1, E2, (common_inn d1 d2 dres dinn I1 Hi), Ep. cbn [bind]. rewrite Eq. cbn [bind]. destruct (func_eqb E sym_eqb p q); cbn [require bind]; [|reflexivity].
  destruct H as [H|H]; [discriminate H|]. rewrite (proj2 (Nat.eqb_neq _ _) H). reflexivity.
Qed.

Lemma neqb_sym_false : forall x y : N, neqb x y = false -> neqb y x = false.
Proof. intros x y H. destruct (neqb y x) eqn:G; [|reflexivity]. apply (law_eqb _ L) in G. subst. rewrite (proj2 (law_eqb _ L x x) eq_refl) in H. discriminate H. Qed.
Lemma multipliable_sym : forall (f g : series) d1 d2, multipliable f g d1 d2 -> multipliable g f d2 d1.
Proof.
  intros f g d1 d2 (Hf & Hg & E1 & E2 & I1 & I2 & P1 & P2 & Hc & Hs & Hd). repeat (split; [solve [assumption | symmetry; assumption]|]). split; [|split; symmetry; assumption].
  intros (i & j & a & b & d & m & v & t & m' & v' & t' & Hij & Ha & Hb & R1 & R2 & Hne). apply Hc.
  destruct i as [|[|i]]; destruct j as [|[|j]]; try lia; cbn in Ha, Hb; try (destruct i; discriminate); try (destruct j; discriminate). injection Ha as <-. injection Hb as <-.
  exists 0, 1, (s_pos f), (s_pos g), d, m', v', t', m, v, t. split; [lia|]. split; [reflexivity|]. split; [reflexivity|]. split; [exact R2|]. split; [exact R1|]. destruct Hne as [Hne|Hne]; [left|right]; apply neqb_sym_false; exact Hne.
Qed.
Theorem mul_comm : forall f g d1 d2 dres dinn p q, multipliable f g d1 d2 -> inner_dirs d1 d2 dres dinn -> (dres <> [] -> usable (s_set f) (length dres) (s_degree f)) ->
  project (s_factor f) dinn = Ok p -> project (s_factor g) dinn = Ok q -> func_eqb E sym_eqb p q = true -> func_eqb E sym_eqb q p = true ->
  incl (free_vars (e_mul (e_div (f_sym (s_factor f)) (f_sym p)) (e_div (f_sym (s_factor g)) (f_sym q)))) dres ->
  incl (free_vars (e_mul (e_div (f_sym (s_factor g)) (f_sym q)) (e_div (f_sym (s_factor f)) (f_sym p)))) dres ->
  exists h h', series_mul f g = Ok h /\ series_mul g f = Ok h' /\ p_dirs (s_pos h) = p_dirs (s_pos h') /\
    forall r, index_of (s_set f) (length dres) (s_degree f) r -> series_at h r = series_at h' r.
Proof.
  intros f g d1 d2 dres dinn p q Hm Hi Hu Ep Eq Hpq Hqp Hv Hv'.
  assert (Es : s_set f = s_set g) by apply Hm. assert (Ed : s_degree f = s_degree g) by apply Hm.
  destruct (mul_ok f g d1 d2 dres dinn p q Hm Hi Hu Ep Eq Hpq Hv) as (h & Eh & _ & Dh & _ & _ & _ & _ & Ch).
  destruct (mul_ok g f d2 d1 dres dinn q p (multipliable_sym _ _ _ _ Hm)) as (h' & Eh' & _ & Dh' & _ & _ & _ & _ & Ch'); [|rewrite <- Es, <- Ed; exact Hu|assumption|assumption|assumption|assumption|].
  { destruct Hi as (A1 & A2 & A3 & A4). split; [exact A1|]. split; [exact A2|]. split; intros x; [rewrite A3|rewrite A4]; tauto. }
  exists h, h'. split; [exact Eh|]. split; [exact Eh'|]. split; [rewrite Dh, Dh'; reflexivity|]. intros r Hr. rewrite Ch, Ch' by (rewrite <- ?Es, <- ?Ed; exact Hr).
  rewrite <- Es, <- Ed. unfold contraction. f_equal. apply map_ext. intros x. apply (law_mul_comm _ L).
Qed.
End Mul.

Theorem mul_all_raises : forall (N : num) far (E : Type) (e_mul e_div : E -> E -> E) (e_1 : E) add_args mul_args (free_vars : E -> list nat) sym_eqb,
  forall (f g : series N E), (s_set f <> s_set g -> series_mul N far E e_mul e_div e_1 add_args mul_args free_vars sym_eqb f g = Throw "ValueError") /\
  (p_mean (s_pos f) <> [] -> p_mean (s_pos g) <> [] -> length (add_args (f_sym (s_factor f))) <> 1 -> series_mul N far E e_mul e_div e_1 add_args mul_args free_vars sym_eqb f g = Throw "ValueError") /\
  forall d1 d2 dres dinn p q, p_dirs (s_pos f) = d1 -> p_dirs (s_pos g) = d2 -> d1 <> [] -> d2 <> [] -> length (p_mean (s_pos f)) = length d1 -> length (p_mean (s_pos g)) = length d2 ->
  increasing d1 -> inner_dirs d1 d2 dres dinn ->
  fun_project E e_mul e_1 add_args mul_args free_vars (s_factor f) dinn = Ok p -> fun_project E e_mul e_1 add_args mul_args free_vars (s_factor g) dinn = Ok q ->
  func_eqb E sym_eqb p q = false \/ s_degree f <> s_degree g -> series_mul N far E e_mul e_div e_1 add_args mul_args free_vars sym_eqb f g = Throw "ValueError".
Proof.
  intros. split; [|split].
  - intros H. unfold series_mul. destruct (iset_eqb (s_set f) (s_set g)) eqn:Es; [|reflexivity]. apply iset_eqb_eq in Es. contradiction.
  - intros H1 H2 H3. apply mul_raises; [exact H1|exact H2|]. right; left; exact H3.
  - intros d1 d2 dres dinn p q. apply mul_refuses.
Qed.

(** the sample series *)
Section Sample.
Variable N : num.
Hypothesis L : num_laws N.
Lemma std_pos_ok : forall d, increasing d -> pos_ok (N := N) (std_pos d).
Proof. intros d H. apply (Pos_ok N); rewrite ?repeat_length; try reflexivity. apply increasing_NoDup. exact H. Qed.
Lemma ser_x_ok : forall d factor (coeffs : list N), 1 <= length d <= 4 -> length coeffs = length (points Triangle (length d) 1) -> series_ok (ser_x d factor coeffs) (length d).
Proof. intros d factor coeffs Hd Hc. split; [|exact Hc]. split; [reflexivity|]. split; [apply repeat_length|]. apply (usable_dim4 Triangle (length d) 1); lia. Qed.
Lemma std_records : forall d x m v t, records (N := N) (std_pos d) x m v t -> m = n0 /\ v = n1.
Proof.
  intros d x m v t (i & row & H1 & H2 & H3 & H4 & _). cbn [std_pos p_mean p_cov] in *. assert (Hi : i < length d) by (apply nth_error_Some; cbn [std_pos p_dirs] in H1; congruence).
  split; [apply nth_error_In, repeat_spec in H2; exact H2|]. destruct (diag_mat_entry N (repeat (@n1 N) (length d)) i n1) as (row' & R1 & R2); [apply nth_error_repeat; exact Hi|].
  unfold eye in H3. rewrite R1 in H3. injection H3 as <-. rewrite R2 in H4. congruence.
Qed.
Lemma std_no_conflict : forall d d', ~ conflict (N := N) [std_pos d; std_pos d'].
Proof.
  intros d d' (i & j & a & b & x & m & v & t & m' & v' & t' & Hij & Ha & Hb & R1 & R2 & Hne).
  assert (G : forall y, In y [std_pos (N := N) d; std_pos d'] -> exists e, y = std_pos e) by (intros y [<-|[<-|[]]]; eauto).
  destruct (G a (nth_error_In _ _ Ha)) as [e ->]. destruct (G b (nth_error_In _ _ Hb)) as [e' ->]. apply std_records in R1 as [-> ->]. apply std_records in R2 as [-> ->].
  destruct Hne as [H|H]; rewrite (proj2 (law_eqb _ L _ _) eq_refl) in H; discriminate H.
Qed.
Lemma ser_x_multipliable : forall d1 d2 f1 f2 (c1 c2 : list N), increasing d1 -> increasing d2 -> 1 <= length d1 <= 4 -> 1 <= length d2 <= 4 ->
  length c1 = length (points Triangle (length d1) 1) -> length c2 = length (points Triangle (length d2) 1) -> multipliable (ser_x d1 f1 c1) (ser_x d2 f2 c2) d1 d2.
Proof.
  intros. split; [apply ser_x_ok; assumption|]. split; [apply ser_x_ok; assumption|]. split; [reflexivity|]. split; [reflexivity|]. split; [assumption|]. split; [assumption|].
  split; [apply std_pos_ok; assumption|]. split; [apply std_pos_ok; assumption|]. split; [apply std_no_conflict|]. split; reflexivity.
Qed.
End Sample.
