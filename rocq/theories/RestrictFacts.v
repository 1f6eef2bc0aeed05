(** Series.subdegree and Series.project composed with each other, with sums and with multiples. *)
From Coq Require Import String List Bool Arith Lia Sorted.
From Verif Require Import Base PyBase IndexModel Num LinModel LinSpec LinBase Spec Degree Facts2 Dirs PosModel PosSpec SeriesModel SeriesSpec SplitModel ProjModel SeriesFacts SeriesFacts3 SeriesFacts4 ProjFacts RestrictSpec.
Import ListNotations.
Local Open Scope list_scope. Local Open Scope nat_scope.

Section Restrict.
Variable N : num.
Variable E : Type.
Variable e_1 : E.
Notation series := (series N E).
Notation subdegree := (series_subdegree N E e_1).

Lemma at_out : forall (f : series) dim m, series_ok f dim -> ~ series_index f m -> series_at f m = n0.
Proof using.
  intros f dim m [(E1 & E2 & U) _] H. unfold series_at, coef. apply value_notin. intros G. apply H. unfold series_index. rewrite E1 in *. apply (points_In _ _ _ m U). exact G.
Qed.
Lemma index_dec : forall (f : series) dim m, series_ok f dim -> series_index f m \/ ~ series_index f m.
Proof using.
  intros f dim m [(E1 & E2 & U) _]. unfold series_index. rewrite E1. destruct (in_dec (list_eq_dec Nat.eq_dec) m (points (s_set f) dim (s_degree f))) as [H|H]; rewrite (points_In _ _ _ m U) in H; [left|right]; exact H.
Qed.

Lemma subdegree_inv : forall (f g : series) dim degree, series_ok f dim -> degree <= 250 -> subdegree f degree = Ok g ->
  s_set f <> CrossNc /\ series_ok g dim /\ s_pos g = s_pos f /\ s_set g = s_set f /\ s_factor g = s_factor f /\ (forall m, series_index g m <-> index_of (s_set f) dim degree m) /\ (forall m, series_index g m -> series_at g m = series_at f m).
Proof using.
  intros f g dim degree Hf Hd H. assert (Hs : s_set f <> CrossNc) by (intros Hs; unfold series_subdegree in H; rewrite Hs in H; discriminate H). split; [exact Hs|]. destruct (subdegree_spec N E e_1 f dim degree Hf Hs Hd) as (g' & G1 & G2). assert (g' = g) by congruence. subst g'. exact G2.
Qed.

(** Changing the degree twice. *)
Lemma subdegree_twice : forall (f g h : series) dim d1 d2, series_ok f dim -> d1 <= 250 -> d2 <= 250 -> subdegree f d1 = Ok g -> subdegree g d2 = Ok h ->
  s_pos h = s_pos f /\ s_set h = s_set f /\ s_factor h = s_factor f /\ (forall m, series_index h m <-> index_of (s_set f) dim d2 m) /\
  forall m, series_index h m -> (index_of (s_set f) dim d1 m -> series_at h m = series_at f m) /\ (~ index_of (s_set f) dim d1 m -> series_at h m = n0).
Proof using.
  intros f g h dim d1 d2 Hf H1 H2 Hg Hh. destruct (subdegree_inv f g dim d1 Hf H1 Hg) as (_ & G1 & G2 & G3 & G4 & G5 & G6). destruct (subdegree_inv g h dim d2 G1 H2 Hh) as (_ & K1 & K2 & K3 & K4 & K5 & K6).
  rewrite G3 in K5. split; [congruence|]. split; [congruence|]. split; [congruence|]. split; [exact K5|]. intros m Hm. rewrite (K6 m Hm). split; intros Hi.
  - apply G6, G5, Hi.
  - apply (at_out g dim m G1). intros G. apply Hi, G5, G.
Qed.
Lemma subdegree_lower : forall (f g h k : series) dim d1 d2, series_ok f dim -> d2 <= d1 -> d1 <= 250 -> subdegree f d1 = Ok g -> subdegree g d2 = Ok h -> subdegree f d2 = Ok k ->
  (forall m, series_index h m <-> series_index k m) /\ forall m, series_index h m -> series_at h m = series_at k m.
Proof using.
  intros f g h k dim d1 d2 Hf H1 H2 Hg Hh Hk. destruct (subdegree_twice f g h dim d1 d2 Hf H2 ltac:(lia) Hg Hh) as (T1 & T2 & T3 & T4 & T5). destruct (subdegree_inv f k dim d2 Hf ltac:(lia) Hk) as (Hs & K1 & K2 & K3 & K4 & K5 & K6).
  assert (I : forall m, series_index h m <-> series_index k m) by (intros m; rewrite T4, K5; reflexivity). split; [exact I|]. intros m Hm. rewrite (K6 m (proj1 (I m) Hm)). apply (T5 m Hm). apply T4 in Hm. destruct Hm as [Hl Hi]. split; [exact Hl|].
  eapply in_set_mono; [exact H1|exact Hi].
Qed.
Lemma subdegree_back : forall (f g h : series) dim d, series_ok f dim -> s_degree f <= d -> d <= 250 -> subdegree f d = Ok g -> subdegree g (s_degree f) = Ok h ->
  (forall m, series_index h m <-> series_index f m) /\ forall m, series_index f m -> series_at h m = series_at f m.
Proof using.
  intros f g h dim d Hf H1 H2 Hg Hh. destruct (subdegree_twice f g h dim d (s_degree f) Hf H2 ltac:(lia) Hg Hh) as (T1 & T2 & T3 & T4 & T5). pose proof Hf as [(E1 & _) _].
  assert (I : forall m, series_index h m <-> series_index f m) by (intros m; rewrite T4; unfold series_index; rewrite E1; reflexivity). split; [exact I|]. intros m Hm. apply I in Hm. apply (T5 m Hm). apply T4 in Hm. destruct Hm as [Hl Hi]. split; [exact Hl|].
  eapply in_set_mono; [exact H1|exact Hi].
Qed.

Lemma sets_eq : forall s dim d1 d2, 1 <= dim -> (forall m, index_of s dim d1 m -> index_of s dim d2 m) -> forall m, in_set s d1 m -> in_set s d2 m.
Proof using.
  intros s dim d1 d2 Hd H m. assert (K : d1 <= d2 \/ (s = Cross \/ s = CrossNc) /\ d1 <= Nat.max 1 d2).
  { specialize (H (d1 :: repeat 0 (dim - 1))). unfold index_of in H. cbn [length] in H. rewrite repeat_length in H. assert (Z : forall n, list_sum (repeat 0 n) = 0) by (induction n; [reflexivity|assumption]).
    assert (C : forall n, cross_prod (repeat 0 n) = 1) by (induction n as [|n IH]; [reflexivity|unfold cross_prod in *; cbn in *; lia]).
    assert (F : forall n (P : nat -> Prop), P 0 -> Forall P (repeat 0 n)) by (intros n P HP; apply Forall_forall; intros y Hy; apply repeat_spec in Hy; subst y; exact HP).
    destruct s; cbn [in_set] in H.
    - left. cbn [list_sum fold_right] in H. change (fold_right Nat.add 0 (repeat 0 (dim - 1))) with (list_sum (repeat 0 (dim - 1))) in H. rewrite Z in H. destruct H as [_ H]; lia.
    - left. destruct H as [_ H]; [split; [lia|apply Forall_cons; [lia|apply F; lia]]|]. inversion H; subst. assumption.
    - right. split; [left; reflexivity|]. assert (G : cross_prod (d1 :: repeat 0 (dim - 1)) = Nat.max 1 d1) by (specialize (C (dim - 1)); unfold cross_prod in *; cbn in *; lia). rewrite G in H. destruct H; lia.
    - right. split; [right; reflexivity|]. assert (G : cross_prod (d1 :: repeat 0 (dim - 1)) = Nat.max 1 d1) by (specialize (C (dim - 1)); unfold cross_prod in *; cbn in *; lia). rewrite G in H. destruct H; lia.
    - left. destruct H as [_ [H _]]; [split; [lia|split; [lia|apply F; lia]]|]. exact H. }
  destruct K as [K|[[-> | ->] K]]; [apply in_set_mono; exact K| |]; cbn [in_set]; lia.
Qed.

Lemma lower_same : forall (f g h k : series) dim d1 d2, series_ok f dim -> d2 <= d1 -> d1 <= 250 -> subdegree f d1 = Ok g -> subdegree g d2 = Ok h -> subdegree f d2 = Ok k -> same_series h k.
Proof using.
  intros f g h k dim d1 d2 Hf H1 H2 Hg Hh Hk. destruct (subdegree_lower f g h k dim d1 d2 Hf H1 H2 Hg Hh Hk) as [A B]. destruct (subdegree_twice f g h dim d1 d2 Hf H2 ltac:(lia) Hg Hh) as (T1 & T2 & _). destruct (subdegree_inv f k dim d2 Hf ltac:(lia) Hk) as (_ & _ & K2 & K3 & _).
  split; [congruence|]. split; [congruence|]. split; assumption.
Qed.
Lemma back_same : forall (f g h : series) dim d, series_ok f dim -> s_degree f <= d -> d <= 250 -> subdegree f d = Ok g -> subdegree g (s_degree f) = Ok h -> same_series h f /\ s_pos h = s_pos f /\ s_factor h = s_factor f.
Proof using.
  intros f g h dim d Hf H1 H2 Hg Hh. destruct (subdegree_back f g h dim d Hf H1 H2 Hg Hh) as [A B]. destruct (subdegree_twice f g h dim d (s_degree f) Hf H2 ltac:(lia) Hg Hh) as (T1 & T2 & T3 & _).
  split; [|split; assumption]. split; [congruence|]. split; [congruence|]. split; [exact A|]. intros m Hm. apply B, A, Hm.
Qed.

Section Project.
Variable far : list (list N) -> bool.
Hypothesis Hfar : forall l, far (diag_mat N l) = false.
Variable e_mul : E -> E -> E.
Variables add_args mul_args : E -> list E.
Variable free_vars : E -> list nat.
Notation project := (series_project N far E e_mul e_1 add_args mul_args free_vars).

Lemma project_any : forall (f g : series) D, projectable f D -> project f D = Ok g ->
  series_ok g (length D) /\ pos_ok (s_pos g) /\ p_dirs (s_pos g) = D /\ (forall d m v t, In d D -> records (s_pos f) d m v t -> records (s_pos g) d m v t) /\ s_set g = s_set f /\
  (forall m, series_index g m <-> index_of (s_set f) (length D) (s_degree f) m) /\
  forall m, length m = length D -> series_at g m = series_at f (reindex D (p_dirs (s_pos f)) m).
Proof using Hfar.
  intros f g D (Hf & Hp & Hi & HD & Hne & Hin) H. pose proof H as H0. unfold series_project in H0.
  destruct (mapM _ D) as [rel| | | |]; try discriminate H0. cbn [bind] in H0. destruct (project_vec _ _ _ _ _) as [c| | | |]; try discriminate H0. cbn [bind] in H0. destruct (pos_project _ _ _ _) as [p| | | |]; try discriminate H0. cbn [bind] in H0.
  destruct (fun_project _ _ _ _ _ _ _ _) as [w| | | |] eqn:Ew; try discriminate H0. clear H0 rel c p.
  destruct (project_series N far Hfar E e_mul e_1 add_args mul_args free_vars f D w Hf Hp Hi HD Hne Hin Ew) as (r & R1 & R2 & R3 & R4 & R5 & R6 & _ & R8 & R9). assert (r = g) by congruence. subst r.
  split; [exact R2|]. split; [exact R3|]. split; [exact R4|]. split; [exact R5|]. split; [exact R6|]. split; [exact R8|]. intros m Hl. destruct (index_dec g (length D) m R2) as [G|G]; [apply R9; exact G|].
  rewrite (at_out g (length D) m R2 G). symmetry. apply (at_out f _ _ Hf). intros K. apply G, R8. split; [exact Hl|]. destruct K as [_ K].
  replace m with (reindex (p_dirs (s_pos f)) D (reindex D (p_dirs (s_pos f)) m)); [apply in_set_sub; assumption|].
  rewrite reindex_reindex by (intros x Hx; left; apply Hin; exact Hx). apply reindex_id; [apply increasing_NoDup; exact HD|exact Hl].
Qed.

Lemma project_twice : forall (f g h k : series) D1 D2, projectable f D1 -> increasing D2 -> D2 <> [] -> incl D2 D1 -> project f D1 = Ok g -> project g D2 = Ok h -> project f D2 = Ok k ->
  p_dirs (s_pos h) = D2 /\ p_dirs (s_pos k) = D2 /\ s_set h = s_set k /\ (forall m, series_index h m <-> series_index k m) /\ forall m, length m = length D2 -> series_at h m = series_at k m.
Proof using Hfar.
  intros f g h k D1 D2 Hf Hi Hne Hin Hg Hh Hk. pose proof (project_any f g D1 Hf Hg) as (G1 & G2 & G3 & G4 & G5 & G6 & G7). pose proof Hf as (F1 & F2 & F3 & F4 & F5 & F6).
  assert (Hg' : projectable g D2) by (rewrite <- G3 in *; repeat (split; try assumption)). pose proof (project_any g h D2 Hg' Hh) as (H1 & H2 & H3 & H4 & H5 & H6 & H7).
  assert (Hf' : projectable f D2) by (repeat (split; try assumption); intros x Hx; apply F6, Hin, Hx). pose proof (project_any f k D2 Hf' Hk) as (K1 & K2 & K3 & K4 & K5 & K6 & K7).
  split; [exact H3|]. split; [exact K3|]. split; [congruence|]. split.
  - intros m. rewrite H6, K6, G5. assert (1 <= length D1) by (destruct D1; [contradiction|cbn; lia]). unfold index_of. split; intros [L I]; (split; [exact L|]); revert I; apply (sets_eq _ (length D1)); try assumption.
    + intros x Hx. apply G6. unfold series_index. rewrite G3, G5. exact Hx.
    + intros x Hx. apply G6 in Hx. unfold series_index in Hx. rewrite G3, G5 in Hx. exact Hx.
  - intros m Hl. rewrite H7, K7, G3 by exact Hl. rewrite G7 by (unfold reindex; apply map_length). rewrite reindex_reindex; [reflexivity|]. intros x Hx. destruct (in_dec Nat.eq_dec x D1) as [G|G]; [left; exact G|right; intros G'; apply G, Hin, G'].
Qed.

(** Projecting and changing the degree. *)
Lemma project_subdegree : forall (f g a b c : series) D degree, projectable f D -> degree <= 250 -> (s_set f = Rectangle -> forall x, In x (tl (p_dirs (s_pos f))) -> hd_error D <> Some x) ->
  project f D = Ok g -> subdegree g degree = Ok a -> subdegree f degree = Ok b -> project b D = Ok c ->
  p_dirs (s_pos a) = D /\ p_dirs (s_pos c) = D /\ s_set a = s_set c /\ (forall m, series_index a m <-> series_index c m) /\ forall m, length m = length D -> series_at a m = series_at c m.
Proof using Hfar.
  intros f g a b c D degree Hf Hd HR Hg Ha Hb Hc. pose proof (project_any f g D Hf Hg) as (G1 & G2 & G3 & G4 & G5 & G6 & G7). pose proof Hf as (F1 & F2 & F3 & F4 & F5 & F6).
  destruct (subdegree_inv g a _ degree G1 Hd Ha) as (_ & A1 & A2 & A3 & A4 & A5 & A6). destruct (subdegree_inv f b _ degree F1 Hd Hb) as (_ & B1 & B2 & B3 & B4 & B5 & B6).
  assert (Hb' : projectable b D) by (rewrite <- B2 in *; repeat (split; try assumption)). pose proof (project_any b c D Hb' Hc) as (C1 & C2 & C3 & C4 & C5 & C6 & C7).
  split; [congruence|]. split; [exact C3|]. split; [congruence|].
  assert (Hl1 : 1 <= length (p_dirs (s_pos f))) by (destruct (p_dirs (s_pos f)); [destruct D as [|x D]; [contradiction|destruct (F6 x (or_introl eq_refl))]|cbn; lia]).
  assert (I1 : forall m, in_set (s_set f) degree m -> in_set (s_set f) (s_degree b) m) by (apply (sets_eq _ (length (p_dirs (s_pos f)))); [exact Hl1|]; intros x Hx; apply B5 in Hx; unfold series_index in Hx; rewrite B2, B3 in Hx; exact Hx).
  assert (I2 : forall m, in_set (s_set f) (s_degree b) m -> in_set (s_set f) degree m) by (apply (sets_eq _ (length (p_dirs (s_pos f)))); [exact Hl1|]; intros x Hx; apply B5; unfold series_index; rewrite B2, B3; exact Hx).
  assert (I : forall m, series_index a m <-> series_index c m) by (intros m; rewrite A5, C6, G5, B3; unfold index_of; split; intros [L I]; (split; [exact L|]); auto). split; [exact I|].
  intros m Hl. rewrite (C7 m Hl), B2. destruct (index_dec a _ m A1) as [H|H].
  - rewrite (A6 m H), (G7 m Hl). symmetry. apply B6, B5. split; [unfold reindex; apply map_length|]. apply A5 in H. rewrite G5 in H. apply in_set_reindex; [apply increasing_NoDup; exact F3|exact HR|apply H].
  - rewrite (at_out a _ m A1 H). symmetry. apply (at_out b _ _ B1). intros K. apply H, A5. rewrite G5. split; [exact Hl|]. apply B5 in K. destruct K as [_ K].
    replace m with (reindex (p_dirs (s_pos f)) D (reindex D (p_dirs (s_pos f)) m)); [apply in_set_sub; assumption|].
    rewrite reindex_reindex by (intros x Hx; left; apply F6; exact Hx). apply reindex_id; [apply increasing_NoDup; exact F4|exact Hl].
Qed.

Lemma twice_same : forall (f g h k : series) D1 D2, projectable f D1 -> increasing D2 -> D2 <> [] -> incl D2 D1 -> project f D1 = Ok g -> project g D2 = Ok h -> project f D2 = Ok k -> same_series h k.
Proof using Hfar.
  intros f g h k D1 D2 Hf Hi Hne Hin Hg Hh Hk. destruct (project_twice f g h k D1 D2 Hf Hi Hne Hin Hg Hh Hk) as (A & B & C & I & V). split; [congruence|]. split; [exact C|]. split; [exact I|]. intros m [Hm _]. apply V. rewrite Hm, A. reflexivity.
Qed.
Lemma degree_same : forall (f g a b c : series) D degree, projectable f D -> degree <= 250 -> (s_set f = Rectangle -> forall x, In x (tl (p_dirs (s_pos f))) -> hd_error D <> Some x) ->
  project f D = Ok g -> subdegree g degree = Ok a -> subdegree f degree = Ok b -> project b D = Ok c -> same_series a c.
Proof using Hfar.
  intros f g a b c D degree Hf Hd HR Hg Ha Hb Hc. destruct (project_subdegree f g a b c D degree Hf Hd HR Hg Ha Hb Hc) as (A & B & C & I & V). split; [congruence|]. split; [exact C|]. split; [exact I|]. intros m [Hm _]. apply V. rewrite Hm, A. reflexivity.
Qed.

(** Sums and multiples. *)
Section Linear.
Hypothesis L : num_laws N.
Variable e_eqb : E -> E -> bool.
Variable pos_eqb : position N -> position N -> bool.
Notation add := (series_add N E e_eqb e_1 pos_eqb).
Notation scale := (series_scale N E e_1).

Lemma add_at : forall (f g s : series) dim, series_ok f dim -> series_ok g dim -> compatible pos_eqb e_eqb (s_pos f) (s_pos g) (s_set f) (s_set g) (s_factor f) (s_factor g) -> s_degree f = s_degree g -> add f g = Ok s ->
  series_ok s dim /\ s_pos s = s_pos f /\ s_set s = s_set f /\ (forall m, series_index s m <-> series_index f m) /\ forall m, series_at s m = nadd (series_at f m) (series_at g m).
Proof using L.
  intros f g s dim Hf Hg Hc Hd H. destruct (add_ok N E e_eqb e_1 pos_eqb f g dim Hf Hg Hc Hd) as (s' & S1 & S2 & S3 & S4 & S5 & S6 & S7). assert (s' = s) by congruence. subst s'.
  split; [exact S2|]. split; [exact S3|]. split; [exact S4|]. split; [exact S6|]. intros m. destruct (index_dec f dim m Hf) as [G|G]; [apply S7; exact G|].
  rewrite (at_out s dim m S2) by (rewrite S6; exact G). rewrite (at_out f dim m Hf G), (at_out g dim m Hg). { symmetry. apply (law_add_0 _ L). }
  intros K. apply G. unfold series_index in *. destruct Hf as [(f1 & _) _], Hg as [(g1 & _) _]. destruct Hc as (_ & C & _). rewrite f1. rewrite g1 in K. rewrite C, Hd. exact K.
Qed.
Lemma scale_at : forall a (f s : series) dim, series_ok f dim -> scale a f = Ok s ->
  series_ok s dim /\ s_pos s = s_pos f /\ s_set s = s_set f /\ (forall m, series_index s m <-> series_index f m) /\ forall m, series_at s m = nmul (series_at f m) a.
Proof using L.
  intros a f s dim Hf H. destruct (scale_spec N E e_1 a f dim Hf) as (s' & S1 & S2 & S3 & S4 & S5 & _ & S6 & S7). assert (s' = s) by congruence. subst s'.
  split; [exact S2|]. split; [exact S3|]. split; [exact S4|]. split; [exact S6|]. intros m. destruct (index_dec f dim m Hf) as [G|G]; [apply S7; exact G|].
  rewrite (at_out s dim m S2) by (rewrite S6; exact G). rewrite (at_out f dim m Hf G). symmetry. apply (law_mul_0 _ L).
Qed.

Lemma subdegree_add : forall (f g s a b c : series) dim degree, series_ok f dim -> series_ok g dim -> compatible pos_eqb e_eqb (s_pos f) (s_pos g) (s_set f) (s_set g) (s_factor f) (s_factor g) -> s_degree f = s_degree g -> degree <= 250 ->
  add f g = Ok s -> subdegree s degree = Ok c -> subdegree f degree = Ok a -> subdegree g degree = Ok b ->
  (forall m, series_index c m <-> series_index a m) /\ forall m, series_index c m -> series_at c m = nadd (series_at a m) (series_at b m).
Proof using L.
  intros f g s a b c dim degree Hf Hg Hc Hd H250 Hs Hc' Ha Hb. destruct (add_at f g s dim Hf Hg Hc Hd Hs) as (S1 & S2 & S3 & S4 & S5).
  destruct (subdegree_inv s c dim degree S1 H250 Hc') as (_ & C1 & C2 & C3 & C4 & C5 & C6). destruct (subdegree_inv f a dim degree Hf H250 Ha) as (_ & A1 & A2 & A3 & A4 & A5 & A6). destruct (subdegree_inv g b dim degree Hg H250 Hb) as (_ & B1 & B2 & B3 & B4 & B5 & B6).
  destruct Hc as (_ & C & _). split; [intros m; rewrite C5, A5, S3; reflexivity|]. intros m Hm. pose proof (proj1 (C5 m) Hm) as G. rewrite S3 in G. rewrite (C6 m Hm), S5, (A6 m), (B6 m); [reflexivity|apply B5; rewrite <- C; exact G|apply A5; exact G].
Qed.
Lemma subdegree_scale : forall x (f s a c : series) dim degree, series_ok f dim -> degree <= 250 ->
  scale x f = Ok s -> subdegree s degree = Ok c -> subdegree f degree = Ok a ->
  (forall m, series_index c m <-> series_index a m) /\ forall m, series_index c m -> series_at c m = nmul (series_at a m) x.
Proof using L.
  intros x f s a c dim degree Hf H250 Hs Hc' Ha. destruct (scale_at x f s dim Hf Hs) as (S1 & S2 & S3 & S4 & S5).
  destruct (subdegree_inv s c dim degree S1 H250 Hc') as (_ & C1 & C2 & C3 & C4 & C5 & C6). destruct (subdegree_inv f a dim degree Hf H250 Ha) as (_ & A1 & A2 & A3 & A4 & A5 & A6).
  split; [intros m; rewrite C5, A5, S3; reflexivity|]. intros m Hm. pose proof (proj1 (C5 m) Hm) as G. rewrite S3 in G. rewrite (C6 m Hm), S5, (A6 m); [reflexivity|apply A5; exact G].
Qed.
Lemma same_index : forall (f s : series), s_set s = s_set f -> s_pos s = s_pos f -> 1 <= length (p_dirs (s_pos f)) -> (forall m, series_index s m <-> series_index f m) -> forall dim m, index_of (s_set f) dim (s_degree s) m <-> index_of (s_set f) dim (s_degree f) m.
Proof using.
  intros f s E1 E2 Hl H dim m. unfold series_index in H. rewrite E1, E2 in H. unfold index_of. split; intros [A B]; (split; [exact A|]); revert B; apply (sets_eq _ _ _ _ Hl); intros x Hx; apply H; exact Hx.
Qed.
Lemma projectable_length : forall (f : series) D, projectable f D -> 1 <= length (p_dirs (s_pos f)).
Proof using. intros f D (_ & _ & _ & _ & Hne & Hin). destruct (p_dirs (s_pos f)); [destruct D as [|x D]; [contradiction|destruct (Hin x (or_introl eq_refl))]|cbn; lia]. Qed.

Lemma project_add : forall (f g s a b c : series) D, projectable f D -> projectable g D -> p_dirs (s_pos g) = p_dirs (s_pos f) ->
  compatible pos_eqb e_eqb (s_pos f) (s_pos g) (s_set f) (s_set g) (s_factor f) (s_factor g) -> s_degree f = s_degree g ->
  add f g = Ok s -> project s D = Ok c -> project f D = Ok a -> project g D = Ok b ->
  (forall m, series_index c m <-> series_index a m) /\ (forall m, series_index c m <-> series_index b m) /\ forall m, length m = length D -> series_at c m = nadd (series_at a m) (series_at b m).
Proof using Hfar L.
  intros f g s a b c D Hf Hg Hdirs Hc Hd Hs Hc' Ha Hb. pose proof (projectable_length f D Hf) as Hl. pose proof Hf as (F1 & F2 & F3 & F4 & F5 & F6). pose proof Hg as (G1 & _). rewrite Hdirs in G1.
  destruct (add_at f g s _ F1 G1 Hc Hd Hs) as (S1 & S2 & S3 & S4 & S5). assert (Hs' : projectable s D) by (unfold projectable; rewrite S2; repeat (split; try assumption)).
  pose proof (project_any s c D Hs' Hc') as (_ & _ & _ & _ & _ & C6 & C7). pose proof (project_any f a D Hf Ha) as (_ & _ & _ & _ & _ & A6 & A7). pose proof (project_any g b D Hg Hb) as (_ & _ & _ & _ & _ & B6 & B7).
  destruct Hc as (_ & C & _). split; [intros m; rewrite C6, A6, S3; apply same_index; assumption|]. split; [intros m; rewrite C6, B6, S3, <- C, <- Hd; apply same_index; assumption|].
  intros m Hm. rewrite C7, A7, B7 by exact Hm. rewrite S2, Hdirs. apply S5.
Qed.
Lemma project_scale : forall x (f s a c : series) D, projectable f D -> scale x f = Ok s -> project s D = Ok c -> project f D = Ok a ->
  (forall m, series_index c m <-> series_index a m) /\ forall m, length m = length D -> series_at c m = nmul (series_at a m) x.
Proof using Hfar L.
  intros x f s a c D Hf Hs Hc' Ha. pose proof (projectable_length f D Hf) as Hl. pose proof Hf as (F1 & F2 & F3 & F4 & F5 & F6).
  destruct (scale_at x f s _ F1 Hs) as (S1 & S2 & S3 & S4 & S5). assert (Hs' : projectable s D) by (unfold projectable; rewrite S2; repeat (split; try assumption)).
  pose proof (project_any s c D Hs' Hc') as (_ & _ & _ & _ & _ & C6 & C7). pose proof (project_any f a D Hf Ha) as (_ & _ & _ & _ & _ & A6 & A7).
  split; [intros m; rewrite C6, A6, S3; apply same_index; assumption|]. intros m Hm. rewrite C7, A7 by exact Hm. rewrite S2. apply S5.
Qed.
End Linear.
End Project.
End Restrict.
