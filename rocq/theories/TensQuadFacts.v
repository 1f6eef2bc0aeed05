(** The decorator tensorize_at: products of series on disjoint directions. *)
From Coq Require Import String List Bool Arith ZArith Lia Sorted Permutation.
From Verif Require Import Base IndexModel Spec Num LinModel LinSpec LinBase Dirs Degree Facts2 Facts4 PyBase PosModel PosSpec PosFacts SeriesModel SeriesSpec SeriesFacts SeriesFacts3 PartModel PartSpec PartFacts
  SplitModel SplitSpec SplitFacts MulModel MulSpec MulFacts Fnum PyQuadModel PyQuadSpec PyQuadFacts.
Import ListNotations.
Local Open Scope string_scope. Local Open Scope list_scope. Local Open Scope nat_scope.

Lemma recovered_twice : forall s d, recovered s (recovered s d) = recovered s d.
Proof. intros [] d; cbn [recovered]; try reflexivity; try lia. destruct (Nat.eqb_spec d 1) as [E|E]; [reflexivity|]. apply Nat.eqb_neq in E. rewrite E. reflexivity. Qed.

Lemma diag_nth : forall (N : num) (l : list N) i row, nth_error (diag_mat N l) i = Some row -> nth_error row i = nth_error l i.
Proof.
  intros N l i row H. assert (Hl : i < length l). { assert (nth_error (diag_mat N l) i <> None) as G by (rewrite H; discriminate). apply nth_error_Some in G. unfold diag_mat in G. rewrite map_length, seq_length in G. exact G. }
  unfold diag_mat in H. rewrite nth_error_map_seq in H by exact Hl. injection H as <-. rewrite nth_error_map_seq by exact Hl. rewrite Nat.eqb_refl. symmetry. apply nth_error_nth'. exact Hl.
Qed.
Lemma diag_length : forall (N : num) (l : list N), length (diag_mat N l) = length l.
Proof. intros N l. unfold diag_mat. rewrite map_length, seq_length. reflexivity. Qed.

Section Series.
Variable F : fnum.
Hypothesis L : num_laws F.
Variable far : list (list F) -> bool.
Hypothesis far_ok : forall l, far (diag_mat F l) = false.
Variable E : Type.
Variable eval : E -> (nat -> F) -> F.
Variable e_mul e_div : E -> E -> E.
Variable e_1 : E.
Variable add_args mul_args : E -> list E.
Variable free_vars : E -> fset.
Variable sym_eqb : E -> E -> bool.
Hypothesis OK : sympy_ok eval e_mul e_1 add_args mul_args free_vars.
Hypothesis V : sympy_vars e_mul e_1 add_args mul_args free_vars.
Hypothesis D1 : forall a env, eval (e_div a e_1) env = eval a env.
Hypothesis D2 : forall a, incl (free_vars (e_div a e_1)) (free_vars a).
Hypothesis S1 : sym_eqb e_1 e_1 = true.
Notation series := (series F E).
Notation tens2 := (series_tensorize2 F far E e_mul e_div e_1 add_args mul_args free_vars sym_eqb).
Notation project := (fun_project E e_mul e_1 add_args mul_args free_vars).

Definition diagonal (p : position F) : Prop := exists l, p_cov p = diag_mat F l.

Lemma same_position : forall p r : position F, pos_ok p -> pos_ok r -> diagonal p -> diagonal r -> p_dirs r = p_dirs p -> (forall d m v t, records p d m v t -> records r d m v t) -> r = p.
Proof using.
  intros p r Hp Hr (lp & Ep) (lr & Er) Hd Hrec. destruct (same_positions F p r Hp Hr Hd Hrec) as (M & T & C). pose proof Hp as (_ & _ & [W _] & _ & I). pose proof Hr as (_ & _ & [W' _] & _ & I').
  assert (G : lr = lp).
  { rewrite Ep, diag_length in W. rewrite Er, diag_length, Hd in W'. apply nth_error_ext. intros i. destruct (nth_error lp i) as [v|] eqn:Ei.
    - destruct (C i v) as (row & A & B). { assert (Hi : i < length (p_cov p)) by (rewrite Ep, diag_length; apply nth_error_Some; rewrite Ei; discriminate). destruct (nth_error (p_cov p) i) as [row|] eqn:Er'; [|apply nth_error_None in Er'; lia]. exists row. split; [reflexivity|]. rewrite Ep in Er'. rewrite (diag_nth _ _ _ _ Er'). exact Ei. }
      rewrite Er in A. rewrite <- (diag_nth _ _ _ _ A). exact B.
    - apply nth_error_None. apply nth_error_None in Ei. lia. }
  subst lr. destruct p, r. cbn in *. congruence.
Qed.

Lemma init_diag : forall mean cov dirs types r dim, position_init F far dim (Some mean) (Some (diag_mat F cov)) (Some dirs) (Some types) = Ok r -> diagonal r.
Proof using.
  intros mean cov dirs types r dim H. unfold position_init in H. cbn [bind] in H. destruct (require _ _) as [[]| | | |]; cbn [bind] in H; try discriminate H. destruct (require _ _) as [[]| | | |]; cbn [bind] in H; try discriminate H. injection H as <-. exists cov. reflexivity.
Qed.
Lemma bind_ok : forall A B (x : res A) (f : A -> res B) b, bind x f = Ok b -> exists a, x = Ok a /\ f a = Ok b.
Proof using. intros A B [a| | | |] f b H; cbn [bind] in H; try discriminate H. exists a. auto. Qed.
Lemma project_diag : forall p g r, pos_project F far p g = Ok r -> diagonal r.
Proof using.
  intros p g r H. unfold pos_project in H. do 5 (apply bind_ok in H as (? & _ & H)). eapply init_diag. exact H.
Qed.
Lemma tensorize_diag : forall p1 p2 r, pos_tensorize F far [p1; p2] = Ok r -> diagonal r.
Proof using.
  intros p1 p2 r H. unfold pos_tensorize in H. apply bind_ok in H as (? & _ & H). cbn [for_in] in H. apply bind_ok in H as (r' & H & E1). injection E1 as <-.
  unfold tensorize2 in H. apply bind_ok in H as (? & _ & H). apply bind_ok in H as ([[m c] t] & _ & H). eapply init_diag. exact H.
Qed.

Lemma project_nil : forall f, f_dirs f <> [] -> (length (add_args (f_sym f)) = 1 -> project f [] = Ok (Fn e_1 [])) /\ (length (add_args (f_sym f)) <> 1 -> project f [] = Throw "ValueError").
Proof using.
  intros f Hf. split; [|apply project_terms]. intros Hl. unfold fun_project, fun_split. destruct (add_args (f_sym f)) as [|t [|t' l]]; try discriminate Hl. cbn [map].
  destruct (f_dirs f) as [|x l]; [contradiction|]. cbn [py_get nth_error bind]. change (py_in x []) with false. cbn [bind].
  assert (G : forall d : dict E, for_in (fun '(v, term) result => if subset v [] && negb (fs_eqb v []) then Ok (e_mul result term) else if negb (fs_eqb [] []) && subset [] v then Throw "ValueError" else Ok result) d e_1 = Ok e_1).
  { induction d as [|[k v] d IH]; [reflexivity|]. cbn [for_in]. destruct k as [|y k]; [exact IH|]. cbn [subset forallb py_in existsb andb]. exact IH. }
  rewrite G. reflexivity.
Qed.

(** A series on the directions [d], with the recorded degree for [degree]. *)
Definition on (h : series) (d : list nat) (s : iset) (degree : nat) : Prop :=
  series_ok h (length d) /\ p_dirs (s_pos h) = d /\ increasing d /\ d <> [] /\ pos_ok (s_pos h) /\ diagonal (s_pos h) /\ s_set h = s /\ s_degree h = recovered s degree /\
  f_dirs (s_factor h) = d /\ incl (free_vars (f_sym (s_factor h))) d.
Definition single (e : E) : Prop := length (add_args e) = 1.

Lemma tens2_ok : forall f g d1 d2 d s degree, on f d1 s degree -> on g d2 s degree -> increasing d -> Permutation d (d1 ++ d2) -> disjoint d1 d2 -> usable s (length d) degree ->
  (single (f_sym (s_factor f)) -> single (f_sym (s_factor g)) -> exists h, tens2 f g = Ok h /\ on h d s degree /\
    f_sym (s_factor h) = e_mul (e_div (f_sym (s_factor f)) e_1) (e_div (f_sym (s_factor g)) e_1) /\
    (forall a x m v t, In a [s_pos f; s_pos g] -> records a x m v t -> records (s_pos h) x m v t) /\
    forall r, index_of s (length d) degree r -> series_at h r = nmul (series_at f (reindex d d1 r)) (series_at g (reindex d d2 r))) /\
  (~ (single (f_sym (s_factor f)) /\ single (f_sym (s_factor g))) -> tens2 f g = Throw "ValueError").
Proof.
  intros f g d1 d2 d s degree (Hf & E1 & I1 & N1 & P1 & Q1 & Sf & Df & Ff & Vf) (Hg & E2 & I2 & N2 & P2 & Q2 & Sg & Dg & Fg & Vg) Hd HP Hdis Hu.
  assert (Hi : inner_dirs d1 d2 d []).
  { split; [exact Hd|]. split; [constructor|]. split; intros x.
    - rewrite (Permutation_in' (eq_refl x) HP). rewrite in_app_iff. split; [intros [G|G]; [left|right]; (split; [exact G|]); intros G2; apply (Hdis x); assumption|tauto].
    - split; [intros []|]. intros [G1 G2]. exact (Hdis x G1 G2). }
  destruct Hf as [(F1 & F2 & F3) F4]. destruct Hg as [(G1 & G2 & G3) G4].
  assert (Start : forall k, tens2 f g = k <-> (p <- project (s_factor f) [] ;; q <- project (s_factor g) [] ;; _ <- require (func_eqb E sym_eqb p q) "ValueError" ;;
    result <- inner F s (s_coeffs f) (s_coeffs g) d1 d2 ;; position <- pos_tensorize F far [s_pos f; s_pos g] ;;
    factor <- function_init E free_vars (e_mul (e_div (f_sym (s_factor f)) (f_sym p)) (e_div (f_sym (s_factor g)) (f_sym q))) (p_dirs position) ;;
    series_init F E e_1 result position (Some factor) s) = k).
  { intros k. unfold series_tensorize2, p_dim. rewrite F2, G2. rewrite (proj2 (Nat.eqb_neq (length d1) 0)), (proj2 (Nat.eqb_neq (length d2) 0)) by (destruct d1, d2; cbn; congruence || lia).
    rewrite E1, E2, (common_inn E e_mul e_div e_1 add_args mul_args free_vars sym_eqb d1 d2 d [] I1 Hi), Df, Dg, Sf, Sg, Nat.eqb_refl, iset_eqb_refl. cbn [require bind]. reflexivity. }
  destruct (project_nil (s_factor f)) as [Pf Pf']; [rewrite Ff; exact N1|]. destruct (project_nil (s_factor g)) as [Pg Pg']; [rewrite Fg; exact N2|].
  split.
  - intros T1 T2.
    assert (Hv : forall x, In x (free_vars (e_mul (e_div (f_sym (s_factor f)) e_1) (e_div (f_sym (s_factor g)) e_1))) -> In x d).
    { intros x Hx. apply (Permutation_in x (Permutation_sym HP)), in_app_iff. apply (vars_mul _ _ _ _ _ V) in Hx as [Hx|Hx]; apply D2 in Hx; auto. }
    rewrite Sf, Df in F3, F4. rewrite Sg, Dg in G3, G4.
    assert (W1 : vec_for (N := F) s (length d1) degree (s_coeffs f)) by (unfold vec_for in *; rewrite points_recovered in F4 by (eapply usable_degree; [exact F3|apply Hu]); exact F4).
    assert (W2 : vec_for (N := F) s (length d2) degree (s_coeffs g)) by (unfold vec_for in *; rewrite points_recovered in G4 by (eapply usable_degree; [exact G3|apply Hu]); exact G4).
    destruct (inner_tensor F L s degree d1 d2 d (s_coeffs f) (s_coeffs g)) as (out & Ei & Vo & Co); try assumption.
    assert (Hc : ~ conflict [s_pos f; s_pos g]).
    { intros (i & j & a & b & x & m & v & t & m' & v' & t' & Hij & A1 & A2 & R1 & R2 & _). destruct i as [|[|i]], j as [|[|j]]; cbn in A1, A2; try discriminate; try lia; try (destruct j; discriminate).
      injection A1 as <-. injection A2 as <-. apply records_dir in R1, R2. rewrite E1 in R1. rewrite E2 in R2. exact (Hdis x R1 R2). }
    destruct (tensorize_ok F far [s_pos f; s_pos g]) as (pos & Et & Po & Inc & Own & Rec); [exact far_ok|cbn; lia|constructor; [exact P1|constructor; [exact P2|constructor]]|apply owners_two; assumption|exact Hc|].
    assert (Edr : p_dirs pos = d). { apply increasing_ext; [exact Inc|exact Hd|]. intros x. rewrite Own. apply owners_one with (dinn := []); [assumption|assumption|]. rewrite E1, E2. exact Hi. }
    assert (Pd : pos_dim pos s (length d) degree) by (split; [rewrite Edr; reflexivity|]; split; [destruct Po as (_ & Po & _); rewrite Po, Edr; reflexivity|exact Hu]).
    eexists. split; [apply (proj2 (Start _))|].
    + rewrite (Pf T1), (Pg T2). cbn [bind f_sym]. unfold func_eqb. cbn [f_dirs f_sym nats_eqb andb]. rewrite S1. cbn [require bind]. rewrite Ei. cbn [bind]. rewrite Et. cbn [bind].
      unfold function_init. rewrite Edr, py_sorted_id by (apply increasing_sorted; exact Hd). rewrite (proj2 (nats_eqb_eq d d) eq_refl). cbn [require bind]. rewrite (proj2 (subset_incl _ _) Hv). cbn [require bind].
      rewrite (series_init_ok F E e_1 out pos (Some (Fn _ d)) s (length d) degree Pd Vo) by (left; discriminate). reflexivity.
    + assert (Nd : d <> []) by (intros ->; destruct Hu; cbn in *; lia).
      cbn [given]. split; [|split; [reflexivity|split]].
      * split; [split; cbn [s_set s_pos s_degree s_coeffs]; [destruct Pd as (B1 & B2 & B3); split; [exact B1|split; [exact B2|apply usable_recovered, Hu]]|unfold vec_for; rewrite points_recovered by exact Hu; exact Vo]|].
        cbn [s_pos s_set s_degree s_factor f_dirs f_sym]. split; [exact Edr|]. split; [exact Hd|]. split; [exact Nd|]. split; [exact Po|]. split; [exact (tensorize_diag _ _ _ Et)|]. split; [reflexivity|]. split; [reflexivity|]. split; [reflexivity|exact Hv].
      * cbn [s_pos]. intros a x m v t Ha Hr. apply (Rec a x); [exact Ha| |exact Hr]. rewrite Edr. apply (Permutation_in x (Permutation_sym HP)), in_app_iff. apply records_dir in Hr. destruct Ha as [<-|[<-|[]]]; [left; rewrite <- E1|right; rewrite <- E2]; exact Hr.
      * intros r Hr. unfold series_at at 1. unfold coef. cbn [s_set s_pos s_degree s_coeffs]. rewrite Edr, points_recovered by exact Hu. etransitivity; [exact (Co r Hr)|].
        unfold series_at. rewrite E1, E2, Sf, Sg, Df, Dg. unfold coef. rewrite !points_recovered by (eapply usable_degree; [first [exact F3|exact G3]|apply Hu]). reflexivity.
  - intros T. apply (proj2 (Start _)). destruct (Nat.eq_dec (length (add_args (f_sym (s_factor f)))) 1) as [T1|T1]; [|rewrite (Pf' T1); reflexivity].
    rewrite (Pf T1). cbn [bind]. destruct (Nat.eq_dec (length (add_args (f_sym (s_factor g)))) 1) as [T2|T2]; [destruct T; split; assumption|]. rewrite (Pg' T2). reflexivity.
Qed.

Lemma index_part : forall s degree d d' m, increasing d -> increasing d' -> incl d' d -> index_of s (length d) degree m -> index_of s (length d') degree (reindex d d' m).
Proof using.
  intros s degree d d' m Hd Hd' Hi [Hl Hm]. split; [apply reindex_length|]. apply in_set_reindex; [apply increasing_NoDup; exact Hd'| |exact Hm]. intros _ x Hx Hh.
  destruct d as [|y d]; [discriminate Hh|]. injection Hh as ->. destruct d' as [|z d']; [destruct Hx|]. cbn [tl] in Hx. inversion Hd' as [|? ? _ Hz]; subst. rewrite Forall_forall in Hz. specialize (Hz x Hx).
  destruct (Hi z (or_introl eq_refl)) as [->|Hz2]; [lia|]. inversion Hd as [|? ? _ Hy]; subst. rewrite Forall_forall in Hy. specialize (Hy z Hz2). lia.
Qed.

Definition closed_single : Prop := forall a b, single a -> single b -> single (e_mul (e_div a e_1) (e_div b e_1)).
Definition scoefs (d : list nat) (gs : list (list nat)) (ss : list series) (m : list nat) : F := nprod (map (fun '(g, h) => series_at h (reindex d g m)) (combine gs ss)).

Lemma tens_all : forall s degree gs ss, Forall2 (fun g h => on h g s degree) gs ss -> forall U acc d, on acc U s degree -> increasing d -> Permutation d (U ++ concat gs) -> usable s (length d) degree ->
  let run := for_in (fun a result => tens2 result a) ss acc in
  (run = Throw "ValueError" /\ ~ (closed_single /\ single (f_sym (s_factor acc)) /\ Forall (fun h => single (f_sym (s_factor h))) ss) \/
   exists r, run = Ok r /\ on r d s degree /\ (forall env, eval (f_sym (s_factor r)) env = nmul (eval (f_sym (s_factor acc)) env) (nprod (map (fun h => eval (f_sym (s_factor h)) env) ss))) /\
    (closed_single -> single (f_sym (s_factor acc)) -> Forall (fun h => single (f_sym (s_factor h))) ss -> single (f_sym (s_factor r))) /\
    (forall a x m v t, In a (s_pos acc :: map s_pos ss) -> records a x m v t -> records (s_pos r) x m v t) /\
    forall m, index_of s (length d) degree m -> series_at r m = nmul (series_at acc (reindex d U m)) (scoefs d gs ss m)).
Proof.
  intros s degree gs ss H. induction H as [|g h gs ss Hh Hs IH]; intros U acc d Ha Hd HP Hu run; subst run; cbn [for_in].
  - right. exists acc. cbn [concat] in HP. rewrite app_nil_r in HP. assert (U = d) as ->. { apply increasing_ext; [apply Ha|exact Hd|]. intros x. rewrite (Permutation_in' (eq_refl x) HP). tauto. }
    split; [reflexivity|]. split; [exact Ha|]. cbn [map]. assert (N1 : nprod (N := F) [] = n1) by reflexivity. rewrite N1. split; [intros env; symmetry; apply (nmul_1_r F L)|]. split; [auto|]. split; [intros a x m v t [<-|[]]; auto|].
    intros m [Hm _]. rewrite reindex_id by (try apply increasing_NoDup; assumption). unfold scoefs. cbn [combine map]. rewrite N1. symmetry. apply (nmul_1_r F L).
  - cbn [concat] in HP. assert (ND : NoDup (U ++ g ++ concat gs)) by (eapply Permutation_NoDup; [exact HP|apply increasing_NoDup; exact Hd]).
    assert (ND2 : NoDup (U ++ g)) by (rewrite app_assoc in ND; clear - ND; induction (U ++ g) as [|y l IHl]; [constructor|]; cbn [app] in ND; inversion ND as [|? ? A1 A2]; subst; constructor; [intros C; apply A1, in_app_iff; left; exact C|exact (IHl A2)]).
    assert (Hdis : disjoint U g). { intros x X1 X2. clear - ND2 X1 X2. induction U as [|y U IHU]; [destruct X1|]. cbn [app] in ND2. inversion ND2 as [|? ? A1 A2]; subst. destruct X1 as [->|X1]; [apply A1; apply in_app_iff; right; exact X2|exact (IHU A2 X1)]. }
    set (U' := py_sorted (U ++ g)). assert (HU' : increasing U') by (apply py_sorted_increasing; exact ND2). assert (PU : Permutation U' (U ++ g)) by (symmetry; apply py_sorted_perm).
    assert (HP' : Permutation d (U' ++ concat gs)) by (etransitivity; [exact HP|]; rewrite app_assoc; apply Permutation_app_tail; symmetry; exact PU).
    assert (LU : 1 <= length U' <= length d). { rewrite (Permutation_length HP'), app_length, (Permutation_length PU), app_length. destruct Ha as (_ & _ & _ & Na & _). destruct U; [contradiction|]. cbn [length]. lia. }
    assert (Hu' : usable s (length U') degree) by (eapply usable_sub; [exact Hu|exact LU]).
    assert (Hinc : incl U' d) by (intros x Hx; apply (Permutation_in x (Permutation_sym HP')), in_app_iff; left; exact Hx).
    destruct (tens2_ok acc h U g U' s degree Ha Hh HU' PU Hdis Hu') as [T1 T2].
    destruct (Nat.eq_dec (length (add_args (f_sym (s_factor acc)))) 1) as [S2|S2]; [destruct (Nat.eq_dec (length (add_args (f_sym (s_factor h)))) 1) as [S3|S3]|].
    + destruct (T1 S2 S3) as (acc' & B1 & B2 & B3 & B4 & B5). rewrite B1. cbn [bind]. destruct (IH U' acc' d B2 Hd HP' Hu) as [[R1 R2]|(r & R1 & R2 & R3 & R4 & R5 & R6)].
      * left. split; [exact R1|]. intros (C1 & C2 & C3). apply R2. split; [exact C1|]. split; [rewrite B3; apply C1; assumption|]. inversion C3; assumption.
      * right. exists r. split; [exact R1|]. split; [exact R2|]. split; [|split; [|split]].
        -- intros env. rewrite R3. cbn [map]. rewrite B3, (ok_mul _ _ _ _ _ _ _ _ OK), !D1. rewrite (nprod_cons F L). rewrite (law_mul_assoc F L). reflexivity.
        -- intros C1 C2 C3. inversion C3; subst. apply R4; [exact C1|rewrite B3; apply C1; assumption|assumption].
        -- intros a x m v t [<-|[<-|X]] Hr; [apply (R5 (s_pos acc')); [left; reflexivity|]; apply (B4 (s_pos acc)); [left; reflexivity|exact Hr]|apply (R5 (s_pos acc')); [left; reflexivity|]; apply (B4 (s_pos h)); [right; left; reflexivity|exact Hr]|apply (R5 a); [right; exact X|exact Hr]].
        -- intros m Hm. rewrite R6 by exact Hm. rewrite B5 by (apply index_part; assumption).
           assert (RR : forall k, incl k U' -> reindex U' k (reindex d U' m) = reindex d k m) by (intros k Hk; apply reindex_reindex; intros x Hx; left; apply Hk; exact Hx).
           rewrite !RR by (intros x Hx; apply (Permutation_in x (Permutation_sym PU)), in_app_iff; auto). unfold scoefs. cbn [combine map]. rewrite (nprod_cons F L). symmetry. apply (law_mul_assoc F L).
    + left. rewrite T2 by (intros [_ C]; exact (S3 C)). split; [reflexivity|]. intros (_ & _ & C). inversion C; contradiction.
    + left. rewrite T2 by (intros [C _]; exact (S2 C)). split; [reflexivity|]. intros (_ & C & _). contradiction.
Qed.

Lemma tens_list : forall s degree gs ss d, Forall2 (fun g h => on h g s degree) gs ss -> ss <> [] -> increasing d -> Permutation d (concat gs) -> usable s (length d) degree ->
  let run := series_tensorize F far E e_mul e_div e_1 add_args mul_args free_vars sym_eqb ss in
  run = Throw "ValueError" /\ ~ (closed_single /\ Forall (fun h => single (f_sym (s_factor h))) ss) \/
  exists r, run = Ok r /\ on r d s degree /\ (forall env, eval (f_sym (s_factor r)) env = nprod (map (fun h => eval (f_sym (s_factor h)) env) ss)) /\
    (closed_single -> Forall (fun h => single (f_sym (s_factor h))) ss -> single (f_sym (s_factor r))) /\
    (forall a x m v t, In a (map s_pos ss) -> records a x m v t -> records (s_pos r) x m v t) /\
    forall m, index_of s (length d) degree m -> series_at r m = scoefs d gs ss m.
Proof.
  intros s degree gs ss d H Hn Hd HP Hu run. subst run. destruct H as [|g h gs ss H0 H]; [contradiction|]. cbn [series_tensorize].
  destruct (tens_all s degree gs ss H g h d H0 Hd HP Hu) as [[R1 R2]|(r & R1 & R2 & R3 & R4 & R5 & R6)].
  - left. split; [exact R1|]. intros [C1 C2]. inversion C2; subst. apply R2. auto.
  - right. exists r. split; [exact R1|]. split; [exact R2|]. split; [intros env; rewrite R3; cbn [map]; symmetry; apply (nprod_cons F L)|]. split; [intros C1 C2; inversion C2; subst; apply R4; assumption|]. split; [exact R5|].
    intros m Hm. rewrite R6 by exact Hm. unfold scoefs. cbn [combine map]. symmetry. apply (nprod_cons F L).
Qed.
End Series.

Section Sums.
Variable F : fnum.
Variable E : Type.
Variable e_1 : E.
Variable free_vars : E -> fset.
Variable sym_eqb : E -> E -> bool.
Variable pos_eqb : position F -> position F -> bool.
Notation on := (on F E free_vars).

Lemma scale_on : forall a (f : series F E) d s degree, on f d s degree ->
  exists h, series_scale F E e_1 a f = Ok h /\ on h d s degree /\ s_pos h = s_pos f /\ s_factor h = s_factor f /\ forall m, index_of s (length d) degree m -> series_at h m = nmul (series_at f m) a.
Proof using.
  intros a f d s degree (F1 & F2 & F3 & F4 & F5 & F6 & F7 & F8 & F9 & F10). destruct (scale_spec F E e_1 a f (length d) F1) as (h & H1 & H2 & H3 & H4 & H5 & _ & H6 & H7). exists h. split; [exact H1|].
  pose proof (scale_degree F E e_1 a f h (length d) F1 H1) as H8. rewrite F7, F8, recovered_twice in H8.
  split; [|split; [exact H3|split; [exact H5|]]].
  - split; [exact H2|]. rewrite H3, H4, H5, H8. auto 12.
  - intros m Hm. apply H7. unfold series_index. rewrite F2, F7, F8. apply index_of_recovered. exact Hm.
Qed.
Lemma add_on : forall (f g : series F E) d s degree, on f d s degree -> on g d s degree -> s_pos g = s_pos f -> pos_eqb (s_pos f) (s_pos f) = true ->
  (sym_eqb (f_sym (s_factor f)) (f_sym (s_factor g)) = true ->
    exists h, series_add F E sym_eqb e_1 pos_eqb f g = Ok h /\ on h d s degree /\ s_pos h = s_pos f /\ s_factor h = s_factor f /\ forall m, index_of s (length d) degree m -> series_at h m = nadd (series_at f m) (series_at g m)) /\
  (sym_eqb (f_sym (s_factor f)) (f_sym (s_factor g)) = false -> series_add F E sym_eqb e_1 pos_eqb f g = Throw "ValueError").
Proof using.
  intros f g d s degree (F1 & F2 & F3 & F4 & F5 & F6 & F7 & F8 & F9 & F10) (G1 & G2 & G3 & G4 & G5 & G6 & G7 & G8 & G9 & G10) Hp Hr. split; intros Hs.
  - assert (Ha : addable F E sym_eqb pos_eqb (s_pos f) (s_pos g) (s_set f) (s_set g) (s_factor f) (s_factor g) = true).
    { unfold addable, func_eqb. rewrite Hp, Hr, F7, G7, F9, G9, Hs, iset_eqb_refl. rewrite (proj2 (nats_eqb_eq d d) eq_refl). reflexivity. }
    destruct (add_spec F E sym_eqb e_1 pos_eqb f g (length d) F1 G1 Ha) as (h & H1 & H2 & H3 & H4 & H5 & H6 & H7); [congruence|]. exists h. split; [exact H1|].
    assert (H8 : s_degree h = recovered s degree).
    { unfold series_add in H1. unfold addable in Ha. rewrite Ha in H1. cbn [require bind] in H1. destruct F1 as [F1 F1']. destruct G1 as [G1 G1']. unfold vec_for in F1', G1'. rewrite F7, F8 in F1', F1. rewrite G7, G8 in G1'. unfold np_add in H1. rewrite F1', G1', Nat.eqb_refl in H1. cbn [bind] in H1.
      rewrite F7 in H1. rewrite (series_init_ok F E e_1 _ (s_pos f) (Some (s_factor f)) s (length d) (recovered s degree) F1) in H1; [|rewrite map_length, combine_length, F1', G1'; apply Nat.min_id|left; discriminate]. injection H1 as <-. cbn [s_degree]. apply recovered_twice. }
    split; [|split; [exact H3|split; [exact H5|]]].
    + split; [exact H2|]. rewrite H3, H4, H5, H8. auto 12.
    + intros m Hm. apply H7. unfold series_index. rewrite F2, F7, F8. apply index_of_recovered. exact Hm.
  - unfold series_add, func_eqb. rewrite Hs, !andb_false_r. reflexivity.
Qed.
End Sums.
