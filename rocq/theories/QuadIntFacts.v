(** Quad.integrate and Quad.norm over the reals. *)
From Coq Require Import String List Bool Arith ZArith Lia Permutation Reals Lra.
From Verif Require Import Base Lists IndexModel Spec Grid Num LinModel LinSpec LinBase MatBase Dirs Degree Facts2 PyBase PosModel PosSpec PosFacts SeriesModel SeriesSpec SeriesFacts SeriesFacts3 PartModel PartSpec PartFacts
  SplitModel SplitSpec SplitFacts MulModel MulSpec MulFacts Fnum CalcModel CalcSpec CalcReal CalcQuad CalcVarf2 CalcTensor CalcInt Facts6 Facts7 Facts8 PyQuadModel PyQuadSpec PyQuadFacts PyQuadFacts2 TensQuadModel TensQuadSpec TensQuadFacts TensQuadFacts2 TensQuadFacts3 QuadIntModel QuadIntSpec.
Import ListNotations.
Local Open Scope string_scope. Local Open Scope list_scope. Local Open Scope nat_scope.

Section Facts.
Variable far : list (list R) -> bool.
Hypothesis far_ok : forall l, far (diag_mat fnum_R l) = false.
Variable E : Type.
Variable eval : E -> (nat -> R) -> R.
Variable e_mul : E -> E -> E.
Variable e_1 : E.
Variable add_args mul_args : E -> list E.
Variable free_vars : E -> list nat.
Hypothesis OK : sympy_ok (N := fnum_R) eval e_mul e_1 add_args mul_args free_vars.
Hypothesis V : sympy_vars e_mul e_1 add_args mul_args free_vars.
Variable cov_factor : list (list R) -> list (list R).
Variable la_inv : list (list R) -> res (list (list R)).
Variable far8 : list (list R) -> bool.
Variable junk tiny : R.
Hypothesis NP : numpy_ok cov_factor la_inv far8.
Variable density : position fnum_R -> E.
Notation quad := (quad fnum_R E).
Notation L := (num_R_laws : num_laws fnum_R).
Notation integrate_arr := (quad_integrate fnum_R E e_1 free_vars eval cov_factor junk tiny density).
Notation integrate_fun := (quad_integrate_fun fnum_R E e_1 free_vars eval cov_factor junk tiny density).
Notation integrate_series := (quad_integrate_series fnum_R E e_1 free_vars eval cov_factor la_inv far8 junk tiny density).
Notation norm := (quad_norm fnum_R E e_1 free_vars eval cov_factor junk tiny density).

Let RF : reads_free eval free_vars := ok_free _ _ _ _ _ _ _ _ OK.

Lemma weighted_sum_quadrature : forall (q : quad) values, weighted_sum q values = quadrature (q_nodes q) (q_weights q) values (fun _ => 1%R).
Proof.
  intros q values. unfold weighted_sum, quadrature. apply rsum_map_ext. intros (y, p) _. ring.
Qed.

Lemma fourier_flags : forall q : quad, all_fourier q -> do_fourier q = repeat 1 (length (p_types (q_pos q))).
Proof.
  intros q H. unfold do_fourier. unfold all_fourier in H. induction H as [|t l -> H IH]; [reflexivity|]. cbn [map length repeat]. rewrite IH. reflexivity.
Qed.

Lemma fourier_weight : forall q : quad, all_fourier q -> pos_weight fnum_R E e_1 density (q_pos q) = e_1.
Proof.
  intros q H. unfold pos_weight. unfold all_fourier in H.
  assert (G : filter (fun t => String.eqb t "hermite") (p_types (q_pos q)) = []) by (induction H as [|t l -> H IH]; [reflexivity|exact IH]).
  rewrite G. reflexivity.
Qed.

Lemma grid_constant : forall (q : quad) vars values c, quad_R q vars -> grid_values q vars values (fun _ => c) -> values = repeat c (length (grid (q_nodes q))).
Proof.
  intros q vars values c Hq (H1 & H2). rewrite <- H1. assert (G : forall x, In x values -> x = c).
  { intros x Hx. apply In_nth_error in Hx as (k & Hk). assert (Hl : k < length (grid (q_nodes q))) by (rewrite <- H1; apply nth_error_Some; rewrite Hk; discriminate).
    destruct (nth_error (grid (q_nodes q)) k) as [p|] eqn:Ep; [|apply nth_error_None in Ep; lia].
    pose proof (H2 k p _ Ep (env_at_point E q vars p Hq (nth_error_In _ _ Ep))) as G. rewrite G in Hk. injection Hk as <-. reflexivity. }
  clear - G. induction values as [|x l IH]; [reflexivity|]. cbn [length repeat]. f_equal; [apply G; left; reflexivity|apply IH; intros y Hy; apply G; right; exact Hy].
Qed.

Lemma div_ones : forall (values : list R) n, length values = n -> np_vec fnum_R fdiv values (repeat 1%R n) = Ok values.
Proof.
  intros values n <-. unfold np_vec, np_bin. rewrite repeat_length. rewrite Nat.eqb_refl.
  induction values as [|x l IH]; [reflexivity|]. cbn [length repeat combine mapM]. cbn [bind]. rewrite IH. cbn [bind]. apply f_equal. f_equal. change (@eq R (x / 1)%R x). field.
Qed.

Lemma integrate_array : forall (q : quad) vars values flat, quad_R q vars -> increasing (p_dirs (q_pos q)) -> all_fourier q -> rules_match (q_nodes q) (q_weights q) -> length values = length (grid (q_nodes q)) ->
  integrate_arr q values flat = Ok (weighted_sum q values).
Proof using NP OK V.
  intros q vars values flat Hq Hi0 Hf Hw Hl. pose proof Hq as ((R1 & R2 & R3 & R4 & R5 & R6) & R7 & R8 & R9).
  assert (G : CalcModel.integrate fnum_R values (q_nodes q) (q_weights q) (do_fourier q) = Ok (weighted_sum q values)).
  { rewrite weighted_sum_quadrature. apply integrate_fourier; try assumption.
    - destruct (q_nodes q); [contradiction|cbn; lia].
    - rewrite (fourier_flags q Hf). f_equal. exact (eq_trans R5 (eq_sym R7)). }
  unfold quad_integrate. destruct flat; [|exact G]. rewrite (fourier_weight q Hf).
  assert (I1 : function_init E free_vars e_1 (p_dirs (q_pos q)) = Ok (Fn e_1 (p_dirs (q_pos q)))).
  { unfold function_init. rewrite (vars_1 _ _ _ _ _ V), py_sorted_id by (apply increasing_sorted; exact Hi0). rewrite (proj2 (nats_eqb_eq _ _) eq_refl). reflexivity. }
  rewrite I1. cbn [bind]. destruct (discretize_values E free_vars eval cov_factor la_inv far8 junk NP RF q vars (Fn e_1 (p_dirs (q_pos q))) Hq eq_refl) as (w & W1 & W2).
  { cbn [f_sym f_dirs]. rewrite (vars_1 _ _ _ _ _ V). intros x []. }
  rewrite W1. cbn [bind]. assert (W3 : w = repeat 1%R (length (grid (q_nodes q)))).
  { apply (grid_constant q vars w 1%R Hq). destruct W2 as [W2 W3]. split; [exact W2|]. intros k p env Hk Hp. rewrite (W3 k p env Hk Hp). cbn [f_sym]. f_equal. exact (ok_1 _ _ _ _ _ _ _ _ OK env). }
  rewrite W3. assert (W4 : map (fun x : fnum_R => @nadd fnum_R (@nmul fnum_R tiny (if @neqb fnum_R x n0 then n1 else n0)) x) (repeat 1%R (length (grid (q_nodes q)))) = repeat 1%R (length (grid (q_nodes q)))).
  { clear. induction (length (grid (q_nodes q))) as [|n IH]; [reflexivity|]. cbn [repeat map]. f_equal; [|exact IH].
    change ((tiny * (if (if Req_EM_T 1 0 then true else false) then 1 else 0) + 1)%R = 1%R). destruct (Req_EM_T 1 0) as [G|G]; lra. }
  match goal with |- bind (np_vec _ _ _ ?x) _ = _ => replace x with (repeat 1%R (length (grid (q_nodes q)))) by (symmetry; exact W4) end.
  rewrite div_ones by exact Hl. exact G.
Qed.

Theorem integrate_function : forall (q : quad) vars (f : func E) flat, quad_R q vars -> increasing (p_dirs (q_pos q)) -> all_fourier q -> rules_match (q_nodes q) (q_weights q) -> f_dirs f = p_dirs (q_pos q) -> incl (free_vars (f_sym f)) (p_dirs (q_pos q)) ->
  exists values, grid_values q vars values (eval (f_sym f)) /\ integrate_fun q f flat = Ok (weighted_sum q values).
Proof using NP OK V.
  intros q vars f flat Hq Hi0 Hf Hw Hd Hi. destruct (discretize_values E free_vars eval cov_factor la_inv far8 junk NP RF q vars f Hq Hd) as (values & W1 & W2); [rewrite Hd; exact Hi|].
  exists values. split; [exact W2|]. unfold quad_integrate_fun. rewrite W1. cbn [bind]. apply (integrate_array q vars); try assumption. apply W2.
Qed.

Theorem norm_array : forall (q : quad) vars values flat, quad_R q vars -> increasing (p_dirs (q_pos q)) -> all_fourier q -> rules_match (q_nodes q) (q_weights q) -> length values = length (grid (q_nodes q)) ->
  norm q values 2 flat = Ok (Some (sqrt (weighted_sum q (map (fun y => y * y)%R values)))) /\ norm q values 1 flat = Ok (Some (weighted_sum q (map Rabs values))) /\
  forall n, n <> 1 -> n <> 2 -> norm q values n flat = Ok None.
Proof using NP OK V.
  intros q vars values flat Hq Hi0 Hf Hw Hl. unfold quad_norm. split; [|split].
  - cbn [Nat.eqb]. match goal with |- bind ?x _ = _ => assert (G : x = Ok (weighted_sum q (map (fun y => y * y)%R values))) by (apply (integrate_array q vars); try assumption; rewrite map_length; exact Hl) end. rewrite G. reflexivity.
  - cbn [Nat.eqb]. match goal with |- bind ?x _ = _ => assert (G : x = Ok (weighted_sum q (map Rabs values))) by (apply (integrate_array q vars); try assumption; rewrite map_length; exact Hl) end. rewrite G. reflexivity.
  - intros n H1 H2. destruct (Nat.eqb_spec n 2); [contradiction|]. destruct (Nat.eqb_spec n 1); [contradiction|]. reflexivity.
Qed.

Theorem integrate_hermite : forall (q : quad) vars (f : func E) k xs, quad_R q vars -> f_dirs f = p_dirs (q_pos q) -> incl (free_vars (f_sym f)) (p_dirs (q_pos q)) ->
  nth_error (p_types (q_pos q)) k = Some "hermite" -> nth_error (q_nodes q) k = Some xs -> xs <> [] -> integrate_fun q f false = Ub.
Proof using NP OK.
  intros q vars f k xs Hq Hd Hi Hk Hx H0. destruct (discretize_values E free_vars eval cov_factor la_inv far8 junk NP RF q vars f Hq Hd) as (values & W1 & W2); [rewrite Hd; exact Hi|].
  unfold quad_integrate_fun. rewrite W1. cbn [bind]. unfold quad_integrate. cbn [bind]. apply (integrate_ub fnum_R _ _ _ _ k xs); try assumption. unfold do_fourier. rewrite nth_error_map, Hk. reflexivity.
Qed.

(** * The parts of a quadrature *)
Notation quad_project := (quad_project fnum_R far E e_mul e_1 add_args mul_args free_vars).

Lemma all_fourier_pick : forall types ix, Forall (fun t => t = "fourier") types -> Forall (fun x => x < length types) ix -> Forall (fun t => t = "fourier") (pick "" types ix).
Proof.
  intros types ix H Hx. unfold pick. induction Hx as [|x ix Hx H' IH]; cbn [map]; constructor; [|exact IH]. rewrite Forall_forall in H. apply H. apply nth_In. exact Hx.
Qed.

Lemma part_integrate : forall (q : quad) vars flat ft first rest g (f : func E), quad_ok q -> quad_R q vars -> all_fourier q -> p_dirs (q_pos q) = first :: rest -> incl (free_vars (f_sym (q_factor q))) (p_dirs (q_pos q)) ->
  add_args (f_sym (q_factor q)) = [ft] -> rules_match (q_nodes q) (q_weights q) ->
  increasing g -> g <> [] -> incl g (p_dirs (q_pos q)) -> (forall a, In a (mul_args ft) -> ~ straddles free_vars g a) -> f_dirs f = g -> incl (free_vars (f_sym f)) g ->
  let ix := idx (p_dirs (q_pos q)) g in
  exists a dv, quad_project q g = Ok a /\ integrate_fun a f flat = Ok (quadrature (pick [] (q_nodes q) ix) (pick [] (q_weights q) ix) dv (fun _ => 1%R)) /\
    length dv = length (grid (pick [] (q_nodes q) ix)) /\
    (forall p, In p (grid (q_nodes q)) -> value 0%R (grid (pick [] (q_nodes q) ix)) dv (pick 0 p ix) = eval (f_sym f) (env_at E q vars p)).
Proof using NP OK V far_ok.
  intros q vars flat ft first rest g f Hq HR Hfo HD Hfv Hft Hw Hg1 Hg2 Hg3 Hst Hfd Hff ix.
  destruct (quad_project_ok fnum_R L far far_ok E eval e_mul e_1 add_args mul_args free_vars OK V q ft first rest g Hq HD Hfv Hft Hg1 Hg2 Hg3 Hst) as (a & e & A1 & A2 & A3 & A4 & A5 & A6 & A7 & A8).
  destruct (part_R far E e_mul e_1 add_args mul_args free_vars q vars g a Hq HR A1 A2 A3 Hg1 Hg2 Hg3 A7 A8) as (B1 & B2 & B3 & B4 & B5 & B6). fold ix in B1, B2, B3, B4, B5.
  pose proof HR as ((R1 & R2 & R3 & R4 & R5 & R6) & R7 & R8 & R9).
  assert (Ix : Forall (fun x => x < length (p_dirs (q_pos q))) ix) by (apply idx_lt; exact Hg3).
  assert (Hwa : rules_match (q_nodes a) (q_weights a)) by (rewrite B1, B2; apply rules_match_pick; [exact Hw|exact (eq_ind_r (fun n => Forall (fun x => x < n) ix) Ix (eq_trans R7 (eq_sym R3)))]).
  assert (Hfoa : all_fourier a) by (unfold all_fourier; rewrite B4; apply all_fourier_pick; [exact Hfo|exact (eq_ind_r (fun n => Forall (fun x => x < n) ix) Ix (eq_trans R5 (eq_sym R3)))]).
  destruct (integrate_function a (pick 0%R vars ix) f flat B5 (eq_ind_r increasing Hg1 A3) Hfoa Hwa) as (values & W1 & W2); [rewrite A3; exact Hfd|rewrite A3; exact Hff|].
  exists a, values. split; [exact A1|]. split; [rewrite W2, weighted_sum_quadrature, B1, B2; reflexivity|]. destruct W1 as [W1 W3]. split; [rewrite <- B1; exact W1|].
  intros p Hp. destruct (part_point E q a vars g p HR Hg3 A3 B1 B3 Hp) as [Z1 Z2]. fold ix in Z1, Z2. rewrite <- B1. apply In_nth_error in Z1 as (k & Hk).
  pose proof (W3 k _ _ Hk Z2) as V1. etransitivity; [apply (value_nth R 0%R (grid (q_nodes a)) _ k); [unfold grid; rewrite row_major_glist; apply NoDup_glist|exact Hk|exact W1]|].
  apply nth_error_nth. exact V1.
Qed.

Record ipiece := IPiece { i_g : list nat; i_f : func E; i_v : R; i_dv : list R }.
Definition ipiece_ok (q : quad) (vars : list R) (t : ipiece) : Prop :=
  let ix := idx (p_dirs (q_pos q)) (i_g t) in
  i_v t = quadrature (pick [] (q_nodes q) ix) (pick [] (q_weights q) ix) (i_dv t) (fun _ => 1%R) /\
  length (i_dv t) = length (grid (pick [] (q_nodes q) ix)) /\
  (forall p, In p (grid (q_nodes q)) -> value 0%R (grid (pick [] (q_nodes q) ix)) (i_dv t) (pick 0 p ix) = eval (f_sym (i_f t)) (env_at E q vars p)).

Lemma parts_integrate : forall (q : quad) vars flat ft first rest gs (fs : list (func E)), quad_ok q -> quad_R q vars -> all_fourier q -> p_dirs (q_pos q) = first :: rest -> incl (free_vars (f_sym (q_factor q))) (p_dirs (q_pos q)) ->
  add_args (f_sym (q_factor q)) = [ft] -> rules_match (q_nodes q) (q_weights q) ->
  Forall (fun g => increasing g /\ g <> [] /\ incl g (p_dirs (q_pos q)) /\ (forall a, In a (mul_args ft) -> ~ straddles free_vars g a)) gs -> Forall2 (fun g f => f_dirs f = g /\ incl (free_vars (f_sym f)) g) gs fs ->
  exists l, map i_g l = gs /\ map i_f l = fs /\ Forall (ipiece_ok q vars) l /\
    forall blocks, length blocks = length gs -> map fst blocks = gs -> map snd blocks = fs ->
    mapM (fun '(g, f) => part <- quad_project q g ;; integrate_fun part f flat) blocks = Ok (map i_v l).
Proof using NP OK V far_ok.
  intros q vars flat ft first rest gs fs Hq HR Hfo HD Hfv Hft Hw Hg H. induction H as [|g f gs fs [H1 H2] H IH].
  - exists []. split; [reflexivity|]. split; [reflexivity|]. split; [constructor|]. intros [|b blocks] Hb E1 E2; [reflexivity|discriminate Hb].
  - inversion Hg as [|? ? (G1 & G2 & G3 & G4) Hg']; subst. destruct (IH Hg') as (l & L1 & L2 & L3 & L4).
    destruct (part_integrate q vars flat ft first rest (f_dirs f) f Hq HR Hfo HD Hfv Hft Hw G1 G2 G3 G4 eq_refl H2) as (a & dv & A1 & A2 & A3 & A4).
    exists (IPiece (f_dirs f) f (quadrature (pick [] (q_nodes q) (idx (p_dirs (q_pos q)) (f_dirs f))) (pick [] (q_weights q) (idx (p_dirs (q_pos q)) (f_dirs f))) dv (fun _ => 1%R)) dv :: l). cbn [map i_g i_f i_v i_dv]. split; [rewrite L1; reflexivity|]. split; [rewrite L2; reflexivity|]. split; [constructor; [|exact L3]; exact (conj eq_refl (conj A3 A4))|].
    intros [|(g0, f0) blocks] Hb E1 E2; [discriminate Hb|]. cbn [map fst snd] in E1, E2. injection E1 as -> E1. injection E2 as -> E2. cbn [mapM]. rewrite A1. cbn [bind]. rewrite A2. cbn [bind]. rewrite (L4 blocks); [reflexivity|cbn in Hb; lia|exact E1|exact E2].
Qed.

Variable order : nat -> nat -> list fset -> list fset.
Hypothesis order_perm : forall i k l, Permutation (order i k l) l.
Variable enum : nat -> list fset -> list fset.
Hypothesis enum_perm : forall i l, Permutation (enum i l) l.
Notation run_term flat := (tens_term fnum_R far E e_mul e_1 add_args mul_args free_vars eval order enum R (fun q f => integrate_fun q f flat) (np_prod fnum_R) (fun c x => Ok (@nmul fnum_R x c))).
Notation whole := (integrate_tensorized fnum_R far E e_mul e_1 add_args mul_args free_vars eval order enum cov_factor junk tiny density).

Lemma fold_rprod : forall (l : list R) a, fold_left (@nmul fnum_R) l a = (a * rprod l)%R.
Proof.
  induction l as [|x l IH]; intros a; cbn [fold_left]; [symmetry; exact (Rmult_1_r a)|]. rewrite IH. change ((a * x * rprod l)%R = (a * rprod (x :: l))%R). change (rprod (x :: l)) with (x * rprod l)%R. ring.
Qed.

Definition term_sum (q : quad) (vars : list R) (e : E) : R := rsum (map (fun p => rprod (at_pos (q_weights q) p) * eval e (env_at E q vars p))%R (grid (q_nodes q))).

Lemma term_integrate : forall (q : quad) vars flat ft k term, quad_ok q -> quad_R q vars -> all_fourier q -> incl (free_vars (f_sym (q_factor q))) (p_dirs (q_pos q)) ->
  add_args (f_sym (q_factor q)) = [ft] -> rules_match (q_nodes q) (q_weights q) ->
  (forall a, In a (mul_args term) -> incl (free_vars a) (p_dirs (q_pos q))) ->
  run_term flat q k (split_term E e_mul e_1 mul_args free_vars (p_dirs (q_pos q)) term) = Ok (term_sum q vars term).
Proof using NP OK V far_ok order_perm enum_perm.
  intros q vars flat ft k term Hq HR Hfo Hfv Hft Hw Ht.
  pose proof HR as ((R1 & R2 & R3 & R4 & R5 & R6) & R7 & R8 & R9). set (D := p_dirs (q_pos q)) in *.
  assert (HD0 : D <> []). { intros G. rewrite G in R3. destruct (q_nodes q) as [|x l]; [contradiction|]. rewrite <- R3 in R7. discriminate R7. }
  assert (HDq : exists first rest, D = first :: rest) by (destruct D as [|x l]; [contradiction|exists x, l; reflexivity]). destruct HDq as (first & rest & HDq).
  assert (HND : increasing D) by apply Hq. assert (HLD : length D = length vars) by exact R3.
  assert (Hfa : forall a, In a (mul_args ft) -> incl (free_vars a) D).
  { intros a Ha x Hx. apply Hfv. apply (vars_add_args _ _ _ _ _ V _ ft); [rewrite Hft; left; reflexivity|]. apply (vars_mul_args _ _ _ _ _ V _ a); [exact Ha|exact Hx]. }
  destruct (term_groups fnum_R L E eval e_mul e_1 add_args mul_args free_vars OK V (order k) (order_perm k) (enum k) (enum_perm k) D term ft R6 HD0 Ht Hfa) as (c & division & fs & C1 & C2 & C3 & C4 & C5 & C6 & C7 & _).
  set (gs := map fs_list (enum k division)) in *.
  destruct (parts_integrate q vars flat ft first rest gs fs Hq HR Hfo HDq Hfv Hft Hw) as (l & L1 & L2 & L3 & L4).
  { apply Forall_forall. intros g Hg. destruct C4 as [[C4 _] C4']. rewrite Forall_forall in C4'. destruct (C4' g Hg) as [I1 I2]. split; [exact I1|]. split; [exact I2|]. split; [intros x Hx; apply C4; exists g; auto|]. intros a Ha. apply C5; assumption. }
  { exact C6. }
  assert (Lfs : length (enum k division) = length fs) by (rewrite <- (Forall2_length _ _ _ _ _ C6); unfold gs; rewrite map_length; reflexivity).
  assert (Hparts : mapM (fun '(dirs, term) => part <- quad_project q (fs_list dirs) ;; integrate_fun part term flat) (combine (enum k division) fs) = Ok (map i_v l)).
  { destruct (combine_split _ _ _ _ Lfs) as [F1 F2]. rewrite <- (L4 (map (fun '(b, f) => (fs_list b, f)) (combine (enum k division) fs))).
    - rewrite mapM_map. clear. induction (combine (enum k division) fs) as [|(b, f) m IH]; [reflexivity|]. cbn [mapM]. rewrite IH. reflexivity.
    - unfold gs. rewrite !map_length, combine_length, <- Lfs. apply Nat.min_id.
    - rewrite map_map. unfold gs. rewrite <- F1 at 2. rewrite map_map. apply map_ext. intros (b, f). reflexivity.
    - rewrite map_map. rewrite <- F2 at 2. apply map_ext. intros (b, f). reflexivity. }
  assert (Hl0 : l <> []). { intros ->. cbn [map] in L1. destruct C4 as [[C4 _] _]. rewrite <- L1 in C4. destruct (proj1 (C4 first)) as (b & [] & _). rewrite HDq. left. reflexivity. }
  assert (HP : Permutation D (concat gs)) by (apply grouping_perm; [exact R6|exact C4]).
  assert (Run : run_term flat q k (split_term E e_mul e_1 mul_args free_vars D term) = Ok (rprod (map i_v l) * eval c (fun _ => 0%R))%R).
  { unfold tens_term. rewrite C1. cbn [bind]. unfold fun_split. rewrite Hft. cbn [map]. assert (Hfd : f_dirs (q_factor q) = D) by apply Hq. rewrite Hfd.
    match goal with |- bind ?x _ = _ => replace x with (@Base.Ok (list fset) division) by (symmetry; exact C2) end. cbn [bind].
    match goal with |- bind ?x _ = _ => replace x with (Ok (combine (enum k division) fs)) by (symmetry; exact C3) end. cbn [bind].
    match goal with |- bind ?x _ = _ => replace x with (Ok (map i_v l)) by (symmetry; exact Hparts) end. cbn [bind].
    rewrite map_length. destruct l as [|t l]; [contradiction|]. cbn [length require Nat.ltb Nat.leb bind]. unfold np_prod. cbn [bind]. apply f_equal.
    match goal with |- nmul ?a ?b = _ => change ((a * b)%R = (rprod (map i_v (t :: l)) * b)%R) end. f_equal. etransitivity; [exact (fold_rprod (map i_v (t :: l)) 1%R)|]. exact (Rmult_1_l _). }
  rewrite Run. apply f_equal.
  set (dirs := map (fun t => idx D (i_g t)) l). set (factors := map i_dv l).
  assert (LN : length (q_nodes q) = length D) by exact (eq_trans R7 (eq_sym R3)).
  assert (HPi : Permutation (seq 0 (length (q_nodes q))) (concat dirs)).
  { rewrite LN. unfold dirs. rewrite <- (map_map i_g (idx D)), L1. apply idx_perm; [exact R6|exact HP]. }
  assert (Sc : rprod (map i_v l) = quadrature (q_nodes q) (q_weights q) (product_values (q_nodes q) dirs factors) (fun _ => 1%R)).
  { rewrite (quadrature_groups (q_nodes q) (q_weights q) dirs factors HPi Hw) with (gs := fun dj x => 1%R).
    - f_equal. unfold dirs, factors. clear - L3. induction L3 as [|t l Ht L3 IH]; [reflexivity|]. cbn [map combine]. f_equal; [|exact IH]. apply Ht.
    - unfold dirs, factors. clear - L3. induction L3 as [|t l Ht L3 IH]; cbn [map]; constructor; [apply Ht|exact IH].
    - intros x _. clear. induction dirs as [|d dirs IH]; [reflexivity|]. cbn [map]. change (1%R = (1 * rprod (map (fun _ => 1%R) dirs))%R). rewrite <- IH. ring. }
  rewrite Sc. unfold product_values, term_sum. rewrite quadrature_map, <- rsum_map_mult_r. apply rsum_map_ext. intros p Hp.
  assert (Ev : forall env, eval term env = (eval c (fun _ => 0%R) * rprod (map (fun t => eval (f_sym (i_f t)) env) l))%R).
  { intros env. etransitivity; [exact (C7 env (fun _ => 0%R))|]. rewrite <- L2, map_map. exact (f_equal (Rmult _) (nprod_R _)). }
  rewrite Ev. set (env := env_at E q vars p).
  assert (Pv : rprod (map (fun '(dj, f) => value 0%R (grid (pick [] (q_nodes q) dj)) f (pick 0 p dj)) (combine dirs factors)) = rprod (map (fun t => eval (f_sym (i_f t)) env) l)).
  { f_equal. unfold dirs, factors. clear - L3 Hp. induction L3 as [|t l Ht L3 IH]; [reflexivity|]. cbn [map combine]. f_equal; [|exact IH]. destruct Ht as (_ & _ & G). exact (G p Hp). }
  match goal with |- (?x * ?w * ?g * ?c = ?rhs)%R => refine (eq_trans (f_equal (fun z => (z * w * g * c)%R) Pv) _) end. match goal with |- @eq _ ?a ?b => change (@eq R a b) end. ring.
Qed.

Lemma terms_integrate : forall (q : quad) vars flat ft ts k, quad_ok q -> quad_R q vars -> all_fourier q -> incl (free_vars (f_sym (q_factor q))) (p_dirs (q_pos q)) ->
  add_args (f_sym (q_factor q)) = [ft] -> rules_match (q_nodes q) (q_weights q) ->
  (forall t a, In t ts -> In a (mul_args t) -> incl (free_vars a) (p_dirs (q_pos q))) ->
  mapM (fun '(k, add) => run_term flat q k add) (combine (seq k (length ts)) (map (split_term E e_mul e_1 mul_args free_vars (p_dirs (q_pos q))) ts)) = Ok (map (term_sum q vars) ts).
Proof using NP OK V far_ok order_perm enum_perm.
  intros q vars flat ft ts k Hq HR Hfo Hfv Hft Hw. revert k. induction ts as [|t ts IH]; intros k Ht; cbn [length seq map combine mapM]; [reflexivity|].
  rewrite (term_integrate q vars flat ft k t Hq HR Hfo Hfv Hft Hw (fun a Ha => Ht t a (or_introl eq_refl) Ha)). cbn [bind].
  assert (G := IH (S k) (fun t' a Ht' Ha => Ht t' a (or_intror Ht') Ha)). match goal with |- bind ?x _ = _ => replace x with (Ok (map (term_sum q vars) ts)) by (symmetry; exact G) end. reflexivity.
Qed.

Lemma term_sum_values : forall (q : quad) vars e values, quad_R q vars -> grid_values q vars values (eval e) -> weighted_sum q values = term_sum q vars e.
Proof.
  intros q vars e values HR (H1 & H2). unfold weighted_sum, term_sum.
  assert (G : values = map (fun p => eval e (env_at E q vars p)) (grid (q_nodes q))).
  { apply (nth_ext _ _ 0%R 0%R); [rewrite map_length; exact H1|]. intros n Hn. rewrite H1 in Hn.
    destruct (nth_error (grid (q_nodes q)) n) as [p|] eqn:Ep; [|apply nth_error_None in Ep; lia].
    rewrite (nth_error_nth _ _ _ (H2 n p _ Ep (env_at_point E q vars p HR (nth_error_In _ _ Ep)))). symmetry. apply nth_error_nth. rewrite nth_error_map, Ep. reflexivity. }
  rewrite G. clear. induction (grid (q_nodes q)) as [|p l IH]; [reflexivity|]. cbn [map combine]. rewrite !rsum_cons, IH. reflexivity.
Qed.

Lemma for_in_sum : forall (l : list R) a, for_in (fun (r : fnum_R) (sum : fnum_R) => Ok (nadd sum r)) l a = Ok (a + rsum l)%R.
Proof.
  induction l as [|x l IH]; intros a; cbn [for_in bind]; [apply f_equal; symmetry; exact (Rplus_0_r a)|]. rewrite IH. apply f_equal. rewrite rsum_cons. change ((a + x + rsum l)%R = (a + (x + rsum l))%R). ring.
Qed.

Theorem integrate_same : forall (q : quad) vars (f : func E) flat, quad_ok q -> quad_R q vars -> all_fourier q -> rules_match (q_nodes q) (q_weights q) ->
  incl (free_vars (f_sym (q_factor q))) (p_dirs (q_pos q)) -> f_dirs f = p_dirs (q_pos q) -> incl (free_vars (f_sym f)) (p_dirs (q_pos q)) -> add_args (f_sym f) <> [] ->
  (one_term add_args (f_sym (q_factor q)) -> whole true q f flat = integrate_fun q f flat) /\ (~ one_term add_args (f_sym (q_factor q)) -> whole true q f flat = Throw "ValueError") /\ whole false q f flat = integrate_fun q f flat.
Proof using NP OK V far_ok order_perm enum_perm.
  intros q vars f flat Hq HR Hfo Hw Hfv Hfd Hff Hf0. assert (Hdg : p_is_diag (q_pos q) = true) by apply Hq.
  destruct (integrate_function q vars f flat HR (proj1 (proj2 Hq)) Hfo Hw Hfd Hff) as (values & W1 & W2). split; [|split; [|unfold integrate_tensorized, tensorize_at; reflexivity]].
  - intros Hone. unfold one_term in Hone. destruct (add_args (f_sym (q_factor q))) as [|ft [|? ?]] eqn:Hft; try discriminate Hone.
    rewrite W2. rewrite (term_sum_values q vars (f_sym f) values HR W1). unfold integrate_tensorized, tensorize_at. rewrite Hdg. cbn [negb orb]. unfold fun_split. rewrite map_length, Hfd.
    assert (T := terms_integrate q vars flat ft (add_args (f_sym f)) 0 Hq HR Hfo Hfv Hft Hw (fun t a Ht Ha x Hx => Hff x (vars_add_args _ _ _ _ _ V _ t Ht x (vars_mul_args _ _ _ _ _ V _ a Ha x Hx)))).
    match goal with |- bind ?x _ = _ => replace x with (Ok (map (term_sum q vars) (add_args (f_sym f)))) by (symmetry; exact T) end. cbn [bind].
    assert (S : term_sum q vars (f_sym f) = rsum (map (term_sum q vars) (add_args (f_sym f)))).
    { unfold term_sum. rewrite rsum_swap. apply rsum_map_ext. intros p _.
      assert (Hs : eval (f_sym f) (env_at E q vars p) = rsum (map (fun t => eval t (env_at E q vars p)) (add_args (f_sym f)))) by (rewrite <- nsum_R; exact (ok_add_args _ _ _ _ _ _ _ _ OK (f_sym f) _)).
      rewrite Hs. rewrite <- rsum_map_mult. reflexivity. }
    rewrite S. destruct (add_args (f_sym f)) as [|t ts]; [contradiction|]. cbn [map]. etransitivity; [exact (for_in_sum _ _)|]. rewrite rsum_cons. reflexivity.
  - intros Hone. unfold integrate_tensorized, tensorize_at. rewrite Hdg. cbn [negb orb]. unfold fun_split. rewrite map_length.
    destruct (add_args (f_sym f)) as [|t ts] eqn:Et; [contradiction|]. cbn [length seq map combine mapM].
    pose proof HR as ((R1 & R2 & R3 & R4 & R5 & R6) & R7 & R8 & R9).
    destruct (split_term_ok fnum_R L E eval e_mul e_1 add_args mul_args free_vars OK (f_dirs f) t) as ((A1 & A2 & _) & _); [rewrite Hfd; exact R6| |].
    { intros a Ha x Hx. rewrite Hfd. apply Hff. apply (vars_add_args _ _ _ _ _ V _ t); [rewrite Et; left; reflexivity|]. apply (vars_mul_args _ _ _ _ _ V _ a Ha). exact Hx. }
    destruct (const_split fnum_R L E eval _ A1 A2) as (c & C1 & _). unfold tens_term at 1. rewrite C1. cbn [bind]. unfold fun_split.
    unfold one_term in Hone. destruct (add_args (f_sym (q_factor q))) as [|x [|y l]]; [reflexivity|cbn [length] in Hone; lia|reflexivity].
Qed.
End Facts.
