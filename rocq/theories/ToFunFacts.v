(** Facts about Series.to_function, C59. *)
From Coq Require Import String List Bool Arith ZArith Reals Lra Lia Sorted.
From Verif Require Import Base Lists IndexModel Num Fnum LinModel LinSpec LinBase Facts2 Facts6 Facts7 CalcModel CalcSpec CalcReal CalcHermite PyBase PosModel PosSpec PosFacts SeriesModel SeriesSpec SplitModel SplitSpec MulModel PyQuadModel PyQuadSpec PyQuadFacts PyQuadFacts2 ToFunModel ToFunSpec.
Import ListNotations.
Local Open Scope string_scope. Local Open Scope list_scope. Local Open Scope nat_scope. Local Open Scope R_scope.

Section ToFun.
Variable E : Type.
Variable eval : E -> (nat -> R) -> R.
Variable e_mul e_add : E -> E -> E.
Variable e_num : R -> E.
Variable e_var : nat -> E.
Variable free_vars : E -> list nat.
Hypothesis AR : sympy_arith eval e_mul e_add e_num e_var free_vars.
Variable dirs : list nat.
Hypothesis Hinc : increasing dirs.

Notation finit := (function_init E free_vars).
Definition stands (g : func E) (h : (nat -> R) -> R) : Prop := f_dirs g = dirs /\ incl (free_vars (f_sym g)) dirs /\ forall env, eval (f_sym g) env = h env.

Lemma finit_ok : forall e h, incl (free_vars e) dirs -> (forall env, eval e env = h env) -> exists g, finit e dirs = Ok g /\ stands g h.
Proof.
  intros e h H1 H2. unfold function_init. rewrite py_sorted_id by (apply increasing_sorted; exact Hinc). rewrite (proj2 (nats_eqb_eq dirs dirs) eq_refl). cbn [require bind].
  replace (subset (free_vars e) dirs) with true by (symmetry; apply forallb_forall; intros x Hx; apply py_in_iff, H1, Hx). cbn [require bind]. eexists. split; [reflexivity|]. split; [reflexivity|]. split; [exact H1|exact H2].
Qed.
Lemma fmul_ok : forall f g h k, stands f h -> stands g k -> exists r, fun_op E free_vars e_mul f g = Ok r /\ stands r (fun env => h env * k env).
Proof.
  intros f g h k (F1 & F2 & F3) (G1 & G2 & G3). unfold fun_op. rewrite F1, G1, (proj2 (nats_eqb_eq dirs dirs) eq_refl). cbn [require bind]. apply finit_ok.
  - intros x Hx. apply (ar_mul_vars _ _ _ _ _ _ AR) in Hx. apply in_app_or in Hx as [Hx|Hx]; auto.
  - intros env. rewrite (ar_mul _ _ _ _ _ _ AR), F3, G3. reflexivity.
Qed.
Lemma fadd_ok : forall f g h k, stands f h -> stands g k -> exists r, fun_op E free_vars e_add f g = Ok r /\ stands r (fun env => h env + k env).
Proof.
  intros f g h k (F1 & F2 & F3) (G1 & G2 & G3). unfold fun_op. rewrite F1, G1, (proj2 (nats_eqb_eq dirs dirs) eq_refl). cbn [require bind]. apply finit_ok.
  - intros x Hx. apply (ar_add_vars _ _ _ _ _ _ AR) in Hx. apply in_app_or in Hx as [Hx|Hx]; auto.
  - intros env. rewrite (ar_add _ _ _ _ _ _ AR), F3, G3. reflexivity.
Qed.
Lemma fnum_ok : forall x, exists g, finit (e_num x) dirs = Ok g /\ stands g (fun _ => x).
Proof. intros x. apply finit_ok; [rewrite (ar_num_vars _ _ _ _ _ _ AR); apply incl_nil_l|intros env; apply (ar_num _ _ _ _ _ _ AR)]. Qed.
Lemma fscale_ok : forall f h x, stands f h -> exists r, fun_scale fnum_R E e_mul e_num free_vars f x = Ok r /\ stands r (fun env => h env * x).
Proof.
  intros f h x Hf. unfold fun_scale. rewrite (proj1 Hf). destruct (fnum_ok x) as (g & G1 & G2). cbn [carrier fn fnum_R num_R] in *. rewrite G1. cbn [bind]. apply fmul_ok; assumption.
Qed.
Lemma stands_ext : forall g h k, (forall env, h env = k env) -> stands g h -> stands g k.
Proof. intros g h k H (G1 & G2 & G3). split; [exact G1|]. split; [exact G2|]. intros env. rewrite G3. apply H. Qed.

(** The list of the first Hermite polynomials of a variable. *)
Definition table (hs : list (func E)) (n : nat) (y : (nat -> R) -> R) : Prop := length hs = n /\ forall k g, nth_error hs k = Some g -> stands g (fun env => hermite k (y env)).

Lemma table_step : forall y j hs, (1 <= j)%nat -> table hs (S j) y -> exists c,
  (h <- py_get hs (length hs - 1) ;; x <- py_get hs 1 ;; h' <- py_get hs (length hs - 2) ;;
   a <- fun_op E free_vars e_mul h x ;; a <- fun_scale fnum_R E e_mul e_num free_vars a (tf_rec_a fnum_R j) ;; b <- fun_scale fnum_R E e_mul e_num free_vars h' (tf_rec_b fnum_R j) ;;
   c <- fun_op E free_vars e_add a b ;; Ok (hs ++ [c])) = Ok (hs ++ [c]) /\ table (hs ++ [c]) (S (S j)) y.
Proof.
  intros y j hs Hj [Hl Ht]. assert (G : forall k, (k < S j)%nat -> exists g, nth_error hs k = Some g). { intros k Hk. destruct (nth_error hs k) as [g|] eqn:Eg; [eauto|]. apply nth_error_None in Eg. lia. }
  destruct (G j ltac:(lia)) as (h & Eh). destruct (G 1%nat ltac:(lia)) as (x & Ex). destruct (G (j - 1)%nat ltac:(lia)) as (h' & Eh').
  rewrite Hl. replace (S j - 1)%nat with j by lia. replace (S j - 2)%nat with (j - 1)%nat by lia.
  rewrite (py_get_ok _ _ _ _ Eh), (py_get_ok _ _ _ _ Ex), (py_get_ok _ _ _ _ Eh'). cbn [bind].
  destruct (fmul_ok _ _ _ _ (Ht _ _ Eh) (Ht _ _ Ex)) as (a & A1 & A2). rewrite A1. cbn [bind].
  destruct (fscale_ok _ _ (tf_rec_a fnum_R j) A2) as (a' & A3 & A4). rewrite A3. cbn [bind].
  destruct (fscale_ok _ _ (tf_rec_b fnum_R j) (Ht _ _ Eh')) as (b & B1 & B2). rewrite B1. cbn [bind].
  destruct (fadd_ok _ _ _ _ A4 B2) as (c & C1 & C2). rewrite C1. cbn [bind]. exists c. split; [reflexivity|]. split; [rewrite app_length; cbn [length]; lia|].
  intros k g Hk. destruct (Nat.lt_ge_cases k (S j)) as [Hlt|Hge]; [rewrite nth_error_app1 in Hk by lia; apply Ht, Hk|].
  rewrite nth_error_app2 in Hk by lia. destruct (k - length hs)%nat as [|k'] eqn:Ek; [|destruct k'; discriminate Hk]. injection Hk as <-. assert (k = S j) by lia. subst k.
  apply (stands_ext _ _ _) with (2 := C2). intros env. unfold tf_rec_a, tf_rec_b. cbn [nopp fn fnum_R num_R]. rewrite rec_a_R, rec_b_R, hermite_1. destruct j as [|j]; [lia|]. replace (S j - 1)%nat with j by lia. rewrite hermite_SS.
  assert (K := sqrt_INR_pos (S (S j)) ltac:(lia)). field. lra.
Qed.
Lemma table_loop : forall y n j hs, (1 <= j)%nat -> table hs (S j) y -> exists hs',
  for_in (fun j hs => h <- py_get hs (length hs - 1) ;; x <- py_get hs 1 ;; h' <- py_get hs (length hs - 2) ;;
   a <- fun_op E free_vars e_mul h x ;; a <- fun_scale fnum_R E e_mul e_num free_vars a (tf_rec_a fnum_R j) ;; b <- fun_scale fnum_R E e_mul e_num free_vars h' (tf_rec_b fnum_R j) ;;
   c <- fun_op E free_vars e_add a b ;; Ok (hs ++ [c])) (seq j n) hs = Ok hs' /\ table hs' (S j + n) y.
Proof.
  intros y. induction n as [|n IH]; intros j hs Hj Ht.
  - exists hs. split; [reflexivity|]. rewrite Nat.add_0_r. exact Ht.
  - cbn [seq for_in]. destruct (table_step y j hs Hj Ht) as (c & C1 & C2). rewrite C1. cbn [bind]. destruct (IH (S j) _ ltac:(lia) C2) as (hs' & H1 & H2). exists hs'. split; [exact H1|]. replace (S j + S n)%nat with (S (S j) + n)%nat by lia. exact H2.
Qed.

Variable pos : position fnum_R.
Variable vs : list R.
Hypothesis Hpos : gaussian pos vs.
Hypothesis Hdirs : p_dirs pos = dirs.
Definition coord (i : nat) (env : nat -> R) : R := sqrt (nth i vs 0) * (env (nth i dirs 0%nat) - nth i (p_mean pos) 0).

Lemma hermite_dir_ok : forall degree i d, nth_error dirs i = Some d -> (d < 5)%nat -> exists hs,
  hermite_dir fnum_R E e_mul e_add e_num e_var free_vars pos degree i d = Ok hs /\ table hs (S (max 1 degree)) (coord i).
Proof.
  intros degree i d Hd H5. destruct Hpos as (P1 & P2 & P3 & P4 & P5 & P6). rewrite Hdirs in P3, P6. assert (Hi : (i < length dirs)%nat) by (apply nth_error_Some; rewrite Hd; discriminate).
  unfold hermite_dir. rewrite Hdirs, P1. replace (d <? 5) with true by (symmetry; apply Nat.ltb_lt; exact H5). cbn [require bind].
  destruct (fnum_ok 1) as (h0 & H0 & S0). change (@n1 (fn fnum_R)) with 1%R. rewrite H0. cbn [bind].
  assert (Hm : nth_error (p_mean pos) i = Some (nth i (p_mean pos) 0)) by (apply nth_error_nth'; lia).
  assert (Em := py_get_ok _ _ _ _ Hm).
  match goal with |- context [py_get (p_mean pos) i] => replace (py_get (p_mean pos) i) with (@Ok R (nth i (p_mean pos) 0)) by (symmetry; exact Em) end. cbn [bind].
  assert (Er := py_get_ok _ _ _ _ (diag_row vs i ltac:(lia))).
  match goal with |- context [py_get (diag_mat ?N vs) i] => replace (py_get (diag_mat N vs) i) with (@Ok (list R) (map (fun j => if (i =? j)%nat then nth i vs 0 else 0) (seq 0 (length vs)))) by (symmetry; exact Er) end. cbn [bind].
  assert (Es : @py_get R (map (fun j => if (i =? j)%nat then nth i vs 0 else 0) (seq 0 (length vs))) i = Ok (nth i vs 0)).
  { apply py_get_ok. rewrite nth_error_map_seq by lia. cbn [Nat.add]. rewrite Nat.eqb_refl. reflexivity. }
  match goal with |- context [@py_get ?T (map ?f (seq 0 (length vs))) i] => change (@py_get T (map f (seq 0 (length vs))) i) with (@py_get R (map (fun j => if (i =? j)%nat then nth i vs 0 else 0) (seq 0 (length vs))) i) end. rewrite Es. cbn [bind].
  destruct (finit_ok (e_mul (e_num (sqrt (nth i vs 0))) (e_add (e_var d) (e_num (- nth i (p_mean pos) 0)))) (coord i)) as (h1 & H1 & S1).
  - intros x Hx. apply (ar_mul_vars _ _ _ _ _ _ AR) in Hx. rewrite (ar_num_vars _ _ _ _ _ _ AR) in Hx. cbn [app] in Hx. apply (ar_add_vars _ _ _ _ _ _ AR) in Hx. rewrite (ar_num_vars _ _ _ _ _ _ AR), app_nil_r in Hx.
    apply (ar_var_vars _ _ _ _ _ _ AR) in Hx. destruct Hx as [<-|[]]. exact (nth_error_In _ _ Hd).
  - intros env. rewrite (ar_mul _ _ _ _ _ _ AR), (ar_add _ _ _ _ _ _ AR), !(ar_num _ _ _ _ _ _ AR), (ar_var _ _ _ _ _ _ AR). unfold coord. rewrite (nth_error_nth _ _ _ Hd). ring.
  - match goal with |- context [finit ?e dirs] => replace (finit e dirs) with (Ok h1) by (symmetry; exact H1) end. cbn [bind].
    destruct (table_loop (coord i) (degree - 1) 1 [h0; h1]) as (hs & L1 & L2).
    + lia.
    + split; [reflexivity|]. intros [|[|k]] g Hk; [| |destruct k; discriminate Hk]; injection Hk as <-.
      * apply (stands_ext _ _ _) with (2 := S0). intros env. symmetry. apply hermite_0.
      * apply (stands_ext _ _ _) with (2 := S1). intros env. symmetry. apply hermite_1.
    + exists hs. split; [exact L1|]. replace (S (max 1 degree)) with (2 + (degree - 1))%nat by lia. exact L2.
Qed.

Lemma tables_ok : forall degree, Forall (fun d => d < 5)%nat dirs -> exists tables,
  mapM (fun '(i, d) => hermite_dir fnum_R E e_mul e_add e_num e_var free_vars pos degree i d) (combine (seq 0 (length dirs)) dirs) = Ok tables /\
  length tables = length dirs /\ forall i hs, nth_error tables i = Some hs -> table hs (S (max 1 degree)) (coord i).
Proof.
  intros degree H5. assert (G : forall l k, (forall i d, nth_error l i = Some d -> nth_error dirs (k + i) = Some d) -> exists tables,
    mapM (fun '(i, d) => hermite_dir fnum_R E e_mul e_add e_num e_var free_vars pos degree i d) (combine (seq k (length l)) l) = Ok tables /\ length tables = length l /\
    forall i hs, nth_error tables i = Some hs -> table hs (S (max 1 degree)) (coord (k + i))).
  { induction l as [|d l IH]; intros k Hk; [exists []; split; [reflexivity|]; split; [reflexivity|]; intros [|i] hs Hi; discriminate Hi|]. cbn [length seq combine mapM].
    assert (Hd : nth_error dirs k = Some d) by (rewrite <- (Nat.add_0_r k); apply Hk; reflexivity). assert (D5 : (d < 5)%nat) by (rewrite Forall_forall in H5; apply H5, (nth_error_In _ _ Hd)).
    destruct (hermite_dir_ok degree k d Hd D5) as (hs & H1 & H2). rewrite H1. cbn [bind]. destruct (IH (S k)) as (ts & T1 & T2 & T3).
    - intros i d' Hi. replace (S k + i)%nat with (k + S i)%nat by lia. apply Hk. exact Hi.
    - rewrite T1. cbn [bind]. exists (hs :: ts). split; [reflexivity|]. split; [cbn [length]; lia|]. intros [|i] hs' Hi; [injection Hi as <-; rewrite Nat.add_0_r; exact H2|].
      replace (k + S i)%nat with (S k + i)%nat by lia. apply T3. exact Hi. }
  apply (G dirs 0%nat). intros i d Hi. exact Hi.
Qed.

Lemma product_loop : forall degree tables m, length tables = length dirs -> (forall i hs, nth_error tables i = Some hs -> table hs (S (max 1 degree)) (coord i)) ->
  length m = length dirs -> (forall k, nth k m 0 <= max 1 degree)%nat ->
  forall n i g h, (i + n <= length dirs)%nat -> stands g h -> exists r,
  for_in (fun i r => hs <- py_get tables i ;; k <- py_get m i ;; h <- py_get hs k ;; fun_op E free_vars e_mul r h) (seq i n) g = Ok r /\
  stands r (fun env => h env * rprod (map (fun j => hermite (nth j m 0%nat) (coord j env)) (seq i n))).
Proof.
  intros degree tables m Ht HT Hm Hk. induction n as [|n IH]; intros i g h Hi Hg.
  - exists g. split; [reflexivity|]. apply (stands_ext _ _ _) with (2 := Hg). intros env. cbn [seq map rprod fold_right]. ring.
  - cbn [seq for_in]. destruct (nth_error tables i) as [hs|] eqn:Eh; [|apply nth_error_None in Eh; lia].
    rewrite (py_get_ok _ _ _ _ Eh). cbn [bind]. rewrite (py_get_ok _ _ _ _ (nth_error_nth' m 0%nat (n := i) ltac:(lia))). cbn [bind]. destruct (HT i hs Eh) as [L1 L2].
    destruct (nth_error hs (nth i m 0%nat)) as [h'|] eqn:E'; [|apply nth_error_None in E'; specialize (Hk i); lia]. rewrite (py_get_ok _ _ _ _ E'). cbn [bind].
    destruct (fmul_ok _ _ _ _ Hg (L2 _ _ E')) as (r & R1 & R2). rewrite R1. cbn [bind]. destruct (IH (S i) r _ ltac:(lia) R2) as (r' & R3 & R4). exists r'. split; [exact R3|].
    apply (stands_ext _ _ _) with (2 := R4). intros env. cbn [map]. rewrite rprod_cons. ring.
Qed.

Lemma sum_loop : forall degree tables (c : list R), length tables = length dirs -> (forall i hs, nth_error tables i = Some hs -> table hs (S (max 1 degree)) (coord i)) ->
  forall l i g h, (forall m, In m l -> length m = length dirs /\ forall k, nth k m 0 <= max 1 degree)%nat -> (i + length l <= length c)%nat -> stands g h -> exists r,
  for_in (fun '(im, m) r => c <- py_get c im ;; result_m <- finit (e_num c) dirs ;;
      result_m <- for_in (fun i r => hs <- py_get tables i ;; k <- py_get m i ;; h <- py_get hs k ;; fun_op E free_vars e_mul r h) (seq 0 (length dirs)) result_m ;;
      fun_op E free_vars e_add r result_m) (combine (seq i (length l)) l) g = Ok r /\
  stands r (fun env => h env + rsum (map (fun '(j, m) => nth j c 0 * rprod (map (fun k => hermite (nth k m 0%nat) (coord k env)) (seq 0 (length dirs)))) (combine (seq i (length l)) l))).
Proof.
  intros degree tables c Ht HT. induction l as [|m l IH]; intros i g h Hl Hi Hg.
  - exists g. split; [reflexivity|]. apply (stands_ext _ _ _) with (2 := Hg). intros env. cbn [length seq combine map rsum fold_right]. ring.
  - cbn [length seq combine for_in]. cbn [length] in Hi. rewrite (py_get_ok _ _ _ _ (nth_error_nth' c 0 (n := i) ltac:(lia))). cbn [bind]. destruct (fnum_ok (nth i c 0)) as (g0 & G1 & G2). rewrite G1. cbn [bind].
    destruct (Hl m (or_introl eq_refl)) as [M1 M2]. destruct (product_loop degree tables m Ht HT M1 M2 (length dirs) 0 g0 _ ltac:(lia) G2) as (p & P1 & P2). rewrite P1. cbn [bind].
    destruct (fadd_ok _ _ _ _ Hg P2) as (r & R1 & R2). rewrite R1. cbn [bind]. destruct (IH (S i) r _ (fun m' H => Hl m' (or_intror H)) ltac:(lia) R2) as (r' & R3 & R4). exists r'. split; [exact R3|].
    apply (stands_ext _ _ _) with (2 := R4). intros env. cbn [map]. rewrite rsum_cons. ring.
Qed.
End ToFun.

Lemma phi_hermite : forall n m (x : list R), length m = n -> length x = n -> phi (repeat 0%nat n) m x = rprod (map (fun k => hermite (nth k m 0%nat) (nth k x 0)) (seq 0 n)).
Proof.
  induction n as [|n IH]; intros m x Hm Hx; [reflexivity|]. destruct m as [|a m]; [discriminate Hm|]. destruct x as [|t x]; [discriminate Hx|]. injection Hm as Hm. injection Hx as Hx.
  unfold phi. cbn [repeat combine map seq]. rewrite !rprod_cons. cbn [nth]. f_equal. rewrite <- seq_shift, map_map. apply IH; assumption.
Qed.
Lemma enum_sum : forall (c : list R) (h : list nat -> R) l, NoDup l -> length c = length l ->
  rsum (map (fun '(j, m) => nth j c 0 * h m) (combine (seq 0 (length l)) l)) = rsum (map (fun m => value 0 l c m * h m) l).
Proof.
  intros c h l Hn Hl. f_equal. apply nth_error_ext. intros i. rewrite !nth_error_map, nth_error_comb. destruct (nth_error l i) as [m|] eqn:Em.
  - assert (Hi : (i < length l)%nat) by (apply nth_error_Some; rewrite Em; discriminate). replace (nth_error (seq 0 (length l)) i) with (Some i) by (symmetry; rewrite <- (map_id (seq 0 (length l))); exact (nth_error_map_seq _ (fun j => j) _ _ Hi)). cbn [option_map]. rewrite (value_nth _ _ _ _ i m Hn Em Hl). reflexivity.
  - destruct (nth_error (seq 0 (length l)) i); reflexivity.
Qed.
Lemma multiplied_nth : forall (mean vs x : list R) k, length vs = length mean -> length x = length mean -> (k < length mean)%nat -> nth k (multiplied mean vs x) 0 = sqrt (nth k vs 0) * (nth k x 0 - nth k mean 0).
Proof.
  induction mean as [|m mean IH]; intros vs x k Hv Hx Hk; [cbn in Hk; lia|]. destruct vs as [|v vs]; [discriminate Hv|]. destruct x as [|t x]; [discriminate Hx|]. destruct k as [|k]; [reflexivity|].
  cbn [length] in *. exact (IH vs x k ltac:(lia) ltac:(lia) ltac:(lia)).
Qed.
Lemma multiplied_length : forall (mean vs x : list R), length vs = length mean -> length x = length mean -> length (multiplied mean vs x) = length mean.
Proof. intros mean vs x Hv Hx. unfold multiplied. rewrite map_length, !combine_length. lia. Qed.

Theorem to_function_values : forall E (eval : E -> (nat -> R) -> R) e_mul e_add e_num e_var free_vars, sympy_arith eval e_mul e_add e_num e_var free_vars ->
  forall (f : SeriesModel.series fnum_R E) vs, gaussian (s_pos f) vs -> p_is_diag (s_pos f) = true -> increasing (p_dirs (s_pos f)) -> Forall (fun d => d < 5)%nat (p_dirs (s_pos f)) ->
  usable (s_set f) (length vs) (s_degree f) -> ((s_set f = Cross \/ s_set f = CrossNc) -> (1 <= s_degree f)%nat) -> vec_for (N := fnum_R) (s_set f) (length vs) (s_degree f) (s_coeffs f) ->
  exists g, to_function fnum_R E e_mul e_add e_num e_var free_vars f = Ok g /\ f_dirs g = p_dirs (s_pos f) /\
    forall x env, length x = length vs -> at_point (p_dirs (s_pos f)) x env ->
      eval (f_sym g) env = CalcSpec.series (s_set f) (s_degree f) (repeat 0%nat (length vs)) (s_coeffs f) (multiplied (p_mean (s_pos f)) vs x).
Proof.
  intros E eval e_mul e_add e_num e_var free_vars AR f vs Hg Hd Hi H5 Hu Hs Hv. destruct f as [coeffs pos s degree factor]. cbn [s_pos s_set s_degree s_coeffs] in *.
  destruct (tables_ok E eval e_mul e_add e_num e_var free_vars AR (p_dirs pos) Hi pos vs Hg eq_refl degree H5) as (tables & T1 & T2 & T3).
  unfold to_function. cbn [s_pos s_set s_degree s_coeffs]. rewrite Hd. cbn [require bind].
  match goal with |- context [mapM ?a ?b] => replace (mapM a b) with (@Ok (list (list (func E))) tables) by (symmetry; exact T1) end. cbn [bind].
  destruct (fnum_ok E eval e_mul e_add e_num e_var free_vars AR (p_dirs pos) Hi 0) as (g0 & G1 & G2).
  match goal with |- context [function_init E free_vars ?e (p_dirs pos)] => replace (function_init E free_vars e (p_dirs pos)) with (@Ok (func E) g0) by (symmetry; exact G1) end. cbn [bind].
  destruct Hg as (P1 & P2 & P3 & P4 & P5 & P6). 
  assert (Ed : p_dim pos = length (p_dirs pos)) by (etransitivity; [exact P4|symmetry; exact P3]). rewrite !Ed.
  assert (H1 : (1 <= length vs)%nat) by apply Hu. replace (length (p_dirs pos) =? 0)%nat with false by (symmetry; apply Nat.eqb_neq; lia).
  assert (Hfit := usable_fits _ _ _ Hu). destruct Hfit as (_ & Hset & _). 
  rewrite P3, (points_list _ _ _ Hu). cbn [bind].
  unfold vec_for in Hv.
  destruct (sum_loop E eval e_mul e_add e_num e_var free_vars AR (p_dirs pos) Hi pos vs degree tables coeffs T2 T3 (points s (length vs) degree) 0 g0 (fun _ => 0)) as (r & R1 & R2 & R3 & R4).
  - intros m Hm. apply (points_In_ok s _ degree m H1 Hset) in Hm. destruct Hm as [M1 M2]. rewrite P3. split; [exact M1|]. intros k. pose proof (in_set_bound s degree m k Hs M2). lia.
  - cbn [Nat.add]. apply Nat.eq_le_incl. symmetry. exact Hv.
  - exact G2.
  - exists r. split; [rewrite P3 in R1; exact R1|]. split; [exact R2|]. intros x env Hx Hp. rewrite R4. rewrite Rplus_0_l.
    rewrite (enum_sum coeffs (fun m => rprod (map (fun k => hermite (nth k m 0%nat) (coord (p_dirs pos) pos vs k env)) (seq 0 (length (p_dirs pos)))))) by (first [exact Hv|apply points_NoDup_ok; assumption]).
    unfold CalcSpec.series, coef. rewrite repeat_length. apply rsum_map_ext. intros m Hm. f_equal.
    apply (points_In_ok s _ degree m H1 Hset) in Hm. destruct Hm as [M1 M2]. assert (P4' : @length R (p_mean pos) = length vs) by exact P4. rewrite phi_hermite by (first [exact M1|etransitivity; [apply multiplied_length|]; lia]). rewrite P3. f_equal. apply map_ext_in. intros k Hk. apply in_seq in Hk.
    etransitivity; [|apply f_equal; symmetry; apply multiplied_nth; lia]. unfold coord. f_equal. f_equal. f_equal. assert (Hn := nth_error_nth' (p_dirs pos) 0%nat (n := k) ltac:(lia)). apply Hp in Hn. rewrite (nth_error_nth _ _ _ Hn). reflexivity.
Qed.

Lemma unit_variances : forall (mean vs x : list R), Forall (fun v => v = 1) vs -> standardised mean vs x = multiplied mean vs x.
Proof.
  unfold standardised, multiplied. induction mean as [|m mean IH]; intros vs x Hv; [reflexivity|]. destruct vs as [|v vs]; [reflexivity|]. destruct x as [|t x]; [reflexivity|]. inversion Hv as [|? ? H1 H2]; subst.
  cbn [combine map]. f_equal; [rewrite sqrt_1; field|apply IH; exact H2].
Qed.
Lemma grid_point_length : forall E (q : quad fnum_R E) vars p, quad_R q vars -> In p (grid (q_nodes q)) -> length (grid_point q vars p) = length vars.
Proof.
  intros E q vars p ((P1 & P2 & P3 & P4 & P5 & P6) & Q1 & Q2 & Q3) Hp. unfold grid_point, located. rewrite map_length, !combine_length.
  assert (length (at_pos (q_nodes q) p) = length vars) by (rewrite at_pos_length; [exact Q1|apply grid_length_in; exact Hp]). assert (P4' : @length R (p_mean (q_pos q)) = length vars) by exact P4.
  transitivity (Nat.min (length vars) (Nat.min (length vars) (length vars))); [f_equal; [exact P4'|f_equal; exact H]|lia].
Qed.
Theorem to_function_eval : forall E (free_vars : E -> list nat) (eval : E -> (nat -> R) -> R) cov_factor la_inv far8 junk e_mul e_add e_num e_var, numpy_ok cov_factor la_inv far8 -> reads_free eval free_vars ->
  sympy_arith eval e_mul e_add e_num e_var free_vars ->
  forall (q : quad fnum_R E) vars (f : SeriesModel.series fnum_R E) vs, quad_R q vars -> gaussian (s_pos f) vs -> p_dirs (s_pos f) = p_dirs (q_pos q) ->
  f_dirs (s_factor f) = p_dirs (q_pos q) -> incl (free_vars (f_sym (s_factor f))) (f_dirs (s_factor f)) ->
  p_is_diag (s_pos f) = true -> increasing (p_dirs (s_pos f)) -> Forall (fun d => d < 5)%nat (p_dirs (s_pos f)) ->
  usable (s_set f) (length vs) (s_degree f) -> (1 <= s_degree f)%nat -> vec_for (N := fnum_R) (s_set f) (length vs) (s_degree f) (s_coeffs f) ->
  Forall (fun t => t <> "fourier") (p_types (q_pos q)) -> Forall (fun v => v = 1) vs -> (forall env, eval (f_sym (s_factor f)) env = 1) ->
  exists values g, quad_eval fnum_R E free_vars eval cov_factor la_inv far8 junk q f = Ok values /\ to_function fnum_R E e_mul e_add e_num e_var free_vars f = Ok g /\ grid_values q vars values (eval (f_sym g)).
Proof.
  intros E free_vars eval cov_factor la_inv far8 junk e_mul e_add e_num e_var NP RF AR q vars f vs Hq Hg Hd Hf Hi Hdi Hin H5 Hu H1 Hv Ht Hvs Hfac.
  assert (Ek : kinds (p_types (q_pos q)) = repeat 0%nat (length vs)).
  { assert (El : length (p_types (q_pos q)) = length vs). { destruct Hq as ((_ & _ & Q1 & _ & Q2 & _) & _). destruct Hg as (_ & _ & G1 & _). rewrite Q2, <- Q1, <- Hd. exact G1. }
    rewrite <- El. clear - Ht. induction Ht as [|t l H1 H2 IH]; [reflexivity|]. cbn [kinds map length repeat]. f_equal; [|exact IH]. destruct (String.eqb_spec t "fourier"); [contradiction|reflexivity]. }
  destruct (eval_values E free_vars eval cov_factor la_inv far8 junk NP RF q vars f vs Hq Hg Hd Hf Hi) as (values & E1 & E2 & E3).
  - apply usable_fits, Hu.
  - rewrite Ek. split; [|intros _; exact H1]. apply Forall_forall. intros x Hx. apply repeat_spec in Hx. left. split; [exact Hx|exact H1].
  - exact Hv.
  - destruct (to_function_values E eval e_mul e_add e_num e_var free_vars AR f vs Hg Hdi Hin H5 Hu (fun _ => H1) Hv) as (g & G1 & G2 & G3).
    exists values, g. split; [exact E1|]. split; [exact G1|]. split; [exact E2|]. intros k p env Hk Hp. etransitivity; [exact (E3 k p env Hk Hp)|]. rewrite Hfac, Rmult_1_r, Ek, (unit_variances _ _ _ Hvs). f_equal. symmetry. apply G3.
    + rewrite (grid_point_length E q vars p Hq (nth_error_In _ _ Hk)). destruct Hq as ((_ & _ & Q1 & _) & _). destruct Hg as (_ & _ & Q2 & _). rewrite <- Q1, <- Q2, Hd. reflexivity.
    + rewrite Hd. exact Hp.
Qed.

Lemma r_arith : sympy_arith r_eval RMul RAdd RNum RVar r_free.
Proof. split; intros; try reflexivity; cbn [r_free]; apply incl_refl. Qed.

Lemma to_function_wrong : ~ forall (q : quad fnum_R rexpr) vars (f : SeriesModel.series fnum_R rexpr) values g, quad_R q vars -> s_pos f = q_pos q -> s_factor f = Fn (RNum 1) (p_dirs (q_pos q)) ->
  p_is_diag (s_pos f) = true -> increasing (p_dirs (s_pos f)) -> Forall (fun d => d < 5)%nat (p_dirs (s_pos f)) ->
  usable (s_set f) (length vars) (s_degree f) -> (1 <= s_degree f)%nat -> vec_for (N := fnum_R) (s_set f) (length vars) (s_degree f) (s_coeffs f) -> Forall (fun t => t = "hermite") (p_types (q_pos q)) ->
  quad_eval fnum_R rexpr r_free r_eval r_cov_factor r_la_inv r_far 0 q f = Ok values -> to_function fnum_R rexpr RMul RAdd RNum RVar r_free f = Ok g -> grid_values q vars values (r_eval (f_sym g)).
Proof.
  intros H. set (p := Pos (N := fnum_R) [0]%nat [0] (diag_mat fnum_R [4]) ["hermite"]%string true). set (q := Qd (F := fnum_R) (E := rexpr) [[1]] [[1]] p (Fn (RNum 1) [0]%nat)).
  set (f := Ser (N := fnum_R) [0; 1] p Triangle 1 (Fn (RNum 1) [0]%nat)).
  assert (G : gaussian p [4]) by (split; [reflexivity|]; split; [repeat constructor; lra|]; repeat split; repeat constructor; cbn; intuition discriminate).
  assert (Hq : quad_R q [4]) by (split; [apply G|]; split; [reflexivity|]; split; [discriminate|unfold grid_fits; cbn; lia]).
  assert (F1 : flags_ok Triangle 1 [0]%nat) by (split; [repeat constructor|intros [K|K]; discriminate K]).
  assert (Hu : usable Triangle 1 1) by (apply usable_dim4; lia).
  assert (Hv : vec_for (N := fnum_R) Triangle 1 1 [0; 1]) by (vm_compute; reflexivity).
  assert (D5 : Forall (fun d => d < 5)%nat [0%nat]) by (repeat constructor).
  assert (I0 : increasing [0]%nat) by (repeat constructor).
  destruct (eval_values rexpr r_free r_eval r_cov_factor r_la_inv r_far 0 numpy_sample r_reads q [4] f [4] Hq G eq_refl eq_refl (incl_nil_l _) (usable_fits _ _ _ Hu) F1 Hv) as (values & E1 & _ & E2).
  assert (Hc : (s_set f = Cross \/ s_set f = CrossNc) -> (1 <= s_degree f)%nat) by (intros _; cbn; lia).
  destruct (to_function_values rexpr r_eval RMul RAdd RNum RVar r_free r_arith f [4] G eq_refl I0 D5 Hu Hc Hv) as (g & G1 & G2 & G3).
  assert (Hh : Forall (fun t => t = "hermite") (p_types (q_pos q))) by (repeat constructor).
  destruct (H q [4] f values g Hq eq_refl eq_refl eq_refl I0 D5 Hu (le_n 1) Hv Hh E1 G1) as [_ K].
  assert (S4 : sqrt 4 = 2) by (replace 4 with (2 * 2) by lra; apply sqrt_square; lra).
  assert (A : at_point (p_dirs (q_pos q)) (grid_point q [4] [0]%nat) (fun _ => 2)). { intros [|[|i]] d Hd; cbn in Hd; try discriminate Hd. cbn -[sqrt]. f_equal. rewrite S4. ring. }
  specialize (K 0%nat [0]%nat (fun _ => 2) eq_refl A). specialize (E2 0%nat [0]%nat (fun _ => 2) eq_refl A). assert (K' := eq_trans (eq_sym E2) K). clear K. injection K' as K.
  rewrite (G3 [2] (fun _ => 2) eq_refl) in K by (intros [|[|i]] d Hd; cbn in Hd; try discriminate Hd; reflexivity).
  unfold CalcSpec.series, coef in K. cbn [s_set s_degree s_coeffs s_pos p_types p_mean f q p q_pos kinds map length repeat String.eqb Ascii.eqb Bool.eqb f_sym s_factor r_eval] in K. change (points Triangle 1 1) with [[0]; [1]]%nat in K.
  unfold rsum, phi, rprod, basis, standardised, multiplied, grid_point, located in K. cbn -[hermite sqrt Rmult Rplus Rdiv Rminus] in K. rewrite !hermite_0, !hermite_1, S4 in K. lra.
Qed.
