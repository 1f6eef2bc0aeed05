(** Composite quadratures. *)
From Coq Require Import String List Bool Arith Reals Lia Lra.
From Verif Require Import Base PyBase IndexModel Num Fnum LinSpec LinBase Facts2 CalcModel CalcSpec CalcReal PosModel PosSpec PosFacts SeriesModel SeriesSpec SeriesFacts SeriesFacts3 SeriesFacts4 PyQuadModel PyQuadSpec PyQuadFacts2
  OpQuadModel OpQuadSpec OpQuadFacts SplitModel SplitSpec PartModel PartSpec TensQuadModel TensQuadSpec TensQuadFacts QuadIntModel QuadIntSpec QuadIntFacts CompModel.
Import ListNotations.
Local Open Scope R_scope.

Section Comp.
Variable E : Type.
Variable e_1 : E.
Variable sym_eqb : E -> E -> bool.
Variable pos_eqb : position fnum_R -> position fnum_R -> bool.
Notation quad := (quad fnum_R E).
Notation comp_init := (comp_init fnum_R E pos_eqb).
Notation comp := (comp fnum_R E).

Lemma all_positions : forall (quads : list quad) p, for_in (fun q (_ : unit) => require (pos_eqb (q_pos q) p) "ValueError") quads tt =
  if forallb (fun q => pos_eqb (q_pos q) p) quads then Ok tt else Throw "ValueError"%string.
Proof. induction quads as [|q quads IH]; intros p; [reflexivity|]. cbn [for_in forallb]. destruct (pos_eqb (q_pos q) p); cbn [require bind andb]; [apply IH|reflexivity]. Qed.

Theorem init_spec : forall (quads : list quad) ws,
  (forall c, comp_init quads ws = Ok c <-> c = Comp quads ws (c_pos c) /\ length quads = length ws /\ exists q0 rest, quads = q0 :: rest /\ c_pos c = q_pos q0 /\ Forall (fun q => pos_eqb (q_pos q) (q_pos q0) = true) quads) /\
  ((forall c, comp_init quads ws <> Ok c) -> comp_init quads ws = Throw "ValueError"%string).
Proof.
  intros quads ws. unfold CompModel.comp_init. destruct quads as [|q0 rest].
  - cbn [length Nat.leb andb require bind]. split; [|reflexivity]. intros c. split; [discriminate|]. intros (_ & _ & q & r & H & _). discriminate H.
  - cbn [length Nat.leb andb]. change (match length ws with 0%nat => false | S m' => (length rest =? m')%nat end) with (S (length rest) =? length ws)%nat. destruct (Nat.eqb_spec (S (length rest)) (length ws)) as [Hl|Hl]; cbn [require bind py_get nth_error].
    + rewrite all_positions. destruct (forallb _ (q0 :: rest)) eqn:Hf; cbn [bind].
      * split; [|intros H; exfalso; eapply H; reflexivity]. intros c. split.
        -- intros H. injection H as <-. cbn [c_pos]. split; [reflexivity|]. split; [exact Hl|]. exists q0, rest. split; [reflexivity|]. split; [reflexivity|]. apply Forall_forall. rewrite forallb_forall in Hf. exact Hf.
        -- intros (-> & _ & q & r & H & Hp & _). injection H as <- <-. cbn [c_pos] in *. rewrite Hp. reflexivity.
      * split; [|reflexivity]. intros c. split; [discriminate|]. intros (_ & _ & q & r & H & _ & Hp). injection H as <- <-. rewrite Forall_forall, <- forallb_forall in Hp. rewrite Hp in Hf. discriminate Hf.
    + split; [|reflexivity]. intros c. split; [discriminate|]. intros (_ & H & _). contradiction.
Qed.
Lemma init_fields : forall quads ws c, comp_init quads ws = Ok c -> c_quads c = quads /\ c_weights c = ws /\ length quads = length ws /\ exists q0 rest, quads = q0 :: rest /\ c_pos c = q_pos q0 /\ Forall (fun q => pos_eqb (q_pos q) (q_pos q0) = true) quads.
Proof. intros quads ws c H. apply (proj1 (init_spec quads ws)) in H as (Hc & Hl & H). rewrite Hc. cbn [c_quads c_weights c_pos]. auto. Qed.

Lemma loop_plain : forall A B (method : quad -> res A) (acc : R -> A -> option B -> res B) (c : comp), length (c_quads c) = length (c_weights c) ->
  comp_loop fnum_R E method acc c = for_in (fun '(q, w) result => x <- method q ;; r <- acc w x result ;; Ok (Some r)) (combine (c_quads c) (c_weights c)) None.
Proof.
  intros A B method acc c. unfold comp_loop. generalize (@None B) as r0.
  assert (G : forall (quads : list quad) (ws pre : list R) (r0 : option B), length quads = length ws ->
    for_in (fun '(i, q) result => x <- method q ;; w <- py_get (pre ++ ws) i ;; r <- acc w x result ;; Ok (Some r)) (combine (seq (length pre) (length quads)) quads) r0 =
    for_in (fun '(q, w) result => x <- method q ;; r <- acc w x result ;; Ok (Some r)) (combine quads ws) r0).
  { induction quads as [|q quads IH]; intros [|w ws] pre r0 H; try discriminate H; [reflexivity|]. cbn [length seq combine for_in]. unfold py_get at 1. rewrite nth_error_app2, Nat.sub_diag by lia. cbn [nth_error bind].
    destruct (method q) as [x| | | |]; cbn [bind]; try reflexivity. destruct (acc w x r0) as [r| | | |]; cbn [bind]; try reflexivity.
    specialize (IH ws (pre ++ [w]) (Some r) ltac:(cbn in H; lia)). rewrite <- app_assoc in IH. cbn [app] in IH. rewrite app_length in IH. cbn [length] in IH. replace (length pre + 1)%nat with (S (length pre)) in IH by lia. exact IH. }
  intros r0 H. exact (G (c_quads c) (c_weights c) [] r0 H).
Qed.

Theorem integrate_sum : forall (method : quad -> res R) quads ws c, comp_init quads ws = Ok c ->
  comp_integrate fnum_R E method c = (xs <- mapM method quads ;; Ok (rsum (map (fun '(x, w) => x * w) (combine xs ws)))).
Proof.
  intros method quads ws c H. apply init_fields in H as (H1 & H2 & H3 & _). unfold comp_integrate. rewrite loop_plain by (rewrite H1, H2; exact H3). rewrite H1, H2.
  assert (G : forall (quads : list quad) (ws : list R) (o : option R), length quads = length ws ->
    (r <- for_in (fun '(q, w) result => x <- method q ;; r <- Ok (@nadd fnum_R (match result with Some y => y | None => @n0 fnum_R end) (@nmul fnum_R x w)) ;; Ok (Some r)) (combine quads ws) o ;; Ok (match r with Some y => y | None => @n0 fnum_R end)) =
    (xs <- mapM method quads ;; Ok (match o with Some y => y | None => 0 end + rsum (map (fun '(x, w) => x * w) (combine xs ws))))).
  { clear. induction quads as [|q quads IH]; intros [|w ws] o H; try discriminate H.
    - cbn. destruct o; cbn; f_equal; change (@n0 fnum_R) with 0; unfold rsum; cbn; ring.
    - cbn [combine for_in mapM]. destruct (method q) as [x| | | |]; cbn [bind]; try reflexivity. rewrite IH by (cbn in H; lia). destruct (mapM method quads) as [xs| | | |]; cbn [bind]; try reflexivity.
      f_equal. cbn [combine map]. rewrite rsum_cons. change (@nadd fnum_R) with Rplus. change (@nmul fnum_R) with Rmult. destruct o; match goal with |- @eq _ ?a ?b => change (@eq R a b) end; change (@n0 fnum_R) with 0; ring. }
  etransitivity; [exact (G quads ws None H3)|]. destruct (mapM method quads) as [xs| | | |]; cbn [bind]; try reflexivity. f_equal. match goal with |- @eq _ ?a ?b => change (@eq R a b) end. cbn iota. apply Rplus_0_l.
Qed.

Theorem transform_never : forall (method : quad -> res (series fnum_R E)) quads ws c, comp_init quads ws = Ok c ->
  (forall r, comp_transform fnum_R E e_1 sym_eqb pos_eqb method c <> Ok r) /\
  forall q0 rest f dim, quads = q0 :: rest -> method q0 = Ok f -> series_ok f dim -> comp_transform fnum_R E e_1 sym_eqb pos_eqb method c = Throw "TypeError"%string.
Proof.
  intros method quads ws c H. apply init_fields in H as (H1 & H2 & H3 & q0 & rest & -> & _). unfold comp_transform. rewrite loop_plain by (rewrite H1, H2; exact H3). rewrite H1, H2. destruct ws as [|w ws]; [discriminate H3|].
  cbn [combine for_in]. split.
  - intros r H. apply bind_ok in H as (o & H & _). apply bind_ok in H as (x & _ & H). apply bind_ok in H as (y & H & _). apply bind_ok in H as (z & _ & H). discriminate H.
  - intros q r f dim Hq Hm Hf. injection Hq as <- <-. rewrite Hm. cbn [bind].
    destruct (scale_spec fnum_R E e_1 w f dim Hf) as (h & Hh & _). rewrite Hh. reflexivity.
Qed.

(** Quad.varf summed over the quadratures *)
Section Varf.
Variables (s : iset) (dim degree : nat).
Definition is_form (p : position fnum_R) (fac : func E) (v : SeriesModel.varf fnum_R E) (g : list nat -> list nat -> R) : Prop :=
  varf_ok v dim /\ v_pos v = p /\ v_set v = s /\ v_factor v = fac /\ v_degree v = Degree.recovered s degree /\ (forall m, varf_index v m <-> index_of s dim degree m) /\
  forall r c, index_of s dim degree r -> index_of s dim degree c -> varf_at v r c = g r c.

Lemma form_scale : forall p fac v g w, is_form p fac v g -> exists u, varf_scale fnum_R E e_1 w v = Ok u /\ is_form p fac u (fun r c => g r c * w).
Proof.
  intros p fac v g w (V1 & V2 & V3 & V4 & V5 & V6 & V7). destruct (vscale_spec fnum_R E e_1 w v dim V1) as (u & U1 & U2 & U3 & U4 & U5 & U6 & U7 & U8).
  exists u. split; [exact U1|]. split; [exact U2|]. split; [rewrite U3; exact V2|]. split; [rewrite U4; exact V3|]. split; [rewrite U5; exact V4|]. split; [rewrite U6, V3, V5; apply recovered_idem|].
  split; [intros m; rewrite U7; apply V6|]. intros r c Hr Hc. etransitivity; [apply U8; apply V6; assumption|]. rewrite V7 by assumption. reflexivity.
Qed.
Lemma form_num : forall p fac v g, is_form p fac v g -> exists u, varf_add_num fnum_R E e_1 n0 v = Ok u /\ is_form p fac u g.
Proof.
  intros p fac v g (V1 & V2 & V3 & V4 & V5 & V6 & V7). unfold varf_add_num. destruct V1 as (V0 & V1).
  destruct (vrebuild fnum_R E e_1 (mat_plus fnum_R (v_mat v) 0) (v_pos v) (v_factor v) (v_set v) dim (v_degree v) V0 (mat_for_map _ _ _ (fun a => a + 0) _ V1)) as (u & U1 & U2 & U3 & U4 & U5 & U6 & U7 & U8).
  exists u. split; [exact U1|]. split; [exact U2|]. split; [rewrite U3; exact V2|]. split; [rewrite U4; exact V3|]. split; [rewrite U5; exact V4|]. split; [rewrite U6, V3, V5; apply recovered_idem|].
  assert (E0 : length (p_dirs (v_pos v)) = dim) by apply V0.
  split; [intros m; rewrite U7; rewrite <- V6; unfold varf_index; rewrite E0; reflexivity|]. intros r c Hr Hc. rewrite U8. etransitivity; [exact (entry_map (v_set v) dim (v_degree v) (fun a => a + 0) (v_mat v) r c (Rplus_0_r 0))|].
  cbn beta. rewrite Rplus_0_r. rewrite <- V7 by assumption. unfold varf_at. rewrite E0. reflexivity.
Qed.
Lemma form_add : forall p fac v g p' fac' w h, is_form p fac v g -> is_form p' fac' w h -> pos_eqb p p' = true -> f_dirs fac = f_dirs fac' -> sym_eqb (f_sym fac) (f_sym fac') = true ->
  exists u, varf_add fnum_R E sym_eqb e_1 pos_eqb v w = Ok u /\ is_form p fac u (fun r c => g r c + h r c).
Proof.
  intros p fac v g p' fac' w h (V1 & V2 & V3 & V4 & V5 & V6 & V7) (W1 & W2 & W3 & W4 & W5 & W6 & W7) Hp Hd Hs.
  destruct (vadd_full fnum_R E sym_eqb e_1 pos_eqb v w dim V1 W1) as (u & U1 & U2 & U3 & U4 & U5 & U6 & U7 & U8).
  - apply addable_iff. unfold compatible. rewrite V2, W2, V3, W3, V4, W4. auto.
  - rewrite V5, W5. reflexivity.
  - exists u. split; [exact U1|]. split; [exact U2|]. split; [rewrite U3; exact V2|]. split; [rewrite U4; exact V3|]. split; [rewrite U5; exact V4|]. split; [rewrite U6, V3, V5; apply recovered_idem|].
    split; [intros m; rewrite U7; apply V6|]. intros r c Hr Hc. rewrite U8 by (apply V6; assumption). rewrite V7, W7 by assumption. reflexivity.
Qed.

Notation step method := (fun '(q, w) (result : option (SeriesModel.varf fnum_R E)) => x <- method q ;;
   r <- (y <- varf_scale fnum_R E e_1 w x ;; match result with None => varf_add_num fnum_R E e_1 n0 y | Some r => varf_add fnum_R E sym_eqb e_1 pos_eqb r y end) ;; Ok (Some r)).

Theorem varf_sum_list : forall (method : quad -> res (SeriesModel.varf fnum_R E)) quads (gs : list (list nat -> list nat -> R)) ws c,
  (forall p p', pos_eqb p p' = true -> pos_eqb p' p = true) -> comp_init quads ws = Ok c ->
  Forall2 (fun q g => exists v, method q = Ok v /\ is_form (q_pos q) (q_factor q) v g) quads gs ->
  (forall q q', In q quads -> In q' quads -> f_dirs (q_factor q) = f_dirs (q_factor q') /\ sym_eqb (f_sym (q_factor q)) (f_sym (q_factor q')) = true) ->
  exists v q0 rest, comp_varf fnum_R E e_1 sym_eqb pos_eqb method c = Ok (Some v) /\ quads = q0 :: rest /\ is_form (q_pos q0) (q_factor q0) v (fun r c => rsum (map (fun '(g, w) => g r c * w) (combine gs ws))).
Proof.
  intros method quads gs ws c PS H HM HF. apply init_fields in H as (H1 & H2 & H3 & q0 & rest & Hq & _ & Hp). unfold comp_varf. rewrite loop_plain by (rewrite H1, H2; exact H3). rewrite H1, H2. rewrite Forall_forall in Hp.
  assert (G : forall (l : list quad) gs, Forall2 (fun q g => exists v, method q = Ok v /\ is_form (q_pos q) (q_factor q) v g) l gs -> forall (ws : list R) v h, length l = length ws -> incl l quads -> is_form (q_pos q0) (q_factor q0) v h ->
    exists u, for_in (step method) (combine l ws) (Some v) = Ok (Some u) /\ is_form (q_pos q0) (q_factor q0) u (fun r c => h r c + rsum (map (fun '(g, w) => g r c * w) (combine gs ws)))).
  { clear ws H2 H3 gs HM. intros l gs HM. induction HM as [|q g l gs (x & X1 & X2) HM IH]; intros [|w ws] v h Hl Hi Hv; try discriminate Hl.
    - exists v. split; [reflexivity|]. destruct Hv as (V1 & V2 & V3 & V4 & V5 & V6 & V7). repeat (split; [assumption|]). intros r c0 Hr Hc. rewrite V7 by assumption. unfold rsum. cbn. ring.
    - cbn [combine for_in]. assert (Hq0 : In q quads) by (apply Hi; left; reflexivity). rewrite X1. cbn [bind].
      destruct (form_scale _ _ _ _ w X2) as (y & Y1 & Y2). rewrite Y1. cbn [bind].
      destruct (HF q0 q ltac:(rewrite Hq; left; reflexivity) Hq0) as (F1 & F2).
      destruct (form_add _ _ _ _ _ _ _ _ Hv Y2 (PS _ _ (Hp q Hq0)) F1 F2) as (z & Z1 & Z2). rewrite Z1. cbn [bind].
      destruct (IH ws z _ ltac:(cbn in Hl; lia) (fun a Ha => Hi a (or_intror Ha)) Z2) as (u & U1 & U2). exists u. split; [exact U1|].
      destruct U2 as (V1 & V2 & V3 & V4 & V5 & V6 & V7). repeat (split; [assumption|]). intros r c0 Hr Hc. rewrite V7 by assumption. cbn [combine map]. rewrite rsum_cons. match goal with |- @eq _ ?a ?b => change (@eq R a b) end. ring. }
  clear H1 H2. subst quads. inversion HM as [|? g ? gs0 (x & X1 & X2) HM0]; subst. destruct ws as [|w ws]; [discriminate H3|]. cbn [combine for_in]. rewrite X1. cbn [bind].
  destruct (form_scale _ _ _ _ w X2) as (y & Y1 & Y2). rewrite Y1. cbn [bind]. destruct (form_num _ _ _ _ Y2) as (z & Z1 & Z2). rewrite Z1. cbn [bind].
  destruct (G rest gs0 HM0 ws z _ ltac:(cbn in H3; lia) (fun a Ha => or_intror Ha) Z2) as (u & U1 & U2). exists u, q0, rest. split; [exact U1|]. split; [reflexivity|].
  destruct U2 as (V1 & V2 & V3 & V4 & V5 & V6 & V7). repeat (split; [assumption|]). intros r c0 Hr Hc. rewrite V7 by assumption. cbn [combine map]. rewrite rsum_cons. reflexivity.
Qed.

Theorem varf_factors : forall (method : quad -> res (SeriesModel.varf fnum_R E)) g0 g1 q0 q1 rest ws c,
  comp_init (q0 :: q1 :: rest) ws = Ok c -> (exists v, method q0 = Ok v /\ is_form (q_pos q0) (q_factor q0) v g0) -> (exists v, method q1 = Ok v /\ is_form (q_pos q1) (q_factor q1) v g1) ->
  f_dirs (q_factor q0) <> f_dirs (q_factor q1) \/ sym_eqb (f_sym (q_factor q0)) (f_sym (q_factor q1)) = false ->
  comp_varf fnum_R E e_1 sym_eqb pos_eqb method c = Throw "ValueError"%string.
Proof.
  intros method g0 g1 q0 q1 rest ws c H (x & X1 & X2) (x1 & X3 & X4) HF. apply init_fields in H as (H1 & H2 & H3 & _). unfold comp_varf. rewrite loop_plain by (rewrite H1, H2; exact H3). rewrite H1, H2.
  destruct ws as [|w0 [|w1 ws]]; try discriminate H3. cbn [combine for_in]. rewrite X1. cbn [bind].
  destruct (form_scale _ _ _ _ w0 X2) as (y & Y1 & Y2). rewrite Y1. cbn [bind]. destruct (form_num _ _ _ _ Y2) as (z & Z1 & Z2). rewrite Z1. cbn [bind].
  rewrite X3. cbn [bind]. destruct (form_scale _ _ _ _ w1 X4) as (y1 & Y3 & Y4). rewrite Y3. cbn [bind].
  rewrite vadd_throws; [reflexivity|]. destruct Z2 as (_ & _ & _ & V4 & _). destruct Y4 as (_ & _ & _ & V5 & _). unfold compatible. rewrite V4, V5. intros (_ & _ & A & B). destruct HF as [HF|HF]; [contradiction|rewrite HF in B; discriminate B].
Qed.
End Varf.

(** equality does not look at the weights *)
Variable quad_eqb : quad -> quad -> bool.
Theorem eq_weights : (forall q, quad_eqb q q = true) -> forall quads ws ws' c c', comp_init quads ws = Ok c -> comp_init quads ws' = Ok c' ->
  comp_eqb fnum_R E pos_eqb quad_eqb c (AComp c') = Ok true.
Proof.
  intros QR quads ws ws' c c' H H'. apply init_fields in H as (H1 & _). apply init_fields in H' as (H1' & _). unfold comp_eqb. cbn [bind]. rewrite H1, H1', Nat.eqb_refl. cbn [negb]. f_equal.
  apply forallb_forall. intros [q1 q2] Hin. assert (G : q1 = q2). { clear -Hin. induction quads as [|q quads IH]; [destruct Hin|]. destruct Hin as [Hin|Hin]; [injection Hin as <- <-; reflexivity|apply IH; exact Hin]. } subst q2. apply QR.
Qed.
End Comp.

(** a function *)
Section Fun.
Variable E : Type.
Variable eval : E -> (nat -> R) -> R.
Variable e_1 : E.
Variable free_vars : E -> list nat.
Variable cov_factor : list (list R) -> list (list R).
Variable la_inv : list (list R) -> res (list (list R)).
Variable far8 : list (list R) -> bool.
Variable junk tiny : R.
Hypothesis NP : numpy_ok cov_factor la_inv far8.
Variable pos_eqb : position fnum_R -> position fnum_R -> bool.
Notation quad := (quad fnum_R E).

Lemma choose : forall A B (P : A -> B -> Prop) l, (forall a, In a l -> exists b, P a b) -> exists f, Forall2 P l f.
Proof. intros A B P. induction l as [|a l IH]; intros H; [exists []; constructor|]. destruct (H a (or_introl eq_refl)) as (b & Hb). destruct (IH (fun a Ha => H a (or_intror Ha))) as (f & Hf). exists (b :: f). constructor; assumption. Qed.

Theorem integrate_comp : forall e_mul add_args mul_args, sympy_ok (N := fnum_R) eval e_mul e_1 add_args mul_args free_vars -> sympy_vars e_mul e_1 add_args mul_args free_vars ->
  forall (density : position fnum_R -> E) quads ws c (vars : quad -> list R) (f : func E) flat, comp_init fnum_R E pos_eqb quads ws = Ok c ->
  (forall q, In q quads -> quad_R q (vars q) /\ increasing (p_dirs (q_pos q)) /\ all_fourier q /\ rules_match (q_nodes q) (q_weights q) /\ f_dirs f = p_dirs (q_pos q) /\ incl (free_vars (f_sym f)) (p_dirs (q_pos q))) ->
  exists values, Forall2 (fun q vals => grid_values q (vars q) vals (eval (f_sym f))) quads values /\
    comp_integrate fnum_R E (fun q => quad_integrate_fun fnum_R E e_1 free_vars eval cov_factor junk tiny density q f flat) c =
    Ok (rsum (map (fun '((q, vals), w) => weighted_sum q vals * w) (combine (combine quads values) ws))).
Proof using NP.
  intros e_mul add_args mul_args OK V density quads ws c vars f flat Hc Hq.
  destruct (choose _ _ (fun q vals => grid_values q (vars q) vals (eval (f_sym f)) /\ quad_integrate_fun fnum_R E e_1 free_vars eval cov_factor junk tiny density q f flat = Ok (weighted_sum q vals)) quads) as (values & HV).
  { intros q Hin. destruct (Hq q Hin) as (A1 & A2 & A3 & A4 & A5 & A6). destruct (integrate_function E eval e_mul e_1 add_args mul_args free_vars OK V cov_factor la_inv far8 junk tiny NP density q (vars q) f flat A1 A2 A3 A4 A5 A6) as (vals & V1 & V2). exists vals. split; assumption. }
  exists values. split; [clear -HV; induction HV as [|q vals qs vs [H _] HV IH]; constructor; assumption|]. rewrite (integrate_sum E pos_eqb _ quads ws c Hc).
  assert (G : mapM (fun q => quad_integrate_fun fnum_R E e_1 free_vars eval cov_factor junk tiny density q f flat) quads = Ok (map (fun '(q, vals) => weighted_sum q vals) (combine quads values))).
  { clear -HV. induction HV as [|q vals qs vs [_ H] HV IH]; [reflexivity|]. cbn [mapM combine map]. rewrite H. cbn [bind]. rewrite IH. reflexivity. }
  etransitivity; [apply (f_equal (fun o => bind o _)); exact G|]. cbn [bind]. f_equal. f_equal. generalize (combine quads values) as l. clear. intros l. revert ws. induction l as [|[q vals] l IH]; intros [|w ws]; try reflexivity. cbn [map combine]. f_equal. apply IH.
Qed.

Hypothesis RF : reads_free eval free_vars.
Theorem varf_comp : forall sym_eqb, (forall p p', pos_eqb p p' = true -> pos_eqb p' p = true) ->
  forall quads ws c s dim degree (vars : quad -> list R) (f : func E), comp_init fnum_R E pos_eqb quads ws = Ok c ->
  (forall q, In q quads -> length (vars q) = dim /\ setting q (vars q) s degree /\ f_dirs f = p_dirs (q_pos q) /\ incl (free_vars (f_sym f)) (p_dirs (q_pos q)) /\
    forall values, grid_values q (vars q) values (eval (f_sym f)) -> nothing_dropped s degree (q_nodes q) (q_weights q) (kinds (p_types (q_pos q))) values) ->
  let varf q := quad_varf_fun fnum_R E e_1 free_vars eval cov_factor junk q f degree s in
  ((forall q q', In q quads -> In q' quads -> f_dirs (q_factor q) = f_dirs (q_factor q') /\ sym_eqb (f_sym (q_factor q)) (f_sym (q_factor q')) = true) ->
   exists v q0 values, comp_varf fnum_R E e_1 sym_eqb pos_eqb varf c = Ok (Some v) /\ nth_error quads 0 = Some q0 /\ varf_ok v dim /\ v_pos v = q_pos q0 /\ v_set v = s /\ v_factor v = q_factor q0 /\ v_degree v = Degree.recovered s degree /\
     (forall m, varf_index v m <-> index_of s dim degree m) /\ Forall2 (fun q vals => grid_values q (vars q) vals (eval (f_sym f))) quads values /\
     forall r c, varf_index v r -> varf_index v c -> varf_at v r c = rsum (map (fun (x : quad * list R * R) => let '((q, vals), w) := x in galerkin (q_nodes q) (q_weights q) (kinds (p_types (q_pos q))) vals r c * w) (combine (combine quads values) ws))) /\
  (forall q0 q1 rest, quads = q0 :: q1 :: rest -> f_dirs (q_factor q0) <> f_dirs (q_factor q1) \/ sym_eqb (f_sym (q_factor q0)) (f_sym (q_factor q1)) = false ->
   comp_varf fnum_R E e_1 sym_eqb pos_eqb varf c = Throw "ValueError"%string).
Proof using NP RF.
  intros sym_eqb PS quads ws c s dim degree vars f Hc Hq varf.
  assert (HM : forall q, In q quads -> exists vals, grid_values q (vars q) vals (eval (f_sym f)) /\ exists v, varf q = Ok v /\ is_form E s dim degree (q_pos q) (q_factor q) v (galerkin (q_nodes q) (q_weights q) (kinds (p_types (q_pos q))) vals)).
  { intros q Hin. destruct (Hq q Hin) as (A1 & A2 & A3 & A4 & A5). pose proof A2 as (Hqr & _ & Hus & _). assert (A4' : incl (free_vars (f_sym f)) (f_dirs f)) by (rewrite A3; exact A4).
    destruct (varf_built E free_vars eval cov_factor la_inv far8 junk e_1 NP RF q (vars q) s degree f A2 A3 A4' A5) as (values & v & D1 & D2 & D3 & D4 & D5 & D6).
    destruct (built E e_1 q (vars q) s degree (v_mat v) Hqr Hus D4) as (v' & E1 & E2 & E3 & E4 & E5 & E6 & E7 & E8 & E9). rewrite D5 in E1. injection E1 as <-.
    exists values. split; [exact D2|]. exists v. split; [exact D3|]. rewrite A1 in *. repeat (split; [assumption|]). intros r c0 Hr Hc0. rewrite E9. apply D6; assumption. }
  split.
  - intros HF. destruct (choose _ _ _ quads HM) as (values & HV).
    set (gl := map (fun (x : quad * list R) => let '(q, vals) := x in galerkin (q_nodes q) (q_weights q) (kinds (p_types (q_pos q))) vals) (combine quads values)).
    destruct (varf_sum_list E e_1 sym_eqb pos_eqb s dim degree varf quads gl ws c PS Hc) as (v & q0 & rest & V1 & V2 & V3); [|exact HF|].
    { unfold gl. clear -HV. induction HV as [|q vals qs vs (_ & H) HV IH]; constructor; assumption. }
    exists v, q0, values. split; [exact V1|]. destruct V3 as (B1 & B2 & B3 & B4 & B5 & B6 & B7). split; [rewrite V2; reflexivity|]. repeat (split; [assumption|]).
    split; [clear -HV; induction HV as [|q vals qs vs (H & _) HV IH]; constructor; assumption|]. intros r c0 Hr Hc0. rewrite B7 by (apply B6; assumption). f_equal. unfold gl. generalize (combine quads values) as l. clear. intros l. revert ws.
    induction l as [|[q vals] l IH]; intros [|w ws]; try reflexivity. cbn [map combine]. f_equal. apply IH.
  - intros q0 q1 rest -> HF. destruct (choose _ _ _ _ HM) as (values & HV). inversion HV as [|? v0 ? vs0 (_ & M0) HV0]; subst. inversion HV0 as [|? v1 ? vs1 (_ & M1) HV1]; subst.
    eapply varf_factors; [exact Hc|exact M0|exact M1|exact HF].
Qed.
End Fun.

Theorem eq_refuted : forall E (pos_eqb : position fnum_R -> position fnum_R -> bool) (quad_eqb : quad fnum_R E -> quad fnum_R E -> bool) (method : quad fnum_R E -> res R) q x,
  (forall p, pos_eqb p p = true) -> (forall q, quad_eqb q q = true) -> method q = Ok x -> x <> 0 ->
  ~ (forall quads quads' ws ws' c c', comp_init fnum_R E pos_eqb quads ws = Ok c -> comp_init fnum_R E pos_eqb quads' ws' = Ok c' -> comp_eqb fnum_R E pos_eqb quad_eqb c (AComp c') = Ok true ->
     comp_integrate fnum_R E method c = comp_integrate fnum_R E method c').
Proof.
  intros E pos_eqb quad_eqb method q x PR QR Hm Hx H. pose (c w := Comp (F := fnum_R) (E := E) [q] [w : R] (q_pos q)).
  assert (HI : forall w, comp_init fnum_R E pos_eqb [q] [w : R] = Ok (c w)) by (intros w; unfold comp_init; cbn; rewrite PR; reflexivity).
  specialize (H [q] [q] [1 : R] [2 : R] (c 1) (c 2) (HI 1) (HI 2) (eq_weights E pos_eqb quad_eqb QR [q] [1] [2] _ _ (HI 1) (HI 2))).
  rewrite (integrate_sum E pos_eqb method [q] [1] (c 1) (HI 1)), (integrate_sum E pos_eqb method [q] [2] (c 2) (HI 2)) in H. cbn [mapM] in H. rewrite Hm in H. cbn [bind combine map] in H. injection H as H. apply Hx.
  assert (H' : x * 1 + 0 = x * 2 + 0) by exact H. lra.
Qed.

Theorem comp_raises : forall A (rest : res A), comp_discretize_op rest = Throw "TypeError"%string /\ comp_varfd rest = Throw "TypeError"%string /\
  forall E (pos_eqb : position fnum_R -> position fnum_R -> bool) quads ws c, comp_init fnum_R E pos_eqb quads ws = Ok c -> comp_project fnum_R E pos_eqb c = Throw "NameError"%string.
Proof.
  intros A rest. split; [reflexivity|]. split; [reflexivity|]. intros E pos_eqb quads ws c H. apply init_fields in H as (H1 & _ & _ & q0 & r & -> & _). unfold comp_project. rewrite H1. reflexivity.
Qed.
