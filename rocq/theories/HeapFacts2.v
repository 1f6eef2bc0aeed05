(** Proofs for C106: histories. *)
From Coq Require Import String List Bool Arith ZArith Lia.
From Verif Require Import Base Lists IndexModel Num LinModel PyBase PosModel SeriesModel PartModel SplitModel MulModel ProjModel SolveModel HeapModel HeapSpec HeapFacts.
Import ListNotations.
Local Open Scope string_scope. Local Open Scope list_scope. Local Open Scope nat_scope.

Section Heap.
Variable N : num.
Variable far : list (list N) -> bool.
Variable E : Type.
Variable e_mul e_div : E -> E -> E.
Variable e_1 : E.
Variables add_args mul_args : E -> list E.
Variable free_vars : E -> list nat.
Variable sym_eqb : E -> E -> bool.
Variable pos_eqb : position N -> position N -> bool.
Variable ndiv : N -> N -> N.
Variable round : nat -> N -> N.
Variable real : N -> N.
Variable is_complex : list N -> bool.
Notation state := (state N E).
Notation st A := (HeapModel.st N E A).
Notation exec := (exec N far E e_mul e_div e_1 add_args mul_args free_vars sym_eqb pos_eqb ndiv round real is_complex).
Notation run := (run N far E e_mul e_div e_1 add_args mul_args free_vars sym_eqb pos_eqb ndiv round real is_complex).
Notation inv := (inv N E).
Notation view_ok := (view_ok N E).
Notation grows := (grows N E).
Notation made := (made N E).

Definition safe (s : state) (out : state * res nat) : Prop := inv (fst out) /\ grows s (fst out).
Lemma safe_made : forall s out p, made s out p -> safe s out.
Proof. intros s out p (I & G & _). split; assumption. Qed.
Lemma safe_same : forall s x, inv s -> safe s (s, x).
Proof. intros s x I. split; [exact I|apply grows_refl]. Qed.
Lemma known_or : forall (s : state) r, (exists f, series_of s r = Some f) \/ (py_get (objs s) r = Throw "IndexError").
Proof. intros s r. unfold series_of, py_get. destruct (nth_error (objs s) r); [left; eexists; reflexivity|right; reflexivity]. Qed.
Lemma no_object : forall s r (k : object N E -> st nat), py_get (objs s) r = Throw "IndexError" -> sbind N E (object_at N E r) k s = (s, Throw "IndexError").
Proof. intros s r k H. unfold sbind, object_at. rewrite H. reflexivity. Qed.
Lemma no_object2 : forall s r r' (k : object N E -> object N E -> st nat), py_get (objs s) r' = Throw "IndexError" -> sbind N E (object_at N E r) (fun f => sbind N E (object_at N E r') (k f)) s = (s, Throw "IndexError").
Proof. intros s r r' k H. unfold sbind, object_at. rewrite H. unfold py_get. destruct (nth_error (objs s) r); reflexivity. Qed.
Lemma add_safe : forall s r r', inv s -> safe s (h_add N E e_1 sym_eqb pos_eqb round r r' s).
Proof.
  intros s r r' I. destruct (known_or s r) as [(f & Hf)|H]; [|unfold h_add; rewrite no_object by exact H; apply safe_same; exact I]. destruct (known_or s r') as [(g & Hg)|H]; [|unfold h_add; rewrite no_object2 by exact H; apply safe_same; exact I].
  eapply safe_made. apply add_made; eassumption.
Qed.
Lemma map_safe : forall h s r, inv s -> safe s (h_map N E e_1 round h r s).
Proof. intros h s r I. destruct (known_or s r) as [(f & Hf)|H]; [|unfold h_map; rewrite no_object by exact H; apply safe_same; exact I]. eapply safe_made. apply map_made; eassumption. Qed.
Lemma sub_safe : forall s r r', inv s -> safe s (h_sub N E e_1 sym_eqb pos_eqb round r r' s).
Proof.
  intros s r r' I. unfold h_sub, h_scale, sbind. destruct (map_safe (fun y => nmul y (nopp n1)) s r' I) as (I1 & G1). destruct (h_map N E e_1 round (fun y => nmul y (nopp n1)) r' s) as [s1 [h| | | |]]; cbn [fst] in *; try (split; assumption). destruct (add_safe s1 r h I1) as (I2 & G2). split; [exact I2|exact (grows_trans _ _ _ _ _ G1 G2)].
Qed.
Lemma subdegree_safe : forall s r degree, inv s -> safe s (h_subdegree N E e_1 round r degree s).
Proof.
  intros s r degree I. destruct (nth_error (objs s) r) as [o|] eqn:Ho.
  - destruct (Nat.le_gt_cases degree (o_degree o)) as [D|D]; [destruct (subdegree_down N E e_1 round s r o degree I Ho D) as (I1 & G1 & _); split; assumption|eapply safe_made; apply subdegree_up; eassumption].
  - unfold h_subdegree. rewrite no_object; [apply safe_same; exact I|]. unfold py_get. rewrite Ho. reflexivity.
Qed.
Lemma to_cross_safe : forall s r degree, inv s -> safe s (h_to_cross N E e_1 round r degree s).
Proof. intros s r degree I. destruct (known_or s r) as [(f & Hf)|H]; [|unfold h_to_cross; rewrite no_object by exact H; apply safe_same; exact I]. eapply safe_made. apply to_cross_made; eassumption. Qed.
Lemma project_safe : forall s r directions, inv s -> safe s (h_project N far E e_mul e_1 add_args mul_args free_vars round r directions s).
Proof. intros s r directions I. destruct (known_or s r) as [(f & Hf)|H]; [|unfold h_project; rewrite no_object by exact H; apply safe_same; exact I]. eapply safe_made. apply project_made; eassumption. Qed.
Lemma tensorize2_safe : forall s r r', inv s -> safe s (h_tensorize2 N far E e_mul e_div e_1 add_args mul_args free_vars sym_eqb round r r' s).
Proof.
  intros s r r' I. destruct (known_or s r) as [(f & Hf)|H]; [|unfold h_tensorize2; rewrite no_object by exact H; apply safe_same; exact I]. destruct (known_or s r') as [(g & Hg)|H]; [|unfold h_tensorize2; rewrite no_object2 by exact H; apply safe_same; exact I].
  eapply safe_made. apply tensorize2_made; eassumption.
Qed.
Lemma loop_safe : forall rs s r, inv s -> safe s (h_tensorize_loop N far E e_mul e_div e_1 add_args mul_args free_vars sym_eqb round rs r s).
Proof.
  induction rs as [|r1 rs IH]; intros s r I; cbn [h_tensorize_loop]; [apply safe_same; exact I|]. unfold sbind. destruct (tensorize2_safe s r r1 I) as (I1 & G1). destruct (h_tensorize2 N far E e_mul e_div e_1 add_args mul_args free_vars sym_eqb round r r1 s) as [s1 [h| | | |]]; cbn [fst] in *; try (split; assumption). destruct (IH s1 h I1) as (I2 & G2). split; [exact I2|exact (grows_trans _ _ _ _ _ G1 G2)].
Qed.
Lemma hold_safe : forall s a, inv s -> (view_ok s a) -> safe s (hold N E a s).
Proof.
  intros s a I V. assert (G : grows s (fst (hold N E a s))) by (split; [exists []; rewrite app_nil_r; reflexivity|split; [exists [a]; reflexivity|exists []; rewrite app_nil_r; reflexivity]]). split; [|exact G]. apply (inv_grows N E s); [exact I|exact G| |intros o Ho; left; exact Ho].
  intros b Hb. cbn in Hb. apply in_app_or in Hb as [Hb|[<-|[]]]; [left; exact Hb|right; apply (grows_view N E s); assumption].
Qed.
Lemma new_safe : forall s c pos factor set, inv s -> view_ok s c -> safe s (new_series N E e_1 round c pos factor set 0 s).
Proof.
  intros s c pos factor set I V. rewrite new_eval. destruct (series_init N E e_1 (read s c) pos factor set) as [f| | | |]; try (apply safe_same; exact I). destruct (contiguous c) eqn:C.
  - split; [apply with_obj_inv; assumption|apply with_obj_grows].
  - destruct (fresh_ok N E s (read s c)) as (V' & C' & _). split; [apply with_obj_inv; [apply with_inv; exact I|exact V'|exact C']|eapply grows_trans; [apply with_grows|apply with_obj_grows]].
Qed.
Lemma slice_view : forall s b start len step, view_ok s b -> slice_fits (a_len b) start len step = true -> view_ok s (Arr (a_buf b) (cell b start) (a_step b * step)%Z len).
Proof.
  intros s b start len step (H1 & H2 & H3) F. unfold slice_fits in F. apply andb_true_iff in F as [F0 F]. rewrite forallb_forall in F. apply negb_true_iff, Z.eqb_neq in F0. split; [exact H1|split; [cbn; lia|]]. intros i Hi. cbn [a_off a_step a_len a_buf] in *.
  assert (P : forall j, j < len -> (0 <= Z.of_nat start + Z.of_nat j * step < Z.of_nat (a_len b))%Z) by (intros j Hj; specialize (F j ltac:(apply in_seq; lia)); cbv zeta in F; apply andb_true_iff in F as [Fa Fb]; apply Z.leb_le in Fa; apply Z.ltb_lt in Fb; lia).
  pose proof (P 0 ltac:(lia)) as P0. pose proof (P i Hi) as Pi. pose proof (H3 start ltac:(lia)) as Q0. pose proof (H3 (Z.to_nat (Z.of_nat start + Z.of_nat i * step)) ltac:(lia)) as Qi. unfold cell. rewrite Z2Nat.id in * by lia. replace (Z.of_nat (a_off b) + Z.of_nat start * a_step b + Z.of_nat i * (a_step b * step))%Z with (Z.of_nat (a_off b) + (Z.of_nat start + Z.of_nat i * step) * a_step b)%Z by ring. exact Qi.
Qed.
Lemma harmless_safe : forall s c, inv s -> harmless c = true -> safe s (exec c s).
Proof.
  intros s c I H. destruct c as [l|a start len step|r|a i x|a pos factor set k|r r'|r x|r x|r x|r r'|r degree|r degree|r ds|rs|r]; cbn [harmless] in H; try discriminate H; cbn [HeapModel.exec].
  - change ((sbind N E (alloc N E l) (hold N E)) s) with (hold N E (fresh N E s l) (with_bufs N E s [l])). destruct (fresh_ok N E s l) as (V & _). destruct (hold_safe (with_bufs N E s [l]) (fresh N E s l) (with_inv N E s [l] I) V) as (I1 & G1). split; [exact I1|exact (grows_trans _ _ _ _ _ (with_grows N E s [l]) G1)].
  - unfold sbind at 1, array_at, py_get. destruct (nth_error (arrs s) a) as [b|] eqn:Hb; [|apply safe_same; exact I]. rewrite lift_eq. destruct (slice_fits (a_len b) start len step) eqn:F; cbn [require]; [|apply safe_same; exact I]. apply hold_safe; [exact I|]. apply slice_view; [|exact F]. destruct I as [I _]. apply I. eapply nth_error_In. exact Hb.
  - unfold sbind, object_at, py_get. destruct (nth_error (objs s) r) as [o|] eqn:Ho; [|apply safe_same; exact I]. apply hold_safe; [exact I|]. destruct I as [_ I]. apply (I o). eapply nth_error_In. exact Ho.
  - destruct k; [|discriminate H]. unfold sbind, array_at, py_get. destruct (nth_error (arrs s) a) as [b|] eqn:Hb; [|apply safe_same; exact I]. apply new_safe; [exact I|]. destruct I as [I _]. apply I. eapply nth_error_In. exact Hb.
  - apply add_safe. exact I.
  - apply map_safe. exact I.
  - apply map_safe. exact I.
  - apply map_safe. exact I.
  - apply sub_safe. exact I.
  - apply subdegree_safe. exact I.
  - apply to_cross_safe. exact I.
  - apply project_safe. exact I.
  - destruct rs as [|r rs]; [apply safe_same; exact I|apply loop_safe; exact I].
Qed.

(** One call. *)
Definition step_ok (c : call N E) (s s' : state) : Prop :=
  inv s' /\ (forall a, view_ok s a -> view_ok s' a) /\ (forall a, view_ok s a -> leaves_array c s a -> read s' a = read s a) /\
  (forall k a, nth_error (arrs s) k = Some a -> nth_error (arrs s') k = Some a) /\ (forall r o, nth_error (objs s) r = Some o -> leaves_series c r -> nth_error (objs s') r = Some o) /\
  (forall r o, nth_error (objs s) r = Some o -> exists o', nth_error (objs s') r = Some o').
Lemma safe_step : forall c s out, inv s -> safe s out -> step_ok c s (fst out).
Proof.
  intros c s out I (I' & G). split; [exact I'|split; [intros a; apply grows_view; exact G|split; [intros a Ha _; apply grows_read; assumption|split; [intros k a; apply grows_arr; exact G|split; [intros r o Ho _; revert Ho; apply grows_obj; exact G|]]]]]. intros r o Ho. exists o. revert Ho. apply grows_obj. exact G.
Qed.
Lemma new_sig : forall s s' c pos factor set k, round_loop N E round (S k) c (seq 0 (a_len c)) s = (s', Ok tt) ->
  new_series N E e_1 round c pos factor set (S k) s = match init_degree N (a_len c) pos set with Ok _ => new_series N E e_1 round c pos factor set 0 s' | p => (s, as_nat p) end.
Proof. intros s s' c pos factor set k H. unfold new_series. rewrite lift_eq. destruct (init_degree N (a_len c) pos set) as [degree| | | |] eqn:D; try reflexivity. rewrite lift_eq. cbn [Nat.eqb]. unfold sbind at 1. rewrite H. reflexivity. Qed.
Lemma step_exec : forall c s, inv s -> step_ok c s (fst (exec c s)).
Proof.
  intros c s I. destruct (harmless c) eqn:H; [apply safe_step; [exact I|apply harmless_safe; assumption]|]. assert (T : forall x, step_ok c s (fst (s, x : res nat))) by (intros x; apply safe_step; [exact I|apply safe_same; exact I]).
  destruct c as [l|a start len step|r|a i x|a pos factor set k|r r'|r x|r x|r x|r r'|r degree|r degree|r ds|rs|r]; cbn [harmless] in H; try discriminate H; cbn [HeapModel.exec].
  - unfold sbind at 1, array_at, py_get. destruct (nth_error (arrs s) a) as [b|] eqn:Hb; [|apply T]. assert (V : view_ok s b) by (destruct I as [I _]; apply I; eapply nth_error_In; exact Hb). unfold sbind, set_item. destruct (Nat.ltb_spec i (a_len b)) as [Hi|]; [|apply T]. cbn [ret fst]. fold (written N E s b i x). split; [apply written_inv; assumption|].
    split; [intros c; apply written_view; exact V|]. split; [|split; [intros k0 a0 Ha; exact Ha|split; [intros r o Ho _; exact Ho|intros r o Ho; exists o; exact Ho]]]. intros c Hc L. apply written_apart; try assumption. apply L. exact Hb.
  - destruct k; [discriminate H|]. unfold sbind at 1, array_at, py_get. destruct (nth_error (arrs s) a) as [b|] eqn:Hb; [|apply T]. assert (V : view_ok s b) by (destruct I as [I _]; apply I; eapply nth_error_In; exact Hb).
    destruct (round_all N E round (S k) b s V I) as (s1 & E1 & I1 & A1 & O1 & _ & W1 & P1 & _). rewrite (new_sig _ _ _ _ _ _ _ E1). destruct (init_degree N (a_len b) pos set) as [degree| | | |]; try apply T.
    destruct (new_safe s1 b pos factor set I1 (W1 b V)) as (I2 & G2). split; [exact I2|]. split; [intros c Hc; apply (grows_view N E s1); [exact G2|apply W1; exact Hc]|]. split; [intros c Hc L; rewrite (grows_read N E s1 _ _ G2) by (apply W1; exact Hc); apply P1; [exact Hc|apply L; exact Hb]|].
    split; [intros k0 a0 Ha; apply (grows_arr N E s1); [exact G2|rewrite A1; exact Ha]|]. split; [intros r o Ho _; apply (grows_obj N E s1); [exact G2|rewrite O1; exact Ho]|intros r o Ho; exists o; apply (grows_obj N E s1); [exact G2|rewrite O1; exact Ho]].
  - unfold sbind at 1, h_plot. unfold sbind at 1, object_at, py_get. destruct (nth_error (objs s) r) as [o|] eqn:Ho; [|apply T]. unfold sbind at 1, values. destruct (is_complex (read s (o_coeffs o))); [|apply T]. unfold sbind at 1, alloc. cbn [ret fst]. set (l := map real (read s (o_coeffs o))). fold (fresh N E s l). destruct (fresh_ok N E s l) as (V & C & R). pose proof (with_grows N E s [l]) as G. cbn [bufs arrs objs].
    set (o' := Obj (fresh N E s l) (o_pos o) (o_set o) (o_degree o) (o_factor o)). split.
    + split; [intros a Ha; apply (grows_view N E s _ a G); destruct I as [I _]; apply I; exact Ha|]. intros q Hq. cbn [objs] in Hq. assert (Q : q = o' \/ In q (objs s)). { clear - Hq. revert r Hq. generalize (objs s). induction l0 as [|y l0 IH]; intros [|r] Hq; cbn in Hq; [contradiction|contradiction|destruct Hq as [<-|Hq]; [left; reflexivity|right; right; exact Hq]|]. destruct Hq as [<-|Hq]; [right; left; reflexivity|]. destruct (IH r Hq) as [->|K]; [left; reflexivity|right; right; exact K]. }
      destruct Q as [->|Q]; [split; [exact V|exact C]|]. destruct I as [_ I]. destruct (I q Q) as [Vq Cq]. split; [exact (grows_view N E s _ _ G Vq)|exact Cq].
    + split; [intros a Ha; exact (grows_view N E s _ a G Ha)|]. split; [intros a Ha _; exact (grows_read N E s _ a G Ha)|]. split; [intros k0 a0 Ha; exact Ha|]. cbn [objs leaves_series]. split.
      * intros q oq Hq L. rewrite nth_error_upd. destruct (Nat.eqb_spec q r) as [->|]; [contradiction L; reflexivity|]. exact Hq.
      * intros q oq Hq. rewrite nth_error_upd. destruct ((q =? r) && (r <? length (objs s))); [eexists; reflexivity|exists oq; exact Hq].
Qed.
Lemma run_inv : forall h s, inv s -> inv (run s h).
Proof. induction h as [|c h IH]; intros s I; [exact I|]. cbn [HeapModel.run fold_left]. apply IH. apply step_exec. exact I. Qed.
Lemma start_inv : inv start.
Proof. split; intros ? []. Qed.
Lemma reach_inv : forall h, inv (run start h).
Proof. intros h. apply run_inv, start_inv. Qed.
Lemma run_app : forall h h' s, run s (h ++ h') = run (run s h) h'.
Proof. intros h h' s. apply fold_left_app. Qed.

(** What nothing writes to stays. *)
Lemma frame_array : forall h s a, inv s -> view_ok s a -> (forall h1 c h2, h = h1 ++ c :: h2 -> leaves_array c (run s h1) a) -> read (run s h) a = read s a /\ view_ok (run s h) a.
Proof.
  induction h as [|c h IH]; intros s a I V H; [split; [reflexivity|exact V]|]. change (run s (c :: h)) with (run (fst (exec c s)) h). destruct (step_exec c s I) as (I1 & W & R & _). destruct (IH (fst (exec c s)) a I1 (W a V)) as (R1 & V1).
  - intros h1 c1 h2 ->. apply (H (c :: h1) c1 h2). reflexivity.
  - split; [|exact V1]. rewrite R1. apply R; [exact V|]. apply (H [] c h). reflexivity.
Qed.
Lemma frame_object : forall h s r o, inv s -> nth_error (objs s) r = Some o -> (forall c, In c h -> leaves_series c r) -> nth_error (objs (run s h)) r = Some o.
Proof.
  induction h as [|c h IH]; intros s r o I Ho H; [exact Ho|]. change (run s (c :: h)) with (run (fst (exec c s)) h). destruct (step_exec c s I) as (I1 & _ & _ & _ & O & _). apply IH; [exact I1|apply O; [exact Ho|apply H; left; reflexivity]|]. intros c1 Hc. apply H. right. exact Hc.
Qed.
Lemma frame_held : forall h s k a, inv s -> nth_error (arrs s) k = Some a -> nth_error (arrs (run s h)) k = Some a.
Proof.
  induction h as [|c h IH]; intros s k a I Ha; [exact Ha|]. change (run s (c :: h)) with (run (fst (exec c s)) h). destruct (step_exec c s I) as (I1 & _ & _ & A & _). apply IH; [exact I1|apply A; exact Ha].
Qed.
Lemma frame_series : forall h s r o, inv s -> nth_error (objs s) r = Some o -> (forall h1 c h2, h = h1 ++ c :: h2 -> leaves_array c (run s h1) (o_coeffs o) /\ leaves_series c r) -> series_of (run s h) r = series_of s r.
Proof.
  intros h s r o I Ho H. unfold series_of. rewrite Ho. rewrite (frame_object h s r o I Ho) by (intros c Hc; apply in_split in Hc as (h1 & h2 & Hc); apply (H h1 c h2 Hc)). cbn [option_map]. f_equal. unfold look_at. rewrite (proj1 (frame_array h s (o_coeffs o) I (proj1 (proj2 I o (nth_error_In _ _ Ho))) (fun h1 c h2 Hc => proj1 (H h1 c h2 Hc)))). reflexivity.
Qed.
End Heap.
